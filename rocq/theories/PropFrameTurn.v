(** C127: the gradient in the world frame, in doubles. *)
From Coq Require Import Reals Lra Lia.
From Flocq Require Import Core.Core IEEE754.Binary IEEE754.Bits.
From Verif Require Import Base BaseFacts Floats FloatFacts2 Grid GridFacts DistSpec CollisionMap SdfGen SdfSpec Arith SdfQuery SdfField QuerySpec
  QueryProofs QueryReal QueryThms QueryTurn QueryWitness AutoDiffSpec DoubleSpec WallSpec SmoothSpec EstimateSpec EstimateCase IdealSpec IdealMap
  WallProject SdfThms PropWallProject Frame FrameSpec FrameCase FrameTurn FrameSlope.
Open Scope R_scope.

(** C127: GetGradient turns the slopes of the stored values along the three axes of the
    grid into the world frame.  In doubles, with a quaternion within [delta] of that of
    the exact pose [P], every coordinate of the result is finite and right up to
    1800 delta + 2^-17 times the largest slope ... *)
Theorem C127_world_gradient : forall (f : field ieee) p P t delta M i edges g,
  finite_double (f_res f) -> bpow radix2 (-800) <= real64 (f_res f) <= bpow radix2 800 ->
  (forall j, in_bounds (f_dims f) j = true ->
     finite_float (value f j) /\ Rabs (real32 (value f j)) <= bpow radix2 126) ->
  rigid P t -> rotation_within delta p P -> bpow radix2 (-53) <= delta <= bpow radix2 (-20) ->
  bpow radix2 (-90) <= M <= bpow radix2 90 -> bounded_by M (slopes f i) ->
  gradient f p i edges = Some g ->
  finite_vec g /\
  apart_at_most ((1800 * delta + bpow radix2 (-17)) * M) (real_vec g) (turn (rot_w P) (rot_v P) (slopes f i)).
Proof. exact world_gradient_doubles. Qed.
Print Assumptions C127_world_gradient.

(** ... in the field of a planar map, or of any map whose stored distances are exact,
    the largest slope is at most 2.02 ... *)
Theorem C127_of_map : forall d r filled s p P t delta i edges g,
  field_of_map d r filled s -> flat d \/ (forall c, in_bounds d c = true -> exact_at d r filled s c) ->
  rigid P t -> rotation_within delta p P -> bpow radix2 (-53) <= delta <= bpow radix2 (-20) ->
  gradient (sdf_field s) p i edges = Some g ->
  finite_vec g /\
  apart_at_most ((1800 * delta + bpow radix2 (-17)) * 2.02) (real_vec g) (turn (rot_w P) (rot_v P) (slopes (sdf_field s) i)).
Proof.
  intros d r filled s p P t delta i edges g HM HX. exact (map_world_gradient d r filled s HM HX p P t delta i edges g).
Qed.
Print Assumptions C127_of_map.

(** ... and in front of, or inside, a flat wall it is the turned normal of the wall,
    pointing out of it, times a number from 1 to 2. *)
Theorem C127_wall : forall a low d r oob frame is_filled k N s x p P t delta i edges g,
  extracted_wall a low d r oob frame is_filled k N s x ->
  rigid P t -> rotation_within delta p P -> bpow radix2 (-53) <= delta <= bpow radix2 (-20) ->
  gradient (sdf_field s) p i edges = Some g ->
  finite_vec g /\ exists c, 1 <= c <= 2 /\
  apart_at_most ((1800 * delta + bpow radix2 (-17)) * 2) (real_vec g) (turn (rot_w P) (rot_v P) (vscale (outward a low) c)).
Proof. exact wall_world_gradient. Qed.
Print Assumptions C127_wall.

(** Non-vacuity: the grid of C126, turned a quarter about z.  The double nearest to the
    root of 1/2 stands for it in the quaternion. *)
Definition root64 : binary64 := B754_finite 53 1024 false 6369051672525773 (-53) eq_refl.
Definition quarter_turn (r : binary64) : pose ieee :=
  placed_pose r shelf_inverse shelf_forward root64 (@V ieee (b64_of_Z 0) (b64_of_Z 0) root64).

Lemma quarter_turn_near r R0 : rotation_within (bpow radix2 (-53)) (quarter_turn r) (shelf R0).
Proof.
  assert (E : real64 root64 = 6369051672525773 / 9007199254740992) by (unfold real64, root64; cbn [B2R]; unfold F2R; cbn; lra).
  assert (D : Rabs (real64 root64 - sqrt (1 / 2)) <= bpow radix2 (-53)).
  { rewrite E. change (bpow radix2 (-53)) with (/ 9007199254740992).
    assert (L : 6369051672525772 / 9007199254740992 <= sqrt (1 / 2)).
    { rewrite <- (sqrt_square (6369051672525772 / 9007199254740992)) by lra. apply sqrt_le_1_alt. lra. }
    assert (H : sqrt (1 / 2) <= 6369051672525773 / 9007199254740992).
    { rewrite <- (sqrt_square (6369051672525773 / 9007199254740992)) by lra. apply sqrt_le_1_alt. lra. }
    apply Rabs_le. lra. }
  destruct (of_Z_exact 0) as (F0 & E0); [lia|]. change (real64 (b64_of_Z 0) = 0) in E0.
  assert (Z : Rabs (real64 (b64_of_Z 0) - 0) <= bpow radix2 (-53)) by (rewrite E0, Rminus_0_r, Rabs_R0; apply bpow_ge_0).
  split; [reflexivity|]. split; [split; [exact F0|split; [exact F0|reflexivity]]|].
  split; [exact D|]. split; [exact Z|]. split; [exact Z|exact D].
Qed.

Lemma gradient_defined (f : field ieee) p i : in_bounds (f_dims f) i = true -> exists g, gradient f p i true = Some g.
Proof.
  intros B. unfold gradient. destruct (grid_aligned_gradient f i true) as [g|] eqn:E; [eauto|].
  apply aligned_none in E. destruct E as [E|(E & _)]; congruence.
Qed.

(** The map with one filled cell, at a corner ... *)
Example C127_nonvacuous : exists s g,
  let delta := bpow radix2 (-53) in
  field_of_map (D 3 3 1) one64 (only (I 1 1 0)) s /\ flat (D 3 3 1) /\
  rigid (shelf (real64 one64)) shelf_shift /\ rotation_within delta (quarter_turn one64) (shelf (real64 one64)) /\
  bpow radix2 (-53) <= delta <= bpow radix2 (-20) /\
  gradient (sdf_field s) (quarter_turn one64) (I 0 0 0) true = Some g.
Proof.
  destruct ideal_case as (s & H & _). pose proof H as HM.
  destruct (field_parts _ _ _ _ HM) as (Ed & _).
  destruct (gradient_defined (sdf_field s) (quarter_turn one64) (I 0 0 0)) as (g & E); [rewrite Ed; reflexivity|].
  exists s, g. cbv zeta. split; [exact H|]. split; [unfold flat; cbn; lia|].
  split. { apply shelf_pose. rewrite real_one. lra. }
  split; [apply quarter_turn_near|]. split; [split; apply bpow_le; lia|exact E].
Qed.

(** ... and the floor of C125, in a cell inside it. *)
Example C127_wall_nonvacuous : exists s x g,
  let delta := bpow radix2 (-53) in
  extracted_wall AlongZ true floor_dims quarter64 zero32 "grid" floor_filled 2 6 s x /\
  rigid (shelf (real64 quarter64)) shelf_shift /\ rotation_within delta (quarter_turn quarter64) (shelf (real64 quarter64)) /\
  bpow radix2 (-53) <= delta <= bpow radix2 (-20) /\
  gradient (sdf_field s) (quarter_turn quarter64) (I 0 0 0) true = Some g.
Proof.
  destruct C125_nonvacuous as (s & x & H). cbv zeta in H. destruct H as (E & _). pose proof E as (Hs & Hr & Rr & HP & Hk & Ex & He & _).
  destruct (WallDouble.extracted_double_wall _ _ _ _ _ _ _ _ _ _ Hs Hr HP Hk Ex He) as (_ & FD & _).
  destruct (gradient_defined (sdf_field s) (quarter_turn quarter64) (I 0 0 0)) as (g & Eg); [rewrite FD; reflexivity|].
  exists s, x, g. cbv zeta. split; [exact E|]. split.
  { apply shelf_pose. unfold real64, quarter64. cbn [B2R]. unfold F2R. cbn. lra. }
  split; [apply quarter_turn_near|]. split; [split; apply bpow_le; lia|exact Eg].
Qed.

(** C129: queries in a grid known only by its origin transform, in doubles. *)
From Coq Require Import Reals Lra Lia.
From Flocq Require Import Core.Core IEEE754.Binary IEEE754.Bits.
From Verif Require Import Base BaseFacts Floats FloatFacts2 Grid GridFacts DistSpec CollisionMap SdfGen SdfSpec Arith SdfQuery SdfField QuerySpec
  QueryProofs QueryReal QueryThms QueryTurn QueryWitness AutoDiffSpec DoubleSpec WallSpec SmoothSpec EstimateSpec EstimateMap EstimateCase IdealSpec
  IdealMap WallProject SdfThms PropWallProject Frame FrameSpec FrameCase PlaceSpec PlaceThms PropFrameTurn
  Origin OriginSpec OriginThms OriginTurn OriginQuat OriginPlace.
Open Scope R_scope.

(** C129: the inverse of an origin transform whose entries are within [delta] of those of
    an exact pose (and its translation within [eta]) has entries that can be used, and
    takes world points of size up to [S] to within 4 delta S + 60 2^-53 S + 3 eta of their
    exact place in the grid ... *)
Theorem C129_inverse : forall r P t delta eta S T,
  bpow radix2 (-100) <= S <= bpow radix2 100 -> geometry r P -> rigid P t -> 0 <= delta <= bpow radix2 (-20) ->
  origin_within delta eta S T P t ->
  usable_transform S (inverse_of T) /\ follows (inverse_error delta eta S) S (inverse_of T) (to_grid P).
Proof. exact inverse_follows. Qed.
Print Assumptions C129_inverse.

(** ... and the transform itself takes grid points to within 3 delta S' + eta of their
    exact place in the world ... *)
Theorem C129_forward : forall P t delta eta S T S',
  bpow radix2 (-100) <= S <= bpow radix2 100 -> rigid P t -> 0 <= delta <= bpow radix2 (-20) ->
  origin_within delta eta S T P t -> 0 <= S' ->
  usable_transform S T /\ follows (3 * delta * S' + eta) S' T (to_world P).
Proof.
  intros P t delta eta S T S' SB RP Hd Ho S0. split; [apply (forward_usable P t delta eta S T SB RP Hd Ho)|].
  apply (forward_follows P t delta eta S T RP Ho S' S0).
Qed.
Print Assumptions C129_forward.

(** ... in exact arithmetic the quaternion computed from the matrix of a rotation is that
    of the rotation, or its negative, which turns points the same way ... *)
Theorem C129_quaternion : forall w (u t : rvec), w * w + length_squared u = 1 ->
  let x := turn w u (@V reals 1 0 0) in let y := turn w u (@V reals 0 1 0) in let z := turn w u (@V reals 0 0 1) in
  let q := quat_of (@Transform reals (@V reals (vx x) (vx y) (vx z)) (@V reals (vy x) (vy y) (vy z)) (@V reals (vz x) (vz y) (vz z)) t) in
  (q = @Q reals w u \/ q = @Q reals (- w) (@V reals (- vx u) (- vy u) (- vz u))) /\ forall p, turn (qw q) (qv q) p = turn w u p.
Proof.
  intros w u t H x y z q. destruct (quat_exact w u t H) as (k & Hk & E). change (quat_of (matrix_of w u t)) with q in E. rewrite E.
  cbn [qw qv]. split; [|intros p; apply turn_sign; exact Hk]. destruct u as [a b c]. cbn [vx vy vz].
  destruct Hk as [->| ->]; [left|right]; f_equal; try (f_equal; asR); asR; ring.
Qed.
Print Assumptions C129_quaternion.

(** ... in doubles, whichever branch the code takes, it is finite and within 80 delta of
    one of the two ... *)
Theorem C129_quaternion_in_doubles : forall delta T P t,
  bpow radix2 (-53) <= delta <= bpow radix2 (-27) -> rigid P t -> matrix_within delta T P ->
  finite_double (qw (quat_of T)) /\ finite_vec (qv (quat_of T)) /\
  exists k, (k = 1 \/ k = - (1)) /\ Rabs (real64 (qw (quat_of T)) - k * rot_w P) <= 80 * delta /\
    apart_at_most (80 * delta) (real_vec (qv (quat_of T))) (@V reals (k * vx (rot_v P)) (k * vy (rot_v P)) (k * vz (rot_v P))).
Proof.
  intros delta T P t Hd RP HM. destruct (quat_near delta T P t Hd RP HM) as (k & Hk & (F0 & D0) & (F1 & D1) & (F2 & D2) & (F3 & D3)).
  split; [exact F0|]. split; [exact (conj F1 (conj F2 F3))|]. exists k. split; [exact Hk|]. split; [exact D0|]. exact (conj D1 (conj D2 D3)).
Qed.
Print Assumptions C129_quaternion_in_doubles.

(** ... so gradients in the world frame are right up to 144000 delta + 2^-17 times the
    largest slope ... *)
Theorem C129_gradient : forall r P t delta T (f : field ieee) M i edges g,
  bpow radix2 (-53) <= delta <= bpow radix2 (-27) -> rigid P t -> matrix_within delta T P ->
  finite_double (f_res f) -> bpow radix2 (-800) <= real64 (f_res f) <= bpow radix2 800 ->
  (forall j, in_bounds (f_dims f) j = true ->
     finite_float (value f j) /\ Rabs (real32 (value f j)) <= bpow radix2 126) ->
  bpow radix2 (-90) <= M <= bpow radix2 90 -> bounded_by M (slopes f i) ->
  gradient f (placed_by r T) i edges = Some g ->
  finite_vec g /\
  apart_at_most ((144000 * delta + bpow radix2 (-17)) * M) (real_vec g) (turn (rot_w P) (rot_v P) (slopes f i)).
Proof. intros r P t delta T f M i edges g Hd RP HM. exact (placed_gradient r P t delta T Hd RP HM f M i edges g). Qed.
Print Assumptions C129_gradient.

(** ... in front of, or inside, a flat wall they are the turned normal of the wall ... *)
Theorem C129_wall : forall r P t delta T a low d r' oob frame is_filled k N s x i edges g,
  bpow radix2 (-53) <= delta <= bpow radix2 (-27) -> rigid P t -> matrix_within delta T P ->
  extracted_wall a low d r' oob frame is_filled k N s x ->
  gradient (sdf_field s) (placed_by r T) i edges = Some g ->
  finite_vec g /\ exists c, 1 <= c <= 2 /\
  apart_at_most ((144000 * delta + bpow radix2 (-17)) * 2) (real_vec g) (turn (rot_w P) (rot_v P) (vscale (outward a low) c)).
Proof.
  intros r P t delta T a low d r' oob frame is_filled k N s x i edges g Hd RP HM.
  exact (placed_wall_gradient r P t delta T Hd RP HM a low d r' oob frame is_filled k N s x i edges g).
Qed.
Print Assumptions C129_wall.

(** ... and estimates keep the bounds of C128 against exact distances in the world: they
    do not jump, ... *)
Theorem C129_steady : forall d r filled s N P t delta eta S T loc loc',
  let p := placed_by r T in let moved := gap (real_vec loc) (real_vec loc') in
  field_of_map d r filled s -> flat d \/ (forall c, in_bounds d c = true -> exact_at d r filled s c) ->
  stands d r N T P t delta eta S -> seen d p P S loc -> seen d p P S loc' ->
  exists e e', estimate_distance (sdf_field s) p loc = Ok (e, true) /\ estimate_distance (sdf_field s) p loc' = Ok (e', true) /\
    finite_double e /\ finite_double e' /\ Rabs (real64 e - real64 e') <= 7.07 * moved + 0.004 * real64 r.
Proof.
  intros d r filled s N P t delta eta S T loc loc' p moved HM HX ST Hl Hl'.
  destruct (place_steady d r filled s N (inverse_of T) T (qw (quat_of T)) (qv (quat_of T)) P t S _ HM HX (origin_placed _ _ _ _ _ _ _ _ _ ST) loc loc' Hl Hl')
    as (e & e' & E & E' & F & F' & B & _). exists e, e'. exact (conj E (conj E' (conj F (conj F' B)))).
Qed.
Print Assumptions C129_steady.

(** ... do not exceed the distance of any filled cell by more than the stated margins, ... *)
Theorem C129_not_above : forall d r filled s N P t delta eta S T loc b,
  let p := placed_by r T in
  field_of_map d r filled s -> flat d \/ (forall c, in_bounds d c = true -> exact_at d r filled s c) ->
  stands d r N T P t delta eta S -> seen d p P S loc -> in_bounds d b = true -> filled b = true ->
  exists e, estimate_distance (sdf_field s) p loc = Ok (e, true) /\ finite_double e /\
    (flat d -> real64 e <= 1.42 * gap (real_vec loc) (world_center P b) + 3.3 * real64 r) /\
    ((forall c, in_bounds d c = true -> exact_at d r filled s c) ->
     real64 e <= (1 + bpow radix2 (-23)) * gap (real_vec loc) (world_center P b) + 4.83 * real64 r).
Proof.
  intros d r filled s N P t delta eta S T loc b p HM HX ST.
  exact (place_above d r filled s N (inverse_of T) T (qw (quat_of T)) (qv (quat_of T)) P t S _ HM HX (origin_placed _ _ _ _ _ _ _ _ _ ST) loc b).
Qed.
Print Assumptions C129_not_above.

(** ... and, in a free cell, do not fall short of all of them. *)
Theorem C129_not_below : forall d r filled s N P t delta eta S T loc D_,
  let p := placed_by r T in
  field_of_map d r filled s -> flat d \/ (forall c, in_bounds d c = true -> exact_at d r filled s c) ->
  stands d r N T P t delta eta S -> seen d p P S loc -> 0 <= D_ -> filled (cell_of P loc) = false ->
  (forall b, in_bounds d b = true -> filled b = true -> D_ <= gap (real_vec loc) (world_center P b)) ->
  exists e, estimate_distance (sdf_field s) p loc = Ok (e, true) /\ finite_double e /\
    (1 - bpow radix2 (-23)) * D_ - 6.55 * real64 r <= real64 e /\
    (flat d -> (1 - bpow radix2 (-23)) * D_ - 4.35 * real64 r <= real64 e).
Proof.
  intros d r filled s N P t delta eta S T loc D_ p HM HX ST.
  exact (place_below d r filled s N (inverse_of T) T (qw (quat_of T)) (qv (quat_of T)) P t S _ HM HX (origin_placed _ _ _ _ _ _ _ _ _ ST) loc D_).
Qed.
Print Assumptions C129_not_below.

(** Non-vacuity: the turned and moved grid of C126, now from its origin transform alone. *)
Lemma shelf_matrix r : matrix_within (bpow radix2 (-53)) shelf_forward (shelf r).
Proof.
  assert (H : sqrt (1 / 2) * sqrt (1 / 2) = 1 / 2) by (apply sqrt_sqrt; lra). pose proof (bpow_gt_0 radix2 (-53)).
  unfold matrix_within, axis_x, axis_y, axis_z, shelf. cbn [turned_pose rot_w rot_v shelf_forward row_x row_y row_z].
  set (h := sqrt (1 / 2)) in *. clearbody h. cbv zeta.
  rewrite !(fun a b c A B C => proj2 (row_real a b c A B C)) by lia. unfold turn, apart_at_most. cbn [vx vy vz].
  do 3 (split; [apply row_real; lia|]). split; [|split]; (split; [|split]); apply Rabs_le; lra.
Qed.

Lemma shelf_stands : stands (D 3 3 1) one64 3 shelf_forward (shelf (real64 one64)) shelf_shift (bpow radix2 (-53)) 0 128.
Proof.
  assert (R1 : 0 < real64 one64) by (rewrite real_one; lra). destruct (shelf_pose _ R1) as (G & Rg).
  split. { rewrite real_one. change 1 with (bpow radix2 0). apply bpow_le. lia. }
  split; [cbn [nx ny nz]; lra|]. split. { change 128 with (bpow radix2 7). split; apply bpow_le; lia. }
  split; [exact G|]. split; [exact Rg|]. split; [split; [apply bpow_ge_0|apply bpow_le; lia]|]. split.
  - split; [apply shelf_matrix|]. split.
    + apply row_within; try lia; apply Rabs_le; lra.
    + cbn [shelf_forward shift]. rewrite (proj2 (row_real 10 20 30 ltac:(lia) ltac:(lia) ltac:(lia))).
      unfold apart_at_most, shelf_shift. cbn [vx vy vz]. split; [|split]; apply Rabs_le; lra.
  - rewrite real_one. unfold misplaced, inverse_error. change (bpow radix2 (-53)) with (/ 9007199254740992). lra.
Qed.

Example C129_nonvacuous : exists s g,
  let p := placed_by one64 shelf_forward in let P := shelf (real64 one64) in
  let d := D 3 3 1 in let filled := only (I 1 1 0) in
  field_of_map d one64 filled s /\ flat d /\ (forall c, in_bounds d c = true -> exact_at d one64 filled s c) /\
  stands d one64 3 shelf_forward P shelf_shift (bpow radix2 (-53)) 0 128 /\
  seen d p P 128 shelf_point /\ seen d p P 128 shelf_spot /\
  in_bounds d (I 1 1 0) = true /\ filled (I 1 1 0) = true /\ filled (cell_of P shelf_spot) = false /\
  (forall b, in_bounds d b = true -> filled b = true -> 1 <= gap (real_vec shelf_spot) (world_center P b)) /\
  gradient (sdf_field s) p (I 0 0 0) true = Some g.
Proof.
  destruct ideal_case as (s & H & _ & _ & _ & B & _ & Fl & Ib & Fb & _ & _ & X).
  destruct (field_parts _ _ _ _ H) as (Ed & _).
  destruct (gradient_defined (sdf_field s) (placed_by one64 shelf_forward) (I 0 0 0)) as (g & Eg); [rewrite Ed; reflexivity|].
  exists s, g. cbv zeta. assert (R1 : 0 < real64 one64) by (rewrite real_one; lra). destruct (shelf_pose _ R1) as (G & Rg).
  assert (Ci : cell_of (shelf (real64 one64)) shelf_spot = I 0 0 0).
  { unfold cell_of. rewrite shelf_spot_grid, real_one. unfold shelf, turned_pose, plain_pose. cbn [index_of vx vy vz].
    f_equal; apply Int_part_unique; lra. }
  split; [exact H|]. split; [exact Fl|]. split; [exact X|]. split; [exact shelf_stands|].
  split. { split; [apply shelf_point_within; lra|]. split; [vm_compute; reflexivity|]. rewrite shelf_point_grid. exact B. }
  split. { split; [apply shelf_point_within; lra|]. split; [vm_compute; reflexivity|].
    unfold cell_of in Ci. rewrite Ci. reflexivity. }
  split; [exact Ib|]. split; [exact Fb|]. split; [rewrite Ci; reflexivity|]. split; [|exact Eg].
  intros b _ Ob. apply only_spec in Ob. subst b. unfold world_center.
  rewrite <- (g_back_and_there _ _ G (real_vec shelf_spot)), (rigid_gap _ _ _ _ Rg), shelf_spot_grid, real_one.
  unfold gap, shelf, turned_pose, plain_pose. cbn [center_of vx vy vz ix iy iz]. rewrite <- sqrt_1 at 1. apply sqrt_le_1_alt. lra.
Qed.

(** The floor of C125 in a grid placed the same way, in a cell inside it. *)
Example C129_wall_nonvacuous : exists s x g,
  extracted_wall AlongZ true floor_dims quarter64 zero32 "grid" floor_filled 2 6 s x /\
  rigid (shelf (real64 quarter64)) shelf_shift /\ matrix_within (bpow radix2 (-53)) shelf_forward (shelf (real64 quarter64)) /\
  gradient (sdf_field s) (placed_by quarter64 shelf_forward) (I 0 0 0) true = Some g.
Proof.
  destruct C125_nonvacuous as (s & x & H). cbv zeta in H. destruct H as (E & _). pose proof E as (Hs & Hr & Rr & HP & Hk & Ex & He & _).
  destruct (WallDouble.extracted_double_wall _ _ _ _ _ _ _ _ _ _ Hs Hr HP Hk Ex He) as (_ & FD & _).
  destruct (gradient_defined (sdf_field s) (placed_by quarter64 shelf_forward) (I 0 0 0)) as (g & Eg); [rewrite FD; reflexivity|].
  exists s, x, g. split; [exact E|]. split.
  { apply shelf_pose. unfold real64, quarter64. cbn [B2R]. unfold F2R. cbn. lra. }
  split; [apply shelf_matrix|exact Eg].
Qed.

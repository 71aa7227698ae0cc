(** Grids placed by their origin transform alone, in doubles. *)
From Coq Require Import Reals Lra Lia Psatz.
From Flocq Require Import Core.Core IEEE754.Binary IEEE754.Bits.
From Verif Require Import Base BaseFacts Floats FloatFacts FloatFacts2 Grid GridFacts Arith SdfQuery SdfField QuerySpec
  QueryProofs QueryReal QueryThms QueryTurn DoubleSpec DoubleQuery DoubleEstimate DoubleGrid IdealSpec WallSpec WallProject Frame FrameSpec
  FrameTurn FrameSlope PlaceSpec Origin OriginSpec OriginThms OriginTurn OriginQuat CollisionMap SdfGen SdfSpec EstimateSpec EstimateCase SmoothSpec.
Open Scope R_scope.

(** The same pose with its quaternion times [k]. *)
Definition signed (k : R) (P : pose reals) : pose reals :=
  @Pose reals (to_grid P) (to_world P) (index_of P) (center_of P) (clamp P) (k * rot_w P)
    (@V reals (k * vx (rot_v P)) (k * vy (rot_v P)) (k * vz (rot_v P))).

Lemma signed_rigid k P t : k = 1 \/ k = - (1) -> rigid P t -> rigid (signed k P) t.
Proof.
  intros Hk [U W]. split.
  - unfold signed, length_squared in *. cbn [rot_w rot_v vx vy vz] in *. destruct Hk as [->| ->]; revert U; rsimp; intros U; lra.
  - intros q. cbn [signed rot_w rot_v to_world]. rewrite turn_sign by exact Hk. apply W.
Qed.

Lemma quat_near delta T P t : bpow radix2 (-53) <= delta <= bpow radix2 (-27) -> rigid P t -> matrix_within delta T P ->
  exists k, (k = 1 \/ k = - (1)) /\ near (80 * delta) (qw (quat_of T)) (k * rot_w P) /\ near (80 * delta) (vx (qv (quat_of T))) (k * vx (rot_v P)) /\
    near (80 * delta) (vy (qv (quat_of T))) (k * vy (rot_v P)) /\ near (80 * delta) (vz (qv (quat_of T))) (k * vz (rot_v P)).
Proof.
  intros Hd RP ((F1 & F2 & F3) & (F4 & F5 & F6) & (F7 & F8 & F9) & (X1 & X2 & X3) & (Y1 & Y2 & Y3) & (Z1 & Z2 & Z3)).
  destruct (quat_form ieee add64 sub64 mul64 lt64 hr64 hor64 (b64_of_Z 0) (b64_of_Z 1) T) as (E0 & E1 & E2 & E3); try reflexivity.
  rewrite E0, E1, E2, E3. clear E0 E1 E2 E3. pose proof (rigid_unit P t RP) as Un. revert X1 X2 X3 Y1 Y2 Y3 Z1 Z2 Z3.
  unfold axis_x, axis_y, axis_z, turn. revert Un. generalize (rot_w P) as w. destruct (rot_v P) as [a b c]. unfold length_squared. cbn [vx vy vz].
  rsimp. intros w Un.
  set (m00 := vx (row_x T)) in *. set (m01 := vy (row_x T)) in *. set (m02 := vz (row_x T)) in *.
  set (m10 := vx (row_y T)) in *. set (m11 := vy (row_y T)) in *. set (m12 := vz (row_y T)) in *.
  set (m20 := vx (row_z T)) in *. set (m21 := vy (row_z T)) in *. set (m22 := vz (row_z T)) in *.
  assert (Vx : real_vec (row_x T) = @V reals (real64 m00) (real64 m01) (real64 m02)) by reflexivity.
  assert (Vy : real_vec (row_y T) = @V reals (real64 m10) (real64 m11) (real64 m12)) by reflexivity.
  assert (Vz : real_vec (row_z T) = @V reals (real64 m20) (real64 m21) (real64 m22)) by reflexivity.
  rewrite Vx, Vy, Vz. cbn [vx vy vz]. clear Vx Vy Vz. clearbody m00 m01 m02 m10 m11 m12 m20 m21 m22. intros X1 X2 X3 Y1 Y2 Y3 Z1 Z2 Z3.
  assert (Un' : w * w + (a * a + b * b + c * c) = 1) by lra.
  apply (quat_branches delta Hd w a b c Un'); (split; [assumption|]);
    match goal with H : Rabs (?m - _) <= delta |- Rabs (?m - _) <= delta => apply Rle_trans with (2 := H); right; f_equal; ring end.
Qed.

Section Placed.
  Variables (r : binary64) (P : pose reals) (t : rvec) (delta : R) (T : transform ieee).
  Hypothesis Hd : bpow radix2 (-53) <= delta <= bpow radix2 (-27).
  Hypothesis RP : rigid P t.
  Hypothesis HM : matrix_within delta T P.

  Lemma placed_rotation : exists k, (k = 1 \/ k = - (1)) /\ rotation_within (80 * delta) (placed_by r T) (signed k P).
  Proof using Hd RP HM.
    destruct (quat_near delta T P t Hd RP HM) as (k & Hk & (Fw & Dw) & (F1 & D1) & (F2 & D2) & (F3 & D3)). exists k. split; [exact Hk|].
    unfold placed_by, placed_pose, rotation_within. cbn [rot_w rot_v signed].
    split; [exact Fw|]. split; [exact (conj F1 (conj F2 F3))|]. split; [exact Dw|]. exact (conj D1 (conj D2 D3)).
  Qed.

  Lemma eighty : bpow radix2 (-53) <= 80 * delta <= bpow radix2 (-20).
  Proof using Hd.
    pose proof (bpow_gt_0 radix2 (-53)). split; [lra|]. apply Rle_trans with (bpow radix2 7 * bpow radix2 (-27)).
    - change (bpow radix2 7) with 128. lra.
    - rewrite <- bpow_plus. apply bpow_le. lia.
  Qed.

  Lemma placed_gradient (f : field ieee) M i edges g :
    finite_double (f_res f) -> bpow radix2 (-800) <= real64 (f_res f) <= bpow radix2 800 ->
    (forall j, in_bounds (f_dims f) j = true -> finite_float (value f j) /\ Rabs (real32 (value f j)) <= bpow radix2 126) ->
    bpow radix2 (-90) <= M <= bpow radix2 90 -> bounded_by M (slopes f i) ->
    gradient f (placed_by r T) i edges = Some g ->
    finite_vec g /\ apart_at_most ((144000 * delta + bpow radix2 (-17)) * M) (real_vec g) (turn (rot_w P) (rot_v P) (slopes f i)).
  Proof using Hd RP HM.
    intros Fr Rr Vals SM HS E. destruct placed_rotation as (k & Hk & RW).
    destruct (world_gradient_doubles f (placed_by r T) (signed k P) t (80 * delta) M i edges g Fr Rr Vals (signed_rigid k P t Hk RP) RW eighty SM HS E)
      as (F & A). split; [exact F|]. cbn [signed rot_w rot_v] in A. rewrite turn_sign in A by exact Hk.
    replace (144000 * delta) with (1800 * (80 * delta)) by ring. exact A.
  Qed.

  Lemma placed_wall_gradient a low d r' oob frame is_filled k N s x i edges g :
    extracted_wall a low d r' oob frame is_filled k N s x ->
    gradient (sdf_field s) (placed_by r T) i edges = Some g ->
    finite_vec g /\ exists c, 1 <= c <= 2 /\
    apart_at_most ((144000 * delta + bpow radix2 (-17)) * 2) (real_vec g) (turn (rot_w P) (rot_v P) (vscale (outward a low) c)).
  Proof using Hd RP HM.
    intros W E. destruct placed_rotation as (k0 & Hk & RW).
    destruct (wall_world_gradient a low d r' oob frame is_filled k N s x (placed_by r T) (signed k0 P) t (80 * delta) i edges g W
                (signed_rigid k0 P t Hk RP) RW eighty E) as (F & c & Hc & A).
    split; [exact F|]. exists c. split; [exact Hc|]. cbn [signed rot_w rot_v] in A. rewrite turn_sign in A by exact Hk.
    replace (144000 * delta) with (1800 * (80 * delta)) by ring. exact A.
  Qed.
End Placed.

Lemma origin_placed d r N P t delta eta S T : stands d r N T P t delta eta S ->
  well_placed d r N (inverse_of T) P t S (inverse_error delta eta S).
Proof.
  intros (Sm & HN & SB & GP & RP & Hd & Ho & HF). destruct (inverse_follows (real64 r) P t delta eta S T SB GP RP Hd Ho) as (U & Fl).
  split; [exact Sm|]. split; [exact HN|]. split; [exact SB|]. split; [exact U|]. split; [exact GP|]. split; [exact RP|]. split; [exact Fl|exact HF].
Qed.

(** C131: resampling a turned map, in doubles. *)
From Coq Require Import Reals Lra Lia.
From Flocq Require Import Core.Core IEEE754.Binary IEEE754.Bits.
From Verif Require Import Base BaseFacts Floats FloatFacts FloatFacts2 Grid GridFacts CollisionMap TaggedMap Arith SdfQuery SdfField QuerySpec QueryReal QueryThms QueryTurn
  QueryWitness DoubleSpec WallProject IdealSpec EstimateSpec EstimateCase IdealMap Frame FrameSpec FrameCase PlaceSpec Origin OriginSpec PointSpec
  PointThms PointCase Resample ResampleDouble.
Open Scope R_scope.

(** C131: a cell whose centre is, in exact arithmetic, at least five millionths of a new
    cell from the faces of new cell [j] is written to [j]. *)
Theorem C131_target : forall d d' r r' N N' T P P' t delta eta S,
  finite_double r -> bpow radix2 (-100) <= real64 r -> N <= bpow radix2 30 -> stands d r N T P t delta eta S ->
  finite_double r' -> bpow radix2 (-100) <= real64 r' -> N' <= bpow radix2 30 -> stands d' r' N' T P' t delta eta S ->
  real64 r * N <= S / 16 -> real64 r * N <= bpow radix2 30 * real64 r' ->
  forall i j, in_bounds d i = true -> in_bounds d' j = true ->
  inside_cell (5 * (real64 r' / 1000000)) (real64 r') (center_of P i) j ->
  target (placed_by r T) (placed_by r' T) i = j.
Proof. exact target_found. Qed.
Print Assumptions C131_target.

(** At the same resolution and with the same number of cells nothing changes. *)
Theorem C131_same_resolution : forall r N T P t delta eta S,
  finite_double r -> bpow radix2 (-100) <= real64 r -> N <= bpow radix2 30 -> real64 r * N <= S / 16 ->
  forall m, stands (cm_dims m) r N T P t delta eta S -> wf_grid (cm_grid m) ->
  cm_grid (cm_resample (placed_by r T) (placed_by r T) (cm_dims m) m) = cm_grid m.
Proof. exact same_grid. Qed.
Print Assumptions C131_same_resolution.

Theorem C131_tagged_same_resolution : forall r N T P t delta eta S,
  finite_double r -> bpow radix2 (-100) <= real64 r -> N <= bpow radix2 30 -> real64 r * N <= S / 16 ->
  forall m, stands (tm_dims m) r N T P t delta eta S -> wf_grid (tm_grid m) ->
  tm_grid (tm_resample (placed_by r T) (placed_by r T) (tm_dims m) m) = tm_grid m.
Proof. exact tm_same_grid. Qed.
Print Assumptions C131_tagged_same_resolution.

(** With cells twice as large, a new cell whose eight parts are all in the old map holds
    the value of the last of them. *)
Theorem C131_coarser : forall m d' r r' N N' T P P' t delta eta S,
  finite_double r -> bpow radix2 (-100) <= real64 r -> N <= bpow radix2 30 -> stands (cm_dims m) r N T P t delta eta S ->
  finite_double r' -> bpow radix2 (-100) <= real64 r' -> N' <= bpow radix2 30 -> stands d' r' N' T P' t delta eta S ->
  real64 r * N <= S / 16 -> real64 r' = 2 * real64 r ->
  (nx (cm_dims m) <= 2 * nx d' /\ ny (cm_dims m) <= 2 * ny d' /\ nz (cm_dims m) <= 2 * nz d')%Z ->
  forall a b c, (0 <= a /\ 0 <= b /\ 0 <= c)%Z -> in_bounds (cm_dims m) (I (2 * a + 1) (2 * b + 1) (2 * c + 1)) = true ->
  fst (cm_get (cm_resample (placed_by r T) (placed_by r' T) d' m) (I a b c)) = fst (cm_get m (I (2 * a + 1) (2 * b + 1) (2 * c + 1))).
Proof. exact merged_cell. Qed.
Print Assumptions C131_coarser.

(** The grid of C130 with cells half as large, and the same with cells twice as large. *)
Definition half_cell : binary64 := B754_finite 53 1024 false 4503599627370496 (-53) eq_refl.
Definition two_cell : binary64 := b64_of_Z 2.
Definition diamond_of (r : R) : pose reals := turned_pose r diamond_w (@V reals 0 0 diamond_z) (@V reals 0 0 0).

Lemma cell_sizes : real64 half_cell = 1 / 2 /\ real64 two_cell = 2.
Proof.
  split; [unfold real64, half_cell; cbn [B2R]; unfold F2R; cbn -[IZR]; lra|].
  destruct (of_Z_exact 2) as (_ & E); [lia|]. exact E.
Qed.

Lemma diamond_of_stands d r N : 0 < real64 r -> real64 r <= 2 -> IZR (nx d) <= N /\ IZR (ny d) <= N /\ IZR (nz d) <= N ->
  N / 100000 <= real64 r ->
  stands d r N eighth (diamond_of (real64 r)) (@V reals 0 0 0) (bpow radix2 (-53)) 0 256.
Proof.
  intros R0 R2 Hd HN. destruct diamond_stands as (_ & _ & SB & _ & _ & D0 & (Mx & Sh) & _).
  assert (U : diamond_w * diamond_w + length_squared (@V reals 0 0 diamond_z) = 1).
  { pose proof diamond_parts as (H & _). unfold length_squared. cbn [vx vy vz]. rsimp. lra. }
  destruct (turned_ok (real64 r) diamond_w (@V reals 0 0 diamond_z) (@V reals 0 0 0) R0 U) as (G & Rg).
  split. { apply Rle_trans with (1 := R2). change 2 with (bpow radix2 1). apply bpow_le. lia. }
  split; [exact Hd|]. split; [exact SB|]. split; [exact G|]. split; [exact Rg|]. split; [exact D0|]. split; [exact (conj Mx Sh)|].
  unfold misplaced, inverse_error. change (bpow radix2 (-53)) with (/ 9007199254740992). lra.
Qed.

(** With cells half as large the centre of an old cell is a corner of new ones, and which
    of these is written depends on rounding, not on where the centre is. *)
Theorem C131_finer_refuted : ~ (forall d d' r r' N N' T P P' t delta eta S,
  finite_double r -> bpow radix2 (-100) <= real64 r -> N <= bpow radix2 30 -> stands d r N T P t delta eta S ->
  finite_double r' -> bpow radix2 (-100) <= real64 r' -> N' <= bpow radix2 30 -> stands d' r' N' T P' t delta eta S ->
  real64 r * N <= S / 16 -> real64 r = 2 * real64 r' ->
  forall i, in_bounds d i = true -> in_bounds d' (index_of P' (center_of P i)) = true ->
  target (placed_by r T) (placed_by r' T) i = index_of P' (center_of P i)).
Proof.
  intros H. destruct cell_sizes as (E2 & _).
  assert (B1 : bpow radix2 (-100) <= 1 / 2) by (replace (1 / 2) with (bpow radix2 (-1)) by (cbn; lra); apply bpow_le; lia).
  assert (B2 : bpow radix2 30 = 1073741824) by reflexivity.
  assert (K : target (placed_by one64 eighth) (placed_by half_cell eighth) (I 1 5 0) =
    index_of (diamond_of (real64 half_cell)) (center_of (diamond_of (real64 one64)) (I 1 5 0))).
  { assert (Ei : index_of (diamond_of (real64 half_cell)) (center_of (diamond_of (real64 one64)) (I 1 5 0)) = I 3 11 1).
    { unfold diamond_of, turned_pose, plain_pose. cbn [index_of center_of ix iy iz vx vy vz]. rewrite E2, real_one.
      f_equal; apply Int_part_unique; lra. }
    apply (H diamond_dims (D 20 20 2) one64 half_cell 10 20 eighth (diamond_of (real64 one64)) (diamond_of (real64 half_cell))
      (@V reals 0 0 0) (bpow radix2 (-53)) 0 256).
    - reflexivity.
    - rewrite real_one. lra.
    - lra.
    - apply diamond_of_stands; rewrite ?real_one; try lra. cbn [nx ny nz diamond_dims]. lra.
    - reflexivity.
    - rewrite E2. exact B1.
    - lra.
    - apply diamond_of_stands; rewrite ?E2; try lra. cbn [nx ny nz]. lra.
    - rewrite real_one. lra.
    - rewrite real_one, E2. lra.
    - reflexivity.
    - rewrite Ei. reflexivity. }
  assert (Ei : index_of (diamond_of (real64 half_cell)) (center_of (diamond_of (real64 one64)) (I 1 5 0)) = I 3 11 1).
  { unfold diamond_of, turned_pose, plain_pose. cbn [index_of center_of ix iy iz vx vy vz]. rewrite E2, real_one.
    f_equal; apply Int_part_unique; lra. }
  assert (W : target (placed_by one64 eighth) (placed_by half_cell eighth) (I 1 5 0) = I 2 11 1) by (vm_compute; reflexivity).
  rewrite W, Ei in K. discriminate K.
Qed.
Print Assumptions C131_finer_refuted.

(** So a straight row of cells, (1, 4) to (1, 7), comes out bent. *)
Example C131_bent_row :
  map (target (placed_by one64 eighth) (placed_by half_cell eighth)) [I 1 4 0; I 1 5 0; I 1 6 0; I 1 7 0] =
  [I 3 9 1; I 2 11 1; I 2 13 1; I 3 15 1].
Proof. vm_compute. reflexivity. Qed.

(** A map of the grid of C130 with an obstacle, at the same resolution and with cells
    twice as large. *)
Example C131_nonvacuous :
  let m := fst (cm_set (cm_new "map" diamond_dims (CC zero32 0) (CC zero32 0)) (I 5 5 0) (CC one32 0)) in
  let P := diamond_of (real64 one64) in let P' := diamond_of (real64 two_cell) in
  finite_double one64 /\ bpow radix2 (-100) <= real64 one64 /\ 10 <= bpow radix2 30 /\
  stands (cm_dims m) one64 10 eighth P (@V reals 0 0 0) (bpow radix2 (-53)) 0 256 /\
  finite_double two_cell /\ bpow radix2 (-100) <= real64 two_cell /\
  stands (D 5 5 1) two_cell 10 eighth P' (@V reals 0 0 0) (bpow radix2 (-53)) 0 256 /\
  real64 one64 * 10 <= 256 / 16 /\ real64 two_cell = 2 * real64 one64 /\ wf_grid (cm_grid m) /\
  in_bounds (cm_dims m) (I 5 5 0) = true /\ inside_cell (5 * (real64 two_cell / 1000000)) (real64 two_cell) (center_of P (I 5 5 0)) (I 2 2 0) /\
  target (placed_by one64 eighth) (placed_by two_cell eighth) (I 5 5 0) = I 2 2 0.
Proof.
  destruct cell_sizes as (_ & E2). cbv zeta.
  assert (B1 : bpow radix2 (-100) <= 1) by (change 1 with (bpow radix2 0); apply bpow_le; lia).
  split; [reflexivity|]. split; [rewrite real_one; exact B1|]. split; [change (bpow radix2 30) with 1073741824; lra|].
  split. { apply diamond_of_stands; rewrite ?real_one; try lra. change (IZR (nx diamond_dims) <= 10 /\ IZR (ny diamond_dims) <= 10 /\ IZR (nz diamond_dims) <= 10).
    cbn [nx ny nz diamond_dims]. lra. }
  split; [reflexivity|]. split; [rewrite E2; lra|].
  split. { apply diamond_of_stands; rewrite ?E2; try lra. cbn [nx ny nz]. lra. }
  split; [rewrite real_one; lra|]. split; [rewrite E2, real_one; lra|].
  split. { repeat split; vm_compute; discriminate. }
  split; [reflexivity|]. split; [|vm_compute; reflexivity].
  unfold inside_cell, inside_axis, diamond_of, turned_pose, plain_pose. cbn [center_of ix iy iz vx vy vz]. rewrite E2, real_one. lra.
Qed.

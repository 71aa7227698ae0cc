(** The grid of src/estimate_distance_test.cpp:13-18: ten by ten by one cells of side 1,
    turned an eighth about z. *)
From Coq Require Import Reals Lra Lia Psatz.
From Flocq Require Import Core.Core IEEE754.Binary IEEE754.Bits.
From Verif Require Import Base BaseFacts Floats FloatFacts FloatFacts2 Grid GridFacts Arith SdfQuery SdfField QuerySpec
  QueryProofs QueryReal QueryThms QueryTurn QueryWitness DoubleSpec IdealSpec WallSpec WallProject EstimateSpec EstimateCase IdealMap Frame FrameSpec
  FrameCase PlaceSpec Origin OriginSpec PointSpec Location.
Open Scope R_scope.

(** The two doubles around the root of a half. *)
Definition root_low : binary64 := B754_finite 53 1024 false 6369051672525772 (-53) eq_refl.
Definition root_high : binary64 := B754_finite 53 1024 false 6369051672525773 (-53) eq_refl.
Definition root_high_neg : binary64 := B754_finite 53 1024 true 6369051672525773 (-53) eq_refl.
Definition none64 : binary64 := b64_of_Z 0.

(** origin_transform at src/estimate_distance_test.cpp:15-17, as Eigen's formulas give it
    when the sine and the cosine of an eighth of pi are the nearest doubles. *)
Definition eighth : transform ieee :=
  Transform (@V ieee root_low root_high_neg none64) (@V ieee root_high root_low none64) (row 0 0 1) (row 0 0 0).

Definition diamond_dims : dims := D 10 10 1.
Definition diamond_w : R := sqrt ((1 + sqrt (1 / 2)) / 2).
Definition diamond_z : R := sqrt ((1 - sqrt (1 / 2)) / 2).
Definition diamond : pose reals := turned_pose (real64 one64) diamond_w (@V reals 0 0 diamond_z) (@V reals 0 0 0).

Lemma half_root_bounds : 6369051672525772 / 9007199254740992 <= sqrt (1 / 2) <= 6369051672525773 / 9007199254740992.
Proof.
  assert (H : sqrt (1 / 2) * sqrt (1 / 2) = 1 / 2) by (apply sqrt_sqrt; lra). pose proof (sqrt_pos (1 / 2)) as P.
  set (h := sqrt (1 / 2)) in *. clearbody h. split; apply Rnot_lt_le; intros L.
  - assert (h * h < 6369051672525772 / 9007199254740992 * (6369051672525772 / 9007199254740992)) by (apply Rmult_le_0_lt_compat; lra). lra.
  - assert (6369051672525773 / 9007199254740992 * (6369051672525773 / 9007199254740992) < h * h) by (apply Rmult_le_0_lt_compat; lra). lra.
Qed.

Lemma diamond_parts : diamond_w * diamond_w + diamond_z * diamond_z = 1 /\
  diamond_w * diamond_w - diamond_z * diamond_z = sqrt (1 / 2) /\ 2 * (diamond_w * diamond_z) = sqrt (1 / 2).
Proof.
  pose proof half_root_bounds as B. assert (H : sqrt (1 / 2) * sqrt (1 / 2) = 1 / 2) by (apply sqrt_sqrt; lra).
  unfold diamond_w, diamond_z. set (h := sqrt (1 / 2)) in *. clearbody h.
  rewrite !sqrt_sqrt by lra. split; [lra|]. split; [lra|].
  rewrite <- sqrt_mult by lra. replace ((1 + h) / 2 * ((1 - h) / 2)) with (h / 2 * (h / 2)) by lra. rewrite sqrt_square by lra. lra.
Qed.

Lemma diamond_pose : geometry (real64 one64) diamond /\ rigid diamond (@V reals 0 0 0).
Proof.
  apply turned_ok; [rewrite real_one; lra|]. pose proof diamond_parts as (H & _). unfold length_squared. cbn [vx vy vz]. rsimp. lra.
Qed.

Lemma root_parts : real64 root_low = 6369051672525772 / 9007199254740992 /\ real64 root_high = 6369051672525773 / 9007199254740992 /\
  real64 root_high_neg = - (6369051672525773 / 9007199254740992) /\ real64 none64 = 0.
Proof.
  destruct (of_Z_exact 0) as (F0 & E0); [lia|]. split; [|split; [|split; [|exact E0]]];
    unfold real64, root_low, root_high, root_high_neg; cbn [B2R]; unfold F2R; cbn -[IZR]; lra.
Qed.

Lemma eighth_rows : finite_vec (row_x eighth) /\ finite_vec (row_y eighth) /\ finite_vec (row_z eighth) /\
  real_vec (row_x eighth) = @V reals (6369051672525772 / 9007199254740992) (- (6369051672525773 / 9007199254740992)) 0 /\
  real_vec (row_y eighth) = @V reals (6369051672525773 / 9007199254740992) (6369051672525772 / 9007199254740992) 0 /\
  real_vec (row_z eighth) = @V reals 0 0 1.
Proof.
  destruct root_parts as (A & B & C & D0). split; [repeat split|]. split; [repeat split|]. split; [apply row_real; lia|].
  unfold real_vec, eighth. cbn [row_x row_y row_z vx vy vz]. rewrite A, B, C, D0. split; [reflexivity|]. split; [reflexivity|].
  exact (proj2 (row_real 0 0 1 ltac:(lia) ltac:(lia) ltac:(lia))).
Qed.

Lemma eighth_matrix : matrix_within (bpow radix2 (-53)) eighth diamond.
Proof.
  destruct eighth_rows as (F1 & F2 & F3 & E1 & E2 & E3). split; [exact F1|]. split; [exact F2|]. split; [exact F3|]. cbv zeta.
  rewrite E1, E2, E3. destruct diamond_parts as (U & C & S). pose proof half_root_bounds as B.
  unfold axis_x, axis_y, axis_z, diamond. cbn [turned_pose rot_w rot_v]. unfold turn, apart_at_most. cbn [vx vy vz].
  change (bpow radix2 (-53)) with (/ 9007199254740992).
  set (h := sqrt (1 / 2)) in *. clearbody h. set (w := diamond_w) in *. set (z := diamond_z) in *. clearbody w z. rsimp.
  split; [|split]; (split; [|split]); apply Rabs_le; cbn; nra.
Qed.

Lemma diamond_stands : stands diamond_dims one64 10 eighth diamond (@V reals 0 0 0) (bpow radix2 (-53)) 0 256.
Proof.
  destruct diamond_pose as (G & Rg).
  split. { rewrite real_one. change 1 with (bpow radix2 0). apply bpow_le. lia. }
  split; [cbn [nx ny nz diamond_dims]; lra|]. split. { change 256 with (bpow radix2 8). split; apply bpow_le; lia. }
  split; [exact G|]. split; [exact Rg|]. split; [split; [apply bpow_ge_0|apply bpow_le; lia]|]. split.
  - split; [apply eighth_matrix|]. split.
    + apply row_within; try lia; apply Rabs_le; lra.
    + cbn [eighth shift]. rewrite (proj2 (row_real 0 0 0 ltac:(lia) ltac:(lia) ltac:(lia))).
      unfold apart_at_most. cbn [vx vy vz]. split; [|split]; apply Rabs_le; lra.
  - rewrite real_one. unfold misplaced, inverse_error. change (bpow radix2 (-53)) with (/ 9007199254740992). lra.
Qed.

(** A point on the face x = 0 of the grid, among those queried at
    src/estimate_distance_test.cpp:60-71. *)
Definition side_point : vec ieee :=
  @V ieee none64 (B754_finite 53 1024 false 8444249301319680 (-54) eq_refl) (B754_finite 53 1024 false 4503599627370496 (-53) eq_refl).

(** A corner of a cell, at which src/estimate_distance_test.cpp:20 puts an obstacle. *)
Definition corner_point : vec ieee := row 5 6 0.

Lemma side_parts : point_within 16 side_point /\ real_vec side_point = @V reals 0 (15 / 32) (1 / 2).
Proof.
  destruct root_parts as (_ & _ & _ & E0).
  assert (E : real_vec side_point = @V reals 0 (15 / 32) (1 / 2)).
  { unfold real_vec, side_point. cbn [vx vy vz]. rewrite E0.
    f_equal; [unfold real64; cbn [B2R]; unfold F2R; cbn -[IZR]; asR; lra|unfold real64; cbn [B2R]; unfold F2R; cbn -[IZR]; asR; lra]. }
  split; [|exact E]. split; [repeat split|]. rewrite E. unfold bounded_by. cbn [vx vy vz]. split; [|split]; apply Rabs_le; lra.
Qed.

Lemma side_lost : in_bounds diamond_dims (cell_at (placed_by one64 eighth) (to_world (placed_by one64 eighth) side_point)) = false.
Proof. vm_compute. reflexivity. Qed.

Lemma corner_moved : cell_at (placed_by one64 eighth) (to_world (placed_by one64 eighth) corner_point) = I 4 6 0.
Proof. vm_compute. reflexivity. Qed.

Lemma side_cell : index_of diamond (real_vec side_point) = I 0 0 0.
Proof.
  rewrite (proj2 side_parts). unfold diamond, turned_pose, plain_pose. cbn [index_of vx vy vz]. rewrite real_one. f_equal; apply Int_part_unique; lra.
Qed.

Lemma corner_cell : point_within 16 corner_point /\ index_of diamond (real_vec corner_point) = I 5 6 0.
Proof.
  split; [apply row_within; try lia; apply Rabs_le; lra|]. unfold corner_point. rewrite (proj2 (row_real 5 6 0 ltac:(lia) ltac:(lia) ltac:(lia))).
  unfold diamond, turned_pose, plain_pose. cbn [index_of vx vy vz]. rewrite real_one. f_equal; apply Int_part_unique; lra.
Qed.

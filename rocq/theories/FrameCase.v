(** A placed grid for the non-vacuity examples. *)
From Coq Require Import Reals Lra Lia.
From Flocq Require Import Core.Core IEEE754.Binary IEEE754.Bits.
From Verif Require Import Base BaseFacts Floats FloatFacts2 Grid GridFacts Arith SdfQuery SdfField QuerySpec
  QueryReal QueryThms QueryTurn QueryWitness AutoDiffSpec DoubleSpec WallSpec EstimateSpec EstimateCase IdealSpec IdealMap Frame FrameSpec.
Open Scope R_scope.

(** A grid turned a quarter about z and moved by (10, 20, 30), so that
    (x, y, z) of the grid is at (10 - y, 20 + x, 30 + z). *)
Definition row (a b c : Z) : vec ieee := @V ieee (b64_of_Z a) (b64_of_Z b) (b64_of_Z c).
Definition shelf_inverse : transform ieee := Transform (row 0 1 0) (row (-1) 0 0) (row 0 0 1) (row (-20) 10 (-30)).
Definition shelf_forward : transform ieee := Transform (row 0 (-1) 0) (row 1 0 0) (row 0 0 1) (row 10 20 30).
Definition shelf_shift : rvec := @V reals 10 20 30.
Definition shelf (r : R) : pose reals := turned_pose r (sqrt (1 / 2)) (@V reals 0 0 (sqrt (1 / 2))) shelf_shift.

Lemma shelf_pose r : 0 < r -> geometry r (shelf r) /\ rigid (shelf r) shelf_shift.
Proof.
  intros Hr. apply turned_ok; [exact Hr|]. unfold length_squared. cbn [vx vy vz]. rsimp.
  pose proof (sqrt_sqrt (1 / 2) ltac:(lra)). lra.
Qed.

Lemma shelf_places r q : to_grid (shelf r) q = @V reals (vy q - 20) (10 - vx q) (vz q - 30) /\
  to_world (shelf r) q = @V reals (10 - vy q) (20 + vx q) (30 + vz q).
Proof.
  assert (H : sqrt (1 / 2) * sqrt (1 / 2) = 1 / 2) by (apply sqrt_sqrt; lra). unfold shelf, shelf_shift.
  cbn [turned_pose to_grid to_world]. set (h := sqrt (1 / 2)) in *. clearbody h. destruct q as [a b c].
  unfold turn, vsub, vadd. cbn [vx vy vz]. rsimp.
  assert (H2 : h ^ 2 = 1 / 2) by (rewrite <- H; ring).
  split; f_equal; asR; ring_simplify; rewrite ?H2; field.
Qed.

Lemma row_real a b c : (Z.abs a <= 100)%Z -> (Z.abs b <= 100)%Z -> (Z.abs c <= 100)%Z ->
  finite_vec (row a b c) /\ real_vec (row a b c) = @V reals (IZR a) (IZR b) (IZR c).
Proof.
  intros A B C. destruct (of_Z_exact a) as (F1 & E1); [lia|]. destruct (of_Z_exact b) as (F2 & E2); [lia|].
  destruct (of_Z_exact c) as (F3 & E3); [lia|]. split; [split; [exact F1|split; [exact F2|exact F3]]|].
  unfold real_vec, row. cbn [vx vy vz]. f_equal; assumption.
Qed.

Lemma row_within S a b c : (Z.abs a <= 100)%Z -> (Z.abs b <= 100)%Z -> (Z.abs c <= 100)%Z ->
  Rabs (IZR a) <= S -> Rabs (IZR b) <= S -> Rabs (IZR c) <= S -> point_within S (row a b c).
Proof.
  intros A B C X Y Z. destruct (row_real a b c A B C) as (F & E). split; [exact F|]. rewrite E. repeat split; assumption.
Qed.

Lemma shelf_usable S : 32 <= S -> usable_transform S shelf_inverse /\ usable_transform S shelf_forward.
Proof.
  intros HS. assert (K : forall n M, (Z.abs n <= 30)%Z -> 30 <= M -> Rabs (IZR n) <= M).
  { intros n M Hn HM. rewrite <- abs_IZR. apply Rle_trans with (2 := HM). apply IZR_le. exact Hn. }
  assert (K2 : forall n, (Z.abs n <= 2)%Z -> Rabs (IZR n) <= 2).
  { intros n Hn. rewrite <- abs_IZR. apply IZR_le. exact Hn. }
  split; repeat split; cbn [shelf_inverse shelf_forward row_x row_y row_z shift];
    try (apply row_within; try lia; first [apply K2; lia|apply K; [lia|lra]]).
Qed.

Lemma shelf_follows r S : follows 0 S shelf_inverse (to_grid (shelf r)) /\ follows 0 S shelf_forward (to_world (shelf r)).
Proof.
  split; intros q _; [rewrite (proj1 (shelf_places r q))|rewrite (proj2 (shelf_places r q))];
    unfold apply, apply_row, real_transform; cbn [shelf_inverse shelf_forward row_x row_y row_z shift];
    rewrite !(fun a b c A B C => proj2 (row_real a b c A B C)) by lia; cbn [vx vy vz]; rsimp; unfold apart_at_most; cbn [vx vy vz];
    split; [|split| |split]; apply Rabs_le; lra.
Qed.

(** The points (9, 20.5, 30.5) and (9.75, 20.25, 30.125). *)
Definition shelf_point : vec ieee := @V ieee (b64_of_Z 9)
  (B754_finite 53 1024 false 5770237022568448 (-48) eq_refl) (B754_finite 53 1024 false 8584986789675008 (-48) eq_refl).
Definition shelf_spot : vec ieee := @V ieee (B754_finite 53 1024 false 5488762045857792 (-49) eq_refl)
  (B754_finite 53 1024 false 5699868278390784 (-48) eq_refl) (B754_finite 53 1024 false 8479433673408512 (-48) eq_refl).

Lemma shelf_point_real : real_vec shelf_point = @V reals 9 (41/2) (61/2).
Proof.
  unfold real_vec, shelf_point. cbn [vx vy vz]. f_equal.
  - apply (of_Z_exact 9). lia.
  - unfold real64, B2R, F2R. cbn. lra.
  - unfold real64, B2R, F2R. cbn. lra.
Qed.

Lemma shelf_spot_real : real_vec shelf_spot = @V reals (39/4) (81/4) (241/8).
Proof. unfold real_vec, shelf_spot. cbn [vx vy vz]. f_equal; unfold real64, B2R, F2R; cbn; lra. Qed.

Lemma shelf_point_within S : 32 <= S -> point_within S shelf_point /\ point_within S shelf_spot.
Proof.
  intros HS. split; (split; [repeat split|]).
  - rewrite shelf_point_real. unfold bounded_by. cbn [vx vy vz]. rewrite !Rabs_pos_eq; lra.
  - rewrite shelf_spot_real. unfold bounded_by. cbn [vx vy vz]. rewrite !Rabs_pos_eq; lra.
Qed.

Lemma shelf_point_grid r : to_grid (shelf r) (real_vec shelf_point) = real_vec edge_point.
Proof. rewrite (proj1 (shelf_places _ _)), shelf_point_real, edge_real. cbn [vx vy vz]. f_equal; lra. Qed.

Lemma shelf_spot_grid r : to_grid (shelf r) (real_vec shelf_spot) = @V reals (1/4) (1/4) (1/8).
Proof. rewrite (proj1 (shelf_places _ _)), shelf_spot_real. cbn [vx vy vz]. f_equal; lra. Qed.

(** The quaternion of a rotation matrix, in exact arithmetic. *)
From Coq Require Import Reals Lra Lia Psatz.
From Verif Require Import Base BaseFacts Floats Grid GridFacts Arith SdfQuery SdfField QuerySpec QueryReal QueryThms QueryTurn
  DoubleSpec IdealSpec WallSpec Frame FrameSpec Origin OriginSpec.
Open Scope R_scope.

Definition sign_of (k : R) : R := if Rlt_dec k 0 then - (1) else 1.

Lemma sign_two k : sign_of k = 1 \/ sign_of k = - (1).
Proof. unfold sign_of. destruct (Rlt_dec k 0); auto. Qed.

Lemma root_of_square k s : s = 4 * (k * k) -> sqrt s = 2 * (sign_of k * k).
Proof.
  intros ->. unfold sign_of. destruct (Rlt_dec k 0).
  - replace (4 * (k * k)) with ((2 * (- (1) * k)) * (2 * (- (1) * k))) by ring. apply sqrt_square. lra.
  - replace (4 * (k * k)) with ((2 * (1 * k)) * (2 * (1 * k))) by ring. apply sqrt_square. lra.
Qed.

Lemma half_exact k s : s = 4 * (k * k) -> @half_root reals s = sign_of k * k.
Proof. intros E. unfold half_root, lit. rsimp. rewrite (root_of_square k s E). field. Qed.

Lemma other_exact k y s x : s = 4 * (k * k) -> k <> 0 -> x = 4 * (k * y) -> x * @half_over_root reals s = sign_of k * y.
Proof.
  intros E N ->. unfold half_over_root, lit. rsimp. rewrite (root_of_square k s E).
  unfold sign_of. destruct (Rlt_dec k 0); field; lra.
Qed.

(** The matrix of the rotation by [(w, u)]. *)
Definition matrix_of (w : R) (u t : rvec) : transform reals :=
  let x := turn w u (@V reals 1 0 0) in let y := turn w u (@V reals 0 1 0) in let z := turn w u (@V reals 0 0 1) in
  Transform (@V reals (vx x) (vx y) (vx z)) (@V reals (vy x) (vy y) (vy z)) (@V reals (vz x) (vz y) (vz z)) t.

Ltac next_test L :=
  match goal with |- context [Rlt_dec ?x ?y] =>
    lazymatch x with context [Rlt_dec _ _] => fail | _ => idtac end; destruct (Rlt_dec x y) as [L|L]; cbv iota
  end.

Lemma quat_exact w u t : w * w + length_squared u = 1 ->
  exists k, (k = 1 \/ k = - (1)) /\ quat_of (matrix_of w u t) = @Q reals (k * w) (@V reals (k * vx u) (k * vy u) (k * vz u)).
Proof.
  intros H. unfold length_squared in H. destruct u as [a b c]. cbn [vx vy vz] in *. revert H. rsimp. intros H.
  unfold quat_of, matrix_of, turn. cbn [row_x row_y row_z vx vy vz]. rsimp.
  assert (Sq : 0 <= w * w /\ 0 <= a * a /\ 0 <= b * b /\ 0 <= c * c) by (repeat split; apply Rle_0_sqr).
  match goal with |- context [Rlt_dec 0 ?x] => destruct (Rlt_dec 0 x) as [L|L]; cbv iota end.
  - assert (N : w <> 0) by (intros ->; lra). exists (sign_of w). split; [apply sign_two|].
    f_equal; [apply half_exact; lra|]. f_equal; apply other_exact; auto; lra.
  - next_test L1.
    + next_test L2.
      * assert (N : c <> 0) by (intros ->; lra). exists (sign_of c). split; [apply sign_two|].
        f_equal; [apply other_exact; auto; lra|]. f_equal; [apply other_exact; auto; lra|apply other_exact; auto; lra|apply half_exact; lra].
      * assert (N : b <> 0) by (intros ->; lra). exists (sign_of b). split; [apply sign_two|].
        f_equal; [apply other_exact; auto; lra|]. f_equal; [apply other_exact; auto; lra|apply half_exact; lra|apply other_exact; auto; lra].
    + next_test L2.
      * assert (N : c <> 0) by (intros ->; lra). exists (sign_of c). split; [apply sign_two|].
        f_equal; [apply other_exact; auto; lra|]. f_equal; [apply other_exact; auto; lra|apply other_exact; auto; lra|apply half_exact; lra].
      * assert (N : a <> 0) by (intros ->; lra). exists (sign_of a). split; [apply sign_two|].
        f_equal; [apply other_exact; auto; lra|]. f_equal; [apply half_exact; lra|apply other_exact; auto; lra|apply other_exact; auto; lra].
Qed.

Lemma turn_sign k w (u q : rvec) : k = 1 \/ k = - (1) -> turn (k * w) (@V reals (k * vx u) (k * vy u) (k * vz u)) q = turn w u q.
Proof.
  intros H. destruct u as [a b c], q as [x y z]. unfold turn. cbn [vx vy vz]. rsimp. destruct H as [->| ->]; f_equal; asR; ring.
Qed.

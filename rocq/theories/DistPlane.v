(** In a grid one cell thick no accepted entry is lost: the chains of two
    obstacles cannot cross. *)
From Verif Require Import Base BaseFacts Grid GridFacts DistModel DistSpec DistProofs DistTrace
  DistChain.

(** ** Crossing chains, in plane coordinates *)
Section Cross.
  (** One obstacle is at the origin, the other at (a, -c).  [P] and [Q] are the
      cells their chains reached; the other predicates say that the step right,
      up or left from a cell was accepted. *)
  Variables (a c : Z) (P Q PR PU QR QU QL : Z -> Z -> Prop).
  Hypothesis Ha : 1 <= a.
  Hypothesis Hc : 1 <= c.

  (** Squared distance to the second obstacle minus that to the first. *)
  Definition gap (x y : Z) : Z := a * a + c * c - 2 * a * x + 2 * c * y.

  Hypothesis HP : forall x y, P x y -> 2 <= x -> 0 <= y ->
    (P (x - 1) y /\ PR (x - 1) y) \/ (1 <= y /\ P x (y - 1) /\ PU x (y - 1)).
  Hypothesis HQ : forall x y, Q x y -> a <= x -> 1 <= y ->
    (a + 1 <= x /\ Q (x - 1) y /\ QR (x - 1) y) \/ (Q x (y - 1) /\ QU x (y - 1)).
  Hypothesis HQ' : forall x y, Q x y -> x < a -> 0 <= y -> 2 <= y + c \/ 2 <= a - x ->
    (Q (x + 1) y /\ QL (x + 1) y) \/ (Q x (y - 1) /\ QU x (y - 1)).
  Hypothesis M0 : forall x y, P x y -> Q x y -> gap x y <> 0.
  Hypothesis MR : forall x y, PR x y -> Q x y -> gap x y < 0 -> 0 < gap (x + 1) y.
  Hypothesis MU : forall x y, PU x y -> Q x y -> gap x y < 0 -> 0 < gap x (y + 1).
  Hypothesis MQ : forall x y, P x y -> QU x y -> 0 < gap x y -> gap x (y + 1) < 0.

  (** The first chain cannot turn right where the second one is not behind. *)
  Lemma no_right x y : P x y -> PR x y -> Q x y -> gap x y <= 0 -> False.
  Proof.
    intros H1 H2 H3 H4. pose proof (M0 x y H1 H3) as H5.
    pose proof (MR x y H2 H3 ltac:(lia)) as H6. unfold gap in *. nia.
  Qed.

  Lemma cross_right n : forall x y x' y', Z.to_nat (x + y) = n ->
    P x y -> Q x' y' -> x + y = x' + y' -> a <= x' < x -> 0 <= y -> False.
  Proof.
    induction n as [n IH] using lt_wf_ind. intros x y x' y' En Hp Hq El Hx Hy.
    destruct (HP x y Hp) as [(Hp1 & Hr)|(Hy1 & Hp1 & Hu)]; try lia;
    destruct (HQ x' y' Hq) as [(Hx1 & Hq1 & Hqr)|(Hq1 & Hqu)]; try lia.
    - apply (IH (Z.to_nat (x - 1 + y))) with (x - 1) y (x' - 1) y'; auto; lia.
    - destruct (Z.eq_dec (x - 1) x') as [E|E].
      + assert (Ey : y' - 1 = y) by lia. rewrite Ey in *. rewrite <- E in *.
        destruct (Z_le_dec (gap (x - 1) y) 0) as [G|G].
        * apply (no_right (x - 1) y); auto.
        * pose proof (MQ (x - 1) y Hp1 Hqu ltac:(lia)) as G2. unfold gap in *. nia.
      + apply (IH (Z.to_nat (x - 1 + y))) with (x - 1) y x' (y' - 1); auto; lia.
    - apply (IH (Z.to_nat (x + (y - 1)))) with x (y - 1) (x' - 1) y'; auto; lia.
    - apply (IH (Z.to_nat (x + (y - 1)))) with x (y - 1) x' (y' - 1); auto; lia.
  Qed.

  Lemma cross_left A B : 2 <= A -> A <= a -> gap (A - 1) (B - 1) <= 0 ->
    forall n r, Z.to_nat r = n -> 0 <= r <= B - 1 ->
    P A r -> PU A r -> Q (A - 1) r -> False.
  Proof.
    intros HA Haa HG. induction n as [n IH] using lt_wf_ind. intros r En Hr Hp Hu Hq.
    assert (Hqr : ~ Q A r).
    { intros HqA.
      assert (G0 : 0 <= c * (B - 1 - r)) by (apply Z.mul_nonneg_nonneg; lia).
      assert (G1 : gap A r < 0) by (unfold gap in *; lia).
      pose proof (MU A r Hu HqA G1) as G2. unfold gap in *.
      assert (G3 : a < c) by lia.
      assert (G4 : a * (A - 1) <= a * (a - 1)) by (apply Z.mul_le_mono_nonneg_l; lia).
      assert (G5 : 0 <= c * (B - 1)) by (apply Z.mul_nonneg_nonneg; lia).
      assert (G6 : a * a < c * c) by (apply Z.mul_lt_mono_nonneg; lia). lia. }
    assert (Hq' : (r = 0) \/ Q (A - 1) (r - 1)).
    { destruct (Z.eq_dec r 0) as [E|E]; auto. right.
      destruct (HQ' (A - 1) r Hq) as [(Hq1 & _)|(Hq1 & _)]; try lia; auto.
      exfalso. apply Hqr. replace A with (A - 1 + 1) by lia. auto. }
    destruct (HP A r Hp) as [(Hp1 & Hpr)|(Hr1 & Hp1 & Hpu)]; try lia.
    - apply (no_right (A - 1) r); auto.
      assert (G0 : 0 <= c * (B - 1 - r)) by (apply Z.mul_nonneg_nonneg; lia).
      unfold gap in *. lia.
    - destruct Hq' as [E|Hq']; [lia|].
      apply (IH (Z.to_nat (r - 1))) with (r - 1); auto; lia.
  Qed.

  Lemma no_cross A B : 2 <= A -> 1 <= B -> gap (A - 1) (B - 1) <= 0 ->
    P A (B - 1) -> PU A (B - 1) -> Q (A - 1) (B - 1) -> False.
  Proof.
    intros HA HB HG Hp Hu Hq. destruct (Z_le_dec A a) as [Haa|Haa].
    - apply (cross_left A B HA Haa HG (Z.to_nat (B - 1)) (B - 1)); auto. lia.
    - destruct (HP A (B - 1) Hp) as [(Hp1 & Hpr)|(Hy1 & Hp1 & Hpu)]; try lia.
      + apply (no_right (A - 1) (B - 1)); auto.
      + apply (cross_right (Z.to_nat (A + (B - 1 - 1))) A (B - 1 - 1) (A - 1) (B - 1)); auto; lia.
  Qed.
End Cross.

(** ** Coordinates in a flat grid *)

(** One of the dimensions is a single cell. *)

Definition dot3 (t u : Z * Z * Z) : Z :=
  let '(a, b, c) := t in let '(x, y, z) := u in a * x + b * y + c * z.

Definition neg3 (t : Z * Z * Z) : Z * Z * Z := let '(a, b, c) := t in (- a, - b, - c).

Section Coordinates.
  Variable d : dims.
  Hypothesis Hflat : flat d.
  Variables (u v : Z * Z * Z) (o : idx).
  Hypothesis Hu : axis u.
  Hypothesis Hv : axis v.
  Hypothesis Huv : dot3 u v = 0.
  (** Both directions lie in the plane of the grid. *)
  Definition inplane (t : Z * Z * Z) : Prop :=
    let '(a, b, c) := t in
    (nx d <= 1 -> a = 0) /\ (ny d <= 1 -> b = 0) /\ (nz d <= 1 -> c = 0).
  Hypothesis Pu : inplane u.
  Hypothesis Pv : inplane v.

  Definition X (z : idx) : Z := dot u z o.
  Definition Y (z : idx) : Z := dot v z o.

  Lemma axis_cases t : axis t ->
    t = (1, 0, 0) \/ t = (-1, 0, 0) \/ t = (0, 1, 0) \/ t = (0, -1, 0) \/
    t = (0, 0, 1) \/ t = (0, 0, -1).
  Proof.
    destruct t as [[a b] c]. unfold axis. intros (Ha & Hb & Hc & Hs).
    assert (a = -1 \/ a = 0 \/ a = 1) as [->|[->| ->]] by lia;
    assert (b = -1 \/ b = 0 \/ b = 1) as [->|[->| ->]] by lia;
    assert (c = -1 \/ c = 0 \/ c = 1) as [->|[->| ->]] by lia; cbn in Hs; try lia; auto 7.
  Qed.

  Lemma coords_dist z z' : in_bounds d z = true -> in_bounds d z' = true ->
    distsq z z' = (X z - X z') * (X z - X z') + (Y z - Y z') * (Y z - Y z').
  Proof.
    intros Bz Bz'. apply in_bounds_spec in Bz. apply in_bounds_spec in Bz'.
    unfold X, Y, distsq. unfold inplane in *. unfold flat in Hflat.
    destruct (axis_cases u Hu) as [E|[E|[E|[E|[E|E]]]]]; rewrite E in *;
    destruct (axis_cases v Hv) as [E'|[E'|[E'|[E'|[E'|E']]]]]; rewrite E' in *;
      unfold dot3 in Huv; try (exfalso; lia); unfold dot.
    all: assert (Hz : ix z = ix z' \/ iy z = iy z' \/ iz z = iz z') by lia.
    all: first [assert (Hw : ix z = ix z') by lia | assert (Hw : iy z = iy z') by lia
               | assert (Hw : iz z = iz z') by lia]; rewrite Hw; ring.
  Qed.

  Lemma coords_eq z z' : in_bounds d z = true -> in_bounds d z' = true ->
    X z = X z' -> Y z = Y z' -> z = z'.
  Proof.
    intros Bz Bz' Ex Ey. apply distsq_zero. rewrite coords_dist, Ex, Ey by auto. ring.
  Qed.

  Lemma coords_step z t : in_bounds d z = true -> in_bounds d (add z t) = true -> axis t ->
    (X (add z t) = X z + 1 /\ Y (add z t) = Y z) \/ (X (add z t) = X z - 1 /\ Y (add z t) = Y z) \/
    (X (add z t) = X z /\ Y (add z t) = Y z + 1) \/ (X (add z t) = X z /\ Y (add z t) = Y z - 1).
  Proof.
    intros Bz Bt Ht. apply in_bounds_spec in Bz. apply in_bounds_spec in Bt.
    unfold X, Y. unfold inplane in *. unfold flat in Hflat.
    destruct (axis_cases u Hu) as [E|[E|[E|[E|[E|E]]]]]; rewrite E in *;
    destruct (axis_cases v Hv) as [E'|[E'|[E'|[E'|[E'|E']]]]]; rewrite E' in *;
      unfold dot3 in Huv; try (exfalso; lia);
    destruct (axis_cases t Ht) as [E''|[E''|[E''|[E''|[E''|E'']]]]]; rewrite E'' in *;
      unfold add, dot in *; cbn [ix iy iz] in *; lia.
  Qed.

  (** A neighbour by face, edge or corner is within one in both coordinates. *)
  Lemma coords_near z r : In r dirs3 ->
    Z.abs (X (add z r) - X z) <= 1 /\ Z.abs (Y (add z r) - Y z) <= 1.
  Proof.
    intros Hr. destruct r as [[a b] c]. apply dirs3_in in Hr. unfold X, Y.
    destruct (axis_cases u Hu) as [E|[E|[E|[E|[E|E]]]]]; rewrite E in *;
    destruct (axis_cases v Hv) as [E'|[E'|[E'|[E'|[E'|E']]]]]; rewrite E' in *;
      unfold add, dot in *; cbn [ix iy iz] in *; lia.
  Qed.

  Lemma coords_zero : X o = 0 /\ Y o = 0.
  Proof. unfold X, Y. rewrite !dot_self. auto. Qed.
End Coordinates.

Lemma inplane_step d z t : in_bounds d z = true -> in_bounds d (add z t) = true -> inplane d t.
Proof.
  intros Bz Bt. apply in_bounds_spec in Bz. apply in_bounds_spec in Bt.
  destruct t as [[a b] c]. unfold inplane, add in *. cbn [ix iy iz] in *. lia.
Qed.

Lemma inplane_neg d t : inplane d t -> inplane d (neg3 t).
Proof. destruct t as [[a b] c]. unfold inplane, neg3. lia. Qed.

Lemma axis_neg t : axis t -> axis (neg3 t).
Proof. destruct t as [[a b] c]. unfold axis, neg3. lia. Qed.

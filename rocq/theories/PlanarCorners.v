(** Counting the corners of a region of a rectangular grid. *)
From Coq Require Import Permutation Lia FinFun.
From Verif Require Import Base BaseFacts Grid GridFacts SurfaceSpec VertexProofs EulerGraph EulerGrid PlanarRegion.

(** ** Sums over rows and columns *)
Definition rsum (f : Z -> Z) (l : list Z) : Z := fold_right (fun a s => f a + s) 0 l.
Definition bsum (f : point -> Z) (w h : Z) : Z := rsum (fun x => rsum (fun y => f (x, y)) (zrange h)) (zrange w).

Lemma rsum_ext f g l : (forall a, f a = g a) -> rsum f l = rsum g l.
Proof. intros K. induction l as [|a l IH]; auto. cbn [rsum fold_right]. fold (rsum f l) (rsum g l). rewrite IH, K. auto. Qed.
Lemma rsum_lin a f g l : rsum (fun x => f x + a * g x) l = rsum f l + a * rsum g l.
Proof.
  induction l as [|b l IH]; [cbn; lia|]. cbn [rsum fold_right].
  fold (rsum f l) (rsum g l) (rsum (fun x => f x + a * g x) l). rewrite IH. ring.
Qed.
Lemma rsum_app f l m : rsum f (l ++ m) = rsum f l + rsum f m.
Proof. induction l as [|a l IH]; [reflexivity|]. cbn [app rsum fold_right]. fold (rsum f (l ++ m)) (rsum f l). lia. Qed.
Lemma zrange_last n : 0 <= n -> zrange (n + 1) = zrange n ++ [n].
Proof.
  intros Hn. unfold zrange. replace (Z.to_nat (n + 1)) with (Z.to_nat n + 1)%nat by lia.
  rewrite seq_app, map_app. cbn [seq map Nat.add]. do 2 f_equal. lia.
Qed.
Lemma zrange_first n : 0 <= n -> zrange (n + 1) = 0 :: map (fun x => x + 1) (zrange n).
Proof.
  intros Hn. unfold zrange. replace (Z.to_nat (n + 1)) with (S (Z.to_nat n)) by lia. cbn [seq map]. f_equal.
  rewrite <- seq_shift, !map_map. apply map_ext. intros a. lia.
Qed.
Lemma rsum_last f n : 0 <= n -> f n = 0 -> rsum f (zrange (n + 1)) = rsum f (zrange n).
Proof. intros Hn E. rewrite zrange_last, rsum_app by auto. cbn [rsum fold_right]. lia. Qed.
Lemma rsum_shift f n : 0 <= n -> f (-1) = 0 -> rsum (fun x => f (x - 1)) (zrange (n + 1)) = rsum f (zrange n).
Proof.
  intros Hn E. rewrite zrange_first by auto. cbn [rsum fold_right]. change (0 - 1) with (-1). rewrite E.
  rewrite Z.add_0_l. induction (zrange n) as [|a l IH]; auto. cbn [map fold_right].
  rewrite IH. replace (a + 1 - 1) with a by lia. reflexivity.
Qed.
Lemma rsum_zero f l : (forall a, f a = 0) -> rsum f l = 0.
Proof. intros K. induction l as [|a l IH]; auto. cbn [rsum fold_right]. fold (rsum f l). rewrite IH, K. auto. Qed.

Lemma bsum_ext f g w h : (forall x y, f (x, y) = g (x, y)) -> bsum f w h = bsum g w h.
Proof. intros K. apply rsum_ext. intros x. apply rsum_ext. intros y. apply K. Qed.
Lemma bsum_lin a f g w h : bsum (fun v => f v + a * g v) w h = bsum f w h + a * bsum g w h.
Proof. unfold bsum. rewrite <- rsum_lin. apply rsum_ext. intros x. apply rsum_lin. Qed.
Lemma bsum_wide f w h : 0 <= w -> (forall y, f (w, y) = 0) -> bsum f (w + 1) h = bsum f w h.
Proof. intros Hw K. apply rsum_last; auto. apply rsum_zero. auto. Qed.
Lemma bsum_tall f w h : 0 <= h -> (forall x, f (x, h) = 0) -> bsum f w (h + 1) = bsum f w h.
Proof. intros Hw K. apply rsum_ext. intros x. apply rsum_last; auto. Qed.
Lemma bsum_shift_x f w h : 0 <= w -> (forall y, f (-1, y) = 0) ->
  bsum (fun v => f (fst v - 1, snd v)) (w + 1) h = bsum f w h.
Proof.
  intros Hw K. unfold bsum. cbn [fst snd].
  apply (rsum_shift (fun x => rsum (fun y => f (x, y)) (zrange h))); auto. apply rsum_zero. auto.
Qed.
Lemma bsum_shift_y f w h : 0 <= h -> (forall x, f (x, -1) = 0) ->
  bsum (fun v => f (fst v, snd v - 1)) w (h + 1) = bsum f w h.
Proof. intros Hw K. apply rsum_ext. intros x. cbn [fst snd]. apply (rsum_shift (fun y => f (x, y))); auto. Qed.

Lemma filter_bsum p w h : Z.of_nat (length (filter p (box w h))) = bsum (fun v => Z.b2z (p v)) w h.
Proof.
  assert (C : forall x m, Z.of_nat (length (filter p (map (fun y => (x, y)) m))) = rsum (fun y => Z.b2z (p (x, y))) m).
  { intros x. induction m as [|y m IH]; auto. cbn [map filter rsum fold_right].
    fold (rsum (fun y => Z.b2z (p (x, y))) m). rewrite <- IH. destruct (p (x, y)); cbn [length Z.b2z]; lia. }
  assert (G : forall l, Z.of_nat (length (filter p (flat_map (fun x => map (fun y => (x, y)) (zrange h)) l))) =
                        rsum (fun x => rsum (fun y => Z.b2z (p (x, y))) (zrange h)) l).
  { induction l as [|x l IH]; auto. cbn [flat_map rsum fold_right].
    fold (rsum (fun x => rsum (fun y => Z.b2z (p (x, y))) (zrange h)) l).
    rewrite filter_app, app_length, Nat2Z.inj_add, C. f_equal. exact IH. }
  apply G.
Qed.

(** ** Corners by the cells around them *)
Section Corners.
  Variables W H : Z.
  Variable R : point -> bool.
  Hypothesis RB : forall x y, R (x, y) = true -> 0 <= x < W /\ 0 <= y < H.

  Definition around (v : point) : Z :=
    let (x, y) := v in Z.b2z (R (x - 1, y - 1)) + Z.b2z (R (x - 1, y)) + Z.b2z (R (x, y - 1)) + Z.b2z (R (x, y)).
  Definition convex (v : point) : bool := around v =? 1.
  Definition concave (v : point) : bool := around v =? 3.
  Definition pinched (v : point) : bool :=
    let (x, y) := v in
    (around v =? 2) && eqb (R (x - 1, y - 1)) (R (x, y)).

  Lemma R_out x y : x < 0 \/ W <= x \/ y < 0 \/ H <= y -> R (x, y) = false.
  Proof. intros K. apply not_true_iff_false. intros Q. apply RB in Q. lia. Qed.

  Lemma corner_sum : 1 <= W -> 1 <= H ->
    4 * (Z.of_nat (length (filter (touched R) (corners W H))) -
         Z.of_nat (length (filter (walls R) (sides W H))) +
         Z.of_nat (length (filter R (box W H)))) =
    Z.of_nat (length (filter convex (corners W H))) - Z.of_nat (length (filter concave (corners W H)))
    - 2 * Z.of_nat (length (filter pinched (corners W H))).
  Proof.
    intros HW HH.
    set (b := fun p => Z.b2z (R p)).
    set (hA := fun v : point => Z.b2z (R (fst v, snd v - 1) || R v)).
    set (vA := fun v : point => Z.b2z (R (fst v - 1, snd v) || R v)).
    assert (LA : Z.of_nat (length (filter (walls R) (sides W H))) = bsum hA W (H + 1) + bsum vA (W + 1) H).
    { unfold sides. rewrite filter_app, app_length, Nat2Z.inj_add. f_equal.
      - rewrite <- (bsum_ext (fun v => Z.b2z (walls R (hside W H v)))).
        + rewrite <- filter_bsum. f_equal. generalize (box W (H + 1)) as l. induction l as [|a l IH]; auto.
          cbn [map filter]. destruct (walls R (hside W H a)); cbn [length]; lia.
        + intros x y. rewrite (h_walls W H R RB). reflexivity.
      - rewrite <- (bsum_ext (fun v => Z.b2z (walls R (vside W H v)))).
        + rewrite <- filter_bsum. f_equal. generalize (box (W + 1) H) as l. induction l as [|a l IH]; auto.
          cbn [map filter]. destruct (walls R (vside W H a)); cbn [length]; lia.
        + intros x y. rewrite (v_walls W H R RB). reflexivity. }
    rewrite LA. unfold corners. rewrite !filter_bsum. fold b.
    assert (H1 : bsum hA (W + 1) (H + 1) = bsum hA W (H + 1)).
    { apply bsum_wide; [lia|]. intros y. unfold hA. cbn [fst snd]. rewrite !R_out by lia. reflexivity. }
    assert (H2 : bsum (fun v => hA (fst v - 1, snd v)) (W + 1) (H + 1) = bsum hA W (H + 1)).
    { apply bsum_shift_x; [lia|]. intros y. unfold hA. cbn [fst snd]. rewrite !R_out by lia. reflexivity. }
    assert (V1 : bsum vA (W + 1) (H + 1) = bsum vA (W + 1) H).
    { apply bsum_tall; [lia|]. intros x. unfold vA. cbn [fst snd]. rewrite !R_out by lia. reflexivity. }
    assert (V2 : bsum (fun v => vA (fst v, snd v - 1)) (W + 1) (H + 1) = bsum vA (W + 1) H).
    { apply bsum_shift_y; [lia|]. intros x. unfold vA. cbn [fst snd]. rewrite !R_out by lia. reflexivity. }
    assert (R1 : bsum b (W + 1) (H + 1) = bsum b W H).
    { rewrite bsum_wide, bsum_tall; auto; try lia; intros; unfold b; rewrite R_out by lia; reflexivity. }
    assert (R2 : bsum (fun v => b (fst v - 1, snd v)) (W + 1) (H + 1) = bsum b W H).
    { rewrite bsum_shift_x, bsum_tall; auto; try lia; intros; unfold b; rewrite R_out by lia; reflexivity. }
    assert (R3 : bsum (fun v => b (fst v, snd v - 1)) (W + 1) (H + 1) = bsum b W H).
    { rewrite bsum_shift_y, bsum_wide; auto; try lia; intros; unfold b; rewrite R_out by lia; reflexivity. }
    assert (R4 : bsum (fun v => b (fst v - 1, snd v - 1)) (W + 1) (H + 1) = bsum b W H).
    { rewrite (bsum_shift_x (fun v => b (fst v, snd v - 1))), bsum_shift_y; auto; try lia;
        intros; unfold b; cbn [fst snd]; rewrite R_out by lia; reflexivity. }
    pose proof (bsum_lin (-2) (fun v => Z.b2z (convex v) + (-1) * Z.b2z (concave v)) (fun v => Z.b2z (pinched v)) (W + 1) (H + 1)) as L.
    rewrite (bsum_lin (-1)) in L.
    rewrite (bsum_ext _ (fun v => ((((((((fun v => 0) v + 4 * Z.b2z (touched R v)) + -2 * hA v) + -2 * (fun v => hA (fst v - 1, snd v)) v)
      + -2 * vA v) + -2 * (fun v => vA (fst v, snd v - 1)) v) + 1 * b v) + 1 * (fun v => b (fst v - 1, snd v)) v)
      + 1 * (fun v => b (fst v, snd v - 1)) v + 1 * (fun v => b (fst v - 1, snd v - 1)) v)) in L.
    2:{ intros x y. unfold hA, vA, b, convex, concave, pinched, around, touched. cbn [fst snd].
        destruct (R (x - 1, y - 1)), (R (x - 1, y)), (R (x, y - 1)), (R (x, y)); reflexivity. }
    rewrite !bsum_lin in L. rewrite H1, H2, V1, V2, R1, R2, R3, R4 in L.
    assert (Z0 : bsum (fun _ => 0) (W + 1) (H + 1) = 0) by (apply rsum_zero; intros; apply rsum_zero; auto).
    rewrite Z0 in L. lia.
  Qed.
End Corners.

(** A connected region of a rectangular grid: corners, sides, squares and the
    regions it encloses. *)
From Coq Require Import Permutation Lia FinFun.
From Verif Require Import Base BaseFacts Grid GridFacts SurfaceSpec VertexProofs EulerGraph EulerGrid.

Lemma filter_split {A} (p : A -> bool) l : Permutation l (filter p l ++ filter (fun a => negb (p a)) l).
Proof.
  induction l as [|a l IH]; auto. cbn [filter]. destruct (p a); cbn [negb app].
  - constructor. exact IH.
  - apply Permutation_cons_app. exact IH.
Qed.
Lemma filter_count {A} (p : A -> bool) l :
  (length l = length (filter p l) + length (filter (fun a => negb (p a)) l))%nat.
Proof. rewrite (Permutation_length (filter_split p l)) at 1. apply app_length. Qed.

Definition adj (p q : point) : Prop := Z.abs (fst p - fst q) + Z.abs (snd p - snd q) = 1.
Lemma adj_four x y q : adj (x, y) q <-> q = (x - 1, y) \/ q = (x + 1, y) \/ q = (x, y - 1) \/ q = (x, y + 1).
Proof.
  unfold adj. destruct q as [a b]. cbn [fst snd]. split.
  - intros K. assert (a = x - 1 /\ b = y \/ a = x + 1 /\ b = y \/ a = x /\ b = y - 1 \/ a = x /\ b = y + 1) as
      [(-> & ->)|[(-> & ->)|[(-> & ->)|(-> & ->)]]] by lia; auto.
  - intros [K|[K|[K|K]]]; injection K as -> ->; lia.
Qed.

Section Region.
  Variables W H : Z.
  Variable R : point -> bool.
  Hypothesis RB : forall x y, R (x, y) = true -> 0 <= x < W /\ 0 <= y < H.

  Notation sides := (sides W H). Notation square := (square W H). Notation squares := (squares W H).
  Notation corners := (corners W H). Notation hside := (hside W H). Notation vside := (vside W H).

  Definition inside (f : option point) : bool := match f with Some p => R p | None => false end.
  Lemma inside_square x y : inside (square x y) = R (x, y).
  Proof.
    unfold EulerGrid.square. destruct ((0 <=? x) && (x <? W) && (0 <=? y) && (y <? H)) eqn:Q; auto.
    cbn [inside]. symmetry. apply not_true_iff_false. intros K. apply RB in K. lia.
  Qed.
  Definition walls (e : edge point (option point)) : bool := inside (left e) || inside (right e).
  Let A := filter walls sides.
  Let B := filter (fun e => negb (walls e)) sides.

  Definition touched (v : point) : bool :=
    let (x, y) := v in R (x - 1, y - 1) || R (x - 1, y) || R (x, y - 1) || R (x, y).

  (** ** The corners of the region are joined *)
  Lemma h_walls x y : walls (hside (x, y)) = R (x, y - 1) || R (x, y).
  Proof. unfold walls. cbn [EulerGrid.hside left right]. rewrite !inside_square. reflexivity. Qed.
  Lemma v_walls x y : walls (vside (x, y)) = R (x - 1, y) || R (x, y).
  Proof. unfold walls. cbn [EulerGrid.vside left right]. rewrite !inside_square. reflexivity. Qed.

  Lemma in_A e : In e A <-> In e sides /\ walls e = true.
  Proof. apply filter_In. Qed.
  Lemma in_B e : In e B <-> In e sides /\ walls e = false.
  Proof. unfold B. rewrite filter_In. destruct (walls e); cbn [negb]; intuition congruence. Qed.

  Hypothesis RJ : forall p q, R p = true -> R q = true ->
    reaches (fun a b => R a = true /\ R b = true /\ adj a b) p q.
  Variable p0 : point.
  Hypothesis R0 : R p0 = true.

  Let HW : 1 <= W.
  Proof. destruct p0 as [x y]. apply RB in R0. lia. Qed.
  Let HH : 1 <= H.
  Proof. destruct p0 as [x y]. apply RB in R0. lia. Qed.

  Lemma cell_h x y b : R (x, y) = true -> b = 0 \/ b = 1 -> joins (primal A) (x, y + b) (x + 1, y + b).
  Proof.
    intros K Hb. pose proof (RB _ _ K) as In. left. apply in_map_iff. exists (hside (x, y + b)). split; auto.
    apply in_A. split; [apply sides_in; left; exists x, (y + b); repeat split; auto; lia|].
    rewrite h_walls. destruct Hb as [->| ->].
    - rewrite Z.add_0_r, K. apply orb_true_r.
    - replace (y + 1 - 1) with y by lia. rewrite K. reflexivity.
  Qed.
  Lemma cell_v x y a : R (x, y) = true -> a = 0 \/ a = 1 -> joins (primal A) (x + a, y) (x + a, y + 1).
  Proof.
    intros K Ha. pose proof (RB _ _ K) as In. left. apply in_map_iff. exists (vside (x + a, y)). split; auto.
    apply in_A. split; [apply sides_in; right; exists (x + a), y; repeat split; auto; lia|].
    rewrite v_walls. destruct Ha as [->| ->].
    - rewrite Z.add_0_r, K. apply orb_true_r.
    - replace (x + 1 - 1) with x by lia. rewrite K. reflexivity.
  Qed.

  Lemma cell_reach p : R p = true -> reaches (joins (primal A)) p0 p.
  Proof.
    assert (G : forall s, reaches (fun a b => R a = true /\ R b = true /\ adj a b) s p -> reaches (joins (primal A)) s p);
      [|intros K; apply G, RJ; auto].
    intros s P. induction P as [|p q r P IH (Hq & Hr & F)]; [constructor|]. eapply reaches_trans; [exact IH|].
    destruct q as [x y]. apply adj_four in F as [->|[->|[->| ->]]].
    - apply joins_back, reaches_one. pose proof (cell_h (x - 1) y 0 Hr) as S. rewrite Z.add_0_r in S.
      replace (x - 1 + 1) with x in S by lia. auto.
    - apply reaches_one. pose proof (cell_h x y 0 Hq) as S. rewrite Z.add_0_r in S. auto.
    - apply joins_back, reaches_one. pose proof (cell_v x (y - 1) 0 Hr) as S. rewrite Z.add_0_r in S.
      replace (y - 1 + 1) with y in S by lia. auto.
    - apply reaches_one. pose proof (cell_v x y 0 Hq) as S. rewrite Z.add_0_r in S. auto.
  Qed.

  Lemma touched_reach v : touched v = true -> reaches (joins (primal A)) p0 v.
  Proof.
    destruct v as [x y]. unfold touched. rewrite !orb_true_iff. intros [[[K|K]|K]|K].
    - eapply reaches_trans; [apply cell_reach; exact K|]. eapply reaches_trans; [|apply reaches_one].
      + apply reaches_one. pose proof (cell_h (x - 1) (y - 1) 0 K) as S. rewrite Z.add_0_r in S. apply S. auto.
      + pose proof (cell_v (x - 1) (y - 1) 1 K) as S. replace (x - 1 + 1) with x in * by lia.
        replace (y - 1 + 1) with y in S by lia. auto.
    - eapply reaches_trans; [apply cell_reach; exact K|]. apply reaches_one.
      pose proof (cell_h (x - 1) y 0 K) as S. rewrite Z.add_0_r in S. replace (x - 1 + 1) with x in S by lia. auto.
    - eapply reaches_trans; [apply cell_reach; exact K|]. apply reaches_one.
      pose proof (cell_v x (y - 1) 0 K) as S. rewrite Z.add_0_r in S. replace (y - 1 + 1) with y in S by lia. auto.
    - apply cell_reach; auto.
  Qed.

  Lemma wall_touches u v : joins (primal A) u v -> touched u = true /\ touched v = true.
  Proof.
    assert (K : forall u v, In (u, v) (primal A) -> touched u = true /\ touched v = true).
    { clear u v. intros u v K. apply in_map_iff in K as (e & Q & K). injection Q as <- <-.
      apply in_A in K as (K & w). apply sides_in in K as [(x & y & _ & _ & ->)|(x & y & _ & _ & ->)].
      - rewrite h_walls in w. cbn [EulerGrid.hside tail head touched]. replace (x + 1 - 1) with x by lia.
        destruct (R (x, y - 1)); cbn [orb] in w.
        + rewrite !orb_true_r. cbn [orb]. auto.
        + rewrite w, !orb_true_r. cbn [orb]. auto.
      - rewrite v_walls in w. cbn [EulerGrid.vside tail head touched]. replace (y + 1 - 1) with y by lia.
        destruct (R (x - 1, y)); cbn [orb] in w.
        + rewrite !orb_true_r. cbn [orb]. auto.
        + rewrite w, !orb_true_r. cbn [orb]. auto. }
    intros [J|J]; apply K in J; tauto.
  Qed.

  Lemma untouched_alone u v : reaches (joins (primal A)) u v -> touched v = false -> u = v.
  Proof. intros P T. destruct P as [|u w v P L]; auto. apply wall_touches in L as (_ & L). congruence. Qed.

  Lemma touched_p0 : touched p0 = true.
  Proof. destruct p0 as [x y]. unfold touched. rewrite R0. apply orb_true_r. Qed.

  Lemma count_A : component_count corners (joins (primal A)) (S (length (filter (fun v => negb (touched v)) corners))).
  Proof.
    exists (p0 :: filter (fun v => negb (touched v)) corners). split; auto. split.
    { constructor; [|apply NoDup_filter, box_nodup]. rewrite filter_In, touched_p0. intros (_ & K). discriminate. }
    split.
    { intros v [<-|K]; [|apply filter_In in K; tauto]. destruct p0 as [x y]. apply box_in. apply RB in R0. lia. }
    intros v Hv. destruct (touched v) eqn:T.
    - exists p0. split; [split; [left; auto|apply touched_reach; auto]|]. intros r ([<-|K] & P); auto. exfalso.
      apply filter_In in K as (_ & K). apply joins_back in P. apply untouched_alone in P; [|destruct (touched r); auto; discriminate].
      subst r. rewrite T in K. discriminate.
    - exists v. split; [split; [right; apply filter_In; rewrite T; auto|constructor]|].
      intros r (_ & P). symmetry. apply untouched_alone; auto.
  Qed.

  (** ** The squares outside the region *)
  Definition hole (p : point) : Prop :=
    R p = false /\ In p (box W H) /\ ~ reaches (joins (dual B)) None (Some p).

  Lemma side_of p q : adj p q -> square (fst p) (snd p) <> square (fst q) (snd q) ->
    exists e, In e sides /\ (left e = square (fst p) (snd p) /\ right e = square (fst q) (snd q) \/
                             left e = square (fst q) (snd q) /\ right e = square (fst p) (snd p)).
  Proof.
    intros F N. destruct p as [x y].
    assert (D : (0 <= x < W /\ 0 <= y < H) \/ (0 <= fst q < W /\ 0 <= snd q < H)).
    { destruct (Z_le_dec 0 x), (Z_lt_dec x W), (Z_le_dec 0 y), (Z_lt_dec y H); auto; right;
        (destruct (Z_le_dec 0 (fst q)), (Z_lt_dec (fst q) W), (Z_le_dec 0 (snd q)), (Z_lt_dec (snd q) H); auto;
         exfalso; apply N; cbn [fst snd]; rewrite !square_out; auto; lia). }
    apply adj_four in F as [->|[->|[->| ->]]]; cbn [fst snd] in *.
    - exists (vside (x, y)). split; [apply sides_in; right; exists x, y; repeat split; auto; lia|]. right. auto.
    - exists (vside (x + 1, y)). split; [apply sides_in; right; exists (x + 1), y; repeat split; auto; lia|].
      left. cbn [EulerGrid.vside left right]. replace (x + 1 - 1) with x by lia. auto.
    - exists (hside (x, y)). split; [apply sides_in; left; exists x, y; repeat split; auto; lia|]. right. auto.
    - exists (hside (x, y + 1)). split; [apply sides_in; left; exists x, (y + 1); repeat split; auto; lia|].
      left. cbn [EulerGrid.hside left right]. replace (y + 1 - 1) with y by lia. auto.
  Qed.

  Lemma side_sides e : In e sides -> exists p q, adj p q /\ left e = square (fst p) (snd p) /\ right e = square (fst q) (snd q).
  Proof.
    intros K. apply sides_in in K as [(x & y & _ & _ & ->)|(x & y & _ & _ & ->)].
    - exists (x, y - 1), (x, y). unfold adj. cbn [fst snd EulerGrid.hside left right]. split; [lia|auto].
    - exists (x - 1, y), (x, y). unfold adj. cbn [fst snd EulerGrid.vside left right]. split; [lia|auto].
  Qed.

  (** Neighbouring squares outside the region are connected there. *)
  Lemma free_step p q : adj p q -> R p = false -> R q = false ->
    reaches (joins (dual B)) (square (fst p) (snd p)) (square (fst q) (snd q)).
  Proof.
    intros F Hp Hq. destruct (face_dec (square (fst p) (snd p)) (square (fst q) (snd q))) as [->|N]; [constructor|].
    destruct (side_of p q F N) as (e & He & K). apply reaches_one.
    assert (In e B).
    { apply in_B. split; auto. unfold walls. destruct p as [px py], q as [qx qy]. cbn [fst snd] in K.
      destruct K as [(-> & ->)|(-> & ->)]; rewrite !inside_square, Hp, Hq; auto. }
    destruct K as [(K1 & K2)|(K1 & K2)]; [left|right]; apply in_map_iff; exists e; split; auto; congruence.
  Qed.

  Lemma free_link f g : joins (dual B) f g ->
    exists p q, adj p q /\ R p = false /\ R q = false /\ f = square (fst p) (snd p) /\ g = square (fst q) (snd q).
  Proof.
    assert (K : forall f g, In (f, g) (dual B) ->
      exists p q, adj p q /\ R p = false /\ R q = false /\ f = square (fst p) (snd p) /\ g = square (fst q) (snd q)).
    { clear f g. intros f g K. apply in_map_iff in K as (e & Q & K). injection Q as <- <-. apply in_B in K as (K & w).
      destruct (side_sides e K) as ([px py] & [qx qy] & F & E1 & E2). exists (px, py), (qx, qy).
      unfold walls in w. cbn [fst snd] in *. rewrite E1, E2, !inside_square in w. apply orb_false_iff in w. tauto. }
    intros [J|J]; apply K in J as (p & q & F & Hp & Hq & E1 & E2); [exists p, q; auto|].
    exists q, p. split; [unfold adj in *; lia|auto].
  Qed.

  Lemma region_alone f p : R p = true -> reaches (joins (dual B)) f (Some p) -> f = Some p.
  Proof.
    intros K P. inversion P as [|? g ? P' L]; auto. subst. exfalso.
    apply free_link in L as ([a b] & [x y] & _ & _ & Hq & _ & E). cbn [fst snd] in E. destruct p as [px py].
    symmetry in E. apply square_some in E. destruct E as (-> & -> & _). congruence.
  Qed.

  Lemma count_B : exists h, component_count squares (joins (dual B)) (h + length (filter R (box W H)) + 1) /\
    exists cells, (forall p, In p cells <-> hole p) /\
      component_count cells (fun p q => hole p /\ hole q /\ adj p q) h.
  Proof.
    assert (IB : incl B sides) by (intros e He; apply in_B in He; tauto).
    destruct (count_exists face_dec squares (squares_nodup W H) (dual B)
      (dual_within squares sides (sides_squares W H) B IB)) as (f & C).
    pose proof (count_decides face_dec squares (dual B) f C) as Dc.
    assert (Outer : In None squares) by (left; auto).
    assert (Cell : forall p, In p (box W H) -> In (Some p) squares) by (intros p Hp; right; apply in_map; auto).
    assert (InC : forall p, In (Some p) squares -> In p (box W H)).
    { intros p [K|K]; [discriminate|]. apply in_map_iff in K as (q & Q & K). injection Q as ->. auto. }
    destruct C as (reps & H1 & H2 & H3 & H4).
    destruct (bool_of face_dec (reaches (joins (dual B)) None) squares) as (o & Ho); [intros w Hw; apply Dc; auto|].
    set (hb := fun p => negb (R p) && negb (o (Some p))).
    assert (Hb : forall p, hole p <-> In p (box W H) /\ hb p = true).
    { intros p. unfold hole, hb. rewrite andb_true_iff, !negb_true_iff. split.
      - intros (K1 & K2 & K3). split; auto. split; auto. apply not_true_iff_false. rewrite Ho; auto.
      - intros (K1 & K2 & K3). split; auto. split; auto. rewrite <- Ho by auto. rewrite K3. discriminate. }
    set (hf := fun g => match g with Some p => hb p | None => false end).
    set (rf := fun g : option point => inside g).
    (* the representatives are of three kinds *)
    assert (L1 : length reps = (length (filter hf reps) + (length (filter rf reps) + length (filter o reps)))%nat).
    { assert (G : forall l, incl l squares -> length l = (length (filter hf l) + (length (filter rf l) + length (filter o l)))%nat).
      { induction l as [|g l IH]; intros I; auto. cbn [filter length]. rewrite IH by (intros x Hx; apply I; cbn; auto).
        assert (X : (hf g = true /\ rf g = false /\ o g = false) \/ (hf g = false /\ rf g = true /\ o g = false) \/
                    (hf g = false /\ rf g = false /\ o g = true)).
        { pose proof (Ho g (I g (or_introl eq_refl))) as Og. destruct g as [p|].
          - unfold hf, hb, rf, inside. destruct (R p) eqn:Rp, (o (Some p)) eqn:Op; cbn [negb andb]; auto.
            exfalso. assert (P : reaches (joins (dual B)) None (Some p)) by (apply Og; auto).
            apply (region_alone None p Rp) in P. discriminate.
          - unfold hf, rf, inside. assert (o None = true) as -> by (apply Og; constructor). auto. }
        destruct X as [(-> & -> & ->)|[(-> & -> & ->)|(-> & -> & ->)]]; cbn [length]; lia. }
      apply G. exact H3. }
    assert (L2 : length (filter rf reps) = length (filter R (box W H))).
    { rewrite <- (map_length Some (filter R (box W H))). apply Permutation_length, NoDup_Permutation.
      - apply NoDup_filter; auto.
      - apply Injective_map_NoDup; [|apply NoDup_filter, box_nodup]. intros a b Q. injection Q. auto.
      - intros g. rewrite filter_In, in_map_iff. split.
        + intros (Hg & K). destruct g as [p|]; [|discriminate]. exists p. split; auto. apply filter_In.
          split; [apply InC, H3; auto|exact K].
        + intros (p & <- & K). apply filter_In in K as (K1 & K2). split; [|exact K2].
          destruct (H4 (Some p) (Cell p K1)) as (r & (Hr & P) & _). apply region_alone in P; auto. subst. auto. }
    assert (L3 : length (filter o reps) = 1%nat).
    { destruct (H4 None Outer) as (r & (Hr & P) & U). change 1%nat with (length [r]).
      apply Permutation_length, NoDup_Permutation; [apply NoDup_filter; auto|repeat constructor; auto|].
      intros g. rewrite filter_In. split.
      - intros (Hg & K). left. apply U. split; auto. apply joins_back. apply Ho; auto.
      - intros [<-|[]]. split; auto. apply Ho; auto. apply joins_back; auto. }
    exists (length (filter hf reps)). split.
    { exists reps. split; [lia|auto]. }
    exists (filter hb (box W H)). split; [intros p; rewrite filter_In; symmetry; apply Hb|].
    set (hl := filter hf reps).
    assert (HP : exists l, hl = map Some l).
    { assert (G : forall l, exists l', filter hf l = map Some l').
      { induction l as [|g l (l' & IH)]; [exists []; auto|]. cbn [filter]. destruct (hf g) eqn:Q; [|exists l'; auto].
        destruct g as [p|]; [|discriminate]. exists (p :: l'). cbn [map]. congruence. }
      apply G. }
    destruct HP as (l & El).
    assert (Il : forall p, In p l <-> In (Some p) reps /\ hb p = true).
    { intros p. transitivity (In (Some p) hl).
      - rewrite El. rewrite in_map_iff. split; [intros K; exists p; auto|intros (q & Q & K); injection Q as ->; auto].
      - unfold hl. rewrite filter_In. reflexivity. }
    (* paths between holes *)
    assert (Stay : forall g p, hole p -> reaches (joins (dual B)) g (Some p) ->
              exists q, g = Some q /\ hole q /\ reaches (fun p q => hole p /\ hole q /\ adj p q) q p).
    { intros g p Hp P. remember (Some p) as t eqn:Et. revert p Hp Et.
      induction P as [g|g t w P IH L]; intros p Hp ->.
      - exists p. split; auto. split; auto. constructor.
      - apply free_link in L as L'. destruct L' as ([a b] & [x y] & F & Ha & Hx & E1 & E2). cbn [fst snd] in E1, E2.
        symmetry in E2. destruct p as [px py]. apply square_some in E2 as (-> & -> & _).
        assert (T : exists q, t = Some q /\ hole q /\ q = (a, b)).
        { destruct (Z_le_dec 0 a), (Z_lt_dec a W), (Z_le_dec 0 b), (Z_lt_dec b H);
            try (exfalso; destruct Hp as (_ & _ & Hp); apply Hp; rewrite square_out in E1 by lia; subst t;
                 apply reaches_one; exact L).
          rewrite square_is in E1 by lia. exists (a, b). split; auto. split; auto. split; auto.
          split; [apply box_in; lia|]. intros Q. destruct Hp as (_ & _ & Hp). apply Hp.
          eapply reaches_step; [exact Q|]. rewrite E1 in L. exact L. }
        destruct T as (q & -> & Hq & ->). destruct (IH (a, b) Hq eq_refl) as (r & -> & Hr & Q).
        exists r. split; auto. split; auto. eapply reaches_step; [exact Q|]. auto. }
    assert (Go : forall p q, reaches (fun p q => hole p /\ hole q /\ adj p q) p q -> reaches (joins (dual B)) (Some p) (Some q)).
    { intros p q P. induction P as [p|p q r P IH (Hq & Hr & F)]; [constructor|]. eapply reaches_trans; [exact IH|].
      destruct q as [qx qy], r as [rx ry]. destruct Hq as (Q1 & Q2 & _), Hr as (Q3 & Q4 & _).
      pose proof (free_step _ _ F Q1 Q3) as S. cbn [fst snd] in S. apply box_in in Q2, Q4.
      rewrite !square_is in S by lia. exact S. }
    exists l. split; [rewrite <- (map_length Some l), <- El; reflexivity|]. split.
    { apply (NoDup_map_inv Some). rewrite <- El. apply NoDup_filter; auto. }
    split.
    { intros p Hp. apply Il in Hp as (K1 & K2). apply filter_In. split; auto. }
    intros p Hp. apply filter_In in Hp as (K1 & K2). assert (Hp : hole p) by (apply Hb; auto).
    destruct (H4 (Some p) (Cell p K1)) as (r & (Hr & P) & U).
    destruct (Stay r p Hp P) as (q & -> & Hq & Pq). exists q. split.
    - split; auto. apply Il. split; auto. apply Hb; auto.
    - intros q' (Hq' & Pq'). apply Il in Hq' as (Hq' & _). apply Go in Pq'.
      assert (E : Some q = Some q') by (apply U; auto). injection E. auto.
  Qed.

  Theorem region_euler : exists h,
    (exists cells, (forall p, In p cells <-> hole p) /\
       component_count cells (fun p q => hole p /\ hole q /\ adj p q) h) /\
    Z.of_nat (length (filter touched corners)) - Z.of_nat (length A) + Z.of_nat (length (filter R (box W H))) =
    1 - Z.of_nat h.
  Proof.
    destruct count_B as (h & C & K). exists h. split; auto.
    pose proof (grid_euler W H HW HH A B _ _ (filter_split walls sides) count_A C) as E.
    pose proof (filter_count touched corners) as F. lia.
  Qed.
End Region.

(** Every pointer is at most a chain of steps away from every source. *)
From Coq Require Import Lia Reals Lra Psatz Rgeom.
From Verif Require Import Base BaseFacts Floats Grid GridFacts Image ImageSpec ImageProofs.
Local Open Scope Z_scope.

(** * Distances *)
Lemma dist_euclid p q : dist p q = dist_euc (IZR (fst p)) (IZR (snd p)) (IZR (fst q)) (IZR (snd q)).
Proof.
  unfold dist, d2, dist_euc, Rsqr. f_equal. rewrite plus_IZR, !mult_IZR, !minus_IZR. ring.
Qed.
Lemma dist_triangle p q s : (dist p s <= dist p q + dist q s)%R.
Proof. rewrite !dist_euclid. apply triangle. Qed.

(** * What visits keep and add *)
Definition within (F : grid (option (Z * Z))) (p : Z * Z) (r : R) : Prop :=
  exists s, gget F (I (fst p) (snd p) 0) = Some s /\ (dist p s <= r)%R.

Lemma closer_le p c o t s : closer p c o = Some t -> c = Some s -> d2 (pt p) t <= d2 (pt p) s.
Proof.
  intros E ->. destruct o as [u|]; cbn [closer] in E.
  - destruct (Z.ltb_spec (d2 (pt p) u) (d2 (pt p) s)); injection E as <-; lia.
  - injection E as <-. lia.
Qed.
Lemma closer_le_new p c s : exists t, closer p c (Some s) = Some t /\ d2 (pt p) t <= d2 (pt p) s.
Proof.
  destruct c as [u|]; cbn [closer].
  - destruct (Z.ltb_spec (d2 (pt p) s) (d2 (pt p) u)); eexists; split; try reflexivity; lia.
  - eexists; split; [reflexivity|lia].
Qed.
Lemma closer_keeps p c o s : c = Some s -> exists t, closer p c o = Some t /\ d2 (pt p) t <= d2 (pt p) s.
Proof.
  intros ->. destruct o as [u|]; cbn [closer].
  - destruct (Z.ltb_spec (d2 (pt p) u) (d2 (pt p) s)); eexists; split; try reflexivity; lia.
  - eexists; split; [reflexivity|lia].
Qed.
Lemma look_keeps F p l c s : c = Some s -> exists t, fold_left (look F p) l c = Some t /\ d2 (pt p) t <= d2 (pt p) s.
Proof.
  revert c s. induction l as [|o l IH]; intros c s E; cbn [fold_left].
  - exists s. split; [auto|lia].
  - destruct (closer_keeps p c (fst (get F (I (ix p + fst o) (iy p + snd o) 0))) s E) as (t & Et & Lt).
    destruct (IH _ t Et) as (u & Eu & Lu). exists u. split; [exact Eu|lia].
Qed.
Lemma look_adds F p l c o s : In o l -> gget F (I (ix p + fst o) (iy p + snd o) 0) = Some s ->
  exists t, fold_left (look F p) l c = Some t /\ d2 (pt p) t <= d2 (pt p) s.
Proof.
  revert c. induction l as [|o' l IH]; intros c Ho E; [contradiction|]. cbn [fold_left]. destruct Ho as [->|Ho].
  - unfold look at 2. unfold gget in E. rewrite E. destruct (closer_le_new p c s) as (t & Et & Lt).
    destruct (look_keeps F p l _ t Et) as (u & Eu & Lu). exists u. split; [exact Eu|lia].
  - apply IH; auto.
Qed.

Section Path.
  Variables (h w : Z).

  Definition ready (F : grid (option (Z * Z))) : Prop := gdims F = D h w 1 /\ wf_grid F.
  Lemma vis_ready F v : ready F -> ready (vis F v).
  Proof. intros (A & B). destruct v as [p offs]. split; cbn [vis]; [rewrite gset_dims; auto|apply gset_wf; auto]. Qed.
  Lemma visits_ready L F : ready F -> ready (fold_left vis L F).
  Proof. revert F. induction L as [|v L IH]; intros F R; cbn [fold_left]; auto. apply IH, vis_ready, R. Qed.

  Lemma dist_le p s t : d2 p t <= d2 p s -> (dist p t <= dist p s)%R.
  Proof. intros H. unfold dist. apply sqrt_le_1_alt, IZR_le, H. Qed.

  Lemma inb p : inside h w p -> in_bounds (D h w 1) (I (fst p) (snd p) 0) = true.
  Proof. unfold inside. intros H. apply in_bounds_spec. cbn. lia. Qed.

  Lemma vis_keeps F v p r : ready F -> inside h w (pt (fst v)) -> iz (fst v) = 0 ->
    within F p r -> within (vis F v) p r.
  Proof.
    intros (DF & WF) P Pz (s & E & L). destruct v as [q offs]. cbn [vis fst] in *. unfold within.
    assert (Bq : in_bounds (D h w 1) q = true) by (apply in_bounds_spec; unfold inside, pt in P; cbn in *; lia).
    rewrite gget_gset by (rewrite ?DF; auto). destruct (idx_eqb_spec q (I (fst p) (snd p) 0)) as [->|]; eauto.
    destruct (look_keeps F (I (fst p) (snd p) 0) offs _ s E) as (t & Et & Lt). exists t. split; [exact Et|].
    assert (pt (I (fst p) (snd p) 0) = p) as X by (destruct p; reflexivity). rewrite X in Lt.
    apply dist_le in Lt. lra.
  Qed.
  Lemma visits_keep L F p r : ready F -> visits_ok h w L -> within F p r -> within (fold_left vis L F) p r.
  Proof.
    revert F. induction L as [|[q offs] L IH]; intros F R V H; cbn [fold_left]; auto.
    destruct (V q offs (or_introl eq_refl)) as (A & B & C). apply IH.
    - apply vis_ready, R.
    - intros a b K. apply V. right; auto.
    - apply vis_keeps; auto.
  Qed.

  (** A visit takes over what the neighbour has. *)
  Lemma vis_adds F p offs o r : ready F -> inside h w p -> In o offs ->
    within F (fst p + fst o, snd p + snd o) r ->
    within (vis F (I (fst p) (snd p) 0, offs)) p (r + dist p (fst p + fst o, snd p + snd o)).
  Proof.
    intros (DF & WF) P Ho (s & E & L). cbn [fst snd] in E. cbn [vis]. unfold within.
    rewrite gget_gset by (rewrite ?DF; auto using inb). destruct (idx_eqb_spec (I (fst p) (snd p) 0) (I (fst p) (snd p) 0)); [|congruence].
    destruct (look_adds F (I (fst p) (snd p) 0) offs (fst (get F (I (fst p) (snd p) 0))) o s Ho E) as (t & Et & Lt).
    exists t. split; [exact Et|]. assert (pt (I (fst p) (snd p) 0) = p) as X by (destruct p; reflexivity). rewrite X in Lt.
    apply dist_le in Lt. pose proof (dist_triangle p (fst p + fst o, snd p + snd o) s). lra.
  Qed.
  Lemma visits_add L F p offs o r : ready F -> visits_ok h w L -> In (I (fst p) (snd p) 0, offs) L -> In o offs ->
    within F (fst p + fst o, snd p + snd o) r ->
    within (fold_left vis L F) p (r + dist p (fst p + fst o, snd p + snd o)).
  Proof.
    intros R V H Ho W. destruct (in_split _ _ H) as (L1 & L2 & ->).
    assert (V1 : visits_ok h w L1) by (intros a b K; apply V, in_or_app; auto).
    assert (V2 : visits_ok h w L2) by (intros a b K; apply V, in_or_app; right; right; auto).
    destruct (V _ _ H) as (P & _). rewrite fold_left_app. cbn [fold_left].
    apply visits_keep; auto; [apply vis_ready, visits_ready, R|].
    apply vis_adds; auto; [apply visits_ready, R|]. apply visits_keep; auto.
  Qed.

  Lemma zrange_succ n : 0 <= n -> zrange (n + 1) = zrange n ++ [n].
  Proof.
    intros H. unfold zrange. rewrite Z2Nat.inj_add by lia. rewrite Nat.add_1_r, seq_S, map_app. cbn.
    rewrite Z2Nat.id by lia. reflexivity.
  Qed.

  (** * The passes *)
  Definition forward1 y := map (fun x => (I x y 0, [(-1, 0); (0, -1); (-1, -1); (1, -1)])) (zrange h).
  Definition back1 y := map (fun x => (I x y 0, [(1, 0)])) (rev (zrange h)).
  Definition column1 y := forward1 y ++ back1 y.
  Definition back2 y := map (fun x => (I x y 0, [(1, 0); (0, 1); (-1, 1); (1, 1)])) (rev (zrange h)).
  Definition column2 y := back2 y ++ map (fun x => (I x y 0, [(-1, 0)])) (zrange h).

  Lemma steps_ok o : In o [(-1, 0); (0, -1); (-1, -1); (1, -1); (1, 0); (0, 1); (-1, 1); (1, 1)] -> step_ok o.
  Proof. intros Ho. cbn in Ho. unfold step_ok. repeat (destruct Ho as [<-|Ho]; [cbn; lia|]). contradiction. Qed.
  Lemma xs_ok y offs l : 0 <= y < w -> (forall x, In x l -> 0 <= x < h) ->
    (forall o, In o offs -> step_ok o) -> visits_ok h w (map (fun x => (I x y 0, offs)) l).
  Proof.
    intros Y X S p os H. apply in_map_iff in H. destruct H as (x & E & Hx). injection E as <- <-.
    split; [unfold inside, pt; cbn; auto|auto].
  Qed.
  Lemma ok_app L L' : visits_ok h w L -> visits_ok h w L' -> visits_ok h w (L ++ L').
  Proof. intros A B p o H. apply in_app_or in H. destruct H; auto. Qed.
  Ltac steps := intros ? ?; apply steps_ok; cbn [In] in *; tauto.
  Ltac xs := apply xs_ok; [auto|intros ? ?; rewrite <- ?in_rev in *; apply zrange_in; auto|steps].
  Lemma forward1_ok y : 0 <= y < w -> visits_ok h w (forward1 y). Proof. intros. unfold forward1. xs. Qed.
  Lemma back1_ok y : 0 <= y < w -> visits_ok h w (back1 y). Proof. intros. unfold back1. xs. Qed.
  Lemma column1_ok y : 0 <= y < w -> visits_ok h w (column1 y).
  Proof. intros. apply ok_app; [apply forward1_ok|apply back1_ok]; auto. Qed.
  Lemma back2_ok y : 0 <= y < w -> visits_ok h w (back2 y). Proof. intros. unfold back2. xs. Qed.
  Lemma column2_ok y : 0 <= y < w -> visits_ok h w (column2 y).
  Proof. intros. apply ok_app; [apply back2_ok; auto|]. xs. Qed.

  Variable s : Z * Z.
  Hypothesis Hs : inside h w s.

  Lemma dist_unit p a : a * a = 1 -> dist p (fst p + a, snd p + 0) = 1%R.
  Proof.
    intros A. unfold dist, d2. cbn [fst snd]. replace (_ * _ + _) with 1 by nia. apply sqrt_1.
  Qed.

  Lemma within_eq F p r r' : r = r' -> within F p r -> within F p r'.
  Proof. intros ->; auto. Qed.

  (** Along the source's own column, upwards then downwards. *)
  Lemma forward_line F n : ready F -> 0 <= snd s < w -> Z.of_nat n <= h -> within F s 0 ->
    forall x, fst s <= x < Z.of_nat n \/ x = fst s ->
      within (fold_left vis (map (fun x => (I x (snd s) 0, [(-1, 0); (0, -1); (-1, -1); (1, -1)])) (zrange (Z.of_nat n))) F)
        (x, snd s) (IZR (x - fst s)).
  Proof.
    intros R Sy. induction n as [|n IH]; intros Hn W x Hx.
    - cbn. replace x with (fst s) by (destruct Hs; lia). rewrite Z.sub_diag. rewrite <- surjective_pairing. exact W.
    - rewrite Nat2Z.inj_succ, <- Z.add_1_r, zrange_succ, map_app, fold_left_app by lia. cbn [map fold_left].
      set (G := fold_left vis _ F).
      assert (Gr : ready G) by (apply visits_ready, R).
      assert (P : inside h w (Z.of_nat n, snd s)) by (unfold inside; cbn [fst snd]; lia).
      destruct (Z.eq_dec x (Z.of_nat n)) as [->|Ne].
      + destruct (Z.eq_dec (Z.of_nat n) (fst s)) as [Eq|Ne'].
        * apply vis_keeps; auto. rewrite Eq. rewrite Z.sub_diag. unfold G. 
          apply (within_eq _ _ (IZR (fst s - fst s))); [rewrite Z.sub_diag; reflexivity|]. apply IH; auto; lia.
        * pose proof (vis_adds G (Z.of_nat n, snd s) [(-1, 0); (0, -1); (-1, -1); (1, -1)] (-1, 0) (IZR (Z.of_nat n - 1 - fst s)) Gr P (or_introl eq_refl)) as K.
          change (-1, 0) with (-1, 0) in K. pose proof (dist_unit (Z.of_nat n, snd s) (-1) eq_refl) as E1.
          cbn [fst snd] in *. rewrite E1 in K. 
          apply within_eq with (r := (IZR (Z.of_nat n - 1 - fst s) + 1)%R); [rewrite <- plus_IZR; f_equal; lia|].
          apply K. replace (Z.of_nat n + -1) with (Z.of_nat n - 1) by lia. rewrite Z.add_0_r. apply IH; auto; lia.
      + apply vis_keeps; auto. apply IH; auto; lia.
  Qed.

  Lemma back_line F n : ready F -> 0 <= snd s < w -> Z.of_nat n <= h ->
    (forall x, Z.of_nat n <= x < h \/ x = fst s -> 0 <= x <= fst s -> within F (x, snd s) (IZR (fst s - x))) ->
    forall x, 0 <= x <= fst s ->
      within (fold_left vis (map (fun x => (I x (snd s) 0, [(1, 0)])) (rev (zrange (Z.of_nat n)))) F)
        (x, snd s) (IZR (fst s - x)).
  Proof.
    intros R Sy. destruct Hs as (Sx & _). revert F R. induction n as [|n IH]; intros F R Hn W x Hx.
    - cbn. apply W; lia.
    - rewrite Nat2Z.inj_succ, <- Z.add_1_r, zrange_succ, rev_app_distr by lia. cbn [rev app map fold_left].
      assert (P : inside h w (Z.of_nat n, snd s)) by (unfold inside; cbn [fst snd]; lia).
      apply IH; auto; [apply vis_ready, R|lia|]. intros x' Hx' Hx''.
      destruct (Z.eq_dec x' (fst s)) as [->|Ne].
      { apply vis_keeps; auto. }
      destruct (Z.eq_dec x' (Z.of_nat n)) as [->|Ne'].
      + pose proof (vis_adds F (Z.of_nat n, snd s) [(1, 0)] (1, 0) (IZR (fst s - (Z.of_nat n + 1))) R P (or_introl eq_refl)) as K.
        pose proof (dist_unit (Z.of_nat n, snd s) 1 eq_refl) as E1.
        cbn [fst snd] in *. rewrite E1 in K.
        apply within_eq with (r := (IZR (fst s - (Z.of_nat n + 1)) + 1)%R); [rewrite <- plus_IZR; f_equal; lia|].
        apply K. rewrite Z.add_0_r. apply W; lia.
      + apply vis_keeps; auto. apply W; lia.
  Qed.

  Lemma chain_line x : chain (x, snd s) s = IZR (Z.abs (fst s - x)).
  Proof. unfold chain. cbn [fst snd]. rewrite Z.sub_diag. cbn [Z.abs]. rewrite Z.max_l, Z.min_r by lia. ring. Qed.

  Lemma own_column F : ready F -> within F s 0 ->
    forall x, 0 <= x < h -> within (fold_left vis (column1 (snd s)) F) (x, snd s) (chain (x, snd s) s).
  Proof.
    intros R W x Hx. pose proof Hs as (Sx & Sy). unfold column1. rewrite fold_left_app.
    assert (A : forall x, fst s <= x < h -> within (fold_left vis (forward1 (snd s)) F) (x, snd s) (IZR (x - fst s))).
    { intros x' Hx'. unfold forward1. replace h with (Z.of_nat (Z.to_nat h)) by lia.
      apply forward_line; auto; rewrite ?Z2Nat.id by lia; lia. }
    rewrite chain_line. destruct (Z_lt_le_dec x (fst s)) as [H|H].
    - rewrite Z.abs_eq by lia. unfold back1. replace h with (Z.of_nat (Z.to_nat h)) by lia.
      apply back_line; auto; rewrite ?Z2Nat.id by lia; try lia; [apply visits_ready, R|].
      intros x' [H1|H1] H2; [lia|]. subst x'. apply (within_eq _ _ (IZR (fst s - fst s))); [reflexivity|]. apply A; lia.
    - rewrite Z.abs_neq by lia. apply visits_keep; [apply visits_ready, R|apply back1_ok; auto|].
      apply (within_eq _ _ (IZR (x - fst s))); [f_equal; lia|]. apply A; lia.
  Qed.

  (** One column further away: a diagonal step, or a straight one beside the source. *)
  Lemma chain_step x y x' y' : y <> snd s -> (y' - y) * (y' - y) = 1 -> Z.abs (snd s - y') = Z.abs (snd s - y) - 1 ->
    x' = x + Z.sgn (fst s - x) ->
    (chain (x', y') s + dist (x, y) (x', y') = chain (x, y) s)%R.
  Proof.
    intros Hy U V ->. unfold chain, dist, d2. cbn [fst snd].
    replace (x + Z.sgn (fst s - x) - x) with (Z.sgn (fst s - x)) by lia. rewrite U, V.
    assert (N : 1 <= Z.abs (snd s - y)) by lia. set (b := Z.abs (snd s - y)) in *.
    assert (A : Z.abs (fst s - (x + Z.sgn (fst s - x))) = Z.abs (fst s - x) - Z.abs (Z.sgn (fst s - x))) by lia.
    rewrite A. set (a := fst s - x) in *. clearbody a b.
    destruct (Z.eq_dec a 0) as [->|Ne].
    - cbn [Z.sgn Z.abs]. change (0 * 0 + 1) with 1. rewrite sqrt_1, !Z.max_r, !Z.min_l by lia.
      change (0 - 0) with 0. rewrite minus_IZR. ring.
    - assert (S : Z.sgn a * Z.sgn a = 1) by nia. rewrite S. assert (T : Z.abs (Z.sgn a) = 1) by lia. rewrite T.
      change (1 + 1) with 2. replace (Z.max (Z.abs a - 1) (b - 1)) with (Z.max (Z.abs a) b - 1) by lia.
      replace (Z.min (Z.abs a - 1) (b - 1)) with (Z.min (Z.abs a) b - 1) by lia. rewrite !minus_IZR. ring.
  Qed.

  Lemma toward x : 0 <= x < h -> 0 <= x + Z.sgn (fst s - x) < h.
  Proof. destruct Hs as (Sx & _). lia. Qed.

  Lemma next_column F L y y' : ready F -> 0 <= y < w -> y <> snd s -> (y' - y) * (y' - y) = 1 ->
    Z.abs (snd s - y') = Z.abs (snd s - y) - 1 -> visits_ok h w L ->
    (forall x, 0 <= x < h -> exists offs, In (I x y 0, offs) L /\ forall a, -1 <= a <= 1 -> In (a, y' - y) offs) ->
    (forall x, 0 <= x < h -> within F (x, y') (chain (x, y') s)) ->
    forall x, 0 <= x < h -> within (fold_left vis L F) (x, y) (chain (x, y) s).
  Proof.
    intros R Y Ne U V OK Cov W x Hx. destruct (Cov x Hx) as (offs & HL & Ho).
    pose proof (visits_add L F (x, y) offs (Z.sgn (fst s - x), y' - y) (chain (x + Z.sgn (fst s - x), y') s) R OK HL) as K.
    cbn [fst snd] in K. replace (y + (y' - y)) with y' in K by lia.
    rewrite (chain_step x y) in K by auto. apply K; [apply Ho; lia|]. apply W, toward, Hx.
  Qed.

  Lemma columns1_ok n : Z.of_nat n <= w -> visits_ok h w (flat_map column1 (zrange (Z.of_nat n))).
  Proof.
    intros H p o K. apply in_flat_map in K. destruct K as (y & Hy & K). apply zrange_in in Hy.
    apply (column1_ok y); auto; lia.
  Qed.
  Lemma columns2_ok n : Z.of_nat n <= w -> visits_ok h w (flat_map column2 (rev (zrange (Z.of_nat n)))).
  Proof.
    intros H p o K. apply in_flat_map in K. destruct K as (y & Hy & K). rewrite <- in_rev in Hy. apply zrange_in in Hy.
    apply (column2_ok y); auto; lia.
  Qed.

  Lemma first_half F n : ready F -> within F s 0 -> Z.of_nat n <= w ->
    forall x y, 0 <= x < h -> snd s <= y < Z.of_nat n ->
      within (fold_left vis (flat_map column1 (zrange (Z.of_nat n))) F) (x, y) (chain (x, y) s).
  Proof.
    intros R W. pose proof Hs as (Sx & Sy). induction n as [|n IH]; intros Hn x y Hx Hy; [lia|].
    rewrite Nat2Z.inj_succ, <- Z.add_1_r, zrange_succ, flat_map_app, fold_left_app by lia. cbn [flat_map]. rewrite app_nil_r.
    set (G := fold_left vis (flat_map _ _) F) in *.
    assert (Gr : ready G) by (apply visits_ready, R).
    destruct (Z.eq_dec y (Z.of_nat n)) as [->|Ne].
    - destruct (Z.eq_dec (Z.of_nat n) (snd s)) as [E|Ne'].
      + rewrite E. apply own_column; auto. apply visits_keep; auto. apply columns1_ok; lia.
      + apply next_column with (y' := Z.of_nat n - 1); auto; try lia.
        * apply column1_ok; lia.
        * intros x' Hx'. exists [(-1, 0); (0, -1); (-1, -1); (1, -1)]. split.
          { apply in_or_app. left. apply in_map_iff. exists x'. split; auto. apply zrange_in; auto. }
          intros a Ha. replace (Z.of_nat n - 1 - Z.of_nat n) with (-1) by lia.
          assert (a = -1 \/ a = 0 \/ a = 1) as [->|[->| ->]] by lia; cbn [In]; auto 6.
        * intros x' Hx'. apply IH; lia.
    - apply visits_keep; auto; [apply column1_ok; lia|]. apply IH; lia.
  Qed.

  Lemma second_half F n : ready F -> Z.of_nat n <= w ->
    (forall x y, 0 <= x < h -> Z.min (snd s) (Z.of_nat n) <= y < w -> within F (x, y) (chain (x, y) s)) ->
    forall x y, 0 <= x < h -> 0 <= y < w ->
      within (fold_left vis (flat_map column2 (rev (zrange (Z.of_nat n)))) F) (x, y) (chain (x, y) s).
  Proof.
    pose proof Hs as (Sx & Sy). revert F. induction n as [|n IH]; intros F R Hn W x y Hx Hy.
    - cbn. apply W; lia.
    - rewrite Nat2Z.inj_succ, <- Z.add_1_r, zrange_succ, rev_app_distr by lia. cbn [rev app flat_map]. rewrite fold_left_app.
      assert (OK : visits_ok h w (column2 (Z.of_nat n))) by (apply column2_ok; lia).
      apply IH; auto; [apply visits_ready, R|lia|]. intros x' y' Hx' Hy'.
      destruct (Z_lt_le_dec y' (snd s)) as [Hlt|Hge]; [|apply visits_keep; auto; apply W; lia].
      destruct (Z.eq_dec y' (Z.of_nat n)) as [->|Ne]; [|apply visits_keep; auto; apply W; lia].
      apply next_column with (y' := Z.of_nat n + 1); auto; try lia.
      + intros x'' Hx''. exists [(1, 0); (0, 1); (-1, 1); (1, 1)]. split.
        { apply in_or_app. left. apply in_map_iff. exists x''. split; auto. rewrite <- in_rev. apply zrange_in; auto. }
        intros a Ha. replace (Z.of_nat n + 1 - Z.of_nat n) with 1 by lia.
        assert (a = -1 \/ a = 0 \/ a = 1) as [->|[->| ->]] by lia; cbn [In]; auto 6.
      + intros x'' Hx''. apply W; lia.
  Qed.

  (** After both passes every place points within a chain of [s]. *)
  Lemma passes_reach F : ready F -> within F s 0 -> forall p, inside h w p ->
    within (fold_left vis (first_pass h w ++ second_pass h w) F) p (chain p s).
  Proof.
    intros R W [x y] (Hx & Hy). cbn [fst snd] in *. rewrite fold_left_app.
    change (first_pass h w) with (flat_map column1 (zrange w)). change (second_pass h w) with (flat_map column2 (rev (zrange w))).
    replace (zrange w) with (zrange (Z.of_nat (Z.to_nat w))) by (rewrite Z2Nat.id by lia; reflexivity).
    apply second_half; auto; [apply visits_ready, R|lia|]. intros x' y' Hx' Hy'.
    pose proof Hs as (Sx & Sy). apply first_half; auto; lia.
  Qed.
End Path.

(** Pointers only ever point at places that were pointed at in the beginning. *)
Lemma look_from F p l c t (S : Z * Z -> Prop) : (forall q u, gget F q = Some u -> S u) -> (forall u, c = Some u -> S u) ->
  fold_left (look F p) l c = Some t -> S t.
Proof.
  intros HF. revert c. induction l as [|o l IH]; intros c Hc E; cbn [fold_left] in E; [apply Hc, E|].
  apply (IH (look F p c o)); auto. intros u Hu. unfold look in Hu.
  destruct (fst (get F (I (ix p + fst o) (iy p + snd o) 0))) as [v|] eqn:Ev; cbn [closer] in Hu; auto.
  destruct c as [t'|].
  - destruct (_ <? _); injection Hu as <-; [apply (HF _ _ Ev)|apply Hc; auto].
  - injection Hu as <-. apply (HF _ _ Ev).
Qed.
Lemma visits_from L F (S : Z * Z -> Prop) : wf_grid F -> (forall q u, gget F q = Some u -> S u) ->
  forall q u, gget (fold_left vis L F) q = Some u -> S u.
Proof.
  revert F. induction L as [|[p offs] L IH]; intros F W H; cbn [fold_left]; auto. apply IH; [apply gset_wf; auto|].
  intros q u E. cbn [vis] in E. destruct (in_bounds (gdims F) p) eqn:B.
  - rewrite gget_gset in E by auto. destruct (idx_eqb_spec p q) as [->|]; [|eapply H; eauto].
    eapply look_from; eauto.
  - rewrite gset_oob_id in E by auto. eapply H; eauto.
Qed.

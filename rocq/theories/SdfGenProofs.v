(** Proofs about signed-distance-field extraction. *)
From Coq Require Import Reals Lra.
From Flocq Require Import Core.Core IEEE754.Binary IEEE754.Bits.
From Verif Require Import Base BaseFacts Floats FloatFacts FloatFacts2 Grid GridFacts
  DistSpec DistModel DistProofs DistThms SdfGen SdfSpec DistPlanar.
Open Scope Z_scope.

Lemma classify_filter is_filled P l : forall a b,
  (forall i, In i l -> is_filled i = Ok (P i)) ->
  foldM (classify is_filled) l (a, b) =
  Ok (a ++ filter P l, b ++ filter (fun i => negb (P i)) l).
Proof.
  induction l as [|i l IH]; intros a b H.
  - cbn. rewrite !app_nil_r. reflexivity.
  - cbn [foldM classify]. rewrite (H i (or_introl eq_refl)). cbn [bind].
    destruct (P i) eqn:E; cbn [filter negb]; rewrite E; cbn [negb];
      rewrite IH by (intros j Hj; apply H; right; auto);
      rewrite <- ?app_assoc; reflexivity.
Qed.

Lemma in_filter_sweep d P c : In c (filter P (sweep d)) <-> in_bounds d c = true /\ P c = true.
Proof. rewrite filter_In, sweep_in. tauto. Qed.

Lemma sq_diff_bound n a b : 0 <= a < n -> 0 <= b < n -> 0 <= (a - b) * (a - b) <= n * n.
Proof.
  intros Ha Hb. set (u := a - b). assert (- n <= u <= n) by (unfold u; lia).
  split; [apply Z.square_nonneg|]. destruct (Z_le_dec 0 u); nia.
Qed.

  Lemma distsq_bound d (Hs : size_ok d) a b : in_bounds d a = true -> in_bounds d b = true ->
    0 <= distsq a b <= 2147483647.
  Proof.
    intros Ha Hb. apply in_bounds_spec in Ha. apply in_bounds_spec in Hb.
    destruct Hs as (H1 & H2 & H3 & H4). unfold distsq.
    pose proof (sq_diff_bound (nx d) (ix a) (ix b) ltac:(lia) ltac:(lia)).
    pose proof (sq_diff_bound (ny d) (iy a) (iy b) ltac:(lia) ltac:(lia)).
    pose proof (sq_diff_bound (nz d) (iz a) (iz b) ltac:(lia) ltac:(lia)).
    lia.
  Qed.

  Lemma distsq_zero a b : distsq a b = 0 -> a = b.
  Proof.
    unfold distsq. intros H. destruct a as [x y z], b as [x' y' z']. cbn [ix iy iz] in *.
    assert (0 <= (x - x') * (x - x')) by apply Z.square_nonneg.
    assert (0 <= (y - y') * (y - y')) by apply Z.square_nonneg.
    assert (0 <= (z - z') * (z - z')) by apply Z.square_nonneg.
    assert ((x - x') * (x - x') = 0) by lia.
    assert ((y - y') * (y - y') = 0) by lia.
    assert ((z - z') * (z - z') = 0) by lia.
    f_equal; nia.
  Qed.

Section Extract.
  Variables (d : dims) (r : binary64) (oob : binary32) (frame : string).
  Variables (is_filled : idx -> res bool) (P : idx -> bool).
  Hypothesis Hs : size_ok d.
  Hypothesis Hr : usable_resolution r.
  Hypothesis HP : answers d is_filled P.

  Let Rf := proj1 Hr.
  Let Rpos : (0 < xr64 r)%R := res_pos r (proj1 Hr) (proj2 Hr).

  Definition filled_cells := filter P (sweep d).
  Definition free_cells := filter (fun i => negb (P i)) (sweep d).

  Lemma filled_inside : all_inside d filled_cells.
  Proof. intros p H. apply in_filter_sweep in H. tauto. Qed.
  Lemma free_inside : all_inside d free_cells.
  Proof. intros p H. apply in_filter_sweep in H. tauto. Qed.

  Lemma build_filled : exists f, build_distance_field d filled_cells = Ok f.
  Proof. apply build_total; auto. apply filled_inside. Qed.
  Lemma build_free : exists f, build_distance_field d free_cells = Ok f.
  Proof. apply build_total; auto. apply free_inside. Qed.

  (** What one of the two fields says about a cell outside its point set. *)
  Lemma field_value Q f c :
    build_distance_field d (filter Q (sweep d)) = Ok f ->
    in_bounds d c = true -> Q c = false ->
    (forall m, cell_distsq f c = Some m ->
       1 <= m <= 2147483647 /\
       exists p, in_bounds d p = true /\ Q p = true /\ distsq c p = m) /\
    (forall v, nearest_distsq (filter Q (sweep d)) c v -> v <= 6 -> cell_distsq f c = Some v).
  Proof.
    intros Hf Hc HQ.
    assert (Hin : all_inside d (filter Q (sweep d))).
    { intros p H. apply in_filter_sweep in H. tauto. }
    split.
    - intros m Hm. destruct (build_never_under d _ f Hs Hin Hf c m Hc Hm) as ((p & Hp & Hd) & _).
      apply in_filter_sweep in Hp. destruct Hp as (Hpb & HQp).
      pose proof (distsq_bound d Hs c p Hc Hpb) as HB.
      split; [|eauto].
      assert (m <> 0); [|lia].
      intros ->. apply distsq_zero in Hd. subst p. congruence.
    - intros v Hv H6. exact (build_exact_6 d _ Hs Hin f Hf c v Hc Hv H6).
  Qed.

  Lemma field_self Q f c :
    build_distance_field d (filter Q (sweep d)) = Ok f ->
    in_bounds d c = true -> Q c = true -> cell_distsq f c = Some 0.
  Proof.
    intros Hf Hc HQ.
    assert (Hin : all_inside d (filter Q (sweep d))).
    { intros p H. apply in_filter_sweep in H. tauto. }
    apply (build_zero_iff d _ Hs Hin f Hf c Hc). apply in_filter_sweep. auto.
  Qed.

  Lemma scaled_ok o : (forall m, o = Some m -> 1 <= m <= 2147483647) ->
    is_nan _ _ (mul64 (sqrt64 (distsq64 o)) r) = false /\
    (xr64 r <= xr64 (mul64 (sqrt64 (distsq64 o)) r))%R /\
    b32_of_b64 (mul64 (sqrt64 (distsq64 o)) r) = rounded_distance o r.
  Proof.
    intros H. destruct o as [m|]; cbn [distsq64 rounded_distance].
    - destruct (scale_finite r Rf Rpos m) as (N & _ & G).
      { specialize (H m eq_refl). lia. }
      auto.
    - rewrite scale_inf by auto. split; auto. split; [|reflexivity].
      pose proof (r_lt_B r Rf). unfold xr64 in *. cbn [inf64 xr]. lra.
  Qed.

  (** The double computed for a cell. *)
  Definition signed_double (c : idx) (o : option Z) : binary64 :=
    let v := mul64 (sqrt64 (distsq64 o)) r in if P c then opp64 v else v.

  Lemma cell_distance_ok ff fr c :
    build_distance_field d filled_cells = Ok ff ->
    build_distance_field d free_cells = Ok fr ->
    in_bounds d c = true ->
    let o := cell_distsq (if P c then fr else ff) c in
    cell_distance ff fr r c = signed_double c o /\
    (forall m, o = Some m -> 1 <= m <= 2147483647 /\
       exists p, other_class d P c p /\ distsq c p = m) /\
    (forall v, nearest_other d P c v -> v <= 6 -> o = Some v).
  Proof.
    intros Hff Hfr Hc. unfold cell_distance, scaled_distance, signed_double.
    destruct (P c) eqn:EP; cbn zeta.
    - rewrite (field_self P ff c Hff Hc EP). cbn [distsq64].
      rewrite (scale_zero r Rf Rpos).
      destruct (field_value (fun i => negb (P i)) fr c Hfr Hc) as (F1 & F2); [rewrite EP; auto|].
      destruct (scaled_ok (cell_distsq fr c)) as (N & G & _).
      { intros m Hm. apply F1. auto. }
      split; [apply zero_sub; auto; lra|].
      split.
      + intros m Hm. destruct (F1 m Hm) as (B & p & Hp & HQ & Hd). split; auto.
        exists p. split; auto. split; auto. rewrite EP. cbn beta in HQ. intros E. rewrite E in HQ. discriminate.
      + intros v ((p & (Hp & Hne) & Hd) & Hmin) H6. apply F2; auto. split.
        * exists p. split; auto. apply in_filter_sweep. split; auto. cbn beta. destruct (P p) eqn:E1; auto; congruence.
        * intros q Hq. apply in_filter_sweep in Hq. destruct Hq as (Hq & Hn). apply Hmin.
          split; auto. rewrite EP. cbn beta in Hn. intros E. rewrite E in Hn. discriminate.
    - rewrite (field_self (fun i => negb (P i)) fr c Hfr Hc) by (rewrite EP; auto).
      cbn [distsq64]. rewrite (scale_zero r Rf Rpos).
      destruct (field_value P ff c Hff Hc EP) as (F1 & F2).
      destruct (scaled_ok (cell_distsq ff c)) as (N & G & _).
      { intros m Hm. apply F1. auto. }
      split; [apply sub_zero; auto; lra|].
      split.
      + intros m Hm. destruct (F1 m Hm) as (B & p & Hp & HQ & Hd). split; auto.
        exists p. split; auto. split; auto. rewrite EP. destruct (P p); auto; discriminate.
      + intros v ((p & (Hp & Hne) & Hd) & Hmin) H6. apply F2; auto. split.
        * exists p. split; auto. apply in_filter_sweep. split; auto. cbn beta. destruct (P p) eqn:E1; auto; congruence.
        * intros q Hq. apply in_filter_sweep in Hq. destruct Hq as (Hq & Hn). apply Hmin.
          split; auto. rewrite EP, Hn. discriminate.
  Qed.

  Lemma signed_double_ok c o : (forall m, o = Some m -> 1 <= m <= 2147483647) ->
    is_nan _ _ (signed_double c o) = false /\
    b32_of_b64 (signed_double c o) = signed_value (P c) o r /\
    (if P c then xr64 (signed_double c o) <= - xr64 r
     else xr64 r <= xr64 (signed_double c o))%R.
  Proof.
    intros H. destruct (scaled_ok o H) as (N & G & E). unfold signed_double, signed_value.
    destruct (P c).
    - destruct (opp64_xr _ N) as (N2 & X2). split; [exact N2|]. rewrite X2. split; [|lra].
      rewrite <- E. destruct (to32_opp (mul64 (sqrt64 (distsq64 o)) r)) as [H1|H1]; auto. congruence.
    - auto.
  Qed.

  (** The fold over the cells. *)
  Lemma generate_fold ff fr l : forall s mx mn s' mx' mn',
    sdf_dims s = d -> s_res s = r -> s_locked s = false -> wf_grid (s_grid s) ->
    NoDup l -> (forall i, In i l -> in_bounds d i = true) ->
    (forall i, In i l -> is_nan _ _ (cell_distance ff fr r i) = false) ->
    is_nan _ _ mx = false -> is_nan _ _ mn = false ->
    fold_left (generate_cell ff fr) l (s, (mx, mn)) = (s', (mx', mn')) ->
    sdf_dims s' = d /\ s_res s' = r /\ s_locked s' = false /\ wf_grid (s_grid s') /\
    s_frame s' = s_frame s /\ goob (s_grid s') = goob (s_grid s) /\
    (forall c, In c l -> gget (s_grid s') c = b32_of_b64 (cell_distance ff fr r c)) /\
    (forall c, in_bounds d c = true -> ~ In c l -> gget (s_grid s') c = gget (s_grid s) c) /\
    is_nan _ _ mx' = false /\ is_nan _ _ mn' = false /\
    (xr64 mx <= xr64 mx')%R /\ (xr64 mn' <= xr64 mn)%R /\
    (forall c, In c l -> xr64 (cell_distance ff fr r c) <= xr64 mx')%R /\
    (forall c, In c l -> xr64 mn' <= xr64 (cell_distance ff fr r c))%R /\
    (mx' = mx \/ exists c, In c l /\ mx' = cell_distance ff fr r c) /\
    (mn' = mn \/ exists c, In c l /\ mn' = cell_distance ff fr r c).
  Proof.
    induction l as [|i l IH]; intros s mx mn s' mx' mn' Hd Hres Hl Hw Hnd Hib Hnan Nx Nn E.
    - cbn in E. injection E as <- <- <-. intuition; try contradiction; auto; lra.
    - cbn [fold_left] in E. unfold generate_cell at 2 in E. rewrite Hres in E.
      set (v := cell_distance ff fr r i) in *.
      inversion Hnd as [|? ? Hni Hnd']; subst.
      assert (Hi : in_bounds (sdf_dims s) i = true) by (apply Hib; left; auto).
      unfold sdf_set in E. rewrite Hi, Hl in E. cbn [andb negb fst] in E.
      assert (Nv : is_nan _ _ v = false) by (apply Hnan; left; auto).
      set (s1 := SDF (gset (s_grid s) i (b32_of_b64 v)) (s_res s) (s_frame s) false) in *.
      apply IH in E.
      + destruct E as (A1 & A2 & A3 & A4 & A5 & A6 & A7 & A8 & A9 & A10 & A11 & A12 & A13 & A14 & A15 & A16).
        assert (Hmx : (xr64 mx <= xr64 (if gt64 v mx then v else mx) /\
                       xr64 v <= xr64 (if gt64 v mx then v else mx))%R).
        { destruct (gt64 v mx) eqn:G.
          - apply gt64_spec in G; auto. lra.
          - assert (~ (xr64 mx < xr64 v)%R) by (rewrite <- gt64_spec by auto; congruence). lra. }
        assert (Hmn : (xr64 (if lt64 v mn then v else mn) <= xr64 mn /\
                       xr64 (if lt64 v mn then v else mn) <= xr64 v)%R).
        { destruct (lt64 v mn) eqn:G.
          - apply lt64_spec in G; auto. lra.
          - assert (~ (xr64 v < xr64 mn)%R) by (rewrite <- lt64_spec by auto; congruence). lra. }
        repeat (split; [solve [auto]|]).
        split; [rewrite A6; unfold s1; cbn [s_grid]; apply gset_oob|].
        split.
        { intros c [Hc|Hc]; [subst c|apply A7; auto].
          rewrite A8; auto. unfold s1; cbn [s_grid]. rewrite gget_gset; auto.
          rewrite idx_eqb_refl. reflexivity. }
        split.
        { intros c Hc Hnc. rewrite A8; auto; [|intros H; apply Hnc; right; auto].
          unfold s1; cbn [s_grid]. rewrite gget_gset; auto.
          destruct (idx_eqb i c) eqn:Eq; auto. apply idx_eqb_eq in Eq. subst.
          exfalso. apply Hnc. left; auto. }
        split; auto. split; auto. split; [lra|]. split; [lra|].
        split; [intros c [Hc|Hc]; [subst c; fold v; lra|apply A13; auto]|].
        split; [intros c [Hc|Hc]; [subst c; fold v; lra|apply A14; auto]|].
        split.
        * destruct A15 as [A|(c & Hc & A)]; [|right; exists c; split; [right|]; auto].
          destruct (gt64 v mx); [right; exists i; split; [left|]; auto|left; auto].
        * destruct A16 as [A|(c & Hc & A)]; [|right; exists c; split; [right|]; auto].
          destruct (lt64 v mn); [right; exists i; split; [left|]; auto|left; auto].
      + unfold sdf_dims, s1. cbn [s_grid]. apply gset_dims.
      + auto.
      + auto.
      + unfold s1; cbn [s_grid]. apply gset_wf; auto.
      + auto.
      + intros j Hj. apply Hib. right; auto.
      + intros j Hj. apply Hnan. right; auto.
      + destruct (gt64 v mx); auto.
      + destruct (lt64 v mn); auto.
  Qed.

  (** On a planar grid every cell has a magnitude, bounded by the city-block
      distance to each cell of the other class. *)
  Definition flat_bound (o : idx -> option Z) : Prop :=
    flat d -> forall c p, in_bounds d c = true -> other_class d P c p ->
    exists z, o c = Some z /\ z <= manhattan c p * manhattan c p.

  Lemma cells_flat ff fr :
    build_distance_field d filled_cells = Ok ff ->
    build_distance_field d free_cells = Ok fr ->
    flat_bound (fun c => cell_distsq (if P c then fr else ff) c).
  Proof.
    intros Hff Hfr Hfl c p Hc (Hp & Hne). destruct (P c) eqn:EP.
    - eapply planar_finite; eauto using free_inside. apply in_filter_sweep. split; auto.
      cbn beta. destruct (P p); auto; congruence.
    - eapply planar_finite; eauto using filled_inside. apply in_filter_sweep. split; auto.
      destruct (P p); auto; congruence.
  Qed.

  (** Everything the extraction without border guarantees. *)
  Lemma extract_facts :
    exists s mx mn, extract_sdf d r is_filled oob frame = Ok (s, (mx, mn)) /\
      sdf_dims s = d /\ s_res s = r /\ s_locked s = false /\ s_frame s = frame /\
      goob (s_grid s) = oob /\ wf_grid (s_grid s) /\
      is_nan _ _ mx = false /\ is_nan _ _ mn = false /\
      exists o : idx -> option Z,
        (forall c, in_bounds d c = true ->
           (forall m, o c = Some m -> 1 <= m <= 2147483647 /\
              exists p, other_class d P c p /\ distsq c p = m) /\
           (forall v, nearest_other d P c v -> v <= 6 -> o c = Some v) /\
           sdf_get s c = (signed_value (P c) (o c) r, true) /\
           is_nan _ _ (signed_double c (o c)) = false /\
           (xr64 mn <= xr64 (signed_double c (o c)) <= xr64 mx)%R) /\
        (0 < ncells d -> 
           (exists c, in_bounds d c = true /\ mx = signed_double c (o c)) /\
           (exists c, in_bounds d c = true /\ mn = signed_double c (o c))) /\
        flat_bound o.
  Proof.
    destruct build_filled as (ff & Hff). destruct build_free as (fr & Hfr).
    assert (HD0 : 0 <= nx d /\ 0 <= ny d /\ 0 <= nz d) by (destruct Hs; lia).
    set (o := fun c => cell_distsq (if P c then fr else ff) c).
    assert (CO : forall c, in_bounds d c = true -> cell_distance ff fr r c = signed_double c (o c) /\
      (forall m, o c = Some m -> 1 <= m <= 2147483647 /\
         exists p, other_class d P c p /\ distsq c p = m) /\
      (forall v, nearest_other d P c v -> v <= 6 -> o c = Some v)).
    { intros c Hc. apply cell_distance_ok; auto. }
    assert (SD : forall c, in_bounds d c = true ->
      is_nan _ _ (signed_double c (o c)) = false /\
      b32_of_b64 (signed_double c (o c)) = signed_value (P c) (o c) r).
    { intros c Hc. destruct (signed_double_ok c (o c)) as (A & B & _); auto.
      intros m Hm. destruct (CO c Hc) as (_ & K & _). apply K; auto. }
    unfold extract_sdf. rewrite (classify_filter is_filled P).
    2:{ intros i Hi. apply HP. apply sweep_in in Hi; auto. }
    cbn [bind app]. fold filled_cells. fold free_cells.
    rewrite Hff. cbn [bind]. rewrite Hfr. cbn [bind].
    destruct (fold_left (generate_cell ff fr) (sweep d) (new_sdf d r oob frame, (ninf64, inf64)))
      as (s & mx & mn) eqn:E.
    exists s, mx, mn. split; auto.
    apply generate_fold in E; auto.
    - destruct E as (A1 & A2 & A3 & A4 & A5 & A6 & A7 & A8 & A9 & A10 & A11 & A12 & A13 & A14 & A15 & A16).
      repeat (split; [solve [auto]|]). exists o. split; [|split].
      + intros c Hc. destruct (CO c Hc) as (C1 & C2 & C3). destruct (SD c Hc) as (S1 & S2).
        assert (Hin : In c (sweep d)) by (apply sweep_in; auto).
        split; auto. split; auto. split.
        * unfold sdf_get. rewrite get_eq. unfold sdf_dims in A1. rewrite A1, Hc.
          rewrite A7 by auto. rewrite C1, S2. reflexivity.
        * split; auto. rewrite <- C1. split; auto.
      + intros Hn.
        assert (Hex : exists c, in_bounds d c = true).
        { destruct (sweep d) as [|c l] eqn:Es.
          - assert (L : List.length (sweep d) = Z.to_nat (ncells d)) by (apply sweep_length; lia).
            rewrite Es in L. cbn in L. lia.
          - exists c. apply sweep_in. rewrite Es. left; auto. }
        destruct Hex as (c0 & Hc0). destruct (SD c0 Hc0) as (S1 & _).
        assert (Hin0 : In c0 (sweep d)) by (apply sweep_in; auto).
        split.
        * destruct A15 as [A|(c & Hc & A)].
          -- exists c0. split; auto. rewrite <- (proj1 (CO c0 Hc0)). rewrite A.
             specialize (A13 c0 Hin0). rewrite A in A13.
             assert (N0 : is_nan _ _ (cell_distance ff fr r c0) = false).
             { rewrite (proj1 (CO c0 Hc0)). auto. }
             destruct (cell_distance ff fr r c0) as [s1|s1|s1 p1 H1|s1 m1 e1 H1] eqn:Ecd;
               try discriminate.
             ++ exfalso. unfold xr64 in A13. cbn in A13. pose proof (B_pos 1024). cbn in *. lra.
             ++ destruct s1; auto. exfalso. unfold xr64 in A13. cbn [ninf64 xr] in A13.
                pose proof (B_pos 1024). lra.
             ++ exfalso. destruct (xr_finite 53 1024 (B754_finite 53 1024 s1 m1 e1 H1) eq_refl) as (_ & K).
                unfold xr64 in A13. cbn [ninf64 xr] in A13. cbn [xr] in K. lra.
          -- apply sweep_in in Hc. exists c. split; auto. rewrite A. apply CO; auto.
        * destruct A16 as [A|(c & Hc & A)].
          -- exists c0. split; auto. rewrite <- (proj1 (CO c0 Hc0)). rewrite A.
             specialize (A14 c0 Hin0). rewrite A in A14.
             assert (N0 : is_nan _ _ (cell_distance ff fr r c0) = false).
             { rewrite (proj1 (CO c0 Hc0)). auto. }
             destruct (cell_distance ff fr r c0) as [s1|s1|s1 p1 H1|s1 m1 e1 H1] eqn:Ecd;
               try discriminate.
             ++ exfalso. unfold xr64 in A14. cbn in A14. pose proof (B_pos 1024). cbn in *. lra.
             ++ destruct s1; auto. exfalso. unfold xr64 in A14. cbn [inf64 xr] in A14.
                pose proof (B_pos 1024). lra.
             ++ exfalso. destruct (xr_finite 53 1024 (B754_finite 53 1024 s1 m1 e1 H1) eq_refl) as (_ & K).
                unfold xr64 in A14. cbn [inf64 xr] in A14. cbn [xr] in K. lra.
          -- apply sweep_in in Hc. exists c. split; auto. rewrite A. apply CO; auto.
      + apply cells_flat; auto.
    - unfold new_sdf. cbn [s_grid]. apply mk_grid_wf; lia.
    - apply sweep_nodup.
    - intros i Hi. apply sweep_in in Hi; auto.
    - intros i Hi. apply sweep_in in Hi. rewrite (proj1 (CO i Hi)). apply SD; auto.
  Qed.
End Extract.

(** Drawing of a hashed map in terms of its reads, and a concrete history. *)
From Coq Require Import Lia Permutation.
From Verif Require Import Base BaseFacts Floats Grid GridFacts CollisionMap Display Hashed HashedSpec HashedProofs.
Local Open Scope Z_scope.

Section Export.
  Context {point : Type} (cell_at : point -> idx) (place : idx -> idx -> point).
  Variables (d : dims) (oob : ccell) (frame : string) (ws : list (write point)).
  Variables (order : chunks -> chunks) (collision free unknown : color).
  Hypothesis Hd : chunk_ok d.
  Hypothesis Ho : chunk_order order.

  Let h := apply_writes cell_at (h_new frame d oob) ws.
  Let color_of := h_color collision free unknown.

  Lemma local_id d' i : in_bounds d' i = true -> forall k, chunk_ok d' ->
    let c := I (ix k * nx d' + ix i) (iy k * ny d' + iy i) (iz k * nz d' + iz i) in
    region_of d' c = k /\ local_of d' c = i.
  Proof.
    intros B k (H1 & H2 & H3). apply in_bounds_spec in B. destruct k as [kx ky kz], i as [x y z].
    unfold region_of, local_of. cbn [ix iy iz] in *.
    rewrite !(Z.add_comm (_ * _)), !Z.div_add, !Z.mod_add, !Z.div_small, !Z.mod_small by lia. auto.
  Qed.

  (** Every cell has a location in it. *)
  Hypothesis Hcells : forall i, exists p, cell_at p = i.

  Lemma in_marker order' h' p c : exists mc mk,
    h_export place order' h' collision free unknown =
      (if (0 <? length (mk_points mc))%nat then [mc] else []) ++ (if (0 <? length (mk_points mk))%nat then [mk] else []) /\
    (In (p, c) (items mc) <-> In (p, c) (flat_map (chunk_items place collision free unknown) (order' (h_chunks h')))) /\
    (In (p, c) (items mk) <-> In (p, c) (flat_map (cell_items place collision free unknown) (order' (h_chunks h')))).
  Proof.
    destruct (export_shape place collision free unknown order' h') as (mc & mk & E & _ & _ & _ & _ & _ & _ & I1 & I2).
    exists mc, mk. rewrite I1, I2. split; auto. split; reflexivity.
  Qed.

  Lemma get_whole k v q : region_of d (cell_at q) = k ->
    (chunk_get k (h_chunks h) = Some (Whole v) <-> h_get cell_at h q = (v, FoundInChunk)).
  Proof.
    intros R. unfold h_get. destruct (good_writes cell_at d oob frame Hd ws) as (A1 & _). fold h in A1. rewrite A1, R.
    destruct (chunk_get k (h_chunks h)) as [[w|g]|]; split; intros E; try discriminate; injection E as ->; auto.
  Qed.

  Lemma get_cell k i q : region_of d (cell_at q) = k -> local_of d (cell_at q) = i -> forall v,
    ((exists g, chunk_get k (h_chunks h) = Some (PerCell g) /\ gget g i = v) <-> h_get cell_at h q = (v, FoundInCell)).
  Proof.
    intros R L v. unfold h_get. destruct (good_writes cell_at d oob frame Hd ws) as (A1 & _). fold h in A1. rewrite A1, R, L.
    destruct (chunk_get k (h_chunks h)) as [[w|g]|]; split; try (intros (g' & E & _); discriminate); try discriminate.
    - intros (g' & E & <-). injection E as ->. auto.
    - intros E. injection E as <-. eauto.
  Qed.

  Lemma export_ok : exists mc mk,
    h_export place order h collision free unknown =
      (if (0 <? length (mk_points mc))%nat then [mc] else []) ++ (if (0 <? length (mk_points mk))%nat then [mk] else []) /\
    mk_frame mc = frame /\ mk_frame mk = frame /\
    mk_ns mc = Text "dynamic_spatial_hashed_collision_map_chunks_display" /\
    mk_ns mk = Text "dynamic_spatial_hashed_collision_map_cells_display" /\
    length (mk_points mc) = length (mk_colors mc) /\ length (mk_points mk) = length (mk_colors mk) /\
    (forall p c, In (p, c) (combine (mk_points mc) (mk_colors mc)) <->
       exists q v, h_get cell_at h q = (v, FoundInChunk) /\ p = place (region_of d (cell_at q)) (I 0 0 0) /\
         c = color_of v) /\
    (forall p c, In (p, c) (combine (mk_points mk) (mk_colors mk)) <->
       exists q v, h_get cell_at h q = (v, FoundInCell) /\
         p = place (region_of d (cell_at q)) (local_of d (cell_at q)) /\ c = color_of v) /\
    ((forall k i k' i', in_bounds d i = true -> in_bounds d i' = true -> place k i = place k' i' -> k = k' /\ i = i') ->
     NoDup (mk_points mc) /\ NoDup (mk_points mk)).
  Proof.
    assert (Hg : good d oob frame h) by (apply good_writes; auto).
    destruct (export_shape place collision free unknown order h) as (mc & mk & E & F1 & F2 & N1 & N2 & L1 & L2 & I1 & I2).
    exists mc, mk. split; auto. pose proof Hg as (A1 & A2 & A3 & _ & _ & _ & ND & A8). rewrite A3 in *.
    do 6 (split; [auto|]). unfold items in *. split; [|split].
    - intros p c. rewrite I1. rewrite (chunk_items_in d oob frame place collision free unknown order h p c Ho Hg). split.
      + intros (k & v & Ek & -> & ->). destruct (Hcells (I (ix k * nx d + 0) (iy k * ny d + 0) (iz k * nz d + 0))) as (q & Eq).
        destruct Hd as (H1 & H2 & H3).
        assert (R : region_of d (cell_at q) = k).
        { rewrite Eq. apply (local_id d (I 0 0 0)); [|split; auto]. apply in_bounds_spec; cbn [ix iy iz]; lia. }
        exists q, v. rewrite R. split; [apply (get_whole k); auto|auto].
      + intros (q & v & Eq & -> & ->). exists (region_of d (cell_at q)), v. split; auto. apply (get_whole _ v q); auto.
    - intros p c. rewrite I2. rewrite (cell_items_in d oob frame place collision free unknown order h p c Ho Hg). split.
      + intros (k & g & i & Ek & B & -> & ->).
        destruct (Hcells (I (ix k * nx d + ix i) (iy k * ny d + iy i) (iz k * nz d + iz i))) as (q & Eq).
        destruct (local_id d i B k Hd) as (R & L). rewrite <- Eq in R, L.
        exists q, (gget g i). rewrite R, L. split; auto. apply (get_cell k i); eauto.
      + intros (q & v & Eq & -> & ->).
        apply (get_cell _ _ q eq_refl eq_refl) in Eq as (g & Eg & <-).
        exists (region_of d (cell_at q)), g, (local_of d (cell_at q)). split; auto. split; auto. apply local_in; auto.
    - intros Inj.
      assert (P1 : mk_points mc = map fst (flat_map (chunk_items place collision free unknown) (order (h_chunks h)))).
      { rewrite <- I1. clear - L1. revert L1. generalize (mk_colors mc).
        induction (mk_points mc) as [|a l IH]; intros [|b m] E; cbn in *; try discriminate; auto.
        f_equal. auto. }
      assert (P2 : mk_points mk = map fst (flat_map (cell_items place collision free unknown) (order (h_chunks h)))).
      { rewrite <- I2. clear - L2. revert L2. generalize (mk_colors mk).
        induction (mk_points mk) as [|a l IH]; intros [|b m] E; cbn in *; try discriminate; auto.
        f_equal. auto. }
      assert (O0 : in_bounds d (I 0 0 0) = true) by (apply in_bounds_spec; destruct Hd as (? & ? & ?); cbn [ix iy iz]; lia).
      assert (NDo : NoDup (map fst (order (h_chunks h)))).
      { eapply Permutation_NoDup; [apply Permutation_map, Ho|auto]. }
      assert (Wo : forall k g, In (k, PerCell g) (order (h_chunks h)) -> gdims g = d).
      { intros k g H. apply (Permutation_in _ (Permutation_sym (Ho (h_chunks h)))) in H. apply in_chunk_get in H; auto. apply A8 in H. tauto. }
      rewrite P1, P2. clear P1 P2 I1 I2. revert NDo Wo.
      induction (order (h_chunks h)) as [|e l IH]; intros NDo Wo; cbn [flat_map map]; [split; constructor|].
      cbn [map] in NDo. apply NoDup_cons_iff in NDo as (Ne & NDl).
      destruct (IH NDl) as (J1 & J2); [intros k g H; apply (Wo k); right; auto|].
      rewrite !map_app. split.
      + destruct e as [k [v|g]]; cbn [chunk_items fst snd map app]; auto. constructor; auto.
        intros H. apply in_map_iff in H as ((p & c) & Ep & H). cbn [fst] in Ep. apply in_flat_map in H as ((k' & c') & H1 & H2).
        destruct c' as [v'|g']; cbn [chunk_items fst snd] in H2; [|destruct H2]. destruct H2 as [H2|[]]. injection H2 as H2 _.
        rewrite <- H2 in Ep. apply Inj in Ep as (Ek & _); auto. cbn [fst] in Ne. apply Ne. rewrite <- Ek.
        apply (in_map fst) in H1. auto.
      + destruct e as [k [v|g]]; cbn [cell_items fst snd map app]; auto.
        assert (Gd : gdims g = d) by (apply (Wo k); left; auto). rewrite Gd. rewrite map_map. cbn [fst].
        clear IH.
        assert (S1 : NoDup (map (fun i => place k i) (sweep d))).
        { assert (S : forall i, In i (sweep d) -> in_bounds d i = true) by (intros; apply sweep_in; auto).
          pose proof (sweep_nodup d) as Sn. revert S Sn. induction (sweep d) as [|i s IHs]; intros S Sn; cbn [map]; constructor.
          - intros H. apply in_map_iff in H as (j & Ej & Hj). apply NoDup_cons_iff in Sn as (Q1 & Q2). apply Inj in Ej as (_ & Ej);
              [rewrite Ej in Hj; contradiction|apply S; right; auto|apply S; left; auto].
          - apply NoDup_cons_iff in Sn as (Q1 & Q2). apply IHs; auto. intros j Hj. apply S; right; auto. }
        assert (S2 : forall x, In x (map (fun i => place k i) (sweep d)) ->
           ~ In x (map fst (flat_map (cell_items place collision free unknown) l))).
        { intros x Hx H. apply in_map_iff in Hx as (i & <- & Hi). apply sweep_in in Hi.
          apply in_map_iff in H as ((p & c) & Ep & H). cbn [fst] in Ep. apply in_flat_map in H as ((k' & c') & H1 & H2).
          destruct c' as [v'|g']; cbn [cell_items fst snd] in H2; [destruct H2|].
          apply in_map_iff in H2 as (j & H2 & Hj). injection H2 as H2 _.
          rewrite (Wo k' g') in Hj by (right; auto). apply sweep_in in Hj.
          rewrite <- H2 in Ep. apply Inj in Ep as (Ek & _); auto. cbn [fst] in Ne. apply Ne. rewrite <- Ek.
          apply (in_map fst) in H1. auto. }
        clear - S1 S2 J2. induction (map (fun i => place k i) (sweep d)) as [|a s IHs]; cbn [app]; auto.
        inversion S1; subst. constructor.
        * intros H. apply in_app_or in H as [H|H]; auto. apply (S2 a); auto. left; auto.
        * apply IHs; auto. intros x Hx. apply S2. right; auto.
  Qed.
End Export.

(** Proofs about the hashed map. *)
From Coq Require Import Lia Permutation.
From Verif Require Import Base BaseFacts Floats Grid GridFacts CollisionMap Display Hashed HashedSpec.
Local Open Scope Z_scope.

(** ** The table of chunks *)
Lemma chunk_get_put k c l x : chunk_get x (chunk_put k c l) = if idx_eqb k x then Some c else chunk_get x l.
Proof.
  unfold chunk_get. induction l as [|e l IH]; cbn [chunk_put find fst].
  - destruct (idx_eqb k x); auto.
  - destruct (idx_eqb_spec (fst e) k) as [E|E]; cbn [find fst].
    + rewrite E. destruct (idx_eqb k x); auto.
    + destruct (idx_eqb_spec (fst e) x) as [E2|E2].
      * destruct (idx_eqb_spec k x) as [E3|E3]; auto. congruence.
      * exact IH.
Qed.

Lemma chunk_put_keys k c l x : In x (map fst (chunk_put k c l)) <-> x = k \/ In x (map fst l).
Proof.
  induction l as [|e l IH]; cbn [chunk_put map fst In].
  - intuition.
  - destruct (idx_eqb_spec (fst e) k) as [E|E]; cbn [map fst In]; [subst; intuition|rewrite IH; intuition].
Qed.

Lemma chunk_put_nodup k c l : NoDup (map fst l) -> NoDup (map fst (chunk_put k c l)).
Proof.
  induction l as [|e l IH]; cbn [chunk_put map fst]; intros N; [constructor; auto; constructor|].
  inversion N as [|? ? N1 N2]; subst. destruct (idx_eqb_spec (fst e) k) as [E|E]; cbn [map fst].
  - subst. constructor; auto.
  - constructor; auto. rewrite chunk_put_keys. intros [H|H]; auto.
Qed.

Lemma chunk_get_in k c l : chunk_get k l = Some c -> In (k, c) l.
Proof.
  unfold chunk_get. destruct (find (fun e => idx_eqb (fst e) k) l) as [[k' c']|] eqn:E; [|discriminate].
  apply find_some in E as (E1 & E2). cbn [fst snd] in *. destruct (idx_eqb_spec k' k); [|discriminate].
  intros Q. injection Q as <-. subst. auto.
Qed.

Lemma in_chunk_get k c l : NoDup (map fst l) -> In (k, c) l -> chunk_get k l = Some c.
Proof.
  intros N H. unfold chunk_get. induction l as [|e l IH]; [destruct H|]. cbn [map] in N.
  inversion N as [|? ? N1 N2]; subst. cbn [find]. destruct H as [->|H].
  - cbn [fst]. rewrite idx_eqb_refl. auto.
  - destruct (idx_eqb_spec (fst e) k) as [E|E]; [|apply IH; auto].
    exfalso. apply N1. rewrite E. apply (in_map fst) in H. auto.
Qed.

(** ** Cells of a chunk *)
Lemma local_in d i : chunk_ok d -> in_bounds d (local_of d i) = true.
Proof.
  intros (H1 & H2 & H3). apply in_bounds_spec. unfold local_of. cbn [ix iy iz].
  pose proof (Z.mod_pos_bound (ix i) (nx d) H1). pose proof (Z.mod_pos_bound (iy i) (ny d) H2).
  pose proof (Z.mod_pos_bound (iz i) (nz d) H3). lia.
Qed.

Lemma cell_unique d i j : chunk_ok d -> region_of d i = region_of d j -> local_of d i = local_of d j -> i = j.
Proof.
  intros (H1 & H2 & H3) R L. injection R as R1 R2 R3. injection L as L1 L2 L3. destruct i as [x y z], j as [x' y' z'].
  cbn [ix iy iz] in *.
  rewrite (Z.div_mod x (nx d)), (Z.div_mod y (ny d)), (Z.div_mod z (nz d)) by lia.
  rewrite (Z.div_mod x' (nx d)), (Z.div_mod y' (ny d)), (Z.div_mod z' (nz d)) by lia. congruence.
Qed.

(** ** Maps *)
Section Map.
  Context {point : Type} (cell_at : point -> idx).

  Definition good (d : dims) (oob : ccell) (frame : string) (h : hmap) : Prop :=
    h_chunk h = d /\ h_oob h = oob /\ h_frame h = frame /\ h_init h = None /\ h_valid h = false /\ h_ncomp h = 0 /\
    NoDup (map fst (h_chunks h)) /\
    forall k g, chunk_get k (h_chunks h) = Some (PerCell g) -> wf_grid g /\ gdims g = d.

  Variables (d : dims) (oob : ccell) (frame : string).
  Hypothesis Hd : chunk_ok d.

  Lemma good_new : good d oob frame (h_new frame d oob).
  Proof. do 6 (split; [reflexivity|]). split; [constructor|]. intros k g H. discriminate. Qed.

  Lemma same_chunk_iff p q : same_chunk cell_at d p q <-> region_of d (cell_at p) = region_of d (cell_at q).
  Proof.
    unfold same_chunk, region_of. split.
    - intros (A & B & C). rewrite A, B, C. auto.
    - intros E. injection E as A B C. auto.
  Qed.

  Lemma same_cell_chunk p q : same_cell cell_at p q -> same_chunk cell_at d p q.
  Proof. unfold same_cell. intros E. apply same_chunk_iff. rewrite E. auto. Qed.

  Lemma good_write h w : good d oob frame h -> good d oob frame (apply_write cell_at h w).
  Proof.
    intros (A1 & A2 & A3 & A4 & A5 & A6 & A7 & A8).
    destruct w as [p v|p v]; unfold apply_write, h_set_cell, h_set_chunk, with_chunk; cbn [fst];
      unfold good; cbn [h_chunk h_oob h_frame h_init h_valid h_ncomp h_chunks];
      do 6 (split; [auto|]); (split; [apply chunk_put_nodup; auto|]); intros k g; rewrite chunk_get_put.
    - destruct (idx_eqb _ k) eqn:E; [|apply A8]. intros Q. injection Q as <-.
      rewrite A1 in *. destruct Hd as (D1 & D2 & D3).
      assert (M : forall w0, wf_grid (mk_grid d w0 (h_oob h))) by (intros; apply mk_grid_wf; lia).
      destruct (chunk_get _ (h_chunks h)) as [[w0|g]|] eqn:Eg.
      + split; [apply gset_wf, M|rewrite gset_dims; auto].
      + apply A8 in Eg as (W & G). split; [apply gset_wf; auto|rewrite gset_dims; auto].
      + split; [apply gset_wf, M|rewrite gset_dims; auto].
    - destruct (idx_eqb _ k) eqn:E; [discriminate|apply A8].
  Qed.

  Lemma good_writes ws : good d oob frame (apply_writes cell_at (h_new frame d oob) ws).
  Proof.
    unfold apply_writes. apply fold_left_inv with (I := good d oob frame); [apply good_new|].
    intros h w _ H. apply good_write; auto.
  Qed.

  Definition found (s : found_status) : Prop := s <> NotFound.

  Lemma get_covered h w q : good d oob frame h -> covers cell_at d w q ->
    fst (h_get cell_at (apply_write cell_at h w) q) = written w /\ found (snd (h_get cell_at (apply_write cell_at h w) q)).
  Proof.
    intros (A1 & A2 & _ & _ & _ & _ & A7 & A8) C.
    destruct w as [p v|p v]; unfold apply_write, h_set_cell, h_set_chunk, with_chunk, h_get, found; cbn [fst];
      cbn [h_chunk h_oob h_chunks]; rewrite chunk_get_put; cbn [covers written] in *.
    - unfold same_cell in C. rewrite C, idx_eqb_refl. cbn [fst snd]. split; [|discriminate].
      rewrite gget_gset.
      + rewrite idx_eqb_refl. auto.
      + rewrite A1 in *. destruct (chunk_get _ _) as [[w0|g]|] eqn:Eg; [| |].
        * apply mk_grid_wf; destruct Hd as (? & ? & ?); lia.
        * apply A8 in Eg. tauto.
        * apply mk_grid_wf; destruct Hd as (? & ? & ?); lia.
      + rewrite A1 in *. replace (gdims _) with d; [apply local_in; auto|].
        destruct (chunk_get _ _) as [[w0|g]|] eqn:Eg; auto. apply A8 in Eg. symmetry; tauto.
    - apply same_chunk_iff in C. rewrite A1, C, idx_eqb_refl. cbn [fst snd]. split; [auto|discriminate].
  Qed.

  Lemma get_touched h w q : good d oob frame h -> touches cell_at d w q -> ~ covers cell_at d w q ->
    fst (h_get cell_at (apply_write cell_at h w) q) = fst (h_get cell_at h q) /\
    found (snd (h_get cell_at (apply_write cell_at h w) q)).
  Proof.
    intros (A1 & A2 & _ & _ & _ & _ & A7 & A8) T C.
    destruct w as [p v|p v]; cbn [touches covers] in *; [|contradiction].
    unfold apply_write, h_set_cell, with_chunk, h_get, found; cbn [fst];
      cbn [h_chunk h_oob h_chunks]; rewrite chunk_get_put.
    apply same_chunk_iff in T. rewrite A1, T, idx_eqb_refl. cbn [fst snd]. split; [|discriminate].
    assert (L : idx_eqb (local_of d (cell_at p)) (local_of d (cell_at q)) = false).
    { destruct (idx_eqb_spec (local_of d (cell_at p)) (local_of d (cell_at q))) as [E|E]; auto.
      exfalso. apply C. unfold same_cell. eapply cell_unique; eauto. }
    destruct (chunk_get (region_of d (cell_at q)) (h_chunks h)) as [[w0|g]|] eqn:Eg.
    - rewrite gget_gset, L.
      + rewrite gget_mk_grid by (apply local_in; auto). auto.
      + apply mk_grid_wf; destruct Hd as (? & ? & ?); lia.
      + apply local_in; auto.
    - apply A8 in Eg as (W & G). rewrite gget_gset, L; auto. rewrite G. apply local_in; auto.
    - rewrite gget_gset, L.
      + rewrite gget_mk_grid by (apply local_in; auto). auto.
      + apply mk_grid_wf; destruct Hd as (? & ? & ?); lia.
      + apply local_in; auto.
  Qed.

  Lemma get_untouched h w q : good d oob frame h -> ~ touches cell_at d w q ->
    h_get cell_at (apply_write cell_at h w) q = h_get cell_at h q.
  Proof.
    intros (A1 & A2 & _) T.
    destruct w as [p v|p v]; cbn [touches] in T; rewrite same_chunk_iff in T;
      unfold apply_write, h_set_cell, h_set_chunk, with_chunk, h_get; cbn [fst];
      cbn [h_chunk h_oob h_chunks]; rewrite chunk_get_put, A1.
    all: destruct (idx_eqb_spec (region_of d (cell_at p)) (region_of d (cell_at q))) as [E|E]; [contradiction|]; auto.
  Qed.

  Lemma covers_touches w q : covers cell_at d w q -> touches cell_at d w q.
  Proof. destruct w; cbn [covers touches]; auto. apply same_cell_chunk. Qed.

  Lemma covers_dec w q : covers cell_at d w q \/ ~ covers cell_at d w q.
  Proof.
    destruct w as [p v|p v]; cbn [covers]; [unfold same_cell|rewrite same_chunk_iff].
    - destruct (idx_eq_dec (cell_at p) (cell_at q)); auto.
    - destruct (idx_eq_dec (region_of d (cell_at p)) (region_of d (cell_at q))); auto.
  Qed.

  Lemma touches_dec w q : touches cell_at d w q \/ ~ touches cell_at d w q.
  Proof.
    assert (K : forall p, same_chunk cell_at d p q \/ ~ same_chunk cell_at d p q).
    { intros p. rewrite same_chunk_iff. destruct (idx_eq_dec (region_of d (cell_at p)) (region_of d (cell_at q))); auto. }
    destruct w as [p v|p v]; cbn [touches]; apply K.
  Qed.

  Lemma history ws q : let h := apply_writes cell_at (h_new frame d oob) ws in
    (forall v, last_covering cell_at d ws q v -> fst (h_get cell_at h q) = v) /\
    ((forall w, In w ws -> ~ covers cell_at d w q) -> fst (h_get cell_at h q) = oob) /\
    (found (snd (h_get cell_at h q)) <-> exists w, In w ws /\ touches cell_at d w q).
  Proof.
    cbn zeta. induction ws as [|w ws (I1 & I2 & I3)] using rev_ind.
    - cbn [apply_writes fold_left]. unfold h_get, h_new. cbn [h_chunks chunk_get find h_oob fst snd].
      split; [|split; [auto|]].
      + intros v (pre & w & post & E & _). destruct pre; discriminate.
      + unfold found. split; [intros H; contradiction|intros (w & [] & _)].
    - unfold apply_writes in *. rewrite fold_left_app. cbn [fold_left].
      set (h := fold_left (apply_write cell_at) ws (h_new frame d oob)) in *.
      assert (Hg : good d oob frame h) by apply good_writes.
      destruct (covers_dec w q) as [C|C].
      + destruct (get_covered h w q Hg C) as (G1 & G2). split; [|split].
        * intros v (pre & w' & post & E & C' & <- & Hpost). rewrite G1.
          destruct post as [|w2 post] using rev_ind.
          -- apply app_inj_tail in E as (_ & <-). auto.
          -- exfalso. rewrite app_comm_cons, app_assoc in E. apply app_inj_tail in E as (_ & <-).
             apply (Hpost w); auto. apply in_or_app; right; left; auto.
        * intros H. exfalso. apply (H w); auto. apply in_or_app; right; left; auto.
        * split; auto. intros _. exists w. split; [apply in_or_app; right; left; auto|apply covers_touches; auto].
      + assert (V : fst (h_get cell_at (apply_write cell_at h w) q) = fst (h_get cell_at h q)).
        { destruct (touches_dec w q) as [T|T]; [apply get_touched; auto|rewrite get_untouched; auto]. }
        split; [|split].
        * intros v (pre & w' & post & E & C' & <- & Hpost). rewrite V. apply I1.
          destruct post as [|w2 post] using rev_ind.
          -- apply app_inj_tail in E as (_ & <-). contradiction.
          -- rewrite app_comm_cons, app_assoc in E. apply app_inj_tail in E as (E & <-).
             exists pre, w', post. do 3 (split; [auto|]). intros w2 H2. apply Hpost. apply in_or_app; auto.
        * intros H. rewrite V. apply I2. intros w' H'. apply H. apply in_or_app; auto.
        * destruct (touches_dec w q) as [T|T].
          -- destruct (get_touched h w q Hg T C) as (_ & G2). split; auto.
             intros _. exists w. split; auto. apply in_or_app; right; left; auto.
          -- rewrite get_untouched by auto. rewrite I3. split; intros (w' & H1 & H2).
             ++ exists w'. split; auto. apply in_or_app; auto.
             ++ apply in_app_or in H1 as [H1|[->|[]]]; [exists w'; auto|contradiction].
  Qed.

  (** ** Display *)
  Variable place : idx -> idx -> point.
  Variables collision free unknown : color.

  Let color_of := h_color collision free unknown.

  (** The drawing of a chunk: points and colours for either marker. *)
  Definition chunk_items (e : idx * chunk) : list (point * color) :=
    match snd e with Whole v => [(place (fst e) (I 0 0 0), color_of v)] | PerCell _ => [] end.
  Definition cell_items (e : idx * chunk) : list (point * color) :=
    match snd e with
    | Whole _ => []
    | PerCell g => map (fun i => (place (fst e) i, color_of (gget g i))) (sweep (gdims g))
    end.

  Definition items (m : marker point) : list (point * color) := combine (mk_points m) (mk_colors m).

  Definition extends (m m' : marker point) (l : list (point * color)) : Prop :=
    mk_frame m' = mk_frame m /\ mk_ns m' = mk_ns m /\ mk_points m' = mk_points m ++ map fst l /\
    mk_colors m' = mk_colors m ++ map snd l.

  Lemma extends_trans m m' m'' l l' : extends m m' l -> extends m' m'' l' -> extends m m'' (l ++ l').
  Proof.
    intros (A1 & A2 & A3 & A4) (B1 & B2 & B3 & B4). unfold extends.
    rewrite B1, B2, B3, B4, A1, A2, A3, A4, !map_app, !app_assoc. auto.
  Qed.

  Lemma extends_nil m : extends m m [].
  Proof. unfold extends. cbn. rewrite !app_nil_r. auto. Qed.

  Lemma add_point_extends (m : marker point) p c : extends m (add_point m p c) [(p, c)].
  Proof. unfold extends, add_point. cbn. auto. Qed.

  Lemma cells_extend k (g : grid ccell) l : forall m,
    extends m (fold_left (fun m i => add_point m (place k i) (color_of (gget g i))) l m)
      (map (fun i => (place k i, color_of (gget g i))) l).
  Proof.
    induction l as [|i l IH]; intros m; cbn [fold_left map]; [apply extends_nil|].
    change (?a :: ?b) with ([a] ++ b). eapply extends_trans; [apply add_point_extends|apply IH].
  Qed.

  Lemma draw_chunks l : forall st,
    let st' := fold_left (draw_chunk place collision free unknown) l st in
    extends (fst st) (fst st') (flat_map chunk_items l) /\ extends (snd st) (snd st') (flat_map cell_items l).
  Proof.
    cbn zeta. induction l as [|e l IH]; intros st; cbn [fold_left flat_map]; [split; apply extends_nil|].
    destruct (IH (draw_chunk place collision free unknown st e)) as (I1 & I2).
    split; (eapply extends_trans; [|eassumption]); unfold draw_chunk, chunk_items, cell_items; destruct (snd e) as [v|g];
      cbn [fst snd].
    - apply add_point_extends.
    - apply extends_nil.
    - apply extends_nil.
    - apply cells_extend.
  Qed.

  Lemma combine_items (l : list (point * color)) : combine (map fst l) (map snd l) = l.
  Proof. induction l as [|[a b] l IH]; cbn; [|rewrite IH]; auto. Qed.

  (** The markers returned: of the two, those that have points. *)
  Lemma export_shape order h : exists mc mk,
    h_export place order h collision free unknown =
      (if (0 <? length (mk_points mc))%nat then [mc] else []) ++ (if (0 <? length (mk_points mk))%nat then [mk] else []) /\
    mk_frame mc = h_frame h /\ mk_frame mk = h_frame h /\
    mk_ns mc = Text "dynamic_spatial_hashed_collision_map_chunks_display" /\
    mk_ns mk = Text "dynamic_spatial_hashed_collision_map_cells_display" /\
    length (mk_points mc) = length (mk_colors mc) /\ length (mk_points mk) = length (mk_colors mk) /\
    items mc = flat_map chunk_items (order (h_chunks h)) /\ items mk = flat_map cell_items (order (h_chunks h)).
  Proof.
    unfold h_export. set (st0 := (blank _ _, blank _ _)).
    pose proof (draw_chunks (order (h_chunks h)) st0) as K. cbn zeta in K.
    destruct (fold_left (draw_chunk place collision free unknown) (order (h_chunks h)) st0) as [mc mk].
    cbn [fst snd] in K. destruct K as ((A1 & A2 & A3 & A4) & (B1 & B2 & B3 & B4)).
    exists mc, mk. split; auto. unfold st0 in *. cbn [fst snd blank mk_frame mk_ns mk_points mk_colors app] in *.
    do 4 (split; [auto|]). rewrite A3, A4, B3, B4, !map_length. do 2 (split; [auto|]).
    unfold items. rewrite A3, A4, B3, B4, !combine_items. auto.
  Qed.

  (** Items of the two markers in terms of the table. *)
  Lemma chunk_items_in order h p c : chunk_order order -> good d oob frame h ->
    (In (p, c) (flat_map chunk_items (order (h_chunks h))) <->
     exists k v, chunk_get k (h_chunks h) = Some (Whole v) /\ p = place k (I 0 0 0) /\ c = color_of v).
  Proof.
    intros O (_ & _ & _ & _ & _ & _ & N & _). rewrite in_flat_map. split.
    - intros ((k & ck) & He & Hi). apply (Permutation_in _ (Permutation_sym (O (h_chunks h)))) in He.
      apply in_chunk_get in He; auto. destruct ck as [v|g]; cbn [chunk_items fst snd] in Hi; [|destruct Hi].
      destruct Hi as [Hi|[]]. injection Hi as <- <-. exists k, v. auto.
    - intros (k & v & E & -> & ->). exists (k, Whole v). split; [|left; auto].
      apply (Permutation_in _ (O (h_chunks h))), chunk_get_in; auto.
  Qed.

  Lemma cell_items_in order h p c : chunk_order order -> good d oob frame h ->
    (In (p, c) (flat_map cell_items (order (h_chunks h))) <->
     exists k g i, chunk_get k (h_chunks h) = Some (PerCell g) /\ in_bounds d i = true /\
       p = place k i /\ c = color_of (gget g i)).
  Proof.
    intros O (_ & _ & _ & _ & _ & _ & N & G). rewrite in_flat_map. split.
    - intros ((k & ck) & He & Hi). apply (Permutation_in _ (Permutation_sym (O (h_chunks h)))) in He.
      apply in_chunk_get in He; auto. destruct ck as [v|g]; cbn [cell_items fst snd] in Hi; [destruct Hi|].
      apply in_map_iff in Hi as (i & Hi & Hs). injection Hi as <- <-. apply sweep_in in Hs.
      destruct (G _ _ He) as (W & E). rewrite E in Hs. exists k, g, i. auto.
    - intros (k & g & i & E & B & -> & ->). exists (k, PerCell g). split.
      + apply (Permutation_in _ (O (h_chunks h))), chunk_get_in; auto.
      + cbn [cell_items fst snd]. apply in_map_iff. exists i. split; auto. apply sweep_in.
        destruct (G _ _ E) as (W & ->). auto.
  Qed.
End Map.

From Coq Require Import Sorted.
From Verif Require Import Base BaseFacts Floats Grid GridFacts DistSpec TopoSpec CCModel CCProofs
  CollisionMap CollisionMapProofs SdfGen SdfSpec SdfGenProofs SdfThms SdfBorderThms Arith SdfQuery SdfField
  Extrema ExtremaSpec ExtremaProofs TaggedMap TaggedSpec NormSym.

Lemma tm_get_eq m i : tm_get m i = (gget (tm_grid m) i, in_bounds (tm_dims m) i).
Proof. apply get_eq. Qed.

(** Both marking callbacks replace one cell. *)
Definition tput (m : tmap) (i : idx) (v : tcell) : tmap :=
  TM (gset (tm_grid m) i v) (tm_ncomp m) (tm_nseg m) (tm_frame m) false (tm_seg_valid m).

Lemma tm_mark_eq m i c :
  tm_mark m i c =
    if in_bounds (tm_dims m) i then tput m i (TC (tocc m i) c (tobj m i) (tseg m i)) else m.
Proof.
  unfold tm_mark, tm_get_mutable. destruct (in_bounds (tm_dims m) i) eqn:E; auto.
  unfold tm_set, tm_dims in *; cbn [tm_grid]. rewrite E. reflexivity.
Qed.

Lemma seg_mark_eq m i c :
  seg_mark m i c =
    if in_bounds (tm_dims m) i then tput m i (TC (tocc m i) (tcomp m i) (tobj m i) c) else m.
Proof.
  unfold seg_mark, tm_get_mutable. destruct (in_bounds (tm_dims m) i) eqn:E; auto.
  unfold tm_set, tm_dims in *; cbn [tm_grid]. rewrite E. reflexivity.
Qed.

Lemma tput_get m i v j : tmap_ok m -> in_bounds (tm_dims m) i = true ->
  fst (tm_get (tput m i v) j) = if idx_eqb i j then v else fst (tm_get m j).
Proof.
  intros (W & _) E. rewrite !tm_get_eq. cbn [fst tput tm_grid]. apply gget_gset; auto.
Qed.

Lemma tput_dims m i v : tm_dims (tput m i v) = tm_dims m.
Proof. unfold tm_dims, tput; cbn [tm_grid]. apply gset_dims. Qed.

Lemma tmap_ok_put m i v : tmap_ok m -> tcell_ok v -> tmap_ok (tput m i v).
Proof.
  intros (W & N & O & C) Hv. unfold tmap_ok, tm_dims, tm_get, tput in *; cbn [tm_grid].
  rewrite gset_dims, gset_oob. split; [apply gset_wf; auto|]. split; auto. split; auto.
  intros j. destruct (in_bounds (gdims (tm_grid m)) i) eqn:E.
  - rewrite get_eq; cbn [fst]. rewrite gget_gset by auto.
    destruct (idx_eqb i j); auto. apply C.
  - rewrite gset_oob_id by auto. apply C.
Qed.

Lemma same_refl m : same_frame_and_size m m.
Proof. repeat split; auto. Qed.

Lemma same_trans a b c : same_frame_and_size a b -> same_frame_and_size b c -> same_frame_and_size a c.
Proof.
  intros (A1 & A2 & A3 & A4 & A5) (B1 & B2 & B3 & B4 & B5).
  split; [congruence|]. split; [congruence|]. split; [congruence|].
  split; intros i; congruence.
Qed.

Lemma same_put m i v : tmap_ok m -> in_bounds (tm_dims m) i = true ->
  t_occ v = tocc m i -> t_obj v = tobj m i -> same_frame_and_size m (tput m i v).
Proof.
  intros Hok Hi Ho Hb. split; [apply tput_dims|]. split; [reflexivity|].
  split; [apply gset_oob|]. unfold tocc, tobj in *.
  split; intros j; rewrite tput_get by auto; destruct (idx_eqb_spec i j); subst; auto.
Qed.

(** ** Components *)

Definition tgood (m0 m : tmap) : Prop :=
  tmap_ok m /\ only_components_differ m0 m.

Lemma tgood_mark m0 m i c : tgood m0 m -> u32 c -> tgood m0 (tm_mark m i c).
Proof.
  intros (O & S & G & N & V) Hc. rewrite tm_mark_eq.
  destruct (in_bounds (tm_dims m) i) eqn:E; [|split; [|split]; auto].
  pose proof O as (_ & _ & _ & C). destruct (C i) as (C1 & C2 & C3).
  split; [apply tmap_ok_put; auto; split; [|split]; auto|].
  split; [eapply same_trans; [exact S|]; apply same_put; auto|].
  split; [|split; auto]. intros j. rewrite <- G. unfold tseg.
  rewrite tput_get by auto. destruct (idx_eqb_spec i j); subst; auto.
Qed.

Lemma tkind_same m m' a b : same_frame_and_size m m' -> tsame_kind m' a b = tsame_kind m a b.
Proof. intros (_ & _ & _ & P & _). unfold tsame_kind. rewrite !P. auto. Qed.

Lemma tupdate_fresh m :
  tmap_ok m -> tm_valid m = false ->
  exists m' n, tm_update m = Ok (m', n) /\ tmap_ok m' /\ only_components_differ m m' /\
    tcomponents_right m' n /\ tm_ncomp m' = n /\ tm_valid m' = true /\ n <= ncells (tm_dims m).
Proof.
  intros Hok Hv. unfold tm_update. rewrite Hv.
  pose proof Hok as ((H1 & H2 & H3 & L) & N & _ & _).
  assert (Hg : tgood m m) by (split; auto; split; [apply same_refl|auto]).
  destruct (compute_correct (tm_dims m) tm_connected tm_component tm_mark (tgood m)
    (fun _ => true) (tsame_kind m) tcomp) with (s := m) as (m' & n & E & G' & Hn & R & O); auto.
  - intros s i c G _ Hc. apply tgood_mark; auto.
  - intros s i c j (G & (D1 & _) & _) Hi Hc Hj. rewrite tm_mark_eq, D1, Hi.
    unfold tcomp at 1. rewrite tput_get by (auto; congruence). destruct (idx_eqb i j); auto.
  - intros s i (G & _) _. destruct G as (_ & _ & _ & C). apply C.
  - intros s i (G & (D1 & _) & _). rewrite andb_true_r. unfold tm_component, tcomp.
    rewrite tm_get_eq, D1. destruct (in_bounds (tm_dims m) i); auto.
  - intros s a b (G & S & _) _ _ _ _. rewrite <- (tkind_same m s a b S). reflexivity.
  - intros a b. unfold tsame_kind. destruct (gt32 _ _), (gt32 _ _); auto.
  - rewrite E. cbn [bind]. destruct G' as (G' & S' & Sg & Ns & Vs).
    eexists _, n. split; [reflexivity|]. split; [exact G'|].
    split; [split; [exact S'|split; [exact Sg|split; [exact Ns|exact Vs]]]|].
    split; [|auto]. pose proof S' as (D1 & _).
    split.
    + change (tm_dims (TM (tm_grid m') n (tm_nseg m') (tm_frame m') true (tm_seg_valid m'))) with (tm_dims m').
      rewrite D1. apply (regions_numbered_ext _ _ (tsame_kind m)); [|exact R].
      intros a b. symmetry. apply (tkind_same m m' a b S').
    + change (tm_dims (TM (tm_grid m') n (tm_nseg m') (tm_frame m') true (tm_seg_valid m'))) with (tm_dims m').
      rewrite D1. exact O.
Qed.

Definition tsound (m : tmap) : Prop :=
  tmap_ok m /\ (tm_valid m = true -> tcomponents_right m (tm_ncomp m)).

Lemma tupdate_sound m :
  tsound m ->
  exists m' n, tm_update m = Ok (m', n) /\ tmap_ok m' /\ only_components_differ m m' /\
    tcomponents_right m' n /\ tm_ncomp m' = n /\ tm_valid m' = true /\
    (tm_valid m = true -> m' = m).
Proof.
  intros (Hok & Hs). destruct (tm_valid m) eqn:Ev.
  - exists m, (tm_ncomp m). unfold tm_update. rewrite Ev.
    split; auto. split; auto. split; [split; [apply same_refl|auto]|]. auto.
  - destruct (tupdate_fresh m Hok Ev) as (m' & n & E & H1 & H2 & H3 & H4 & H5 & _).
    exists m', n. intuition congruence.
Qed.

Lemma tupdate_payload m m' n :
  tmap_ok m -> tm_update m = Ok (m', n) -> only_components_differ m m'.
Proof.
  intros Hok E. destruct (tm_valid m) eqn:Ev.
  - unfold tm_update in E. rewrite Ev in E. injection E as <- <-. split; [apply same_refl|auto].
  - destruct (tupdate_fresh m Hok Ev) as (m1 & n1 & E1 & _ & H2 & _). congruence.
Qed.

(** Maps with equal occupancies get the same component numbers. *)
Lemma tupdate_determined m1 m2 :
  tsound m1 -> tsound m2 -> tm_dims m2 = tm_dims m1 -> (forall i, tocc m2 i = tocc m1 i) ->
  exists m1' m2' n, tm_update m1 = Ok (m1', n) /\ tm_update m2 = Ok (m2', n) /\
    (forall i, in_bounds (tm_dims m1) i = true -> tcomp m1' i = tcomp m2' i) /\
    tm_update m1' = Ok (m1', n).
Proof.
  intros S1 S2 Dm P.
  destruct (tupdate_sound m1 S1) as (m1' & n1 & E1 & O1 & ((D1 & _ & _ & P1 & _) & _) & (R1 & Q1) & N1 & V1 & _).
  destruct (tupdate_sound m2 S2) as (m2' & n2 & E2 & O2 & ((D2 & _ & _ & P2 & _) & _) & (R2 & Q2) & N2 & V2 & _).
  assert (Dm' : tm_dims m2' = tm_dims m1') by congruence. rewrite Dm' in *.
  destruct (labels_unique (tm_dims m1') (fun _ => true) (tsame_kind m1') (tcomp m1') n1 (tcomp m2') n2)
    as (En & El); auto.
  { eapply regions_numbered_ext; [|exact R2]. intros a b. unfold tsame_kind.
    rewrite !P1, !P2, !P. reflexivity. }
  exists m1', m2', n1. split; auto. split; [congruence|]. split.
  - intros i Hi. apply El. congruence.
  - unfold tm_update. rewrite V1, N1; auto.
Qed.

(** ** Signed distance fields *)

Lemma enlarged_ok d : size_ok (enlarged_dims d) -> 0 <= nx d -> 0 <= ny d -> 0 <= nz d -> size_ok d.
Proof.
  intros (S1 & S2 & S3 & S4) H1 H2 H3. unfold enlarged_dims, enlarged in *. cbn [nx ny nz] in *.
  unfold size_ok. destruct (1 <? nx d), (1 <? ny d), (1 <? nz d); nia.
Qed.

(** Extraction from a grid, with or without border. *)
Lemma grid_sign d r oob frame is_filled P border :
  size_ok (enlarged_dims d) -> 0 <= nx d -> 0 <= ny d -> 0 <= nz d -> usable_resolution r ->
  answers d is_filled P ->
  exists s x, extract_sdf_grid d r r r is_filled oob frame border = Ok (s, x) /\
    sdf_dims s = d /\ s_res s = r /\ s_frame s = frame /\ s_locked s = false /\
    goob (s_grid s) = oob /\
    forall c, in_bounds d c = true -> exists v, sdf_get s c = (v, true) /\
      is_nan 24 128 v = false /\
      (P c = false -> gt32 v zero32 = true) /\
      (P c = true -> lt32 v zero32 = true).
Proof.
  intros Hs H1 H2 H3 Hr HP. destruct border.
  - apply border_sign; auto.
  - unfold extract_sdf_grid. rewrite ne64_refl by auto. cbn [orb negb].
    apply extract_sign; auto. apply enlarged_ok; auto.
Qed.

Definition tfilled (m : tmap) (objects : list Z) (unknown : bool) (i : idx) : bool :=
  selected objects (tobj m i) && occupied unknown (tocc m i).

Lemma tm_answers m objects unknown :
  answers (tm_dims m)
    (fun i => let (c, ok) := tm_get m i in
              if ok then Ok (selected objects (t_obj c) && occupied unknown (t_occ c))
              else Throw "index out of grid bounds")
    (tfilled m objects unknown).
Proof.
  intros i Hi. unfold tfilled, tobj, tocc. rewrite !tm_get_eq. rewrite Hi. reflexivity.
Qed.

Lemma selected_spec objects id : selected objects id = true <-> objects = [] \/ In id objects.
Proof.
  unfold selected. rewrite orb_true_iff, existsb_exists. split.
  - intros [(x & Hx & E)|H].
    + apply Z.eqb_eq in E. subst. auto.
    + destruct objects; [auto|discriminate].
  - intros [->|H]; [auto|]. left. exists id. split; auto. apply Z.eqb_refl.
Qed.

Lemma tfilled_spec m objects unknown i :
  tfilled m objects unknown i = true <-> object_filled m objects unknown i.
Proof.
  unfold tfilled, object_filled. rewrite andb_true_iff, selected_spec, occupied_spec. tauto.
Qed.

Lemma object_sign g m oob objects unknown border :
  tmap_ok m -> size_ok (enlarged_dims (tm_dims m)) -> usable_resolution (g_cx g) ->
  g_cy g = g_cx g -> g_cz g = g_cx g ->
  exists s x, tm_extract_sdf g m oob objects unknown border = Ok (s, x) /\
    sdf_dims s = tm_dims m /\ s_res s = g_cx g /\ s_frame s = tm_frame m /\ s_locked s = false /\
    goob (s_grid s) = oob /\
    forall i, in_bounds (tm_dims m) i = true -> exists v, sdf_get s i = (v, true) /\
      is_nan 24 128 v = false /\
      (object_filled m objects unknown i -> lt32 v zero32 = true) /\
      (~ object_filled m objects unknown i -> gt32 v zero32 = true).
Proof.
  intros ((W1 & W2 & W3 & _) & _) Hs Hr Ey Ez. unfold tm_extract_sdf. rewrite Ey, Ez.
  destruct (grid_sign (tm_dims m) (g_cx g) oob (tm_frame m) _ (tfilled m objects unknown) border
    Hs W1 W2 W3 Hr (tm_answers m objects unknown)) as (s & x & E & A1 & A2 & A3 & A4 & A5 & A6).
  exists s, x. split; [exact E|]. repeat (split; [assumption|]).
  intros i Hi. destruct (A6 i Hi) as (v & G & N & F1 & F2). exists v. split; auto. split; auto.
  rewrite <- tfilled_spec. split; auto. intros Hne. apply F1.
  destruct (tfilled m objects unknown i); congruence.
Qed.

(** The named cell [p] counts for [c] when exactly one of the two is filled. *)
Lemma object_distance g m oob objects unknown s mx mn P :
  tmap_ok m -> size_ok (tm_dims m) -> usable_resolution (g_cx g) ->
  g_cy g = g_cx g -> g_cz g = g_cx g ->
  (forall i, P i = true <-> object_filled m objects unknown i) ->
  tm_extract_sdf g m oob objects unknown false = Ok (s, (mx, mn)) ->
  forall c, in_bounds (tm_dims m) c = true ->
  exists v, sdf_get s c = (signed_value (P c) v (g_cx g), true) /\
    (forall z, v = Some z -> 1 <= z <= 2147483647 /\
       exists p, other_class (tm_dims m) P c p /\ distsq c p = z) /\
    (forall z, nearest_other (tm_dims m) P c z -> z <= 6 -> v = Some z).
Proof.
  intros Hok Hs Hr Ey Ez HP E. unfold tm_extract_sdf in E. rewrite Ey, Ez in E.
  unfold extract_sdf_grid in E. rewrite ne64_refl in E by auto. cbn [orb negb] in E.
  refine (extract_magnitude (tm_dims m) (g_cx g) oob (tm_frame m) _ P Hs Hr _ s mx mn E).
  intros i Hi. rewrite (tm_answers m objects unknown i Hi). f_equal.
  destruct (P i) eqn:EP.
  - apply HP in EP. apply tfilled_spec; auto.
  - destruct (tfilled m objects unknown i) eqn:EF; auto. apply tfilled_spec, HP in EF. congruence.
Qed.

Lemma object_distance_border g m oob objects unknown s mx mn P :
  tmap_ok m -> size_ok (enlarged_dims (tm_dims m)) -> usable_resolution (g_cx g) ->
  g_cy g = g_cx g -> g_cz g = g_cx g ->
  (forall i, P i = true <-> object_filled m objects unknown i) ->
  tm_extract_sdf g m oob objects unknown true = Ok (s, (mx, mn)) ->
  forall c, in_bounds (tm_dims m) c = true ->
  exists v, sdf_get s c = (signed_value (P c) v (g_cx g), true) /\
    (forall z, v = Some z -> 1 <= z <= 2147483647 /\
       exists p, other_or_outside (tm_dims m) P c p /\ distsq c p = z) /\
    (forall z, nearest_other_or_outside (tm_dims m) P c z -> z <= 6 -> v = Some z).
Proof.
  intros ((W1 & W2 & W3 & _) & _) Hs Hr Ey Ez HP E. unfold tm_extract_sdf in E. rewrite Ey, Ez in E.
  refine (border_magnitude (tm_dims m) (g_cx g) oob (tm_frame m) _ P Hs _ Hr _ s mx mn E); auto.
  intros i Hi. rewrite (tm_answers m objects unknown i Hi). f_equal.
  destruct (P i) eqn:EP.
  - apply HP in EP. apply tfilled_spec; auto.
  - destruct (tfilled m objects unknown i) eqn:EF; auto. apply tfilled_spec, HP in EF. congruence.
Qed.

(** The combined field: free cells carry the distance to the nearest filled cell,
    filled cells of named objects that to the nearest cell outside every named
    object, other filled cells zero. *)
Lemma cells_extract g m f oob :
  tmap_ok m -> size_ok (tm_dims m) -> usable_resolution (g_cx g) ->
  g_cy g = g_cx g -> g_cz g = g_cx g ->
  exists s x, tm_extract_cells g m f oob = Ok (s, x) /\
    sdf_dims s = tm_dims m /\ s_res s = g_cx g /\ s_frame s = tm_frame m /\ s_locked s = false /\
    goob (s_grid s) = oob /\ wf_grid (s_grid s) /\
    (forall c, in_bounds (tm_dims m) c = true -> exists v, sdf_get s c = (v, true) /\
      is_nan 24 128 v = false /\
      (f (fst (tm_get m c)) = false -> gt32 v zero32 = true) /\
      (f (fst (tm_get m c)) = true -> lt32 v zero32 = true)).
Proof.
  intros Hok Hs Hr Ey Ez. unfold tm_extract_cells. rewrite Ey, Ez.
  unfold extract_sdf_grid. rewrite ne64_refl by auto. cbn [orb negb].
  assert (HA : answers (tm_dims m) (fun i => Ok (f (fst (tm_get m i)))) (fun i => f (fst (tm_get m i))))
    by (intros i _; reflexivity).
  destruct (extract_facts (tm_dims m) (g_cx g) oob (tm_frame m) _ _ Hs Hr HA)
    as (s & mx & mn & E & A1 & A2 & A3 & A4 & A5 & A6 & _).
  destruct (extract_sign (tm_dims m) (g_cx g) oob (tm_frame m) _ _ Hs Hr HA)
    as (s' & x' & E' & _ & _ & _ & _ & _ & B6).
  rewrite E in E'. injection E' as <- <-. exists s, (mx, mn). tauto.
Qed.

Lemma free_and_named g m oob unknown :
  tmap_ok m -> size_ok (tm_dims m) -> usable_resolution (g_cx g) ->
  g_cy g = g_cx g -> g_cz g = g_cx g ->
  exists s x free_s free_x named_s named_x,
    tm_free_and_named g m oob unknown = Ok (s, x) /\
    tm_extract_cells g m (fun c => occupied unknown (t_occ c)) oob = Ok (free_s, free_x) /\
    tm_extract_cells g m (fun c => (0 <? t_obj c) && occupied unknown (t_occ c)) oob = Ok (named_s, named_x) /\
    sdf_dims s = tm_dims m /\ s_res s = g_cx g /\ s_frame s = tm_frame m /\ s_locked s = false /\
    goob (s_grid s) = oob /\
    forall i, in_bounds (tm_dims m) i = true ->
      (~ counts_as_filled unknown (tocc m i) ->
         sdf_get s i = sdf_get free_s i /\ gt32 (fst (sdf_get s i)) zero32 = true) /\
      (counts_as_filled unknown (tocc m i) -> 0 < tobj m i ->
         sdf_get s i = sdf_get named_s i /\ lt32 (fst (sdf_get s i)) zero32 = true) /\
      (counts_as_filled unknown (tocc m i) -> tobj m i = 0 -> sdf_get s i = (zero32, true)).
Proof.
  intros Hok Hs Hr Ey Ez.
  destruct (cells_extract g m (fun c => occupied unknown (t_occ c)) oob Hok Hs Hr Ey Ez)
    as (fs & fx & Ef & F1 & F2 & F3 & F4 & F5 & F6 & F7).
  destruct (cells_extract g m (fun c => (0 <? t_obj c) && occupied unknown (t_occ c)) oob Hok Hs Hr Ey Ez)
    as (ns & nx_ & En & N1 & N2 & N3 & N4 & N5 & N6 & N7).
  unfold tm_free_and_named. rewrite Ef, En. cbn [bind].
  pose proof Hok as ((W1 & W2 & W3 & _) & _).
  destruct (write_all (fun i => combine_values (fst (sdf_get fs i)) (fst (sdf_get ns i)))
    (sweep (sdf_dims fs)) fs F4 F6) as (A1 & A2 & A3 & A4 & A5 & A6 & A7 & A8).
  { apply sweep_nodup. }
  { intros i Hi. apply sweep_in; auto. }
  cbn zeta in *.
  set (s := fold_left _ _ fs) in *.
  exists s, (fst fx, snd nx_), fs, fx, ns, nx_.
  split; [reflexivity|]. split; [reflexivity|]. split; [reflexivity|].
  split; [congruence|]. split; [congruence|]. split; [congruence|]. split; [auto|]. split; [congruence|].
  intros i Hi.
  assert (Es : sdf_get s i = (combine_values (fst (sdf_get fs i)) (fst (sdf_get ns i)), true)).
  { unfold sdf_get at 1. rewrite get_eq. rewrite A7 by (rewrite F1; apply sweep_in; auto).
    fold (sdf_dims s). rewrite A1, F1, Hi. reflexivity. }
  destruct (F7 i Hi) as (fv & Gf & Nf & Pf & Qf). destruct (N7 i Hi) as (nv & Gn & Nn & Pn & Qn).
  fold (tocc m i) in Pf, Qf, Pn, Qn. fold (tobj m i) in Pn, Qn.
  rewrite Es, Gf, Gn. cbn [fst].
  split; [|split].
  - intros Hc. assert (Eo : occupied unknown (tocc m i) = false).
    { destruct (occupied unknown (tocc m i)) eqn:E; auto. apply occupied_spec in E. contradiction. }
    rewrite combine_pos by auto. split; [reflexivity|auto].
  - intros Hc Hb. apply occupied_spec in Hc.
    assert (Hb' : (0 <? tobj m i) && occupied unknown (tocc m i) = true) by (rewrite Hc; lia).
    rewrite combine_neg by auto. split; [reflexivity|auto].
  - intros Hc Hb. apply occupied_spec in Hc. specialize (Qf Hc).
    rewrite Hb in Pn. specialize (Pn eq_refl). f_equal. unfold combine_values.
    destruct (ge32 fv zero32) eqn:E.
    { unfold ge32, gt32, eq32, lt32 in *. destruct (b32_compare fv zero32) as [[]|]; discriminate. }
    destruct (le32 nv zero32) eqn:E2; auto.
    unfold le32, gt32, eq32, lt32 in *. destruct (b32_compare nv zero32) as [[]|]; discriminate.
Qed.

(** ** Per-object fields *)

Lemma map_put_keys {V} k (v : V) l : forall x, In x (map fst (map_put k v l)) <-> x = k \/ In x (map fst l).
Proof.
  induction l as [|[k' v'] l IH]; intros x; cbn [map_put map fst In].
  - intuition.
  - destruct (Z.ltb_spec k k').
    + cbn [map fst In]. intuition.
    + destruct (Z.eqb_spec k k').
      * cbn [map fst In]. subst. intuition.
      * cbn [map fst In]. rewrite IH. intuition.
Qed.

Lemma map_put_in {V} k (v : V) l : ascending (map fst l) ->
  forall x w, In (x, w) (map_put k v l) <-> (x = k /\ w = v) \/ (x <> k /\ In (x, w) l).
Proof.
  induction l as [|[k' v'] l IH]; intros Hs x w; cbn [map_put map fst] in *.
  - cbn. intuition congruence.
  - inversion Hs as [|? ? Hs' Hf]; subst. rewrite Forall_forall in Hf.
    assert (HF : forall y u, In (y, u) l -> k' < y).
    { intros y u Hy. apply Hf. apply in_map_iff. exists (y, u). auto. }
    destruct (Z.ltb_spec k k') as [H|H].
    + cbn [In]. split.
      * intros [E|[E|E]]; [injection E as <- <-; auto|injection E as <- <-; right; split; [lia|auto]|].
        right. split; [specialize (HF _ _ E); lia|auto].
      * intros [(-> & ->)|(Hn & [E|E])]; auto.
    + destruct (Z.eqb_spec k k') as [->|Hn].
      * cbn [In]. split.
        -- intros [E|E]; [injection E as <- <-; auto|]. right. split; [specialize (HF _ _ E); lia|auto].
        -- intros [(-> & ->)|(Hn & [E|E])]; auto. injection E as <- <-. lia.
      * cbn [In]. rewrite IH by auto. split.
        -- intros [E|[(-> & ->)|(Hx & E)]]; auto. injection E as <- <-. right. split; [lia|auto].
        -- intros [(-> & ->)|(Hx & [E|E])]; auto.
Qed.

Lemma map_put_sorted {V} k (v : V) l : ascending (map fst l) -> ascending (map fst (map_put k v l)).
Proof.
  unfold ascending. induction l as [|[k' v'] l IH]; intros Hs; cbn [map_put map fst] in *.
  - repeat constructor.
  - inversion Hs as [|? ? Hs' Hf]; subst. rewrite Forall_forall in Hf.
    destruct (Z.ltb_spec k k') as [H|H].
    + constructor; auto. rewrite Forall_forall. cbn [map fst In].
      intros x [<-|Hx]; auto. specialize (Hf x Hx). lia.
    + destruct (Z.eqb_spec k k') as [->|Hn].
      * cbn [map fst]. constructor; auto. rewrite Forall_forall. auto.
      * cbn [map fst]. constructor; [auto|]. rewrite Forall_forall. intros x Hx.
        apply map_put_keys in Hx. destruct Hx as [->|Hx]; [lia|auto].
Qed.

Lemma object_ids_spec m :
  ascending (tm_object_ids m) /\
  forall id, In id (tm_object_ids m) <->
    0 < id /\ exists i, in_bounds (tm_dims m) i = true /\ tobj m i = id.
Proof.
  unfold tm_object_ids.
  assert (K : forall l acc, ascending (map fst acc) ->
    let r := map fst (fold_left (fun acc i => let id := t_obj (fst (tm_get m i)) in
                        if 0 <? id then map_put id tt acc else acc) l acc) in
    ascending r /\ forall id, In id r <-> In id (map fst acc) \/ (0 < id /\ exists i, In i l /\ tobj m i = id)).
  { induction l as [|a l IH]; intros acc Hacc; cbn zeta; cbn [fold_left].
    - split; auto. intros id. split; auto. intros [H|(_ & i & [] & _)]; auto.
    - cbn zeta in IH. fold (tobj m a). destruct (Z.ltb_spec 0 (tobj m a)) as [Hp|Hp].
      + destruct (IH (map_put (tobj m a) tt acc) (map_put_sorted _ _ _ Hacc)) as (I1 & I2).
        split; auto. intros id. rewrite I2, map_put_keys. split.
        * intros [[->|H]|(Hp' & i & Hi & E)]; auto; right; split; auto.
          -- exists a; cbn; auto.
          -- exists i; cbn; auto.
        * intros [H|(Hp' & i & [<-|Hi] & E)]; auto. right. eauto.
      + destruct (IH acc Hacc) as (I1 & I2). split; auto. intros id. rewrite I2. split.
        * intros [H|(Hp' & i & Hi & E)]; auto. right. split; auto. exists i; cbn; auto.
        * intros [H|(Hp' & i & [<-|Hi] & E)]; auto; [lia|]. right. eauto. }
  destruct (K (sweep (tm_dims m)) []) as (K1 & K2); [constructor|].
  cbn zeta in K1, K2. split; auto. intros id. rewrite K2. cbn. split.
  - intros [[]|(H & i & Hi & E)]. split; auto. exists i. split; auto. apply sweep_in; auto.
  - intros (H & i & Hi & E). right. split; auto. exists i. split; auto. apply sweep_in; auto.
Qed.

Lemma make_object_sdfs_spec g m ids unknown border :
  tmap_ok m -> size_ok (enlarged_dims (tm_dims m)) -> usable_resolution (g_cx g) ->
  g_cy g = g_cx g -> g_cz g = g_cx g ->
  exists l, tm_make_object_sdfs g m ids unknown border = Ok l /\
    ascending (map fst l) /\
    (forall id, In id (map fst l) <-> In id ids) /\
    (forall id s, In (id, s) l ->
       exists x, tm_extract_sdf g m inf32 [id] unknown border = Ok (s, x)).
Proof.
  intros Hok Hs Hr Ey Ez. unfold tm_make_object_sdfs.
  change (b32_of_b64 inf64) with inf32.
  destruct (foldM_inv_prefix (fun acc id =>
      let* (s, _) := tm_extract_sdf g m inf32 [id] unknown border in Ok (map_put id s acc))
    (fun pre l => ascending (map fst l) /\ (forall id, In id (map fst l) <-> In id pre) /\
       (forall id s, In (id, s) l -> exists x, tm_extract_sdf g m inf32 [id] unknown border = Ok (s, x)))
    ids []) as (l & E & I1 & I2 & I3).
  - split; [constructor|]. split; [intros; cbn; tauto|intros ? ? []].
  - intros pre a post l _ (I1 & I2 & I3).
    destruct (object_sign g m inf32 [a] unknown border Hok Hs Hr Ey Ez) as (s & x & E & _).
    rewrite E. cbn [bind]. eexists. split; [reflexivity|]. split; [apply map_put_sorted; auto|]. split.
    + intros id. rewrite map_put_keys, I2, in_app_iff. cbn. intuition.
    + intros id s' Hin. apply map_put_in in Hin; auto. destruct Hin as [(-> & ->)|(_ & Hin)]; eauto.
  - exists l. auto.
Qed.

Lemma make_all_spec g m unknown border :
  tmap_ok m -> size_ok (enlarged_dims (tm_dims m)) -> usable_resolution (g_cx g) ->
  g_cy g = g_cx g -> g_cz g = g_cx g ->
  exists l, tm_make_all_object_sdfs g m unknown border = Ok l /\
    ascending (map fst l) /\
    (forall id, In id (map fst l) <-> 0 < id /\ exists i, in_bounds (tm_dims m) i = true /\ tobj m i = id) /\
    (forall id s, In (id, s) l ->
       exists x, tm_extract_sdf g m inf32 [id] unknown border = Ok (s, x)).
Proof.
  intros Hok Hs Hr Ey Ez. unfold tm_make_all_object_sdfs.
  destruct (make_object_sdfs_spec g m (tm_object_ids m) unknown border Hok Hs Hr Ey Ez)
    as (l & E & A1 & A2 & A3).
  exists l. split; auto. split; auto. split; auto. intros id. rewrite A2. apply object_ids_spec.
Qed.

(** ** Convex segments *)

Definition sgood (m0 m : tmap) : Prop := tmap_ok m /\ only_segments_differ m0 m.

Lemma sgood_mark m0 m i c : sgood m0 m -> u32 c -> sgood m0 (seg_mark m i c).
Proof.
  intros (O & S & G & N) Hc. rewrite seg_mark_eq.
  destruct (in_bounds (tm_dims m) i) eqn:E; [|split; [|split]; auto].
  pose proof O as (_ & _ & _ & C). destruct (C i) as (C1 & C2 & C3).
  split; [apply tmap_ok_put; auto; split; [|split]; auto|].
  split; [eapply same_trans; [exact S|]; apply same_put; auto|].
  split; [|auto]. intros j. rewrite <- G. unfold tcomp.
  rewrite tput_get by auto. destruct (idx_eqb_spec i j); subst; auto.
Qed.

Lemma joined_ext_elig d el lk lk' a b :
  (forall x y, in_bounds d x = true -> in_bounds d y = true -> el x = true -> el y = true -> lk x y = lk' x y) ->
  joined d el lk a b -> joined d el lk' a b.
Proof.
  intros E H.
  assert (K : joined d el lk' a b /\ in_bounds d b = true /\ el b = true).
  { induction H as [a Ha He|a b c Hab IH Hadj Hc He Hl]; [split; [constructor|]; auto|].
    destruct IH as (IH & Hb & Hbe). split; auto.
    eapply joined_step; [exact IH|exact Hadj|exact Hc|exact He|]. rewrite <- E; auto. }
  apply K.
Qed.

Lemma regions_ext_elig d el lk lk' lab n :
  (forall x y, in_bounds d x = true -> in_bounds d y = true -> el x = true -> el y = true -> lk x y = lk' x y) ->
  regions_numbered d el lk lab n -> regions_numbered d el lk' lab n.
Proof.
  intros E (R0 & R1 & R2 & R3 & R4). split; auto. split; auto. split; auto. split; auto.
  intros a b Ha Hb Hae Hbe. rewrite (R4 a b Ha Hb Hae Hbe).
  split; apply joined_ext_elig; auto. intros; symmetry; auto.
Qed.

Lemma takes_part_notinf m ex i : takes_part m ex i = true ->
  isinf64 (vx (ex i)) = false /\ isinf64 (vy (ex i)) = false /\ isinf64 (vz (ex i)) = false.
Proof.
  unfold takes_part. intros H. apply andb_true_iff in H. destruct H as (_ & H).
  apply negb_true_iff in H. apply orb_false_iff in H. destruct H as (H & H3).
  apply orb_false_iff in H. tauto.
Qed.

Lemma segments_from ex m threshold :
  tmap_ok m ->
  exists m' n,
    compute_connected_components (tm_dims m) (seg_connected ex threshold) (seg_component ex) seg_mark m
      = Ok (m', n) /\
    tmap_ok m' /\ only_segments_differ m m' /\
    segments_right m' (fun i => fst (get ex i)) threshold n /\ n <= ncells (tm_dims m).
Proof.
  intros Hok. pose proof Hok as ((H1 & H2 & H3 & L) & N & _ & _).
  set (e := fun i => fst (get ex i)).
  set (lk := fun a b => takes_part m e a && takes_part m e b && seg_linked m e threshold a b).
  assert (Hg : sgood m m) by (split; auto; split; [apply same_refl|auto]).
  assert (LK : forall x y, takes_part m e x = true -> takes_part m e y = true ->
    lk x y = seg_linked m e threshold x y).
  { intros x y Hx Hy. unfold lk. rewrite Hx, Hy. reflexivity. }
  destruct (compute_correct (tm_dims m) (seg_connected ex threshold) (seg_component ex) seg_mark (sgood m)
    (takes_part m e) lk tseg) with (s := m) as (m' & n & E & G' & Hn & R & O); auto.
  - intros s i c G _ Hc. apply sgood_mark; auto.
  - intros s i c j (G & (D1 & _) & _) Hi Hc Hj. rewrite seg_mark_eq, D1, Hi.
    unfold tseg at 1. rewrite tput_get by (auto; congruence). destruct (idx_eqb i j); auto.
  - intros s i (G & _) _. destruct G as (_ & _ & _ & C). apply C.
  - intros s i (G & (D1 & _ & _ & P1 & P2) & _). unfold seg_component, tseg, takes_part.
    rewrite <- (P1 i), <- (P2 i). unfold tocc, tobj. rewrite tm_get_eq, D1. cbn [fst].
    destruct (in_bounds (tm_dims m) i); auto. cbn [andb].
    destruct (lt32 _ _ || _); auto. cbn [andb]. fold (e i).
    destruct (isinf64 (vx (e i))), (isinf64 (vy (e i))), (isinf64 (vz (e i))); reflexivity.
  - intros s a b (G & (D1 & _ & _ & P1 & P2) & _) _ _ Ha Hb. rewrite LK by auto.
    unfold seg_connected, seg_linked. rewrite <- (P2 a), <- (P2 b). unfold tobj, e.
    destruct (_ =? _); reflexivity.
  - intros a b. unfold lk. destruct (takes_part m e a) eqn:Ta, (takes_part m e b) eqn:Tb; auto.
    cbn [andb]. unfold seg_linked. rewrite (Z.eqb_sym (tobj m a)). f_equal.
    destruct (takes_part_notinf _ _ _ Ta) as (A1 & A2 & A3).
    destruct (takes_part_notinf _ _ _ Tb) as (B1 & B2 & B3).
    apply norm_swap; auto.
  - destruct G' as (G' & S'). exists m', n. split; auto. split; auto. split; auto. split; auto.
    pose proof S' as ((D1 & _ & _ & P1 & P2) & _).
    assert (TP : forall i, takes_part m' e i = takes_part m e i).
    { intros i. unfold takes_part. rewrite P1, P2. reflexivity. }
    assert (SL : forall a b, seg_linked m' e threshold a b = seg_linked m e threshold a b).
    { intros a b. unfold seg_linked. rewrite !P2. reflexivity. }
    unfold segments_right. rewrite D1. fold e. split.
    + apply (regions_ext_elig _ _ lk (seg_linked m e threshold)) in R.
      2:{ intros x y _ _ Hx Hy. apply LK; auto. }
      destruct R as (R0 & R1 & R2 & R3 & R4). split; auto.
      split; [intros a Ha He; apply R1; auto; rewrite <- TP; auto|].
      split; [intros a Ha He; apply R2; auto; rewrite <- TP; auto|].
      split.
      * intros k Hk. destruct (R3 k Hk) as (a & Ha & He & Hl). exists a. rewrite TP. auto.
      * intros a b Ha Hb He He'. rewrite TP in He, He'. rewrite (R4 a b Ha Hb He He').
        split; intros J.
        -- clear - J TP SL. induction J as [a Ha He|a b c _ IH Hadj Hc He Hl].
           ++ constructor; auto. rewrite TP; auto.
           ++ eapply joined_step; [exact IH|exact Hadj|exact Hc|rewrite TP; exact He|rewrite SL; exact Hl].
        -- clear - J TP SL. induction J as [a Ha He|a b c _ IH Hadj Hc He Hl].
           ++ constructor; auto. rewrite <- TP; auto.
           ++ eapply joined_step; [exact IH|exact Hadj|exact Hc|rewrite <- TP; exact He|rewrite <- SL; exact Hl].
    + intros pre a post Es He. rewrite TP in He.
      destruct (O pre a post Es He) as [|(b & Hb & Hbe & Hl)]; auto.
      right. exists b. rewrite TP. auto.
Qed.

Lemma extrema_defined g m border :
  tmap_ok m -> geometry_ok (tm_dims m) g ->
  exists ex, tm_extrema g m border = Ok ex /\ gdims ex = tm_dims m.
Proof.
  intros Hok (Hs & Hr & Ey & Ez & Ew & Hl). pose proof Hok as ((W1 & W2 & W3 & _) & _).
  unfold tm_extrema.
  assert (K : exists s x, (if border then tm_extract_sdf g m inf32 [] true true
                           else tm_free_and_named g m inf32 true) = Ok (s, x) /\ sdf_dims s = tm_dims m).
  { destruct border.
    - destruct (object_sign g m inf32 [] true true Hok Hs Hr Ey Ez) as (s & x & E & E1 & _). eauto.
    - destruct (free_and_named g m inf32 true Hok (enlarged_ok _ Hs W1 W2 W3) Hr Ey Ez)
        as (s & x & _ & _ & _ & _ & E & _ & _ & E1 & _). eauto. }
  destruct K as (s & x & E & Ed). rewrite E. cbn [bind]. rewrite Ew, <- Ed.
  change (sdf_dims s) with (f_dims (sdf_field s)).
  destruct (extrema_correct (sdf_field s) (g_pose g)) as (ex & E2 & E3 & _).
  - change (f_dims (sdf_field s)) with (sdf_dims s). rewrite Ed; auto.
  - change (f_dims (sdf_field s)) with (sdf_dims s). rewrite Ed; auto.
  - change (f_dims (sdf_field s)) with (sdf_dims s). rewrite Ed; auto.
  - change (f_dims (sdf_field s)) with (sdf_dims s). rewrite Ed; auto.
  - eauto.
Qed.

(** Which field the extrema come from. *)
Lemma extrema_field g m border :
  tmap_ok m -> geometry_ok (tm_dims m) g ->
  exists s ex, tm_extrema g m border = Ok ex /\
    compute_extrema (sdf_field s) (g_pose g) (tm_dims m) = Ok ex /\
    sdf_dims s = tm_dims m /\ s_res s = g_cx g /\ goob (s_grid s) = inf32 /\
    forall i, in_bounds (tm_dims m) i = true ->
      (lt32 (fst (sdf_get s i)) zero32 = true <->
         counts_as_filled true (tocc m i) /\ (border = true \/ 0 < tobj m i)) /\
      (gt32 (fst (sdf_get s i)) zero32 = true <-> ~ counts_as_filled true (tocc m i)).
Proof.
  intros Hok Hg. destruct (extrema_defined g m border Hok Hg) as (ex & E & _).
  destruct Hg as (Hs & Hr & Ey & Ez & Ew & Hl). pose proof Hok as ((W1 & W2 & W3 & _) & _ & _ & C).
  assert (NB : forall v : binary32, lt32 v zero32 = true -> gt32 v zero32 = true -> False).
  { intros v. unfold lt32, gt32. destruct (b32_compare v zero32) as [[]|]; discriminate. }
  pose proof E as E0. unfold tm_extrema in E0. destruct border.
  - destruct (object_sign g m inf32 [] true true Hok Hs Hr Ey Ez)
      as (s & x & Es & A1 & A2 & A3 & A4 & A5 & A6).
    rewrite Es in E0. cbn [bind] in E0. rewrite Ew in E0.
    exists s, ex. split; [exact E|]. split; [exact E0|]. split; [exact A1|]. split; [exact A2|]. split; [exact A5|].
    intros i Hi. destruct (A6 i Hi) as (v & Gv & Nv & Fl & Fg). rewrite Gv. cbn [fst].
    destruct (occupied true (tocc m i)) eqn:Eo.
    + assert (F : counts_as_filled true (tocc m i)) by (apply occupied_spec; auto).
      assert (L : lt32 v zero32 = true) by (apply Fl; split; auto).
      specialize (NB _ L). tauto.
    + assert (F : ~ counts_as_filled true (tocc m i)).
      { intros F. apply occupied_spec in F. congruence. }
      assert (L : gt32 v zero32 = true) by (apply Fg; intros (F' & _); auto).
      assert (NL := fun H => NB _ H L). tauto.
  - destruct (free_and_named g m inf32 true Hok (enlarged_ok _ Hs W1 W2 W3) Hr Ey Ez)
      as (s & x & fs & fx & ns & nx_ & Es & _ & _ & A1 & A2 & A3 & A4 & A5 & A6).
    rewrite Es in E0. cbn [bind] in E0. rewrite Ew in E0.
    exists s, ex. split; [exact E|]. split; [exact E0|]. split; [exact A1|]. split; [exact A2|]. split; [exact A5|].
    intros i Hi. destruct (A6 i Hi) as (F1 & F2 & F3).
    destruct (occupied true (tocc m i)) eqn:Eo.
    + assert (F : counts_as_filled true (tocc m i)) by (apply occupied_spec; auto).
      destruct (C i) as (_ & (Cb & _) & _). fold (tobj m i) in Cb.
      destruct (Z.eq_dec (tobj m i) 0) as [Hb|Hb].
      * rewrite (F3 F Hb). cbn [fst]. split; split; try discriminate.
        -- intros (_ & [H|H]); [discriminate|lia].
        -- intros; contradiction.
      * assert (Hp : 0 < tobj m i) by lia. destruct (F2 F Hp) as (_ & L).
        specialize (NB _ L). tauto.
    + assert (F : ~ counts_as_filled true (tocc m i)).
      { intros F. apply occupied_spec in F. congruence. }
      destruct (F1 F) as (_ & L).
      assert (NL := fun H => NB _ H L). tauto.
Qed.

Lemma segments_update g m threshold border ex :
  tmap_ok m -> tm_extrema g m border = Ok ex ->
  exists m' n, tm_update_segments g m threshold border = Ok (m', n) /\
    tmap_ok m' /\ only_segments_differ m m' /\
    segments_right m' (fun i => fst (get ex i)) threshold n /\
    tm_nseg m' = n /\ tm_segments_valid m' = Ok true /\ n <= ncells (tm_dims m).
Proof.
  intros Hok E. unfold tm_update_segments. rewrite E. cbn [bind].
  destruct (segments_from ex m threshold Hok) as (m' & n & E1 & O1 & S1 & R1 & L1).
  rewrite E1. cbn [bind]. eexists _, n. split; [reflexivity|].
  split; [exact O1|]. split; [exact S1|]. split; [exact R1|]. auto.
Qed.

Lemma segments_defined g m threshold border :
  tmap_ok m -> geometry_ok (tm_dims m) g ->
  exists ex m' n, tm_extrema g m border = Ok ex /\ gdims ex = tm_dims m /\
    tm_update_segments g m threshold border = Ok (m', n).
Proof.
  intros Hok Hg. destruct (extrema_defined g m border Hok Hg) as (ex & E & Ed).
  destruct (segments_update g m threshold border ex Hok E) as (m' & n & E2 & _). eauto 6.
Qed.

Lemma joined_same_object d m el ex t a b :
  joined d el (seg_linked m ex t) a b -> tobj m a = tobj m b.
Proof.
  induction 1 as [|a b c _ IH _ _ _ Hl]; auto.
  unfold seg_linked in Hl. apply andb_true_iff in Hl. destruct Hl as (Hl & _). lia.
Qed.

Lemma segments_words g m threshold border ex m' n :
  tmap_ok m -> tm_extrema g m border = Ok ex ->
  tm_update_segments g m threshold border = Ok (m', n) ->
  (forall a b, in_bounds (tm_dims m) a = true -> in_bounds (tm_dims m) b = true ->
     tseg m' a <> 0 -> tseg m' a = tseg m' b -> tobj m a = tobj m b) /\
  (forall a, in_bounds (tm_dims m) a = true -> 0 <= tseg m' a <= n) /\
  (forall a, in_bounds (tm_dims m) a = true -> tseg m' a <> 0 ->
     (lt32 (tocc m a) half32 = true \/ 0 < tobj m a) /\
     isinf64 (vx (fst (get ex a))) = false /\ isinf64 (vy (fst (get ex a))) = false /\
     isinf64 (vz (fst (get ex a))) = false).
Proof.
  intros Hok Ex E. destruct (segments_update g m threshold border ex Hok Ex)
    as (m1 & n1 & E1 & _ & ((D1 & _ & _ & P1 & P2) & _) & ((R0 & R1 & R2 & _ & R4) & _) & _).
  rewrite E in E1. injection E1 as <- <-. rewrite D1 in *.
  assert (EL : forall a, in_bounds (tm_dims m) a = true -> tseg m' a <> 0 ->
    takes_part m' (fun i => fst (get ex i)) a = true).
  { intros a Ha Hn. destruct (takes_part _ _ a) eqn:Et; [reflexivity|]. exfalso. exact (Hn (R2 a Ha Et)). }
  split; [|split].
  - intros a b Ha Hb Hn Eq. rewrite <- (P2 a), <- (P2 b).
    eapply joined_same_object. apply (R4 a b Ha Hb); [apply EL; auto|apply EL; auto; congruence|exact Eq].
  - intros a Ha. destruct (takes_part m' (fun i => fst (get ex i)) a) eqn:Et.
    + specialize (R1 a Ha Et). lia.
    + rewrite (R2 a Ha Et). lia.
  - intros a Ha Hn. specialize (EL a Ha Hn). split; [|apply (takes_part_notinf _ _ _ EL)].
    unfold takes_part in EL. apply andb_true_iff in EL. destruct EL as (EL & _).
    apply orb_true_iff in EL. rewrite P1, P2 in EL. destruct EL; [auto|right; lia].
Qed.

(** ** Histories *)

(** Marking segments never makes the components count as valid. *)
Lemma segments_components_valid g m threshold border m' n :
  tmap_ok m -> tm_update_segments g m threshold border = Ok (m', n) -> tm_valid m' = true -> tm_valid m = true.
Proof.
  intros Hok E. unfold tm_update_segments in E.
  destruct (tm_extrema g m border) as [ex| |] eqn:Ex; try discriminate. cbn [bind] in E.
  destruct (segments_from ex m threshold Hok) as (m1 & n1 & E1 & _ & _ & _ & _).
  rewrite E1 in E. cbn [bind] in E. injection E as <- <-. cbn [tm_valid]. intros Hv.
  destruct (tm_valid m) eqn:Em; auto. exfalso.
  (* validity can only go down *)
  assert (MK : forall s i c, tm_valid s = false -> tm_valid (seg_mark s i c) = false).
  { intros s i c Hs. rewrite seg_mark_eq. destruct (in_bounds (tm_dims s) i); auto. }
  assert (FL : forall l s, tm_valid s = false ->
    tm_valid (fold_left (fun s i => seg_mark s i 0) l s) = false).
  { induction l; intros s Hs; cbn [fold_left]; auto. }
  assert (BF : forall fuel s q h c s', tm_valid s = false ->
    bfs (seg_connected ex threshold) (seg_component ex) seg_mark fuel s q h c = Ok s' -> tm_valid s' = false).
  { induction fuel as [|fuel IH]; intros s q h c s' Hs; cbn [bfs]; destruct q as [|cur q]; try discriminate.
    - intros [= <-]; auto.
    - intros [= <-]; auto.
    - destruct (fold_left _ _ _) as (q2 & h2). intros Eb. eapply IH; [|exact Eb]. auto. }
  unfold compute_connected_components in E1. 
  destruct (foldM _ _ _) as [st| |] eqn:Ef; try discriminate. cbn [bind] in E1. injection E1 as E1 _.
  assert (K : tm_valid (cs_map st) = false).
  { assert (G : forall l st0 st1, tm_valid (cs_map st0) = false ->
      foldM (cc_visit (tm_dims m) (seg_connected ex threshold) (seg_component ex) seg_mark) l st0 = Ok st1 ->
      tm_valid (cs_map st1) = false).
    { induction l as [|a l IH]; intros st0 st1 H0; cbn [foldM].
      - intros [= <-]; auto.
      - destruct (cc_visit _ _ _ _ st0 a) as [st2| |] eqn:Ec; cbn [bind]; try discriminate.
        apply IH. unfold cc_visit in Ec. destruct (cs_returned st0); [congruence|].
        destruct (_ =? 0); [|congruence]. unfold mark_connected_component in Ec.
        destruct (bfs _ _ _ _ _ _ _ _) as [s'| |] eqn:Eb; cbn [bind] in Ec; try discriminate.
        injection Ec as <-. cbn [cs_map]. eapply BF; [|exact Eb]. exact H0. }
    eapply G; [|exact Ef]. cbn [cs_map]. apply FL; auto. }
  congruence.
Qed.

Lemma tcomponents_same m m' n :
  tcomponents_right m n -> only_segments_differ m m' -> tcomponents_right m' n.
Proof.
  intros (R & O) ((D1 & _ & _ & P1 & P2) & C & _). split.
  - rewrite D1. eapply regions_numbered_ext2; [| |exact R].
    + intros x y _ _. unfold tsame_kind. rewrite !P1. reflexivity.
    + intros x _. auto.
  - rewrite D1. eapply sweep_order_ext; [|exact O]. auto.
Qed.

Record thist (g : geometry) (d : dims) (live : list nat) (st : tmap * list cref) : Prop := {
  TH_sound : tsound (fst st);
  TH_dims : tm_dims (fst st) = d;
  TH_live : forall k, In k live -> (k < List.length (snd st))%nat;
  TH_refs : forall k i, In k live -> nth_error (snd st) k = Some (RCell i) -> tm_valid (fst st) = false
}.

Lemma tmap_ok_oob m v : tmap_ok m -> tcell_ok v -> tmap_ok (tm_write_ref m ROob v).
Proof.
  intros ((W1 & W2 & W3 & W4) & N & O & C) Hv. unfold tmap_ok, tm_write_ref, tm_dims, tm_get in *.
  cbn [tm_grid gdims gdata goob]. split; [repeat split; auto|]. split; auto. split; auto.
  intros i. specialize (C i). unfold get in *. cbn [gdims gdata goob].
  destruct (in_bounds (gdims (tm_grid m)) i) eqn:Hi; cbn [fst] in *; auto.
  rewrite (nth_indep _ v (goob (tm_grid m))); auto.
  rewrite W4. pose proof (data_index_range _ _ Hi). unfold tm_dims in *. lia.
Qed.

Lemma twrite_oob_get m v i : tmap_ok m -> in_bounds (tm_dims m) i = true ->
  tm_get (tm_write_ref m ROob v) i = tm_get m i.
Proof.
  intros ((W1 & W2 & W3 & W4) & _) Hi. unfold tm_get, get, tm_write_ref, tm_dims in *.
  cbn [tm_grid gdims gdata goob]. rewrite Hi. f_equal. apply nth_indep.
  rewrite W4. pose proof (data_index_range _ _ Hi). lia.
Qed.

Lemma thist_step g d live o st ops :
  geometry_ok d g -> top_ok o -> thist g d live st ->
  trefs_not_kept (List.length (snd st)) live (o :: ops) ->
  exists st' live', tm_step g st o = Ok st' /\ thist g d live' st' /\
    trefs_not_kept (List.length (snd st')) live' ops.
Proof.
  intros Hg Hop [Hs Hd Hl Hr] Hk. destruct st as [m refs]. cbn [fst snd] in *.
  destruct o as [i v|i|k v| |t b]; cbn [tm_step trefs_not_kept top_ok] in *.
  - exists (fst (tm_set m i v), refs), live. split; auto. split; auto.
    unfold tm_set. destruct (in_bounds (tm_dims m) i); cbn [fst].
    + change (TM (gset (tm_grid m) i v) (tm_ncomp m) (tm_nseg m) (tm_frame m) false (tm_seg_valid m))
        with (tput m i v). constructor; cbn [fst snd]; auto.
      * split; [apply tmap_ok_put; [apply Hs|auto]|discriminate].
      * rewrite tput_dims; auto.
    + constructor; auto.
  - unfold tm_get_mutable. destruct (in_bounds (tm_dims m) i).
    + exists (TM (tm_grid m) (tm_ncomp m) (tm_nseg m) (tm_frame m) false (tm_seg_valid m), refs ++ [RCell i]),
             (List.length refs :: live).
      split; auto. split.
      * constructor; cbn [fst snd tm_valid]; auto.
        -- split; [apply Hs|discriminate].
        -- intros k [<-|Hin]; rewrite app_length; cbn; [lia|]. specialize (Hl k Hin). lia.
      * cbn [snd]. rewrite app_length. cbn. rewrite Nat.add_1_r. auto.
    + exists (m, refs ++ [ROob]), (List.length refs :: live). split; auto. split.
      * constructor; cbn [fst snd]; auto.
        -- intros k [<-|Hin]; rewrite app_length; cbn; [lia|]. specialize (Hl k Hin). lia.
        -- intros k j [<-|Hin].
           ++ rewrite nth_error_app2, Nat.sub_diag by auto. discriminate.
           ++ rewrite nth_error_app1 by auto. apply Hr; auto.
      * cbn [snd]. rewrite app_length. cbn. rewrite Nat.add_1_r. auto.
  - destruct Hk as (Hk & Hk'). pose proof (Hl k Hk) as Hlt.
    destruct (nth_error refs k) as [r|] eqn:Er.
    2:{ apply nth_error_None in Er. lia. }
    exists (tm_write_ref m r v, refs), live. split; auto. split; auto.
    destruct r as [i|].
    + pose proof (Hr k i Hk Er) as Hv. 
      assert (E : tm_write_ref m (RCell i) v = tput m i v) by (unfold tm_write_ref, tput; rewrite Hv; auto).
      rewrite E. constructor; cbn [fst snd]; auto.
      * split; [apply tmap_ok_put; auto; apply Hs|discriminate].
      * rewrite tput_dims; auto.
    + constructor; cbn [fst snd]; auto.
      destruct Hs as (Hok & Hv0). split; [apply tmap_ok_oob; auto|].
      intros Hv. cbn [tm_write_ref tm_valid] in Hv. specialize (Hv0 Hv).
      change (tm_ncomp (tm_write_ref m ROob v)) with (tm_ncomp m).
      destruct Hv0 as (R & O). split.
      * change (tm_dims (tm_write_ref m ROob v)) with (tm_dims m).
        eapply regions_numbered_ext2; [| |exact R].
        -- intros x y Hx Hy. unfold tsame_kind, tocc. rewrite !twrite_oob_get; auto.
        -- intros x Hx. unfold tcomp. rewrite twrite_oob_get; auto.
      * change (tm_dims (tm_write_ref m ROob v)) with (tm_dims m).
        eapply sweep_order_ext; [|exact O].
        intros x Hx. unfold tcomp. rewrite twrite_oob_get; auto.
  - destruct (tupdate_sound m Hs) as (m' & n & E & H1 & H2 & H3 & H4 & H5 & H6).
    rewrite E. cbn [bind]. exists (m', refs), []. split; auto. split; auto.
    constructor; cbn [fst snd].
    + split; auto. intros _. rewrite H4. auto.
    + rewrite <- Hd. apply H2.
    + intros k [].
    + intros k i [].
  - destruct Hs as (Hok & Hv). rewrite <- Hd in Hg. destruct (extrema_defined g m b Hok Hg) as (ex & Ex & _).
    destruct (segments_update g m t b ex Hok Ex) as (m' & n & E & H1 & H2 & H3 & _).
    rewrite E. cbn [bind]. exists (m', refs), []. split; auto. split; auto.
    constructor; cbn [fst snd].
    + split; auto. intros Hv'.
      pose proof (segments_components_valid g m t b m' n Hok E Hv') as Hvm.
      destruct H2 as (S1 & S2 & S3). rewrite S3.
      apply (tcomponents_same m); [auto|split; auto].
    + rewrite <- Hd. apply H2.
    + intros k [].
    + intros k i [].
Qed.

Lemma tnew_ok frame d def oob :
  0 <= nx d -> 0 <= ny d -> 0 <= nz d -> ncells d < 4294967296 ->
  tcell_ok def -> tcell_ok oob -> tmap_ok (tm_new frame d def oob).
Proof.
  intros H1 H2 H3 H4 H5 H6. unfold tmap_ok, tm_new, tm_dims, tm_get; cbn [tm_grid gdims mk_grid goob].
  split; [apply mk_grid_wf; auto|]. split; auto. split; auto.
  intros i. rewrite get_eq; cbn [fst]. destruct (in_bounds d i) eqn:E.
  - rewrite gget_mk_grid; auto.
  - rewrite gget_oob; auto.
Qed.

Lemma thistory_sound g frame d def oob ops :
  0 <= nx d -> 0 <= ny d -> 0 <= nz d -> ncells d < 4294967296 -> geometry_ok d g ->
  tcell_ok def -> tcell_ok oob -> Forall top_ok ops -> trefs_not_kept 0 [] ops ->
  exists m refs, tm_run g (tm_new frame d def oob) ops = Ok (m, refs) /\ tmap_ok m /\
    tm_dims m = d /\ (tm_components_valid m = true -> tcomponents_right m (tm_ncomp m)).
Proof.
  intros H1 H2 H3 H4 Hg H5 H6 Ho Hk. unfold tm_run.
  assert (K : forall ops live st, Forall top_ok ops -> thist g d live st ->
    trefs_not_kept (List.length (snd st)) live ops ->
    exists st' live', foldM (tm_step g) ops st = Ok st' /\ thist g d live' st').
  { clear ops Ho Hk. induction ops as [|o ops IH]; intros live st Ho Hi Hk.
    - exists st, live. auto.
    - inversion Ho; subst.
      destruct (thist_step g d live o st ops) as (st' & live' & E & Hi' & Hk'); auto.
      cbn [foldM]. rewrite E. cbn [bind]. eapply IH; eauto. }
  destruct (K ops [] (tm_new frame d def oob, [])) as ((m & refs) & live & E & Hi); auto.
  - constructor; cbn [fst snd].
    + split; [apply tnew_ok; auto|]. discriminate.
    + reflexivity.
    + intros k [].
    + intros k i [].
  - exists m, refs. split; auto. destruct Hi as [Hs Hd _ _]. cbn [fst] in *.
    split; [apply Hs|]. split; auto. apply Hs.
Qed.

(** ** What goes wrong *)

(** A free cell in a segment is made an obstacle: the flag stays, the cell keeps
    its segment number although obstacles without a name have none. *)
Lemma stale_segments m i :
  tmap_ok m -> in_bounds (tm_dims m) i = true -> tm_segments_valid m = Ok true ->
  tobj m i = 0 -> tseg m i <> 0 ->
  let m' := fst (tm_set m i (TC one32 (tcomp m i) (tobj m i) (tseg m i))) in
  tm_segments_valid m' = Ok true /\ forall ex threshold n, ~ segments_right m' ex threshold n.
Proof.
  intros Hok Hi Hv Hb Hs. cbn zeta. unfold tm_set. rewrite Hi. cbn [fst].
  set (v := TC one32 (tcomp m i) (tobj m i) (tseg m i)).
  change (TM (gset (tm_grid m) i v) (tm_ncomp m) (tm_nseg m) (tm_frame m) false (tm_seg_valid m)) with (tput m i v).
  split; [exact Hv|]. intros ex t n ((_ & _ & R2 & _) & _). rewrite tput_dims in R2.
  assert (E : fst (tm_get (tput m i v) i) = v).
  { rewrite tput_get by auto. rewrite idx_eqb_refl. reflexivity. }
  specialize (R2 i Hi). unfold takes_part, tocc, tobj, tseg in R2. rewrite E in R2.
  unfold v in R2. cbn [t_occ t_obj t_seg] in R2. rewrite Hb in R2. apply Hs. apply R2. reflexivity.
Qed.

Lemma uninitialised_until_segments g frame d def oob ops : forall m refs,
  Forall (fun o => match o with TUpdateSeg _ _ => False | _ => True end) ops ->
  tm_run g (tm_new frame d def oob) ops = Ok (m, refs) ->
  is_ub (tm_segments_valid m) = true.
Proof.
  assert (MK : forall s i c, tm_seg_valid (tm_mark s i c) = tm_seg_valid s).
  { intros s i c. rewrite tm_mark_eq. destruct (in_bounds (tm_dims s) i); auto. }
  assert (UP : forall m m' n, tm_update m = Ok (m', n) -> tm_seg_valid m' = tm_seg_valid m).
  { intros m m' n. unfold tm_update. destruct (tm_valid m); [intros [= <- <-]; auto|].
    destruct (compute_connected_components _ _ _ _ m) as [[m1 n1]| |] eqn:E; cbn [bind]; try discriminate.
    intros [= <- <-]. cbn [tm_seg_valid]. unfold compute_connected_components in E.
    destruct (foldM _ _ _) as [st| |] eqn:Ef; try discriminate. cbn [bind] in E. injection E as <- _.
    assert (FL : forall l s, tm_seg_valid (fold_left (fun s i => tm_mark s i 0) l s) = tm_seg_valid s).
    { induction l; intros s; cbn [fold_left]; auto. rewrite IHl. auto. }
    assert (BF : forall fuel s q h c s',
      bfs tm_connected tm_component tm_mark fuel s q h c = Ok s' -> tm_seg_valid s' = tm_seg_valid s).
    { induction fuel as [|fuel IH]; intros s q h c s'; cbn [bfs]; destruct q as [|cur q]; try discriminate.
      - intros [= <-]; auto.
      - intros [= <-]; auto.
      - match goal with |- context [let (_, _) := ?x in _] => destruct x as (q2 & h2) end.
        intros Eb. rewrite (IH _ _ _ _ _ Eb). auto. }
    assert (G : forall l st0 st1,
      foldM (cc_visit (tm_dims m) tm_connected tm_component tm_mark) l st0 = Ok st1 ->
      tm_seg_valid (cs_map st1) = tm_seg_valid (cs_map st0)).
    { induction l as [|a l IH]; intros st0 st1; cbn [foldM].
      - intros [= <-]; auto.
      - destruct (cc_visit _ _ _ _ st0 a) as [st2| |] eqn:Ec; cbn [bind]; try discriminate.
        intros E2. rewrite (IH _ _ E2). unfold cc_visit in Ec. destruct (cs_returned st0); [congruence|].
        destruct (_ =? 0); [|congruence]. unfold mark_connected_component in Ec.
        destruct (bfs _ _ _ _ _ _ _ _) as [s'| |] eqn:Eb; cbn [bind] in Ec; try discriminate.
        injection Ec as <-. cbn [cs_map]. eapply BF; exact Eb. }
    rewrite (G _ _ _ Ef). cbn [cs_map]. apply FL. }
  assert (K : forall ops st st', tm_seg_valid (fst st) = None ->
    Forall (fun o => match o with TUpdateSeg _ _ => False | _ => True end) ops ->
    foldM (tm_step g) ops st = Ok st' -> tm_seg_valid (fst st') = None).
  { clear ops. induction ops as [|o ops IH]; intros st st' H0 Hf; cbn [foldM].
    - intros [= <-]; auto.
    - inversion Hf as [|? ? Ho Hf']; subst. destruct (tm_step g st o) as [st1| |] eqn:E1; cbn [bind]; try discriminate.
      apply IH; auto. destruct st as [m refs]. cbn [fst] in *.
      destruct o as [i v|i|k v| |t b]; cbn [tm_step] in E1.
      + injection E1 as <-. cbn [fst]. unfold tm_set. destruct (in_bounds (tm_dims m) i); auto.
      + unfold tm_get_mutable in E1. destruct (in_bounds (tm_dims m) i); injection E1 as <-; auto.
      + destruct (nth_error refs k) as [[j|]|]; try discriminate; injection E1 as <-; auto.
      + destruct (tm_update m) as [[m' n]| |] eqn:Eu; cbn [bind] in E1; try discriminate.
        injection E1 as <-. cbn [fst]. rewrite (UP _ _ _ Eu). auto.
      + contradiction. }
  intros m refs Hf E. unfold tm_segments_valid.
  pose proof (K ops (tm_new frame d def oob, []) (m, refs) eq_refl Hf E) as HN. cbn [fst] in HN.
  rewrite HN. reflexivity.
Qed.

(** Convex segments stay right as long as nothing is written. *)
From Coq Require Import FunctionalExtensionality.
From Verif Require Import Base BaseFacts Floats Grid GridFacts DistSpec TopoSpec CCModel CCProofs CollisionMap SdfGen SdfSpec
  SdfQuery Extrema ExtremaSpec TaggedMap TaggedSpec TaggedProofs.

Lemma extrema_same g m m' border : same_frame_and_size m m' -> tm_extrema g m' border = tm_extrema g m border.
Proof.
  intros (Dm & Fr & Oo & Oc & Ob). unfold tm_extrema, tm_extract_sdf, tm_free_and_named, tm_extract_cells.
  unfold tocc, tobj in *. rewrite !Dm, !Fr. destruct border.
  - replace (fun i => let (c, ok) := tm_get m' i in
              if ok then Ok (selected [] (t_obj c) && occupied true (t_occ c)) else Throw "index out of grid bounds")
      with (fun i => let (c, ok) := tm_get m i in
              if ok then Ok (selected [] (t_obj c) && occupied true (t_occ c)) else Throw "index out of grid bounds"); auto.
    apply functional_extensionality. intros i. specialize (Oc i). specialize (Ob i).
    rewrite !tm_get_eq in *. cbn [fst] in *. rewrite Dm, Oc, Ob. reflexivity.
  - replace (fun i => Ok (occupied true (t_occ (fst (tm_get m' i)))))
      with (fun i => Ok (occupied true (t_occ (fst (tm_get m i)))))
      by (apply functional_extensionality; intros i; rewrite (Oc i); reflexivity).
    replace (fun i => Ok ((0 <? t_obj (fst (tm_get m' i))) && occupied true (t_occ (fst (tm_get m' i)))))
      with (fun i => Ok ((0 <? t_obj (fst (tm_get m i))) && occupied true (t_occ (fst (tm_get m i)))))
      by (apply functional_extensionality; intros i; rewrite (Oc i), (Ob i); reflexivity).
    reflexivity.
Qed.

Lemma takes_part_same m m' ex i : same_frame_and_size m m' -> takes_part m' ex i = takes_part m ex i.
Proof. intros (_ & _ & _ & Oc & Ob). unfold takes_part. rewrite Oc, Ob. reflexivity. Qed.

Lemma seg_linked_same m m' ex t a b : same_frame_and_size m m' -> seg_linked m' ex t a b = seg_linked m ex t a b.
Proof. intros (_ & _ & _ & _ & Ob). unfold seg_linked. rewrite !Ob. reflexivity. Qed.

Lemma segments_right_same m m' ex t n : same_frame_and_size m m' -> (forall i, tseg m' i = tseg m i) ->
  segments_right m ex t n -> segments_right m' ex t n.
Proof.
  intros S Sg. unfold segments_right. destruct (S) as (Dm & _). rewrite Dm.
  replace (takes_part m' ex) with (takes_part m ex)
    by (apply functional_extensionality; intros i; symmetry; apply takes_part_same; auto).
  replace (seg_linked m' ex t) with (seg_linked m ex t)
    by (apply functional_extensionality; intros a; apply functional_extensionality; intros b; symmetry; apply seg_linked_same; auto).
  replace (tseg m') with (tseg m) by (apply functional_extensionality; intros i; auto). auto.
Qed.

Lemma update_kept m m' n : tmap_ok m -> tm_update m = Ok (m', n) -> tmap_ok m' /\ only_components_differ m m'.
Proof.
  intros Hok E. split; [|exact (tupdate_payload m m' n Hok E)].
  destruct (tm_valid m) eqn:V.
  - unfold tm_update in E. rewrite V in E. injection E as <- _. exact Hok.
  - destruct (tupdate_fresh m Hok V) as (m'' & n'' & E' & O & _). rewrite E in E'. injection E' as <- <-. exact O.
Qed.

Lemma fresh_segments g m threshold border ops m1 n m2 refs :
  tmap_ok m -> geometry_ok (tm_dims m) g -> tm_update_segments g m threshold border = Ok (m1, n) ->
  Forall writes_nothing ops -> tm_run g m1 ops = Ok (m2, refs) ->
  tm_segments_valid m2 = Ok true /\ tm_nseg m2 = n /\ (forall i, tseg m2 i = tseg m1 i) /\
  exists ex, tm_extrema g m2 border = Ok ex /\ segments_right m2 (fun i => fst (get ex i)) threshold n /\
  exists m3, tm_update_segments g m2 threshold border = Ok (m3, n) /\
    forall i, in_bounds (tm_dims m) i = true -> tseg m3 i = tseg m2 i.
Proof.
  intros Hok Hg Hu Hops Hrun.
  destruct (segments_defined g m threshold border Hok Hg) as (ex & mx & nx & Ex & _ & Eu).
  rewrite Hu in Eu. injection Eu as <- <-.
  destruct (segments_update g m threshold border ex Hok Ex) as (mx & nx & Eu & O1 & (S1 & _) & R1 & N1 & V1 & _).
  rewrite Hu in Eu. injection Eu as <- <-.
  assert (K : tmap_ok m2 /\ only_components_differ m1 m2).
  { assert (G : forall ops refs m refs2 m2, Forall writes_nothing ops -> tmap_ok m -> foldM (tm_step g) ops (m, refs) = Ok (m2, refs2) ->
               tmap_ok m2 /\ only_components_differ m m2).
    2: exact (G ops [] m1 refs m2 Hops O1 Hrun).
    clear. induction ops as [|o ops IH]; intros refs m refs2 m2 Hf Hok E.
    - cbn in E. injection E as <- <-. split; auto. split; [apply same_refl|auto].
    - inversion Hf as [|? ? Ho Hf']. subst. cbn [foldM] in E.
      destruct o as [i v|i|k v| |th b]; try contradiction; cbn [tm_step] in E.
      + unfold tm_get_mutable in E. destruct (in_bounds (tm_dims m) i) eqn:B; cbn [bind] in E.
        * set (ma := TM (tm_grid m) (tm_ncomp m) (tm_nseg m) (tm_frame m) false (tm_seg_valid m)) in E.
          apply (IH _ ma _ _ Hf' Hok E).
        * eapply IH; eauto.
      + destruct (tm_update m) as [[ma na]|e|e] eqn:U; try discriminate. cbn [bind] in E.
        destruct (update_kept m ma na Hok U) as (Oa & (Sa & Ga & Na & Va)).
        destruct (IH _ _ _ _ Hf' Oa E) as (O2 & (S2 & G2 & N2 & V2)). split; auto.
        split; [eapply same_trans; eauto|]. split; [intros i; rewrite G2; auto|]. split; congruence. }
  destruct K as (O2 & (S2 & G2 & N2 & V2)).
  split; [unfold tm_segments_valid in *; rewrite V2; exact V1|]. split; [congruence|]. split; [exact G2|].
  exists ex. assert (Ex2 : tm_extrema g m2 border = Ok ex).
  { rewrite (extrema_same g m1 m2 border S2), (extrema_same g m m1 border S1). exact Ex. }
  assert (R2 := segments_right_same m1 m2 _ _ _ S2 G2 R1).
  split; [exact Ex2|]. split; [exact R2|].
  destruct (segments_update g m2 threshold border ex O2 Ex2) as (m3 & n3 & E3 & O3 & (S3 & _) & R3 & _).
  assert (D3 : tm_dims m3 = tm_dims m2) by apply S3.
  assert (D2 : tm_dims m2 = tm_dims m) by (transitivity (tm_dims m1); [apply S2|apply S1]).
  destruct R2 as (R2 & Q2), R3 as (R3 & Q3). rewrite D3 in R3, Q3.
  replace (takes_part m3 (fun i => fst (get ex i))) with (takes_part m2 (fun i => fst (get ex i))) in R3, Q3
    by (apply functional_extensionality; intros i; symmetry; apply takes_part_same; auto).
  replace (seg_linked m3 (fun i => fst (get ex i)) threshold) with (seg_linked m2 (fun i => fst (get ex i)) threshold) in R3
    by (apply functional_extensionality; intros a; apply functional_extensionality; intros b; symmetry; apply seg_linked_same; auto).
  destruct (labels_unique _ _ _ _ _ _ _ R3 Q3 R2 Q2) as (En & El). subst n3.
  exists m3. split; [exact E3|]. intros i Hi. apply El. rewrite D2. exact Hi.
Qed.

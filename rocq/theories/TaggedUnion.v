(** Fields of single objects and the field of all of them. *)
From Coq Require Import Reals Lra.
From Flocq Require Import Core.Core IEEE754.Binary IEEE754.Bits.
From Verif Require Import Base BaseFacts Floats FloatFacts FloatFacts2 Grid GridFacts
  DistSpec DistModel DistProofs DistThms DistPlanar CollisionMap SdfGen SdfSpec SdfGenProofs SdfThms
  SdfBorderThms SdfExact SdfShapes SdfCompare Arith SdfQuery SdfField QueryWitness Extrema ExtremaSpec
  TaggedMap TaggedSpec TaggedProofs TaggedExact.
Open Scope Z_scope.

(** Values ordered like the distances they stand for. *)
Definition farther (a b : option Z) : Prop :=
  match a, b with
  | Some m, Some k => m <= k
  | None, Some _ => False
  | _, None => True
  end.

Lemma le_inf x : is_nan 24 128 x = false -> le32 x (rounded_distance None one64) = true.
Proof. destruct x as [s|s|s pl e|s m e Hb]; try discriminate; destruct s; reflexivity. Qed.

Lemma farther_values r a b : usable_resolution r ->
  (forall z, a = Some z -> 1 <= z <= 2147483647) -> (forall z, b = Some z -> 1 <= z <= 2147483647) ->
  farther a b ->
  le32 (signed_value false a r) (signed_value false b r) = true /\
  le32 (signed_value true b r) (signed_value true a r) = true.
Proof.
  intros Hr Ha Hb F.
  assert (Na := rounded_not_nan a r Hr Ha). assert (Nb := rounded_not_nan b r Hr Hb).
  assert (L : le32 (rounded_distance a r) (rounded_distance b r) = true).
  { destruct a as [m|], b as [k|]; cbn in F; try contradiction.
    - specialize (Ha m eq_refl). specialize (Hb k eq_refl). apply (rounded_monotone r Hr); lia.
    - exact (le_inf _ Na).
    - reflexivity. }
  cbn [signed_value]. split; auto.
  destruct (opp32_xr _ Na) as (Oa & Xa). destruct (opp32_xr _ Nb) as (Ob & Xb).
  apply le32_spec in L; auto. apply le32_spec; auto. rewrite Xa, Xb. lra.
Qed.

Section Union.
  Variables (g : geometry) (m : tmap) (oob : binary32) (unknown : bool) (ids : list Z).
  Hypothesis Hok : tmap_ok m.
  Hypothesis Hs : size_ok (enlarged_dims (tm_dims m)).
  Hypothesis Hr : usable_resolution (g_cx g).
  Hypothesis Ey : g_cy g = g_cx g.
  Hypothesis Ez : g_cz g = g_cx g.
  Hypothesis Hids : ids <> [].

  Lemma union_filled i : object_filled m ids unknown i <-> exists id, In id ids /\ object_filled m [id] unknown i.
  Proof.
    unfold object_filled. split.
    - intros (C & [E|H]); [contradiction|]. exists (tobj m i). split; auto. split; auto. right. left. reflexivity.
    - intros (id & H & C & [E|[E|[]]]); [discriminate|]. split; auto. right. rewrite <- E. exact H.
  Qed.

  Lemma object_list border l : tm_make_object_sdfs g m ids unknown border = Ok l ->
    (forall id, In id ids -> exists t x, In (id, t) l /\ tm_extract_sdf g m inf32 [id] unknown border = Ok (t, x)) /\
    (forall id t, In (id, t) l -> In id ids /\ exists x, tm_extract_sdf g m inf32 [id] unknown border = Ok (t, x)).
  Proof.
    intros E. destruct (make_object_sdfs_spec g m ids unknown border Hok Hs Hr Ey Ez) as (l' & E' & _ & K & V).
    rewrite E in E'. injection E' as <-. split.
    - intros id H. apply K in H. apply in_map_iff in H as ((id' & t) & Q & H). cbn in Q. subst id'.
      destruct (V id t H) as (x & X). eauto.
    - intros id t H. split; [|auto]. apply K. apply in_map_iff. exists (id, t). auto.
  Qed.

  (** The sign of the field of several objects. *)
  Lemma union_sign border s x l c :
    tm_extract_sdf g m oob ids unknown border = Ok (s, x) -> tm_make_object_sdfs g m ids unknown border = Ok l ->
    in_bounds (tm_dims m) c = true ->
    (lt32 (fst (sdf_get s c)) zero32 = true <->
     exists id t, In (id, t) l /\ lt32 (fst (sdf_get t c)) zero32 = true).
  Proof.
    intros E El Hc. destruct (object_list border l El) as (L1 & L2).
    assert (Q : forall o ob t y, tm_extract_sdf g m o ob unknown border = Ok (t, y) ->
      (lt32 (fst (sdf_get t c)) zero32 = true <-> object_filled m ob unknown c)).
    { intros o ob t y Et.
      destruct (object_sign g m o ob unknown border Hok Hs Hr Ey Ez) as (t' & y' & Et' & _ & _ & _ & _ & _ & S).
      rewrite Et in Et'. injection Et' as <- <-. destruct (S c Hc) as (v & Gv & Nv & F1 & F2).
      rewrite Gv. cbn [fst]. split; [|exact F1]. intros Lt.
      destruct (tfilled m ob unknown c) eqn:F; [apply tfilled_spec; exact F|].
      assert (NF : ~ object_filled m ob unknown c) by (rewrite <- tfilled_spec, F; discriminate).
      specialize (F2 NF). apply lt32_spec in Lt; [|exact Nv|reflexivity].
      apply gt32_spec in F2; [lra|exact Nv|reflexivity]. }
    rewrite (Q _ _ _ _ E), union_filled. split.
    - intros (id & H & F). destruct (L1 id H) as (t & y & Ht & Et). exists id, t. split; auto. apply (Q _ _ _ _ Et). exact F.
    - intros (id & t & Ht & Lt). destruct (L2 id t Ht) as (H & y & Et). exists id. split; auto. apply (Q _ _ _ _ Et). exact Lt.
  Qed.

  Lemma plain_size : size_ok (tm_dims m).
  Proof. destruct Hok as ((W1 & W2 & W3 & _) & _). apply enlarged_ok; auto. Qed.

  (** One cell of a field: the distance field it is read from. *)
  Lemma read_from o ob t y c : tm_extract_sdf g m o ob unknown false = Ok (t, y) -> in_bounds (tm_dims m) c = true ->
    exists f, build_distance_field (tm_dims m) (cells_of (tm_dims m) (others (tfilled m ob unknown) (tfilled m ob unknown c))) = Ok f /\
      sdf_get t c = (signed_value (tfilled m ob unknown c) (cell_distsq f c) (g_cx g), true) /\
      (forall z, cell_distsq f c = Some z -> 1 <= z <= 2147483647).
  Proof.
    intros E Hc.
    destruct (object_values g m o ob unknown t y _ Hok plain_size Hr Ey Ez (tfilled_spec m ob unknown) E) as (ff & fr & B1 & B2 & V).
    specialize (V c Hc).
    assert (G : exists f, build_distance_field (tm_dims m) (cells_of (tm_dims m) (others (tfilled m ob unknown) (tfilled m ob unknown c))) = Ok f /\
      sdf_get t c = (signed_value (tfilled m ob unknown c) (cell_distsq f c) (g_cx g), true)).
    { unfold others. destruct (tfilled m ob unknown c); [exists fr|exists ff]; auto. }
    destruct G as (f & B & G). exists f. split; auto. split; auto. intros z Hz.
    destruct (build_never_under _ _ f plain_size (cells_of_inside _ _) B c z Hc Hz) as ((p & Ip & Dp) & _).
    apply others_spec in Ip as (Hp & Np). assert (p <> c) by (intros ->; congruence).
    pose proof (distsq_bound _ plain_size c p Hc Hp).
    assert (distsq c p <> 0) by (intros HZ; apply distsq_zero in HZ; congruence). lia.
  Qed.

  Lemma farther_near f f' pts pts' c v : all_inside (tm_dims m) pts -> all_inside (tm_dims m) pts' ->
    build_distance_field (tm_dims m) pts = Ok f -> build_distance_field (tm_dims m) pts' = Ok f' ->
    in_bounds (tm_dims m) c = true -> (forall p, In p pts' -> In p pts) ->
    nearest_distsq pts c v -> v <= 6 -> cell_distsq f c = Some v /\ farther (cell_distsq f c) (cell_distsq f' c).
  Proof.
    intros I1 I2 B B' Hc Sub N H6.
    assert (E : cell_distsq f c = Some v) by (apply (build_exact_6 _ _ plain_size I1 f B); auto).
    split; auto. rewrite E. destruct (cell_distsq f' c) as [k|] eqn:E'; [|exact Logic.I].
    destruct (build_never_under _ _ f' plain_size I2 B' c k Hc E') as ((p & Ip & Dp) & _).
    cbn. rewrite <- Dp. apply N. auto.
  Qed.

  Section Cells.
    Variables (s : sdf) (x : binary64 * binary64) (l : list (Z * sdf)) (c : idx).
    Hypothesis E : tm_extract_sdf g m oob ids unknown false = Ok (s, x).
    Hypothesis El : tm_make_object_sdfs g m ids unknown false = Ok l.
    Hypothesis Hc : in_bounds (tm_dims m) c = true.

    Lemma object_free id : In id ids -> ~ object_filled m ids unknown c -> tfilled m [id] unknown c = false.
    Proof.
      intros H NF. destruct (tfilled m [id] unknown c) eqn:F; auto. destruct NF. apply union_filled.
      exists id. split; auto. apply tfilled_spec. exact F.
    Qed.

    Lemma union_free : ~ object_filled m ids unknown c -> tfilled m ids unknown c = false.
    Proof. intros NF. destruct (tfilled m ids unknown c) eqn:F; auto. apply tfilled_spec in F. contradiction. Qed.

    Lemma object_cells id p : In id ids -> In p (cells_of (tm_dims m) (tfilled m [id] unknown)) ->
      In p (cells_of (tm_dims m) (tfilled m ids unknown)).
    Proof.
      intros H Ip. apply cells_of_in in Ip as (Hp & F). apply cells_of_in. split; auto.
      apply tfilled_spec. apply union_filled. exists id. split; auto. apply tfilled_spec. exact F.
    Qed.

    (** Near the objects: the smallest of the objects' values. *)
    Lemma union_near P v : (forall i, P i = true <-> object_filled m ids unknown i) ->
      ~ object_filled m ids unknown c -> nearest_other (tm_dims m) P c v -> v <= 6 ->
      (forall id t, In (id, t) l -> le32 (fst (sdf_get s c)) (fst (sdf_get t c)) = true) /\
      exists id t, In (id, t) l /\ sdf_get t c = sdf_get s c.
    Proof.
      intros HP NF Hv H6. destruct (object_list false l El) as (L1 & L2).
      destruct (read_from oob ids s x c E Hc) as (f & B & G & R). rewrite union_free in B, G by auto. cbn [others] in B.
      assert (Hv' : nearest_distsq (cells_of (tm_dims m) (tfilled m ids unknown)) c v).
      { assert (PE : forall i, P i = tfilled m ids unknown i).
        { intros i. destruct (P i) eqn:F1, (tfilled m ids unknown i) eqn:F2; auto.
          - apply HP, tfilled_spec in F1. congruence.
          - apply tfilled_spec, HP in F2. congruence. }
        apply others_nearest in Hv. rewrite PE, (union_free NF) in Hv. cbn [others] in Hv.
        rewrite (cells_of_ext _ (others P false) (tfilled m ids unknown)) in Hv by exact PE. exact Hv. }
      split.
      - intros id t Ht. destruct (L2 id t Ht) as (H & y & Et).
        destruct (read_from inf32 [id] t y c Et Hc) as (f' & B' & G' & R').
        rewrite (object_free id H NF) in B', G'. cbn [others] in B'.
        destruct (farther_near f f' _ _ c v (cells_of_inside _ _) (cells_of_inside _ _) B B' Hc (fun p => object_cells id p H) Hv' H6) as (_ & F).
        rewrite G, G'. cbn [fst]. apply farther_values; auto.
      - destruct Hv' as ((p & Ip & Dp) & Min). apply cells_of_in in Ip as (Hp & Fp).
        apply tfilled_spec, union_filled in Fp as (id & H & Fp). apply tfilled_spec in Fp.
        destruct (L1 id H) as (t & y & Ht & Et).
        destruct (read_from inf32 [id] t y c Et Hc) as (f' & B' & G' & R').
        rewrite (object_free id H NF) in B', G'. cbn [others] in B'.
        assert (Hn : nearest_distsq (cells_of (tm_dims m) (tfilled m [id] unknown)) c v).
        { split; [exists p; split; auto; apply cells_of_in; auto|]. intros q Iq. apply Min. apply (object_cells id q H Iq). }
        exists id, t. split; auto. rewrite G, G'.
        rewrite (build_exact_6 _ _ plain_size (cells_of_inside _ _) f' B' c v Hc Hn H6).
        rewrite (build_exact_6 _ _ plain_size (cells_of_inside _ _) f B c v Hc); auto.
        split; [exists p; split; auto; apply cells_of_in; split; auto|exact Min].
        apply tfilled_spec, union_filled. exists id. split; auto. apply tfilled_spec. exact Fp.
    Qed.

    (** In an object: no deeper than in all of them. *)
    Lemma union_inside P v id t : (forall i, P i = true <-> object_filled m [id] unknown i) ->
      In (id, t) l -> object_filled m [id] unknown c -> nearest_other (tm_dims m) P c v -> v <= 6 ->
      le32 (fst (sdf_get s c)) (fst (sdf_get t c)) = true.
    Proof.
      intros HP Ht Fc Hv H6. destruct (object_list false l El) as (L1 & L2). destruct (L2 id t Ht) as (H & y & Et).
      destruct (read_from oob ids s x c E Hc) as (f & B & G & R).
      destruct (read_from inf32 [id] t y c Et Hc) as (f' & B' & G' & R').
      assert (T1 : tfilled m [id] unknown c = true) by (apply tfilled_spec; exact Fc).
      assert (T2 : tfilled m ids unknown c = true) by (apply tfilled_spec, union_filled; eauto).
      rewrite T2 in B, G. rewrite T1 in B', G'. cbn [others] in B, B'.
      assert (Hv' : nearest_distsq (cells_of (tm_dims m) (others (tfilled m [id] unknown) true)) c v).
      { assert (PE : forall i, P i = tfilled m [id] unknown i).
        { intros i. destruct (P i) eqn:F1, (tfilled m [id] unknown i) eqn:F2; auto.
          - apply HP, tfilled_spec in F1. congruence.
          - apply tfilled_spec, HP in F2. congruence. }
        apply others_nearest in Hv. rewrite PE, T1 in Hv.
        rewrite (cells_of_ext _ (others P true) (others (tfilled m [id] unknown) true)) in Hv
          by (intros i; cbn [others]; rewrite PE; reflexivity). exact Hv. }
      assert (Sub : forall p, In p (cells_of (tm_dims m) (others (tfilled m ids unknown) true)) ->
        In p (cells_of (tm_dims m) (others (tfilled m [id] unknown) true))).
      { intros p Ip. apply cells_of_in in Ip as (Hp & F). apply cells_of_in. split; auto. cbn [others] in *.
        destruct (tfilled m [id] unknown p) eqn:Fp; auto. apply tfilled_spec in Fp.
        assert (tfilled m ids unknown p = true) by (apply tfilled_spec, union_filled; eauto). rewrite H0 in F. discriminate. }
      destruct (farther_near f' f _ _ c v (cells_of_inside _ _) (cells_of_inside _ _) B' B Hc Sub Hv' H6) as (_ & F).
      rewrite G, G'. cbn [fst]. apply farther_values; auto.
    Qed.

    (** On a planar map: within a factor sqrt 2 of the smallest. *)
    Lemma union_planar : flat (tm_dims m) -> ~ object_filled m ids unknown c ->
      exists o, sdf_get s c = (signed_value false o (g_cx g), true) /\
        (forall id t, In (id, t) l -> exists k, sdf_get t c = (signed_value false k (g_cx g), true) /\
           forall z, k = Some z -> exists n, o = Some n /\ n <= 2 * z) /\
        (forall n, o = Some n -> exists id t z, In (id, t) l /\
           sdf_get t c = (signed_value false (Some z) (g_cx g), true) /\ z <= 2 * n).
    Proof.
      intros Hf NF. destruct (object_list false l El) as (L1 & L2).
      destruct (read_from oob ids s x c E Hc) as (f & B & G & R). rewrite union_free in B, G by auto. cbn [others] in B.
      exists (cell_distsq f c). split; [exact G|]. split.
      - intros id t Ht. destruct (L2 id t Ht) as (H & y & Et).
        destruct (read_from inf32 [id] t y c Et Hc) as (f' & B' & G' & R').
        rewrite (object_free id H NF) in B', G'. cbn [others] in B'.
        exists (cell_distsq f' c). split; [exact G'|]. intros z Hz.
        destruct (build_never_under _ _ f' plain_size (cells_of_inside _ _) B' c z Hc Hz) as ((p & Ip & Dp) & _).
        apply (object_cells id p H) in Ip. destruct (nearest_exists _ c p Ip) as (v & Hv).
        destruct (planar_ratio _ _ f c v plain_size Hf (cells_of_inside _ _) B Hc Hv) as (n & En & Hn).
        exists n. split; auto. destruct Hv as (_ & Min). specialize (Min p Ip). lia.
      - intros n Hn.
        destruct (build_never_under _ _ f plain_size (cells_of_inside _ _) B c n Hc Hn) as ((p & Ip & Dp) & _).
        destruct (nearest_exists _ c p Ip) as (v & Hv). pose proof Hv as ((q & Iq & Dq) & Min).
        apply cells_of_in in Iq as (Hq & Fq). apply tfilled_spec, union_filled in Fq as (id & H & Fq). apply tfilled_spec in Fq.
        destruct (L1 id H) as (t & y & Ht & Et).
        destruct (read_from inf32 [id] t y c Et Hc) as (f' & B' & G' & R').
        rewrite (object_free id H NF) in B', G'. cbn [others] in B'.
        assert (Hw : nearest_distsq (cells_of (tm_dims m) (tfilled m [id] unknown)) c v).
        { split; [exists q; split; auto; apply cells_of_in; auto|]. intros w Iw. apply Min. apply (object_cells id w H Iw). }
        destruct (planar_ratio _ _ f' c v plain_size Hf (cells_of_inside _ _) B' Hc Hw) as (k & Ek & Hk).
        exists id, t, k. split; auto. rewrite G', Ek. split; auto. specialize (Min p Ip). lia.
    Qed.
  End Cells.
End Union.

(** Two objects on a planar map. *)
Definition union_cells : list (idx * Z) := [(I 0 0 0, 1); (I 2 1 0, 1); (I 3 3 0, 2)].
Definition union_map : tmap :=
  fold_left (fun m p => fst (tm_set m (fst p) (tcell2 one32 (snd p)))) union_cells
    (tm_new "map" (D 4 4 1) (tcell2 zero32 0) (tcell2 zero32 0)).
Definition union_geo : geometry := Geo quarter64 quarter64 quarter64 (ieee_pose quarter64) (D 4 4 1).

Lemma union_map_ok : tmap_ok union_map.
Proof.
  unfold union_map.
  assert (G : forall l m, tmap_ok m -> Forall (fun p => 0 <= snd p < 4294967296) l ->
    tmap_ok (fold_left (fun m p => fst (tm_set m (fst p) (tcell2 one32 (snd p)))) l m)).
  { induction l as [|p l IH]; intros m0 H F; auto. inversion F as [|? ? F1 F2]; subst. cbn [fold_left]. apply IH; auto.
    unfold tm_set. destruct (in_bounds (tm_dims m0) (fst p)); [|exact H]. cbn [fst].
    apply (tmap_ok_put m0 (fst p) (tcell2 one32 (snd p))); auto. repeat split; cbn; lia. }
  apply G; [|unfold union_cells; repeat constructor; cbn; lia].
  apply tnew_ok; cbn; try lia; repeat split; cbn; lia.
Qed.

Definition union_check : bool :=
  match tm_extract_sdf union_geo union_map inf32 [1; 2] false false, tm_make_object_sdfs union_geo union_map [1; 2] false false with
  | Ok (s, _), Ok [(1, t); (2, t')] =>
      lt32 (fst (sdf_get t (I 0 3 0))) (fst (sdf_get s (I 0 3 0))) &&
      lt32 (fst (sdf_get t (I 0 3 0))) (fst (sdf_get t' (I 0 3 0))) &&
      eq32 (fst (sdf_get s (I 2 3 0))) (fst (sdf_get t' (I 2 3 0))) &&
      lt32 (fst (sdf_get s (I 2 3 0))) (fst (sdf_get t (I 2 3 0)))
  | _, _ => false
  end.

Lemma union_check_true : union_check = true.
Proof. vm_compute. reflexivity. Qed.

Lemma union_fails : exists g m ids s x l c id t,
  tmap_ok m /\ size_ok (enlarged_dims (tm_dims m)) /\ flat (tm_dims m) /\ usable_resolution (g_cx g) /\
  g_cy g = g_cx g /\ g_cz g = g_cx g /\ ids <> [] /\
  tm_extract_sdf g m inf32 ids false false = Ok (s, x) /\ tm_make_object_sdfs g m ids false false = Ok l /\
  in_bounds (tm_dims m) c = true /\ ~ object_filled m ids false c /\ In (id, t) l /\
  lt32 (fst (sdf_get t c)) (fst (sdf_get s c)) = true.
Proof.
  pose proof union_check_true as C. unfold union_check in C.
  destruct (tm_extract_sdf union_geo union_map inf32 [1; 2] false false) as [[s x]|e|e] eqn:E; [|discriminate C|discriminate C].
  destruct (tm_make_object_sdfs union_geo union_map [1; 2] false false) as [l|e|e] eqn:El; [|discriminate C|discriminate C].
  exists union_geo, union_map, [1; 2], s, x, l, (I 0 3 0).
  destruct l as [|[k t] l]; [discriminate C|].
  exists k, t. split; [exact union_map_ok|]. split; [vm_compute; repeat split; discriminate|].
  split; [right; right; vm_compute; discriminate|]. split; [exact quarter_usable|]. split; [reflexivity|]. split; [reflexivity|].
  split; [discriminate|]. split; [exact E|]. split; [exact El|]. split; [reflexivity|].
  split; [rewrite <- tfilled_spec; vm_compute; discriminate|]. split; [left; reflexivity|].
  destruct k as [|[p|p|]|p]; try discriminate C.
  destruct l as [|[k t'] l]; [discriminate C|].
  repeat match type of C with context [match ?q with _ => _ end] =>
    match q with _ && _ => fail 1 | _ => destruct q; try discriminate C end end.
  apply andb_true_iff in C as (C & _). apply andb_true_iff in C as (C & _). apply andb_true_iff in C as (C & _). exact C.
Qed.

(** Proofs about the drawing functions. *)
From Coq Require Import Sorted Lia.
From Verif Require Import Base BaseFacts Floats Grid GridFacts CollisionMap TaggedMap TaggedSpec TaggedProofs
  Surfaces SdfGen Display DisplaySpec ResampleSpec ResampleProofs.

(** ** Lists of cells *)
Lemma SS_filter {A} (R : A -> A -> Prop) f l : StronglySorted R l -> StronglySorted R (filter f l).
Proof.
  induction 1 as [|a l S IH F]; cbn; [constructor|]. destruct (f a); auto. constructor; auto.
  rewrite Forall_forall in *. intros x Hx. apply filter_In in Hx. apply F, Hx.
Qed.

Lemma exactly_filter d f (P : idx -> Prop) :
  (forall i, in_bounds d i = true -> (f i = true <-> P i)) -> exactly d P (filter f (sweep d)).
Proof.
  intros H. split; [apply SS_filter, sweep_ordered|]. intros i. rewrite filter_In, sweep_in.
  split; intros (B & K); split; auto; apply H; auto.
Qed.

Lemma before_irrefl i : ~ visited_before i i.
Proof. unfold visited_before. lia. Qed.
Lemma before_asym i j : visited_before i j -> ~ visited_before j i.
Proof. unfold visited_before. lia. Qed.

Lemma sorted_unique l l' : StronglySorted visited_before l -> StronglySorted visited_before l' ->
  (forall i, In i l <-> In i l') -> l = l'.
Proof.
  intros S. revert l'. induction S as [|a l S IH F]; intros l' S' E.
  - destruct l' as [|b l']; auto. destruct (proj2 (E b)); cbn; auto.
  - destruct S' as [|b l' S' F']; [destruct (proj1 (E a)); cbn; auto|].
    rewrite Forall_forall in F, F'.
    assert (a = b).
    { destruct (proj1 (E a) (or_introl eq_refl)) as [H|H]; auto.
      destruct (proj2 (E b) (or_introl eq_refl)) as [K|K]; auto.
      destruct (before_asym _ _ (F b K)). auto. }
    subst b. f_equal. apply IH; auto. intros i. split; intros H.
    + destruct (proj1 (E i) (or_intror H)) as [<-|K]; auto. destruct (before_irrefl a); auto.
    + destruct (proj2 (E i) (or_intror H)) as [<-|K]; auto. destruct (before_irrefl a); auto.
Qed.

Lemma exactly_unique d P l l' : exactly d P l -> exactly d P l' -> l = l'.
Proof. intros (S & E) (S' & E'). apply sorted_unique; auto. intros i. rewrite E, E'. tauto. Qed.

Lemma fold_ext_in {A B} (f g : B -> A -> B) l b :
  (forall b a, In a l -> f b a = g b a) -> fold_left f l b = fold_left g l b.
Proof.
  revert b; induction l as [|a l IH]; intros b H; cbn; auto. rewrite (H b a) by (cbn; auto).
  apply IH. intros; apply H; cbn; auto.
Qed.

Lemma map_get_in {V} k (v : V) l : map_get k l = Some v -> In (k, v) l.
Proof.
  unfold map_get. destruct (find (fun e => fst e =? k) l) as [[k' v']|] eqn:E; [|discriminate].
  intros H; injection H as <-. apply find_some in E. destruct E as (E1 & E2). apply Z.eqb_eq in E2.
  cbn in *. subst. auto.
Qed.

Lemma map_get_none {V} k (l : list (Z * V)) : map_get k l = None <-> ~ In k (map fst l).
Proof.
  unfold map_get. destruct (find (fun e => fst e =? k) l) as [e|] eqn:E.
  - split; [discriminate|]. intros H. exfalso. apply H. apply find_some in E. destruct E as (E1 & E2).
    apply Z.eqb_eq in E2. subst k. apply in_map; auto.
  - split; auto. intros _ H. apply in_map_iff in H. destruct H as (e & <- & He).
    apply (find_none _ _ E) in He. rewrite Z.eqb_refl in He. discriminate.
Qed.

Lemma map_get_put {V} k (v : V) l x : map_get x (map_put k v l) = if x =? k then Some v else map_get x l.
Proof.
  unfold map_get. induction l as [|[k' v'] l IH]; cbn [map_put find fst].
  - destruct (x =? k) eqn:E; [apply Z.eqb_eq in E; subst; rewrite Z.eqb_refl; auto|].
    replace (k =? x) with false; auto. symmetry. apply Z.eqb_neq in E. apply Z.eqb_neq. lia.
  - destruct (k <? k') eqn:L; [|destruct (k =? k') eqn:Q]; cbn [find fst].
    + destruct (x =? k) eqn:E; [apply Z.eqb_eq in E; subst; rewrite Z.eqb_refl; auto|].
      replace (k =? x) with false; [reflexivity|]. symmetry. apply Z.eqb_neq in E. apply Z.eqb_neq. lia.
    + apply Z.eqb_eq in Q. subst k'.
      destruct (x =? k) eqn:E; [apply Z.eqb_eq in E; subst; rewrite Z.eqb_refl; auto|].
      replace (k =? x) with false; [reflexivity|]. symmetry. apply Z.eqb_neq in E. apply Z.eqb_neq. lia.
    + destruct (k' =? x) eqn:E; [|apply IH]. apply Z.eqb_eq in E. subst x. cbn [snd].
      replace (k' =? k) with false; auto. symmetry. apply Z.eqb_neq. apply Z.eqb_neq in Q. lia.
Qed.

Lemma map_put_length {V} k (v : V) l : map_get k l = None -> length (map_put k v l) = S (length l).
Proof.
  induction l as [|[k' v'] l IH]; intros H; auto. cbn [map_put].
  destruct (k <? k') eqn:L; auto. destruct (k =? k') eqn:Q.
  - apply Z.eqb_eq in Q. subst. apply map_get_none in H. cbn in H. tauto.
  - cbn [length]. f_equal. apply IH. apply map_get_none. apply map_get_none in H. cbn in H. tauto.
Qed.

(** ** Objects in one marker *)
Section Display.
  Context {point : Type}.
  Variable center : idx -> point.
  Variable unique_color : Z -> binary32 -> color.
  Notation marker := (marker point).

  (** ** One marker *)
  Lemma push_fold (vis : idx -> bool) (col : idx -> color) l (k : marker) :
    fold_left (fun k i => if vis i then push center (col i) k i else k) l k =
    Marker (mk_frame k) (mk_ns k) (mk_points k ++ map center (filter vis l))
      (mk_colors k ++ map col (filter vis l)).
  Proof.
    revert k; induction l as [|a l IH]; intros k; cbn [fold_left filter map].
    - rewrite !app_nil_r. destruct k; reflexivity.
    - rewrite IH. destruct (vis a); auto. unfold push; cbn [mk_frame mk_ns mk_points mk_colors map].
      rewrite <- !app_assoc. reflexivity.
  Qed.

  Lemma draws_fold d frame n (vis : idx -> bool) (col : idx -> color) (step : marker -> idx -> marker) (P : idx -> Prop) :
    (forall k i, in_bounds d i = true -> step k i = if vis i then push center (col i) k i else k) ->
    (forall i, in_bounds d i = true -> (vis i = true <-> P i)) ->
    let k := fold_left step (sweep d) (blank frame n) in
    mk_frame k = frame /\ mk_ns k = n /\ draws center k d P col.
  Proof.
    intros Hs HP. cbn zeta.
    rewrite (fold_ext_in step (fun k i => if vis i then push center (col i) k i else k)).
    2:{ intros k i Hi. apply Hs, sweep_in; auto. }
    rewrite push_fold. cbn [mk_frame mk_ns blank mk_points mk_colors app]. do 2 (split; auto).
    exists (filter vis (sweep d)). split; [apply exactly_filter; auto|auto].
  Qed.

  Lemma draw_class_eq collision free unknown occ (k : marker) i :
    draw_class center collision free unknown occ k i =
    if visible (class_color collision free unknown occ)
    then push center (class_color collision free unknown occ) k i else k.
  Proof.
    unfold draw_class, class_color, push_visible. destruct (gt32 occ half32); auto.
    destruct (lt32 occ half32); auto.
  Qed.

  Lemma cm_export_draws m collision free unknown :
    let k := cm_export center m collision free unknown in
    mk_frame k = cm_frame m /\ mk_ns k = Text "collision_map_display" /\
    draws center k (cm_dims m)
      (fun i => drawn (class_color collision free unknown (c_occ (fst (cm_get m i)))))
      (fun i => class_color collision free unknown (c_occ (fst (cm_get m i)))).
  Proof.
    apply draws_fold with (vis := fun i => visible (class_color collision free unknown (c_occ (fst (cm_get m i))))).
    - intros k i _. apply draw_class_eq.
    - intros i _. reflexivity.
  Qed.

  Lemma cm_export_surfaces_draws m collision free unknown :
    let k := cm_export_surfaces center m collision free unknown in
    mk_frame k = cm_frame m /\ mk_ns k = Text "collision_map_display" /\
    draws center k (cm_dims m)
      (fun i => is_surface_index c_occ (cm_grid m) i = true /\
                drawn (class_color collision free unknown (c_occ (fst (cm_get m i)))))
      (fun i => class_color collision free unknown (c_occ (fst (cm_get m i)))).
  Proof.
    apply draws_fold with (vis := fun i => is_surface_index c_occ (cm_grid m) i &&
      visible (class_color collision free unknown (c_occ (fst (cm_get m i))))).
    - intros k i _. rewrite draw_class_eq. destruct (is_surface_index c_occ (cm_grid m) i); auto.
    - intros i _. rewrite andb_true_iff. reflexivity.
  Qed.

  Lemma cm_export_components_draws m u :
    let k := cm_export_components center unique_color m u in
    mk_frame k = cm_frame m /\ mk_ns k = Text "connected_components_display" /\
    draws center k (cm_dims m) (fun _ => True)
      (fun i => component_color unique_color u (c_occ (fst (cm_get m i))) (c_comp (fst (cm_get m i)))).
  Proof.
    apply draws_fold with (vis := fun _ => true); [reflexivity|]. intros; split; auto.
  Qed.

  Lemma tm_export_occupancy_draws m collision free unknown :
    let k := tm_export_occupancy center m collision free unknown in
    mk_frame k = tm_frame m /\ mk_ns k = Text "tagged_object_collision_map_occupancy_display" /\
    draws center k (tm_dims m)
      (fun i => drawn (class_color collision free unknown (t_occ (fst (tm_get m i)))))
      (fun i => class_color collision free unknown (t_occ (fst (tm_get m i)))).
  Proof.
    apply draws_fold with (vis := fun i => visible (class_color collision free unknown (t_occ (fst (tm_get m i)))));
    reflexivity.
  Qed.

  Lemma tm_export_components_draws m u :
    let k := tm_export_components center unique_color m u in
    mk_frame k = tm_frame m /\ mk_ns k = Text "tagged_object_connected_components_display" /\
    draws center k (tm_dims m) (fun _ => True)
      (fun i => component_color unique_color u (t_occ (fst (tm_get m i))) (t_comp (fst (tm_get m i)))).
  Proof.
    apply draws_fold with (vis := fun _ => true); [reflexivity|]. intros; split; auto.
  Qed.

  Lemma tm_export_segment_draws hot m obj seg :
    let k := tm_export_segment center unique_color hot m obj seg in
    mk_frame k = tm_frame m /\ mk_ns k = Segment obj seg /\
    draws center k (tm_dims m)
      (fun i => t_obj (fst (tm_get m i)) = obj /\ t_seg (fst (tm_get m i)) = seg)
      (fun _ => if tm_nseg m <? 22 then unique_color seg one32 else hot seg (tm_nseg m)).
  Proof.
    apply draws_fold with (vis := fun i => (t_obj (fst (tm_get m i)) =? obj) && (t_seg (fst (tm_get m i)) =? seg));
    [reflexivity|]. intros i _. rewrite andb_true_iff, !Z.eqb_eq. reflexivity.
  Qed.

  (** ** Tables *)
  Lemma wanted_table objects acc id :
    (exists v, map_get id (fold_left (fun t id => map_put id 1 t) objects acc) = Some v) <->
    In id objects \/ (exists v, map_get id acc = Some v).
  Proof.
    revert acc; induction objects as [|o l IH]; intros acc; cbn [fold_left In].
    - tauto.
    - rewrite IH, map_get_put. destruct (Z.eqb_spec id o); subst.
      + split; auto. intros _. right. eauto.
      + split; [intros [H|H]|intros [[H|H]|H]]; auto. congruence.
  Qed.

  Lemma tm_export_draws m alpha objects :
    let k := tm_export center unique_color m alpha objects in
    mk_frame k = tm_frame m /\ mk_ns k = tagged_ns /\
    draws center k (tm_dims m)
      (fun i => (objects = [] \/ In (object_at m i) objects) /\ drawn (unique_color (object_at m i) alpha))
      (fun i => unique_color (object_at m i) alpha).
  Proof.
    unfold tm_export.
    apply draws_fold with (vis := fun i =>
      ((match objects with [] => true | _ => false end) ||
       (match map_get (object_at m i) (fold_left (fun t id => map_put id 1 t) objects []) with
        | Some _ => true | None => false end)) && visible (unique_color (object_at m i) alpha)).
    - intros k i _. unfold push_visible.
      destruct (_ || _); auto.
    - intros i _. rewrite andb_true_iff, orb_true_iff.
      pose proof (wanted_table objects [] (object_at m i)) as W.
      assert (E : (match map_get (object_at m i) (fold_left (fun t id => map_put id 1 t) objects []) with
        | Some _ => true | None => false end) = true <-> In (object_at m i) objects).
      { destruct (map_get (object_at m i) _) eqn:G.
        - split; auto. intros _. destruct (proj1 W) as [H|(v & H)]; eauto. discriminate.
        - split; [discriminate|]. intros H. destruct (proj2 W (or_introl H)) as (v & K). discriminate. }
      rewrite E. unfold drawn, visible.
      assert (F : (match objects with [] => true | _ => false end) = true <-> objects = [])
        by (destruct objects; split; congruence).
      rewrite F. tauto.
  Qed.

  (** ** Colours given or generated *)
  Definition color_of (colors : list (Z * color)) (id : Z) : color :=
    match map_get id colors with Some c => c | None => unique_color id one32 end.

  Lemma with_color_spec id cs : snd (with_color unique_color id cs) = color_of cs id /\
    forall x, color_of (fst (with_color unique_color id cs)) x = color_of cs x.
  Proof.
    unfold with_color, color_of. destruct (map_get id cs) as [c|] eqn:E; cbn; auto. split; auto.
    intros x. rewrite map_get_put. destruct (Z.eqb_spec x id); subst; auto. rewrite E. auto.
  Qed.

  Lemma color_of_spec colors id : ascending (map fst colors) ->
    given_or_generated unique_color colors id (color_of colors id) /\
    forall c, given_or_generated unique_color colors id c -> c = color_of colors id.
  Proof.
    intros A. unfold given_or_generated, color_of. destruct (map_get id colors) as [c|] eqn:E.
    - apply map_get_in in E. split; auto. intros c' [H|(N & _)].
      + clear -A E H. induction colors as [|[k v] l IH]; [destruct E|].
        inversion A as [|? ? A' F]; subst. rewrite Forall_forall in F.
        destruct E as [E|E], H as [H|H].
        * congruence.
        * injection E as -> ->. apply in_map with (f := fst) in H. apply F in H. cbn in H. lia.
        * injection H as -> ->. apply in_map with (f := fst) in E. apply F in E. cbn in E. lia.
        * apply IH; auto.
      + destruct N. apply in_map with (f := fst) in E. auto.
    - apply map_get_none in E. split; auto. intros c' [H|(_ & H)]; auto.
      destruct E. apply in_map with (f := fst) in H. auto.
  Qed.

  Lemma tm_export_colors_draws m colors :
    let k := tm_export_colors center unique_color m colors in
    mk_frame k = tm_frame m /\ mk_ns k = tagged_ns /\
    draws center k (tm_dims m)
      (fun i => drawn (color_of colors (object_at m i)))
      (fun i => color_of colors (object_at m i)).
  Proof.
    unfold tm_export_colors.
    assert (G : forall l cs k, (forall x, color_of cs x = color_of colors x) ->
      snd (fold_left (fun st i => let (cs, c) := with_color unique_color (object_at m i) (fst st) in
             (cs, push_visible center c (snd st) i)) l (cs, k)) =
      fold_left (fun k i => push_visible center (color_of colors (object_at m i)) k i) l k).
    { induction l as [|a l IH]; intros cs k H; cbn [fold_left]; auto.
      cbn [fst snd]. destruct (with_color_spec (object_at m a) cs) as (W1 & W2).
      destruct (with_color unique_color (object_at m a) cs) as [cs' c]. cbn [fst snd] in *.
      rewrite IH; [|intros x; rewrite W2; auto]. rewrite W1, H. reflexivity. }
    rewrite G by auto.
    apply draws_fold with (vis := fun i => visible (color_of colors (object_at m i))); reflexivity.
  Qed.
End Display.

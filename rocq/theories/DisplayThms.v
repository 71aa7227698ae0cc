(** Theorems about the drawing functions, put together. *)
From Coq Require Import Sorted Lia Reals Lra.
From Flocq Require Import Core.Core IEEE754.Binary IEEE754.Bits.
From Verif Require Import Base BaseFacts Floats FloatFacts FloatFacts2 Grid GridFacts DistSpec SdfGen SdfSpec
  CollisionMap TaggedMap TaggedSpec TaggedProofs Surfaces SurfaceSpec SurfaceProofs Arith Display DisplaySpec
  ResampleSpec ResampleProofs DisplayProofs DisplayUnique DisplayContour DisplaySdf.
Local Open Scope Z_scope.

Lemma foldM_sim {S A} (J : S -> Prop) (f g : S -> A -> res S) l s :
  J s -> (forall s a, J s -> In a l -> f s a = g s a) ->
  (forall s a s', J s -> In a l -> g s a = Ok s' -> J s') ->
  foldM f l s = foldM g l s.
Proof.
  revert s; induction l as [|a l IH]; intros s Js E P; cbn [foldM]; auto.
  rewrite (E s a) by (cbn; auto). destruct (g s a) as [s'| |] eqn:G; cbn [bind]; auto.
  apply IH; [eapply P; eauto; cbn; auto| |]; intros; [apply E|eapply P]; eauto; cbn; auto.
Qed.

Section Thms.
  Context {point : Type}.
  Variable center : idx -> point.
  Variable unique_color : Z -> binary32 -> color.
  Notation marker := (marker point).

  Lemma one_marker_ext d frame obj (w w' : Z -> Prop) (P P' : idx -> Prop) (col : Z -> color) (ks : list marker) :
    (forall id, (exists i, obj i = id /\ P i) -> w id <-> w' id) ->
    (forall i, in_bounds d i = true -> P i <-> P' i) ->
    one_marker_each center d frame obj w P col ks -> one_marker_each center d frame obj w' P' col ks.
  Proof.
    intros Hw HP (N & H). split; auto. intros k. rewrite H.
    assert (X : forall id l, exactly d (fun i => obj i = id /\ P i) l <-> exactly d (fun i => obj i = id /\ P' i) l).
    { intros id l. split; intros (S & E); split; auto; intros i; rewrite E;
      split; intros (B & O & K); split; auto; split; auto; apply HP; auto. }
    assert (Y : forall id l, l <> [] -> exactly d (fun i => obj i = id /\ P i) l -> exists i, obj i = id /\ P i).
    { intros id [|i l] Ne (_ & E); [congruence|]. exists i. apply E. cbn; auto. }
    split; intros (id & l & A & B & C & D); exists id, l; (split; [|split; [|split]]; auto).
    - apply Hw; eauto.
    - apply X; auto.
    - apply Hw; auto. apply X in C. eauto.
    - apply X; auto.
  Qed.

  (** Only the objects of cells matter. *)
  Lemma one_marker_in d frame obj (w w' : Z -> Prop) (P P' : idx -> Prop) (col : Z -> color) (ks : list marker) :
    one_marker_each center d frame obj w P col ks ->
    (forall i, in_bounds d i = true -> w (obj i) <-> w' (obj i)) ->
    (forall i, in_bounds d i = true -> w (obj i) -> P i <-> P' i) ->
    one_marker_each center d frame obj w' P' col ks.
  Proof.
    intros (N & H) Hw HP. split; auto. intros k. rewrite H.
    assert (W : forall id (Q : idx -> Prop) l, l <> [] -> exactly d (fun i => obj i = id /\ Q i) l -> (w id <-> w' id)).
    { intros id Q [|i l] Ne (_ & E); [congruence|]. destruct (proj1 (E i)) as (B & <- & _); [cbn; auto|]. auto. }
    assert (X : forall id l, w id -> exactly d (fun i => obj i = id /\ P i) l <-> exactly d (fun i => obj i = id /\ P' i) l).
    { intros id l Wi. split; intros (S & E); split; auto; intros i; rewrite E;
      split; intros (B & O & K); subst id; split; auto; split; auto; apply HP; auto. }
    split; intros (id & l & A & B & C & D); exists id, l; (split; [|split; [|split]]; auto).
    - apply (W id P l); auto.
    - apply X; auto.
    - apply (W id P' l); auto.
    - apply X; auto. apply (W id P' l); auto.
  Qed.

  Lemma export_unique m alpha objects :
    exists ks, tm_export_unique center unique_color m alpha objects = Ok ks /\
      one_marker_each center (tm_dims m) (tm_frame m) (tobj m) (selected objects)
        (fun i => drawn (unique_color (tobj m i) alpha)) (fun id => unique_color id alpha) ks.
  Proof.
    set (draw_all := match objects with [] => true | _ => false end).
    set (add := fun id => draw_all && negb (id =? 0)).
    set (col := fun id => unique_color id alpha).
    set (vis := fun i => visible (col (tobj m i))).
    pose proof (requested_start center (tm_frame m) (tobj m) vis col add objects) as St.
    unfold tm_export_unique. destruct (fold_left _ objects _) as [[n t] ks0].
    destruct St as (V & Hk).
    { intros Ne id. unfold add, draw_all. destruct objects; [congruence|reflexivity]. }
    destruct (loop_ok center (tm_frame m) (tobj m) vis col add (fun id => In id objects) (sweep (tm_dims m)) [] (t, ks0) V Hk)
      as (st & E & V' & K').
    exists (pruned (snd st)). split.
    - fold draw_all. change (foldM _ (sweep (tm_dims m)) (t, ks0))
        with (foldM (step center (tm_frame m) (tobj m) vis col add) (sweep (tm_dims m)) (t, ks0)).
      rewrite E. destruct st as [t' ks']. reflexivity.
    - cbn [app] in *. eapply one_marker_ext; [| |eapply pruned_spec; eauto].
      + intros id _. cbn beta. unfold selected, add, draw_all. destruct objects; cbn.
        * rewrite negb_true_iff, Z.eqb_neq. tauto.
        * split; [intros [H|H]; [auto|discriminate]|intros [H|(H & _)]; [auto|discriminate]].
      + intros i _. reflexivity.
  Qed.

  (** The loops that look colours up as they go do what the plain loop does. *)
  Lemma colors_loop m colors add vis l cs st st' :
    (forall id, add id = negb (id =? 0)) ->
    (forall i, vis i = visible (color_of unique_color colors (tobj m i))) ->
    (forall x, color_of unique_color cs x = color_of unique_color colors x) ->
    foldM (step center (tm_frame m) (tobj m) vis (color_of unique_color colors) add) l st = Ok st' ->
    exists cs', foldM (fun (cst : list (Z * color) * (table * list marker)) i =>
        let '(cs, st) := cst in
        let id := object_at m i in
        let st1 := if negb (id =? 0) &&
                      (match map_get id (fst st) with None => true | Some _ => false end)
                   then new_marker (tm_frame m) id st else st in
        match map_get id (fst st1) with
        | Some n =>
            let (cs', c) := with_color unique_color id cs in
            if visible c
            then let* ks' := at_marker (snd st1) n (fun k => push center c k i) in
                 Ok (cs', (fst st1, ks'))
            else Ok (cs', st1)
        | None => Ok (cs, st1)
        end) l (cs, st) = Ok (cs', st').
  Proof.
    intros Ha Hv. revert cs st. induction l as [|i l IH]; intros cs st Hc; cbn [foldM].
    - intros E. injection E as <-. eauto.
    - unfold step at 1. fold (missing (object_at m i) (fst st)).
      change (object_at m i) with (tobj m i). rewrite Ha, Hv.
      set (st1 := if negb (tobj m i =? 0) && missing (tobj m i) (fst st) then new_marker (tm_frame m) (tobj m i) st else st).
      destruct (map_get (tobj m i) (fst st1)) as [n|].
      + destruct (with_color_spec unique_color (tobj m i) cs) as (W1 & W2).
        destruct (with_color unique_color (tobj m i) cs) as [cs' c]. cbn [fst snd] in *.
        rewrite Hc in W1. rewrite W1.
        assert (Hc' : forall x, color_of unique_color cs' x = color_of unique_color colors x).
        { intros x. rewrite W2. auto. }
        destruct (visible _).
        * destruct (at_marker _ _ _) as [ks'| |]; cbn [bind]; try discriminate. apply IH. auto.
        * cbn [bind]. apply IH. auto.
      + cbn [bind]. apply IH. auto.
  Qed.

  Lemma export_colors_unique m colors : ascending (map fst colors) ->
    exists ks col, tm_export_colors_unique center unique_color m colors = Ok ks /\
      (forall id, given_or_generated unique_color colors id (col id)) /\
      one_marker_each center (tm_dims m) (tm_frame m) (tobj m)
        (fun id => In id (map fst colors) \/ id <> 0)
        (fun i => drawn (col (tobj m i))) col ks.
  Proof.
    intros As. set (col := color_of unique_color colors).
    set (add := fun id => negb (id =? 0)). set (vis := fun i => visible (col (tobj m i))).
    destruct (table_start center (tm_frame m) (tobj m) vis col add colors As) as (V & Hk).
    unfold tm_export_colors_unique.
    set (st0 := fold_left _ colors _) in *.
    destruct (loop_ok center (tm_frame m) (tobj m) vis col add _ (sweep (tm_dims m)) [] st0 V Hk)
      as (st & E & V' & K').
    destruct (colors_loop m colors add vis (sweep (tm_dims m)) colors st0 st) as (cs' & E'); auto.
    exists (pruned (snd st)), col. split; [|split].
    - match goal with |- bind ?a _ = _ => replace a with (Ok (cs', st)) end. reflexivity.
    - intros id. apply color_of_spec. auto.
    - cbn [app] in *. eapply one_marker_ext; [| |eapply pruned_spec; eauto].
      + intros id _. cbn beta. unfold add. rewrite negb_true_iff, Z.eqb_neq. tauto.
      + intros i _. reflexivity.
  Qed.

  (** ** Contours *)
  Lemma contour_setup g m objects : drawable m g ->
    exists sdfs, contour_sdfs g m objects = Ok sdfs /\ ascending (map fst sdfs) /\
      (forall i, in_bounds (tm_dims m) i = true -> In (tobj m i) (map fst sdfs) <-> selected objects (tobj m i)) /\
      (forall i, in_bounds (tm_dims m) i = true ->
         (on_contour (g_cx g) sdfs m i = true <-> selected objects (tobj m i) /\ contour_cell m i)).
  Proof.
    intros (Hm & Hs & Hr & Ey & Ez). pose proof (usable_plain _ Hr) as Hu.
    assert (Hs' : size_ok (tm_dims m)).
    { destruct Hm as ((W1 & W2 & W3 & _) & _). apply enlarged_ok; auto. }
    assert (Hp : forall i, in_bounds (tm_dims m) i = true -> 0 <= tobj m i).
    { intros i _. destruct Hm as (_ & _ & _ & H). destruct (H i) as (_ & U & _). unfold u32 in U. unfold tobj. lia. }
    assert (G : exists sdfs, contour_sdfs g m objects = Ok sdfs /\ ascending (map fst sdfs) /\
      (forall i, in_bounds (tm_dims m) i = true -> In (tobj m i) (map fst sdfs) <-> selected objects (tobj m i)) /\
      (forall id s, In (id, s) sdfs -> exists x, tm_extract_sdf g m inf32 [id] true false = Ok (s, x))).
    { unfold contour_sdfs, selected. destruct objects as [|o os].
      - destruct (make_all_spec g m true false Hm Hs Hu Ey Ez) as (l & A & B & C & D).
        exists l. split; auto. split; auto. split; auto. intros i Hi. rewrite C. specialize (Hp i Hi). cbn. split.
        + intros (H & _). right. split; auto. lia.
        + intros [[]|(_ & H)]. split; [lia|]. eauto.
      - destruct (make_object_sdfs_spec g m (o :: os) true false Hm Hs Hu Ey Ez) as (l & A & B & C & D).
        exists l. split; auto. split; auto. split; auto. intros i Hi. rewrite C. split; auto.
        intros [H|(H & _)]; auto. discriminate. }
    destruct G as (sdfs & A & B & C & D). exists sdfs. split; auto. split; auto. split; auto.
    intros i Hi. unfold on_contour. change (object_at m i) with (tobj m i).
    destruct (map_get (tobj m i) sdfs) as [s|] eqn:Q.
    - apply map_get_in in Q. destruct (D _ _ Q) as (x & E).
      rewrite <- (C i Hi). rewrite (field_contour g m s x i Hm Hs' Hr Ey Ez Hi E).
      apply in_map with (f := fst) in Q. cbn in Q. tauto.
    - split; [discriminate|]. intros (H & _). apply C in H; auto. apply map_get_none in Q. contradiction.
  Qed.

  Lemma contour g m alpha objects : drawable m g ->
    exists k, tm_contour center unique_color g m alpha objects = Ok k /\
      mk_frame k = tm_frame m /\ mk_ns k = tagged_ns /\
      draws center k (tm_dims m)
        (fun i => selected objects (tobj m i) /\ contour_cell m i /\ drawn (unique_color (tobj m i) alpha))
        (fun i => unique_color (tobj m i) alpha).
  Proof.
    intros Hd. destruct (contour_setup g m objects Hd) as (sdfs & A & _ & _ & C).
    unfold tm_contour. rewrite A. cbn [bind]. eexists. split; [reflexivity|].
    apply draws_fold with (vis := fun i => on_contour (g_cx g) sdfs m i && visible (unique_color (tobj m i) alpha)).
    - intros k i _. change (object_at m i) with (tobj m i). unfold push_visible.
      destruct (on_contour _ _ _ _); auto.
    - intros i Hi. rewrite andb_true_iff, (C i Hi). unfold drawn, visible. tauto.
  Qed.

  Lemma step_plain frame obj vis col (s : table * list marker) i :
    step center frame obj vis col (fun _ => false) s i =
    match map_get (obj i) (fst s) with
    | Some n => if vis i
                then let* ks' := at_marker (snd s) n (fun k => push center (col (obj i)) k i) in Ok (fst s, ks')
                else Ok s
    | None => Ok s
    end.
  Proof. reflexivity. Qed.

  Lemma contour_loop g m sdfs (col : Z -> color) f vis :
    ascending (map fst sdfs) ->
    (forall i, vis i = on_contour (g_cx g) sdfs m i && visible (col (tobj m i))) ->
    (forall st i, f st i = if vis i then push_to center st (tobj m i) (col (tobj m i)) i else Ok st) ->
    exists st, foldM f (sweep (tm_dims m)) (contour_markers (tm_frame m) sdfs) = Ok st /\
      one_marker_each center (tm_dims m) (tm_frame m) (tobj m) (fun id => In id (map fst sdfs))
        (fun i => vis i = true) col (pruned (snd st)).
  Proof.
    intros As Hv Hf.
    destruct (table_start center (tm_frame m) (tobj m) vis col (fun _ => false) sdfs As) as (V & Hk).
    fold (contour_markers (point := point) (tm_frame m) sdfs) in V, Hk.
    set (st0 := contour_markers (tm_frame m) sdfs) in *.
    destruct (loop_ok center (tm_frame m) (tobj m) vis col _ _ (sweep (tm_dims m)) [] st0 V Hk)
      as (st & E & V' & K').
    exists st. split.
    - rewrite <- E. apply foldM_sim with (J := fun s => forall id, In id (map fst sdfs) -> map_get id (fst s) <> None).
      + intros id Hid. apply Hk. auto.
      + intros s i Js Hi. rewrite Hf, step_plain. unfold push_to.
        match goal with |- _ = match ?e with _ => _ end => destruct e as [n|] eqn:Q end.
        * destruct (vis i); auto.
        * destruct (vis i) eqn:W; auto. exfalso. apply (Js (tobj m i)); auto.
          rewrite Hv in W. apply andb_true_iff in W. destruct W as (W & _). unfold on_contour in W.
          change (object_at m i) with (tobj m i) in W.
          destruct (map_get (tobj m i) sdfs) as [x|] eqn:Z0; [|discriminate].
          apply map_get_in in Z0. apply in_map with (f := fst) in Z0. auto.
      + intros s i s' Js Hi. rewrite step_plain.
        match goal with |- match ?e with _ => _ end = _ -> _ => destruct e as [n|] eqn:Q end; [|intros F; injection F as <-; exact Js].
        destruct (vis i); [|intros F; injection F as <-; exact Js].
        destruct (at_marker _ _ _); cbn [bind]; [|discriminate|discriminate].
        intros F. injection F as <-. auto.
    - cbn [app] in *. eapply one_marker_ext; [| |eapply pruned_spec; eauto].
      + intros id _. cbn beta. split; auto. intros [H|H]; auto. discriminate.
      + reflexivity.
  Qed.

  Lemma contour_unique g m alpha objects : drawable m g ->
    exists ks, tm_contour_unique center unique_color g m alpha objects = Ok ks /\
      one_marker_each center (tm_dims m) (tm_frame m) (tobj m) (selected objects)
        (fun i => contour_cell m i /\ drawn (unique_color (tobj m i) alpha))
        (fun id => unique_color id alpha) ks.
  Proof.
    intros Hd. destruct (contour_setup g m objects Hd) as (sdfs & A & B & K & C).
    unfold tm_contour_unique. rewrite A. cbn [bind].
    match goal with |- exists ks, bind (foldM ?f _ _) _ = _ /\ _ =>
      destruct (contour_loop g m sdfs (fun id => unique_color id alpha) f
        (fun i => on_contour (g_cx g) sdfs m i && visible (unique_color (tobj m i) alpha))) as (st & E & O) end; auto.
    rewrite E. cbn [bind]. eexists. split; [reflexivity|].
    { cbn beta in O. apply (one_marker_in _ _ _ _ _ _ _ _ _ O).
      + intros i Hi. apply K; auto.
      + intros i Hi Hc. rewrite andb_true_iff, (C i Hi). unfold drawn, visible.
        split; [tauto|]. apply K in Hc; auto. tauto. }
  Qed.

  Lemma all_colors_spec sdfs cs :
    (forall x, color_of unique_color (all_colors unique_color sdfs cs) x = color_of unique_color cs x) /\
    (forall x, In x (map fst sdfs) \/ map_get x cs <> None -> map_get x (all_colors unique_color sdfs cs) <> None).
  Proof.
    unfold all_colors. revert cs; induction sdfs as [|[id s] l IH]; intros cs; cbn [fold_left map fst].
    - split; auto. intros x [[]|H]; auto.
    - destruct (IH (fst (with_color unique_color id cs))) as (A & B).
      destruct (with_color_spec unique_color id cs) as (_ & W).
      split; [intros x; rewrite A; auto|]. intros x [[<-|H]|H]; apply B; auto.
      + right. unfold with_color. destruct (map_get id cs) eqn:Q; cbn [fst]; [congruence|].
        rewrite map_get_put, Z.eqb_refl. discriminate.
      + right. unfold with_color. destruct (map_get id cs) eqn:Q; cbn [fst]; auto.
        rewrite map_get_put. destruct (x =? id); [discriminate|auto].
  Qed.

  Lemma color_at_all sdfs cs id : In id (map fst sdfs) ->
    color_at (all_colors unique_color sdfs cs) id = Ok (color_of unique_color cs id).
  Proof.
    intros H. destruct (all_colors_spec sdfs cs) as (A & B). specialize (B id (or_introl H)). specialize (A id).
    unfold color_at. unfold color_of at 1 in A. destruct (map_get id (all_colors unique_color sdfs cs)); congruence.
  Qed.

  Lemma on_contour_key r sdfs m i : on_contour r sdfs m i = true -> In (tobj m i) (map fst sdfs).
  Proof.
    unfold on_contour. change (object_at m i) with (tobj m i).
    destruct (map_get (tobj m i) sdfs) as [x|] eqn:Z0; [|discriminate].
    intros _. apply map_get_in in Z0. apply in_map with (f := fst) in Z0. auto.
  Qed.

  Lemma contour_colors g m colors : drawable m g -> ascending (map fst colors) ->
    exists k col, tm_contour_colors center unique_color g m colors = Ok k /\
      mk_frame k = tm_frame m /\ mk_ns k = tagged_ns /\
      (forall id, given_or_generated unique_color colors id (col id)) /\
      draws center k (tm_dims m)
        (fun i => tobj m i <> 0 /\ contour_cell m i /\ drawn (col (tobj m i)))
        (fun i => col (tobj m i)).
  Proof.
    intros Hd As. destruct (contour_setup g m [] Hd) as (sdfs & A & _ & _ & C). cbn [contour_sdfs] in A.
    unfold tm_contour_colors. rewrite A. cbn [bind]. set (col := color_of unique_color colors).
    exists (fold_left (fun k i => if on_contour (g_cx g) sdfs m i && visible (col (tobj m i))
                                  then push center (col (tobj m i)) k i else k)
              (sweep (tm_dims m)) (blank (tm_frame m) tagged_ns)), col.
    split.
    - generalize (blank (point := point) (tm_frame m) tagged_ns). induction (sweep (tm_dims m)) as [|i l IH]; intros k;
        cbn [foldM fold_left]; auto.
      destruct (on_contour (g_cx g) sdfs m i) eqn:Q; cbn [andb].
      + change (object_at m i) with (tobj m i). rewrite color_at_all by (eapply on_contour_key; eauto).
        cbn [bind]. unfold push_visible. fold col. destruct (visible _); apply IH.
      + cbn [bind]. apply IH.
    - match goal with |- ?a /\ ?b /\ ?c /\ ?e => cut (c /\ (a /\ b /\ e)); [tauto|] end.
      split; [intros id; apply color_of_spec; auto|].
      apply draws_fold with (vis := fun i => on_contour (g_cx g) sdfs m i && visible (col (tobj m i))).
      + reflexivity.
      + intros i Hi. rewrite andb_true_iff, (C i Hi). unfold drawn, visible, selected. cbn [In].
        split; [intros (([[]|(_ & H1)] & H2) & H3); auto|intros (H1 & H2 & H3); auto].
  Qed.

  Lemma contour_colors_unique g m colors : drawable m g -> ascending (map fst colors) ->
    exists ks col, tm_contour_colors_unique center unique_color g m colors = Ok ks /\
      (forall id, given_or_generated unique_color colors id (col id)) /\
      one_marker_each center (tm_dims m) (tm_frame m) (tobj m) (fun id => id <> 0)
        (fun i => contour_cell m i /\ drawn (col (tobj m i))) col ks.
  Proof.
    intros Hd As. destruct (contour_setup g m [] Hd) as (sdfs & A & B & K & C). cbn [contour_sdfs] in A.
    unfold tm_contour_colors_unique. rewrite A. cbn [bind]. set (col := color_of unique_color colors).
    match goal with |- exists ks c, bind (foldM ?f _ _) _ = _ /\ _ =>
      destruct (contour_loop g m sdfs col f
        (fun i => on_contour (g_cx g) sdfs m i && visible (col (tobj m i)))) as (st & E & O) end; auto;
      [|rewrite E; cbn [bind]; exists (pruned (snd st)), col; split; [reflexivity|split]].
    - intros st i. cbn beta. destruct (on_contour (g_cx g) sdfs m i) eqn:Q; cbn [andb]; auto.
      change (object_at m i) with (tobj m i). rewrite color_at_all by (eapply on_contour_key; eauto).
      cbn [bind]. reflexivity.
    - intros id. apply color_of_spec; auto.
    - cbn beta in O. apply (one_marker_in _ _ _ _ _ _ _ _ _ O).
      + intros i Hi. rewrite (K i Hi). unfold selected. cbn. tauto.
      + intros i Hi Hc. rewrite andb_true_iff, (C i Hi). unfold drawn, visible.
        split; [tauto|]. apply K in Hc; auto. tauto.
  Qed.

  (** ** Separate drawings *)
  Lemma no_color_hidden : ~ drawn no_color.
  Proof. discriminate. Qed.

  Lemma class_color_kind (c1 c2 c3 : color) o : class_color c1 c2 c3 o =
    match kind_of o with Filled => c1 | Empty => c2 | Unknown => c3 end.
  Proof. unfold class_color, kind_of. destruct (gt32 o half32); auto. destruct (lt32 o half32); auto. Qed.

  Lemma draws_ext (k : marker) d (P P' : idx -> Prop) (col col' : idx -> color) :
    (forall i, in_bounds d i = true -> P i <-> P' i) -> (forall i, in_bounds d i = true -> P i -> col i = col' i) ->
    draws center k d P col -> draws center k d P' col'.
  Proof.
    intros HP Hc (l & (S & E) & A & B). exists l. split; [split; auto|split; auto].
    - intros i. rewrite E. split; intros (X & Y); split; auto; apply HP; auto.
    - rewrite B. apply map_ext_in. intros i Hi. apply E in Hi. apply Hc; tauto.
  Qed.

  Lemma export_separate m c1 c2 c3 : exists a b c, cm_export_separate center m c1 c2 c3 = [a; b; c] /\
    shows center a m (Text "collision_only") Filled (fun _ => True) c1 /\
    shows center b m (Text "free_only") Empty (fun _ => True) c2 /\
    shows center c m (Text "unknown_only") Unknown (fun _ => True) c3.
  Proof.
    unfold cm_export_separate. do 3 eexists. split; [reflexivity|].
    assert (G : forall x1 x2 x3 n want c, (forall o, drawn (class_color x1 x2 x3 o) <-> kind_of o = want /\ drawn c) ->
       (forall o, drawn (class_color x1 x2 x3 o) -> class_color x1 x2 x3 o = c) ->
       shows center (renamed n (cm_export center m x1 x2 x3)) m n want (fun _ => True) c).
    { intros x1 x2 x3 n want c H1 H2. destruct (cm_export_draws center m x1 x2 x3) as (A & B & C).
      split; [exact A|]. split; [reflexivity|]. 
      assert (Q : draws center (cm_export center m x1 x2 x3) (cm_dims m)
         (fun i => True /\ kind_of (c_occ (fst (cm_get m i))) = want /\ drawn c) (fun _ => c)).
      { eapply draws_ext; [| |exact C]; cbn beta; intros i Hi; [rewrite H1; tauto|apply H2]. }
      exact Q. }
    pose proof no_color_hidden as H0.
    split; [|split]; apply G; intros o; rewrite !class_color_kind; destruct (kind_of o);
      try tauto; split; intros; try tauto; try (destruct H; discriminate); auto.
  Qed.

End Thms.

Lemma combine_map {A B C} (f : A -> B) (g : A -> C) l : combine (map f l) (map g l) = map (fun i => (f i, g i)) l.
Proof. induction l; cbn; congruence. Qed.

Lemma same_shown {point} (center : idx -> point) d frame obj (w : Z -> Prop) (P P1 : idx -> Prop) col k ks :
  draws center k d P1 (fun i => col (obj i)) ->
  (forall i, in_bounds d i = true -> P1 i <-> w (obj i) /\ P i) ->
  one_marker_each center d frame obj w P col ks ->
  forall e, In e (shown k) <-> exists k', In k' ks /\ In e (shown k').
Proof.
  intros (l & (S & E) & A & B) HP (N & H) e. unfold shown at 1. rewrite A, B, combine_map.
  rewrite in_map_iff. split.
  - intros (i & <- & Hi). apply E in Hi. destruct Hi as (Hb & Hp). apply HP in Hp; auto. destruct Hp as (Hw & Hp).
    assert (X : exists l', exactly d (fun j => obj j = obj i /\ P j) l').
    { exists (filter (fun j => (obj j =? obj i) && existsb (idx_eqb j) l) (sweep d)).
      apply exactly_filter. intros j Hj. rewrite andb_true_iff, Z.eqb_eq, existsb_exists. split.
      - intros (Ho & x & Hx & Q). destruct (idx_eqb_spec j x); [subst x|discriminate]. split; auto.
        apply E in Hx. apply HP; tauto.
      - intros (Ho & Pj). split; auto. exists j. split; [|apply idx_eqb_refl]. apply E. split; auto.
        apply HP; auto. rewrite Ho. auto. }
    destruct X as (l' & X). pose proof (proj2 (proj2 X i) (conj Hb (conj eq_refl Hp))) as Hi'.
    exists (Marker frame (object_ns (obj i)) (map center l') (map (fun _ => col (obj i)) l')). split.
    + apply H. exists (obj i), l'. split; auto. split; [intros ->; destruct Hi'|]. split; auto.
    + unfold shown. cbn [mk_points mk_colors]. rewrite combine_map. apply in_map_iff. exists i. auto.
  - intros (k' & Hk & He). apply H in Hk. destruct Hk as (id & l' & Hw & _ & X & ->).
    unfold shown in He. cbn [mk_points mk_colors] in He. rewrite combine_map in He.
    apply in_map_iff in He. destruct He as (i & <- & Hi). apply X in Hi. destruct Hi as (Hb & <- & Hp).
    exists i. split; auto. apply E. split; auto. apply HP; auto.
Qed.

Section Same.
  Context {point : Type}.
  Variable center : idx -> point.
  Variable unique_color : Z -> binary32 -> color.

  Lemma export_same m alpha objects ks : ~ drawn (unique_color 0 alpha) ->
    tm_export_unique center unique_color m alpha objects = Ok ks ->
    forall e, In e (shown (tm_export center unique_color m alpha objects)) <-> exists k, In k ks /\ In e (shown k).
  Proof.
    intros Hz Hk. destruct (export_unique center unique_color m alpha objects) as (ks' & E & O).
    rewrite Hk in E. injection E as <-.
    destruct (tm_export_draws center unique_color m alpha objects) as (_ & _ & D).
    eapply same_shown with (obj := tobj m) (col := fun id => unique_color id alpha); [exact D| |exact O].
    cbn beta. change (object_at m) with (tobj m).
    intros i _. unfold selected. split.
    - intros ([H|H] & K); split; auto. right. split; auto. intros Q. rewrite Q in K. contradiction.
    - tauto.
  Qed.

  Lemma export_colors_same m colors ks : ascending (map fst colors) ->
    ~ drawn (unique_color 0 one32) -> tm_export_colors_unique center unique_color m colors = Ok ks ->
    forall e, In e (shown (tm_export_colors center unique_color m colors)) <-> exists k, In k ks /\ In e (shown k).
  Proof.
    intros As Hz Hk. destruct (export_colors_unique center unique_color m colors As) as (ks' & col & E & G & O).
    rewrite Hk in E. injection E as <-.
    destruct (tm_export_colors_draws center unique_color m colors) as (_ & _ & D).
    assert (C : forall id, col id = color_of unique_color colors id).
    { intros id. apply (proj2 (color_of_spec unique_color colors id As)). auto. }
    eapply same_shown with (obj := tobj m) (col := col); [| |exact O].
    - eapply draws_ext; [intros i Hi; reflexivity| |exact D]. intros i Hi _. cbn beta. rewrite C. reflexivity.
    - cbn beta. change (object_at m) with (tobj m). intros i _. rewrite C. split; [|tauto].
      intros K. split; auto. destruct (Z.eq_dec (tobj m i) 0) as [Q|Q]; auto. left.
      destruct (In_dec Z.eq_dec (tobj m i) (map fst colors)) as [I|I]; auto. exfalso.
      unfold color_of in K. rewrite (proj2 (map_get_none _ _) I), Q in K. contradiction.
  Qed.

  Lemma contour_same g m alpha objects k ks : drawable m g ->
    tm_contour center unique_color g m alpha objects = Ok k ->
    tm_contour_unique center unique_color g m alpha objects = Ok ks ->
    forall e, In e (shown k) <-> exists k', In k' ks /\ In e (shown k').
  Proof.
    intros Hd H1 H2. destruct (contour center unique_color g m alpha objects Hd) as (k' & E1 & _ & _ & D).
    rewrite H1 in E1. injection E1 as <-.
    destruct (contour_unique center unique_color g m alpha objects Hd) as (ks' & E2 & O).
    rewrite H2 in E2. injection E2 as <-.
    eapply same_shown with (obj := tobj m) (col := fun id => unique_color id alpha); [exact D| |exact O].
    cbn beta. intros i _. tauto.
  Qed.

  Lemma contour_colors_same g m colors k ks : drawable m g -> ascending (map fst colors) ->
    tm_contour_colors center unique_color g m colors = Ok k ->
    tm_contour_colors_unique center unique_color g m colors = Ok ks ->
    forall e, In e (shown k) <-> exists k', In k' ks /\ In e (shown k').
  Proof.
    intros Hd As H1 H2. destruct (contour_colors center unique_color g m colors Hd As) as (k' & col & E1 & _ & _ & G & D).
    rewrite H1 in E1. injection E1 as <-.
    destruct (contour_colors_unique center unique_color g m colors Hd As) as (ks' & col' & E2 & G' & O).
    rewrite H2 in E2. injection E2 as <-.
    assert (C : forall id, col id = col' id).
    { intros id. rewrite (proj2 (color_of_spec unique_color colors id As) _ (G id)).
      rewrite (proj2 (color_of_spec unique_color colors id As) _ (G' id)). reflexivity. }
    eapply same_shown with (obj := tobj m) (col := col'); [| |exact O].
    - eapply draws_ext; [intros i Hi; reflexivity| |exact D]. intros i Hi _. cbn beta. rewrite C. reflexivity.
    - cbn beta. intros i _. rewrite C. tauto.
  Qed.

  Lemma surfaces_draws m c1 c2 c3 : (forall j, is_nan 24 128 (c_occ (fst (cm_get m j))) = false) ->
    let k := cm_export_surfaces center m c1 c2 c3 in
    mk_frame k = cm_frame m /\ mk_ns k = Text "collision_map_display" /\
    draws center k (cm_dims m)
      (fun i => on_surface m i /\ drawn (class_color c1 c2 c3 (c_occ (fst (cm_get m i)))))
      (fun i => class_color c1 c2 c3 (c_occ (fst (cm_get m i)))).
  Proof.
    intros Hn. destruct (cm_export_surfaces_draws center m c1 c2 c3) as (A & B & C).
    split; auto. split; auto. eapply draws_ext; [| |exact C]; cbn beta; auto.
    intros i Hi. unfold on_surface. rewrite surface_index_spec.
    - unfold cm_get. setoid_rewrite get_eq. cbn [fst]. split; [intros ((_ & Q) & R); auto|intros (Q & R); auto].
    - intros j. specialize (Hn j). unfold cm_get in Hn. rewrite get_eq in Hn. exact Hn.
  Qed.

  Lemma export_surfaces_separate m c1 c2 c3 : (forall j, is_nan 24 128 (c_occ (fst (cm_get m j))) = false) ->
    exists a b c, cm_export_surfaces_separate center m c1 c2 c3 = [a; b; c] /\
    shows center a m (Text "collision_surfaces_only") Filled (on_surface m) c1 /\
    shows center b m (Text "free_surfaces_only") Empty (on_surface m) c2 /\
    shows center c m (Text "unknown_surfaces_only") Unknown (on_surface m) c3.
  Proof.
    intros Hn. unfold cm_export_surfaces_separate. do 3 eexists. split; [reflexivity|].
    assert (G : forall x1 x2 x3 n want c, (forall o, drawn (class_color x1 x2 x3 o) <-> kind_of o = want /\ drawn c) ->
       (forall o, drawn (class_color x1 x2 x3 o) -> class_color x1 x2 x3 o = c) ->
       shows center (renamed n (cm_export_surfaces center m x1 x2 x3)) m n want (on_surface m) c).
    { intros x1 x2 x3 n want c H1 H2. destruct (surfaces_draws m x1 x2 x3 Hn) as (A & B & C).
      split; [exact A|]. split; [reflexivity|]. 
      assert (Q : draws center (cm_export_surfaces center m x1 x2 x3) (cm_dims m)
         (fun i => on_surface m i /\ kind_of (c_occ (fst (cm_get m i))) = want /\ drawn c) (fun _ => c)).
      { eapply draws_ext; [| |exact C]; cbn beta; intros i Hi; [rewrite H1; tauto|intros (_ & H); apply H2; exact H]. }
      exact Q. }
    pose proof no_color_hidden as H0.
    split; [|split]; apply G; intros o; rewrite !class_color_kind; destruct (kind_of o);
      try tauto; split; intros; try tauto; try (destruct H; discriminate); auto.
  Qed.
  Lemma surface_points m surface c :
    let k := tm_export_surface center m surface c in
    mk_frame k = tm_frame m /\ mk_ns k = Text "tagged_object_collision_map_surface" /\
    shown k = map (fun e => (center (fst e), c)) (filter (fun e => snd e =? 1) surface).
  Proof.
    unfold tm_export_surface. cbn zeta.
    assert (G : forall l (k : marker point),
      fold_left (fun k (e : idx * Z) => if snd e =? 1 then push center c k (fst e) else k) l k =
      Marker (mk_frame k) (mk_ns k) (mk_points k ++ map (fun e => center (fst e)) (filter (fun e => snd e =? 1) l))
        (mk_colors k ++ map (fun _ => c) (filter (fun e => snd e =? 1) l))).
    { induction l as [|e l IH]; intros k; cbn [fold_left filter map].
      - rewrite !app_nil_r. destruct k; reflexivity.
      - rewrite IH. destruct (snd e =? 1); auto. cbn [push mk_frame mk_ns mk_points mk_colors map].
        rewrite <- !app_assoc. reflexivity. }
    rewrite G. split; auto. split; auto. unfold shown. cbn [blank mk_points mk_colors app]. apply combine_map.
  Qed.
End Same.

(** The drawing functions that make one marker per object. *)
From Coq Require Import Sorted Lia.
From Verif Require Import Base BaseFacts Floats Grid GridFacts CollisionMap TaggedMap TaggedSpec TaggedProofs
  Surfaces SdfGen Display DisplaySpec ResampleSpec ResampleProofs DisplayProofs.

Lemma nth_error_upd {A} n (v : A) l m : (n < length l)%nat ->
  nth_error (upd n v l) m = if (m =? n)%nat then Some v else nth_error l m.
Proof.
  revert n m; induction l as [|a l IH]; intros [|n] [|m] H; cbn in *; try lia; auto. apply IH. lia.
Qed.

Section Unique.
  Context {point : Type}.
  Variable center : idx -> point.
  Notation marker := (marker point).
  Variables (frame : string) (obj : idx -> Z) (vis : idx -> bool) (col : Z -> color) (add : Z -> bool).

  Definition missing (id : Z) (t : table) : bool :=
    match map_get id t with None => true | Some _ => false end.

  Definition step (st : table * list marker) (i : idx) : res (table * list marker) :=
    let st1 := if add (obj i) && missing (obj i) (fst st) then new_marker frame (obj i) st else st in
    match map_get (obj i) (fst st1) with
    | Some n => if vis i
                then let* ks' := at_marker (snd st1) n (fun k => push center (col (obj i)) k i) in
                     Ok (fst st1, ks')
                else Ok st1
    | None => Ok st1
    end.

  Definition cells (id : Z) (l : list idx) : list idx := filter (fun i => (obj i =? id) && vis i) l.
  Definition full (id : Z) (l : list idx) : marker :=
    Marker frame (object_ns id) (map center (cells id l)) (map (fun _ => col id) (cells id l)).

  Record inv (seen : list idx) (st : table * list marker) : Prop := {
    i_markers : forall n k, nth_error (snd st) n = Some k -> exists id,
      (map_get id (fst st) = Some n /\ k = full id seen) \/
      (map_get id (fst st) <> Some n /\ k = blank frame (object_ns id));
    i_table : forall id n, map_get id (fst st) = Some n -> nth_error (snd st) n = Some (full id seen);
    i_seen : forall id, map_get id (fst st) = None -> add id = true -> forall i, In i seen -> obj i <> id;
    i_size : (exists id, add id = true) -> length (fst st) = length (snd st)
  }.

  Lemma cells_app id l i : cells id (l ++ [i]) = cells id l ++ (if (obj i =? id) && vis i then [i] else []).
  Proof. unfold cells. rewrite filter_app. reflexivity. Qed.

  Lemma cells_none id l : (forall i, In i l -> obj i <> id) -> cells id l = [].
  Proof.
    induction l as [|a l IH]; intros H; auto. unfold cells; cbn [filter].
    destruct (Z.eqb_spec (obj a) id); [destruct (H a); cbn; auto|]. cbn [andb].
    apply IH. intros; apply H; cbn; auto.
  Qed.

  Lemma full_app_other id l i : (obj i =? id) && vis i = false -> full id (l ++ [i]) = full id l.
  Proof. intros H. unfold full. rewrite cells_app, H, app_nil_r. reflexivity. Qed.

  Lemma full_app_same l i : vis i = true -> full (obj i) (l ++ [i]) = push center (col (obj i)) (full (obj i) l) i.
  Proof.
    intros H. unfold full. rewrite cells_app, Z.eqb_refl, H. cbn [andb]. unfold push.
    cbn [mk_frame mk_ns mk_points mk_colors]. rewrite !map_app. reflexivity.
  Qed.

  Lemma inv_new seen st id : inv seen st -> add id = true -> map_get id (fst st) = None ->
    inv seen (new_marker frame id st).
  Proof.
    intros V A N. destruct st as [t ks]. cbn [fst snd] in *.
    assert (L : length t = length ks) by (apply (i_size _ _ V); eauto).
    assert (E : full id seen = blank frame (object_ns id)).
    { unfold full. rewrite cells_none; auto. apply (i_seen _ _ V); auto. }
    assert (B : forall x n, map_get x t = Some n -> (n < length ks)%nat).
    { intros x n H. apply (i_table _ _ V) in H. cbn in H. apply nth_error_Some. congruence. }
    constructor; cbn [new_marker fst snd].
    - intros n k H. destruct (Nat.eq_dec n (length ks)) as [->|Hn].
      + rewrite nth_error_app2, Nat.sub_diag in H by lia. cbn in H. injection H as <-.
        exists id. left. rewrite map_get_put, Z.eqb_refl, L, E. auto.
      + assert (Hl : (n < length ks)%nat).
        { assert (nth_error (ks ++ [blank frame (object_ns id)]) n <> None) by congruence.
          apply nth_error_Some in H0. rewrite app_length in H0. cbn in H0. lia. }
        rewrite nth_error_app1 in H by auto.
        destruct (i_markers _ _ V n k H) as (x & [(G & K)|(G & K)]); exists x; rewrite map_get_put;
        cbn [fst snd] in *; destruct (Z.eqb_spec x id); try subst x.
        * congruence.
        * auto.
        * right. split; auto. rewrite L. intros F. injection F as F. lia.
        * auto.
    - intros x n H. rewrite map_get_put in H. destruct (Z.eqb_spec x id); subst.
      + injection H as <-. rewrite L, nth_error_app2, Nat.sub_diag by lia. cbn. rewrite E. reflexivity.
      + rewrite nth_error_app1 by eauto. apply (i_table _ _ V). auto.
    - intros x H. rewrite map_get_put in H. destruct (Z.eqb_spec x id); [discriminate|].
      apply (i_seen _ _ V). auto.
    - intros _. rewrite map_put_length, app_length by auto. cbn. lia.
  Qed.

  Lemma inv_skip seen st i : inv seen st -> (forall id n, map_get id (fst st) = Some n -> (obj i =? id) && vis i = false) ->
    (add (obj i) = true -> map_get (obj i) (fst st) <> None) -> inv (seen ++ [i]) st.
  Proof.
    intros V H K. constructor.
    - intros n k E. destruct (i_markers _ _ V n k E) as (id & [(G & F)|(G & F)]); exists id; auto.
      left. rewrite full_app_other; eauto.
    - intros id n G. rewrite full_app_other by eauto. apply (i_table _ _ V). auto.
    - intros id G A j Hj. apply in_app_or in Hj. destruct Hj as [Hj|[<-|[]]].
      + eapply (i_seen _ _ V); eauto.
      + intros E. subst id. apply K; auto.
    - apply (i_size _ _ V).
  Qed.

  Lemma inv_push seen t ks i n : inv seen (t, ks) -> map_get (obj i) t = Some n -> vis i = true ->
    at_marker ks n (fun k => push center (col (obj i)) k i) = Ok (upd n (full (obj i) (seen ++ [i])) ks) /\
    inv (seen ++ [i]) (t, upd n (full (obj i) (seen ++ [i])) ks).
  Proof.
    intros V G Hv. pose proof (i_table _ _ V _ _ G) as E. cbn [fst snd] in *.
    assert (L : (n < length ks)%nat) by (apply nth_error_Some; congruence).
    unfold at_marker. rewrite E, <- full_app_same by auto. split; auto.
    constructor; cbn [fst snd].
    - intros m k H. rewrite nth_error_upd in H by auto. destruct (Nat.eqb_spec m n) as [->|Hm].
      + injection H as <-. exists (obj i). auto.
      + destruct (i_markers _ _ V m k H) as (id & [(G' & F)|(G' & F)]); exists id; auto.
        left. split; auto. rewrite full_app_other; auto.
        destruct (Z.eqb_spec (obj i) id); auto. subst id. cbn [fst] in G'. congruence.
    - intros id m H. rewrite nth_error_upd by auto.
      destruct (Nat.eqb_spec m n) as [->|Hm].
      + f_equal. pose proof (i_table _ _ V _ _ H) as E'. cbn [snd] in E'. rewrite E in E'.
        assert (X : obj i = id).
        { unfold full in E'. injection E'. auto. }
        rewrite X. reflexivity.
      + rewrite full_app_other; [apply (i_table _ _ V); auto|].
        destruct (Z.eqb_spec (obj i) id); auto. subst id. congruence.
    - intros id H A j Hj. apply in_app_or in Hj. destruct Hj as [Hj|[<-|[]]].
      + eapply (i_seen _ _ V); eauto.
      + intros F. subst id. congruence.
    - intros A. rewrite upd_length. apply (i_size _ _ V A).
  Qed.

  (** The keys of the table. *)
  Definition keys_ok (K : Z -> Prop) (seen : list idx) (st : table * list marker) : Prop :=
    forall id, map_get id (fst st) <> None <-> K id \/ (add id = true /\ exists i, In i seen /\ obj i = id).

  Lemma step_ok K seen st i : inv seen st -> keys_ok K seen st ->
    exists st', step st i = Ok st' /\ inv (seen ++ [i]) st' /\ keys_ok K (seen ++ [i]) st'.
  Proof.
    intros V Hk. unfold step.
    set (st1 := if add (obj i) && missing (obj i) (fst st) then new_marker frame (obj i) st else st).
    assert (V1 : inv seen st1).
    { unfold st1, missing. destruct (add (obj i)) eqn:A; cbn [andb]; auto.
      destruct (map_get (obj i) (fst st)) eqn:G; auto. apply inv_new; auto. }
    assert (K1 : keys_ok K (seen ++ [i]) st1).
    { intros id. unfold st1, missing.
      assert (Q : (exists j, In j (seen ++ [i]) /\ obj j = id) <-> obj i = id \/ exists j, In j seen /\ obj j = id).
      { split.
        - intros (j & Hj & E). apply in_app_or in Hj. destruct Hj as [Hj|[<-|[]]]; eauto.
        - intros [E|(j & Hj & E)]; [exists i|exists j]; rewrite in_app_iff; cbn; auto. }
      rewrite Q. destruct (add (obj i)) eqn:A; cbn [andb].
      - destruct (map_get (obj i) (fst st)) as [n|] eqn:G.
        + rewrite (Hk id). split; [tauto|]. intros [H|(H1 & [H|H])]; auto. subst id. apply Hk. congruence.
        + destruct st as [t ks]. cbn [new_marker fst]. rewrite map_get_put.
          destruct (Z.eqb_spec id (obj i)); [subst; split; auto; congruence|].
          rewrite (Hk id). cbn. split; [tauto|]. intros [H|(H1 & [H|H])]; auto. congruence.
      - rewrite (Hk id). split; [tauto|]. intros [H|(H1 & [H|H])]; auto. congruence. }
    assert (A1 : add (obj i) = true -> map_get (obj i) (fst st1) <> None).
    { intros A. apply K1. right. split; auto. exists i. rewrite in_app_iff. cbn. auto. }
    destruct (map_get (obj i) (fst st1)) as [n|] eqn:G.
    - destruct (vis i) eqn:Hv.
      + destruct st1 as [t ks]. destruct (inv_push seen t ks i n V1 G Hv) as (E & V2). cbn [fst snd] in *.
        rewrite E. cbn [bind]. eexists. split; [reflexivity|]. split; auto.
      + exists st1. split; auto. split; auto. apply inv_skip; auto.
        * intros. rewrite Hv, andb_false_r. auto.
        * intros _. congruence.
    - exists st1. split; auto. split; auto. apply inv_skip; auto.
      + intros id m H. destruct (Z.eqb_spec (obj i) id); auto. congruence.
      + intros A. destruct (A1 A). auto.
  Qed.

  Lemma loop_ok K l seen st : inv seen st -> keys_ok K seen st ->
    exists st', foldM step l st = Ok st' /\ inv (seen ++ l) st' /\ keys_ok K (seen ++ l) st'.
  Proof.
    revert seen st; induction l as [|i l IH]; intros seen st V Hk; cbn [foldM].
    - exists st. rewrite app_nil_r. auto.
    - destruct (step_ok K seen st i V Hk) as (st1 & E & V1 & K1). rewrite E. cbn [bind].
      destruct (IH _ _ V1 K1) as (st' & E' & V' & K'). exists st'.
      rewrite <- app_assoc in V', K'. auto.
  Qed.

  Lemma pruned_spec d st (K : Z -> Prop) : inv (sweep d) st -> keys_ok K (sweep d) st ->
    one_marker_each center d frame obj (fun id => K id \/ add id = true) (fun i => vis i = true) col
      (pruned (snd st)).
  Proof.
    intros V Hk.
    assert (X : forall id, exactly d (fun i => obj i = id /\ vis i = true) (cells id (sweep d))).
    { intros id. apply exactly_filter. intros i _. rewrite andb_true_iff, Z.eqb_eq. tauto. }
    split.
    - (* distinct names *)
      assert (G : forall l m, (forall n k, nth_error l n = Some k -> nth_error (snd st) (n + m) = Some k) ->
                NoDup (map (fun k : marker => mk_ns k) (pruned l))).
      { induction l as [|k l IH]; intros m H; cbn [pruned filter map]; [constructor|].
        assert (IH' : NoDup (map (fun k : marker => mk_ns k) (pruned l))).
        { apply (IH (S m)). intros n k' Hn. rewrite Nat.add_succ_r. apply (H (S n)). auto. }
        destruct (mk_points k) as [|p ps] eqn:P; auto. cbn [map]. constructor; auto.
        intros Hin. apply in_map_iff in Hin. destruct Hin as (k' & En & Hk').
        apply filter_In in Hk'. destruct Hk' as (Hk' & Ne).
        apply In_nth_error in Hk'. destruct Hk' as (n & Hn).
        pose proof (H O k eq_refl) as E0. pose proof (H (S n) k' Hn) as E1. cbn [Nat.add] in E0, E1.
        destruct (i_markers _ _ V _ _ E0) as (id & [(A0 & F0)|(_ & F0)]); [|rewrite F0 in P; discriminate].
        destruct (i_markers _ _ V _ _ E1) as (id' & [(A1 & F1)|(_ & F1)]); [|rewrite F1 in Ne; discriminate].
        rewrite F0, F1 in En. unfold full in En. cbn in En. injection En as En. subst id'.
        rewrite A0 in A1. injection A1 as A1. lia. }
      apply (G (snd st) 0%nat). intros n k H. rewrite Nat.add_0_r. auto.
    - intros k. unfold pruned. rewrite filter_In. split.
      + intros (Hin & Ne). apply In_nth_error in Hin. destruct Hin as (n & Hn).
        destruct (i_markers _ _ V _ _ Hn) as (id & [(A0 & F0)|(_ & F0)]); [|rewrite F0 in Ne; discriminate].
        exists id, (cells id (sweep d)). split; [|split; [|split]]; auto.
        * assert (map_get id (fst st) <> None) as H by congruence. apply Hk in H. tauto.
        * intros Q. rewrite F0 in Ne. unfold full in Ne. cbn in Ne. rewrite Q in Ne. discriminate.
      + intros (id & l & W & Ne & Ex & ->).
        assert (l = cells id (sweep d)) by (eapply exactly_unique; eauto). subst l.
        assert (M : map_get id (fst st) <> None).
        { apply Hk. destruct W as [W|W]; auto. right. split; auto.
          destruct (cells id (sweep d)) as [|i l] eqn:Q; [congruence|].
          assert (Hi : In i (cells id (sweep d))) by (rewrite Q; cbn; auto).
          apply filter_In in Hi. destruct Hi as (Hi & Hc). apply andb_true_iff in Hc.
          exists i. split; auto. apply Z.eqb_eq. tauto. }
        destruct (map_get id (fst st)) as [n|] eqn:G; [|congruence].
        apply (i_table _ _ V) in G. split; [eapply nth_error_In; exact G|].
        cbn. destruct (cells id (sweep d)); [congruence|reflexivity].
  Qed.

  (** ** Starting points *)
  Lemma inv_start t ks :
    (forall n k, nth_error ks n = Some k -> exists id, k = blank frame (object_ns id)) ->
    (forall id n, map_get id t = Some n -> nth_error ks n = Some (blank frame (object_ns id))) ->
    ((exists id, add id = true) -> length t = length ks) ->
    inv [] (t, ks).
  Proof.
    intros A B C. constructor; cbn [fst snd]; auto.
    - intros n k H. destruct (A n k H) as (id & ->). exists id.
      destruct (map_get id t) as [m|] eqn:G; [|right; split; auto; congruence].
      destruct (Nat.eq_dec m n) as [->|Hn]; [left; auto|right; split; auto; congruence].
  Qed.

  (** A marker for each entry of a sorted map. *)
  Lemma table_start {V} (entries : list (Z * V)) : ascending (map fst entries) ->
    let st := fold_left (fun st e => let '(t, ks) := st in
      (map_put (fst e) (length ks) t, ks ++ [blank frame (object_ns (fst e))])) entries (([], []) : table * list marker) in
    inv [] st /\ keys_ok (fun id => In id (map fst entries)) [] st.
  Proof.
    intros As. cbn zeta.
    assert (G : forall l t ks, NoDup (map fst l) -> (forall id, In id (map fst l) -> map_get id t = None) ->
      length t = length ks ->
      (forall n k, nth_error ks n = Some k -> exists id, k = blank frame (object_ns id)) ->
      (forall id n, map_get id t = Some n -> nth_error ks n = Some (blank frame (object_ns id))) ->
      let st := fold_left (fun (st : table * list marker) (e : Z * V) => let '(t, ks) := st in
        (map_put (fst e) (length ks) t, ks ++ [blank frame (object_ns (fst e))])) l (t, ks) in
      inv [] st /\ forall id, map_get id (fst st) <> None <-> In id (map fst l) \/ map_get id t <> None).
    { induction l as [|[id v] l IH]; intros t ks Nd No L A B; cbn [fold_left fst map In].
      - split; [apply inv_start; auto|]. intros. tauto.
      - inversion Nd as [|? ? N1 N2]; subst.
        destruct (IH (map_put id (length ks) t) (ks ++ [blank frame (object_ns id)])) as (I1 & I2); auto.
        + intros x Hx. rewrite map_get_put. destruct (Z.eqb_spec x id); [subst; contradiction|].
          apply No. cbn; auto.
        + rewrite map_put_length, app_length by (apply No; cbn; auto). cbn. lia.
        + intros n k H. destruct (Nat.lt_ge_cases n (length ks)).
          * rewrite nth_error_app1 in H by auto. eauto.
          * rewrite nth_error_app2 in H by auto. destruct (n - length ks)%nat as [|q]; cbn in H.
            -- injection H as <-. eauto.
            -- destruct q; discriminate.
        + intros x n H. rewrite map_get_put in H. destruct (Z.eqb_spec x id).
          * injection H as <-. subst. rewrite nth_error_app2, Nat.sub_diag by auto. reflexivity.
          * rewrite nth_error_app1; auto. apply B in H. apply nth_error_Some. congruence.
        + split; auto. intros x. rewrite I2, map_get_put. destruct (Z.eqb_spec x id).
          * subst. split; auto. intros _. right. congruence.
          * split; [tauto|]. intros [[H|H]|H]; auto. }
    destruct (G entries [] []) as (I1 & I2); auto.
    - apply (fun H => H). clear -As. induction As as [|a l H IH F]; constructor; auto.
      rewrite Forall_forall in F. intros Hi. apply F in Hi. lia.
    - intros n k H. destruct n; discriminate.
    - intros id n H. discriminate.
    - split; auto. intros id. rewrite I2. split.
      + intros [H|H]; auto. destruct H; reflexivity.
      + intros [H|(_ & i & [] & _)]; auto.
  Qed.

  (** A marker for each requested object, repetitions included. *)
  Lemma requested_start objects : (objects <> [] -> forall id, add id = false) ->
    let '(_, t, ks) := fold_left (fun st id => let '(n, t, ks) := st in
        (S n, map_put id n t, ks ++ [blank frame (object_ns id)])) objects
        ((0%nat, [], []) : nat * table * list marker) in
    inv [] (t, ks) /\ keys_ok (fun id => In id objects) [] (t, ks).
  Proof.
    intros Na.
    assert (G : forall l n t ks, n = length ks ->
      (forall n k, nth_error ks n = Some k -> exists id, k = blank frame (object_ns id)) ->
      (forall id n, map_get id t = Some n -> nth_error ks n = Some (blank frame (object_ns id))) ->
      let '(_, t', ks') := fold_left (fun (st : nat * table * list marker) id => let '(n, t, ks) := st in
        (S n, map_put id n t, ks ++ [blank frame (object_ns id)])) l (n, t, ks) in
      (forall n k, nth_error ks' n = Some k -> exists id, k = blank frame (object_ns id)) /\
      (forall id n, map_get id t' = Some n -> nth_error ks' n = Some (blank frame (object_ns id))) /\
      (forall id, map_get id t' <> None <-> In id l \/ map_get id t <> None) /\
      (l = [] -> t' = t /\ ks' = ks)).
    { induction l as [|id l IH]; intros n t ks -> A B; cbn [fold_left In].
      - split; auto. split; auto. split; [tauto|auto].
      - specialize (IH (S (length ks)) (map_put id (length ks) t) (ks ++ [blank frame (object_ns id)])).
        destruct (fold_left _ l _) as [[n' t'] ks'].
        destruct IH as (I1 & I2 & I3 & _).
        + rewrite app_length. cbn. lia.
        + intros n k H. destruct (Nat.lt_ge_cases n (length ks)).
          * rewrite nth_error_app1 in H by auto. eauto.
          * rewrite nth_error_app2 in H by auto. destruct (n - length ks)%nat as [|q]; cbn in H.
            -- injection H as <-. eauto.
            -- destruct q; discriminate.
        + intros x n H. rewrite map_get_put in H. destruct (Z.eqb_spec x id).
          * injection H as <-. subst. rewrite nth_error_app2, Nat.sub_diag by auto. reflexivity.
          * rewrite nth_error_app1; auto. apply B in H. apply nth_error_Some. congruence.
        + split; auto. split; auto. split; [|discriminate]. intros x. rewrite I3, map_get_put.
          destruct (Z.eqb_spec x id).
          * subst. split; auto. intros _. right. congruence.
          * split; [tauto|]. intros [[H|H]|H]; auto. }
    specialize (G objects 0%nat [] []).
    destruct (fold_left _ objects _) as [[n t] ks].
    destruct G as (A & B & C & E); auto.
    - intros n0 k H. destruct n0; discriminate.
    - intros id n0 H. discriminate.
    - split.
      + apply inv_start; auto. intros (id & Hid). destruct objects as [|o os].
        * destruct E as (-> & ->); auto.
        * rewrite Na in Hid; [discriminate|discriminate].
      + intros id. cbn [fst]. rewrite C. split.
        * intros [H|H]; auto. destruct H; reflexivity.
        * intros [H|(_ & i & [] & _)]; auto.
  Qed.
End Unique.

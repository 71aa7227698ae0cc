(** A history of the entries a run of the distance-field construction accepts,
    for runs in which no accepted entry lands in a bucket that has already been
    emptied. *)
From Verif Require Import Base BaseFacts Grid GridFacts DistModel DistSpec DistProofs.

Section Trace.
  Variable d : dims.
  Variable pts : list idx.

  Hypothesis Hx : 0 <= nx d.
  Hypothesis Hy : 0 <= ny d.
  Hypothesis Hz : 0 <= nz d.
  Hypothesis Hmax : maxd d <= 2147483647.
  Hypothesis Hpts : forall p, In p pts -> in_bounds d p = true.

  Let maxd := maxd d.

  (** A history is a list of pairs: an entry and the entry accepted from it. *)
  Definition history := list (entry * entry).

  Definition known (H : history) (e : entry) : Prop :=
    (exists p, In p pts /\ e = seed_entry p) \/ exists p, In (p, e) H.

  (** The targets of [e] when its bucket is processed. *)
  Definition targets (e : entry) : list (Z * Z * Z) := neighborhood (Z.min (e_d e) 1) (e_dir e).

  Record trace (k : Z) (H : history) (s : dstate) : Prop := {
    tr_pair : forall p c, In (p, c) H ->
      known H p /\ e_d p <= k /\ e_d p < e_d c /\
      exists t, In t (targets p) /\ c = new_entry p t;
    tr_ok : forall e, known H e -> ent_ok d pts e;
    tr_order : forall p1 p2 c2 t, known H p1 -> In (p2, c2) H -> e_d p1 < e_d p2 ->
      In t (targets p1) -> add (e_loc p1) t = e_loc c2 ->
      e_d c2 < distsq (e_loc c2) (e_cp p1);
    tr_late : forall p1 p2 c2, known H p1 -> In (p2, c2) H -> e_loc p1 = e_loc c2 ->
      p1 = c2 \/ e_d p2 < e_d p1;
    tr_stored : forall e, known H e -> stored_le s (e_loc e) (e_d e);
    tr_unique : forall e1 e2, known H e1 -> known H e2 -> e_loc e1 = e_loc e2 ->
      e_d e1 = e_d e2 -> e1 = e2;
    tr_cell : forall i e, in_bounds d i = true -> cell s i = Some e -> known H e;
    tr_done : forall e, known H e -> e_d e < k -> done d s (e_d e) e;
    tr_queued : forall e, known H e -> k <= e_d e -> In e (bucket s (e_d e));
    tr_bucket : forall j e, k <= j -> In e (bucket s j) -> known H e
  }.

  Lemma known_cons H p c e : known H e -> known ((p, c) :: H) e.
  Proof. intros [?|(q & Hq)]; [left; auto|right; exists q; right; auto]. Qed.

  Lemma known_inv H p c e : known ((p, c) :: H) e -> e = c \/ known H e.
  Proof.
    intros [?|(q & [E|Hq])]; [right; left; auto| |right; right; eauto].
    left. congruence.
  Qed.

  (** Accepting an offer that is not below the current bucket. *)
  Lemma trace_accept k H s e t :
    0 <= k -> Inv d pts s -> trace k H s -> known H e -> e_d e = k ->
    In t (targets e) -> accepted d k e t s -> k < e_d (new_entry e t) ->
    trace k ((e, new_entry e t) :: H) (accept e t s).
  Proof.
    intros Hk HI T Ke Ek Ht HA Hlt. set (c := new_entry e t) in *.
    pose proof (tr_ok _ _ _ T _ Ke) as Oke.
    assert (Htd : In t dirs3) by (eapply neighborhood_dirs; eauto).
    assert (Okc : ent_ok d pts c) by (eapply accept_ent; eauto).
    pose proof HA as (Hin & Himp & _). fold c in Hin, Himp.
    assert (HM : mono d s (accept e t s)) by (eapply accept_mono; eauto).
    assert (Hst : forall v, stored_le s (e_loc c) v -> e_d c < v).
    { intros v (e0 & E0 & Hle). rewrite E0 in Himp. unfold improves in Himp. lia. }
    assert (Hb : forall j, 0 <= j -> bucket (accept e t s) j =
                   if j =? e_d c then bucket s j ++ [c] else bucket s j).
    { intros j Hj. eapply accept_bucket; eauto. }
    split.
    - intros p c' [E|Hpc].
      + injection E as <- <-. split; [apply known_cons; auto|]. split; [lia|].
        split; [lia|]. exists t; auto.
      + destruct (tr_pair _ _ _ T _ _ Hpc) as (K1 & L1 & L2 & Ex).
        split; [apply known_cons; auto|]. auto.
    - intros e0 K0. apply known_inv in K0. destruct K0 as [->|K0]; auto. apply (tr_ok _ _ _ T); auto.
    - intros p1 p2 c2 t1 K1 Hpc Hl Ht1 Ha. apply known_inv in K1.
      destruct Hpc as [E|Hpc].
      + injection E as <- <-. destruct K1 as [->|K1]; [lia|].
        apply Hst. rewrite <- Ha. apply (tr_done _ _ _ T p1 K1 ltac:(lia)); auto.
        rewrite Ha; auto.
      + destruct K1 as [->|K1].
        * destruct (tr_pair _ _ _ T _ _ Hpc) as (_ & L1 & _). lia.
        * eapply (tr_order _ _ _ T); eauto.
    - intros p1 p2 c2 K1 Hpc El. apply known_inv in K1.
      destruct Hpc as [E|Hpc].
      + injection E as <- <-. destruct K1 as [->|K1]; [auto|]. right.
        pose proof (tr_stored _ _ _ T _ K1) as Hs. rewrite El in Hs. apply Hst in Hs. lia.
      + destruct K1 as [->|K1].
        * right. destruct (tr_pair _ _ _ T _ _ Hpc) as (_ & L1 & _). lia.
        * eapply (tr_late _ _ _ T); eauto.
    - intros e0 K0. apply known_inv in K0. destruct K0 as [->|K0].
      + exists c. split; [|lia]. rewrite (accept_cell d pts k); auto.
        fold c. rewrite idx_eqb_refl; auto.
      + apply HM; [|apply (tr_stored _ _ _ T); auto]. apply (tr_ok _ _ _ T _ K0).
    - assert (Hne : forall e0, known H e0 -> e_loc e0 = e_loc c -> e_d e0 = e_d c -> False).
      { intros e0 K0 El Ed. pose proof (tr_stored _ _ _ T _ K0) as Hs. rewrite El in Hs.
        apply Hst in Hs. lia. }
      intros e1 e2 K1 K2 El Ed. apply known_inv in K1. apply known_inv in K2.
      destruct K1 as [->|K1], K2 as [->|K2]; auto.
      + exfalso; eapply Hne; eauto.
      + exfalso; eapply Hne; eauto.
      + eapply (tr_unique _ _ _ T); eauto.
    - intros i e0 Hi. rewrite (accept_cell d pts k); auto. fold c.
      destruct (idx_eqb_spec (e_loc c) i) as [<-|].
      + intros [= <-]. right. exists e. left; auto.
      + intros Hc. apply known_cons. eapply (tr_cell _ _ _ T); eauto.
    - intros e0 K0 Hl. apply known_inv in K0. destruct K0 as [->|K0]; [lia|].
      eapply done_mono; eauto. apply (tr_done _ _ _ T); auto.
    - intros e0 K0 Hl. apply known_inv in K0. rewrite Hb by lia. destruct K0 as [->|K0].
      + rewrite Z.eqb_refl. apply in_app_iff; right; left; auto.
      + pose proof (tr_queued _ _ _ T _ K0 Hl) as Hq.
        destruct (e_d e0 =? e_d c); auto. apply in_app_iff; auto.
    - intros j e0 Hj. rewrite Hb by lia. destruct (j =? e_d c).
      + intros Hi. apply in_app_iff in Hi. destruct Hi as [Hi|[<-|[]]].
        * apply known_cons. eapply (tr_bucket _ _ _ T); eauto.
        * right. exists e. left; auto.
      + intros Hi. apply known_cons. eapply (tr_bucket _ _ _ T); eauto.
  Qed.

  (** The condition that no accepted entry is lost. *)
  Definition none_lost : Prop :=
    forall k H s e t, 1 <= k -> Inv d pts s -> trace k H s -> known H e -> e_d e = k ->
      In t (targets e) -> accepted d k e t s -> k < e_d (new_entry e t).

  Hypothesis Hnl : none_lost.

  Lemma trace_bucket k H s :
    0 <= k -> Inv d pts s -> trace k H s ->
    exists s' H', process_bucket maxd s k = Ok s' /\ Inv d pts s' /\ trace (k + 1) H' s'.
  Proof.
    intros Hk HI T.
    pose (P := fun s1 => exists H1, trace k H1 s1 /\
                 (forall e, known H1 e -> e_d e = k -> In e (bucket s k)) /\
                 (forall e, In e (bucket s k) -> known H1 e)).
    destruct (process_bucket_ok d pts Hx Hy Hz Hmax Hpts P k s)
      as (s1 & E1 & HI1 & (H1 & T1 & B1 & B2) & HM & HD); auto.
    - exists H. split; auto. split.
      + intros e Ke Ee. rewrite <- Ee. apply (tr_queued _ _ _ T); auto. lia.
      + intros e Hi. eapply (tr_bucket _ _ _ T); eauto. lia.
    - intros e Hi s1 t HI1 (H1 & T1 & B1 & B2) Ht HA.
      pose proof (B2 _ Hi) as Ke.
      assert (Ee : e_d e = k) by (destruct HI as (_ & _ & _ & _ & B); apply (B k e); auto).
      assert (Ht' : In t (targets e)) by (unfold targets; rewrite Ee; auto).
      assert (Hlt : k < e_d (new_entry e t)).
      { destruct (Z.eq_dec k 0) as [E0|E0].
        - destruct HA as (_ & _ & Hne). pose proof (distsq_nonneg (add (e_loc e) t) (e_cp e)).
          cbn [new_entry e_d] in *. lia.
        - eapply Hnl with (s := s1); eauto. lia. }
      exists ((e, new_entry e t) :: H1). split; [|split].
      + apply trace_accept; auto.
      + intros e0 K0 E0. apply known_inv in K0. destruct K0 as [->|K0]; [lia|]. auto.
      + intros e0 Hi0. apply known_cons; auto.
    - exists (cleared k s1), H1. split; auto. split; [apply cleared_inv; auto|].
      split.
      + intros p c Hpc. destruct (tr_pair _ _ _ T1 _ _ Hpc) as (? & ? & ? & ?).
        split; auto. split; [lia|]. auto.
      + apply (tr_ok _ _ _ T1).
      + apply (tr_order _ _ _ T1).
      + apply (tr_late _ _ _ T1).
      + apply (tr_stored _ _ _ T1).
      + apply (tr_unique _ _ _ T1).
      + apply (tr_cell _ _ _ T1).
      + intros e Ke Hlt. apply (done_mono d s1); [apply cleared_mono|].
        destruct (Z.eq_dec (e_d e) k) as [Ek|]; [|apply (tr_done _ _ _ T1); auto; lia].
        rewrite Ek. apply HD. apply B1; auto.
      + intros e Ke Hle. pose proof (tr_ok _ _ _ T1 _ Ke) as Ok.
        rewrite cleared_bucket by lia. replace (e_d e =? k) with false by lia.
        apply (tr_queued _ _ _ T1); auto. lia.
      + intros j e Hj. rewrite cleared_bucket by lia. replace (j =? k) with false by lia.
        apply (tr_bucket _ _ _ T1). lia.
  Qed.

  Lemma trace_seeded s : Seeded d pts pts s -> trace 0 [] s.
  Proof.
    intros (HI & HC & HB & HD).
    assert (K : forall e, known [] e -> exists p, In p pts /\ e = seed_entry p).
    { intros e [?|(p & [])]; auto. }
    split.
    - intros p c [].
    - intros e Ke. destruct (K e Ke) as (p & Hp & ->). apply seed_entry_ok; auto.
    - intros p1 p2 c2 t _ [].
    - intros p1 p2 c2 _ [].
    - intros e Ke. destruct (K e Ke) as (p & Hp & ->). exists (seed_entry p).
      split; [apply HD; auto|lia].
    - intros e1 e2 K1 K2 El _. destruct (K _ K1) as (p1 & _ & ->).
      destruct (K _ K2) as (p2 & _ & ->). cbn in El. congruence.
    - intros i e Hi Hc. left. exists i. split; apply (HC i e); auto.
    - intros e Ke Hl. destruct (K e Ke) as (p & _ & ->). cbn in Hl. lia.
    - intros e Ke _. destruct (K e Ke) as (p & Hp & ->). apply HD; auto.
    - intros j e Hj Hi. destruct (HB j e Hj Hi) as (_ & p & Hp & ->). left; eauto.
  Qed.

  Lemma trace_final :
    exists s H, build_distance_field d pts = Ok (ds_field s) /\ Inv d pts s /\
      trace (maxd + 1) H s.
  Proof.
    destruct (run_inv d pts Hx Hy Hz Hmax Hpts (fun k s => exists H, trace k H s))
      as (s & E & HI & H & T).
    - intros s Hs. exists []. apply trace_seeded; auto.
    - intros k s Hk HI (H & T). destruct (trace_bucket k H s) as (s' & H' & E & HI' & T'); auto; [lia|].
      exists s'. eauto.
    - exists s, H. auto.
  Qed.
End Trace.

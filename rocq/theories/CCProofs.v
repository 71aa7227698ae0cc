(** Correctness of the component labelling for any callbacks that behave like
    a per-cell label store over a fixed payload. *)
From Verif Require Import Base BaseFacts Grid GridFacts CCModel TopoSpec.

Lemma face_neighbors_spec a b : In b (face_neighbors a) <-> face_adjacent a b.
Proof.
  unfold face_neighbors, face_adjacent. destruct a as [x y z], b as [x' y' z']; cbn [ix iy iz In].
  split.
  - intros H. repeat (destruct H as [H|H]; [injection H as <- <- <-; lia|]). destruct H.
  - intros H.
    assert (K : (x' = x - 1 /\ y' = y /\ z' = z) \/ (x' = x + 1 /\ y' = y /\ z' = z) \/
                (x' = x /\ y' = y - 1 /\ z' = z) \/ (x' = x /\ y' = y + 1 /\ z' = z) \/
                (x' = x /\ y' = y /\ z' = z - 1) \/ (x' = x /\ y' = y /\ z' = z + 1)) by lia.
    repeat (destruct K as [(-> & -> & ->)|K]; [tauto|]). destruct K as (-> & -> & ->). tauto.
Qed.

Lemma face_adjacent_sym a b : face_adjacent a b -> face_adjacent b a.
Proof. unfold face_adjacent; lia. Qed.

Lemma joined_inb d el lk a b :
  joined d el lk a b -> in_bounds d a = true /\ el a = true /\ in_bounds d b = true /\ el b = true.
Proof. induction 1 as [a Ha He|a b c _ IH _ Hc He _]; intuition auto. Qed.

Lemma joined_trans d el lk a b c :
  joined d el lk a b -> joined d el lk b c -> joined d el lk a c.
Proof.
  intros Hab Hbc. induction Hbc as [x Hx He|x y z Hxy IH Hadj Hz He Hl]; auto.
  eapply joined_step; [apply IH; exact Hab|exact Hadj|exact Hz|exact He|exact Hl].
Qed.

Lemma joined_sym d el lk a b :
  (forall x y, lk x y = lk y x) -> joined d el lk a b -> joined d el lk b a.
Proof.
  intros Hs H. induction H as [a Ha He|a b c Hab IH Hadj Hc He Hl].
  - constructor; auto.
  - eapply joined_trans; [|exact IH]. destruct (joined_inb _ _ _ _ _ Hab) as (_ & _ & Hb & Heb).
    eapply joined_step; [constructor; auto|apply face_adjacent_sym; eauto|auto|auto|].
    rewrite Hs; auto.
Qed.

Section Correct.
  Context {S : Type}.
  Variable d : dims.
  Variable are_connected : S -> idx -> idx -> bool.
  Variable get_component : S -> idx -> Z.
  Variable mark_component : S -> idx -> Z -> S.

  (** What the callbacks do, on the states the computation goes through. *)
  Variable Good : S -> Prop.
  Variable elig : idx -> bool.
  Variable link : idx -> idx -> bool.
  Variable lab : S -> idx -> Z.

  Hypothesis Hdx : 0 <= nx d.
  Hypothesis Hdy : 0 <= ny d.
  Hypothesis Hdz : 0 <= nz d.
  Hypothesis Hcells : ncells d < 4294967296.

  Hypothesis Good_mark : forall s i c, Good s -> in_bounds d i = true -> 0 <= c < 4294967296 ->
    Good (mark_component s i c).
  Hypothesis lab_mark : forall s i c j, Good s -> in_bounds d i = true -> 0 <= c < 4294967296 ->
    in_bounds d j = true -> lab (mark_component s i c) j = if idx_eqb i j then c else lab s j.
  Hypothesis lab_range : forall s i, Good s -> in_bounds d i = true -> 0 <= lab s i < 4294967296.
  Hypothesis get_spec : forall s i, Good s ->
    get_component s i = if in_bounds d i && elig i then lab s i else -1.
  Hypothesis conn_spec : forall s a b, Good s -> in_bounds d a = true -> in_bounds d b = true ->
    elig a = true -> elig b = true -> are_connected s a b = link a b.
  Hypothesis link_sym : forall a b, link a b = link b a.

  Notation J := (joined d elig link).

  Lemma wrap_get s i : Good s ->
    (wrap_u32 (get_component s i) =? 0) = (in_bounds d i && elig i && (lab s i =? 0)).
  Proof.
    intros HG. rewrite get_spec by auto.
    destruct (in_bounds d i && elig i) eqn:E; cbn [andb].
    - rewrite wrap_u32_id; auto. apply lab_range; auto.
      apply andb_true_iff in E; apply E.
    - reflexivity.
  Qed.

  Lemma queued_spec h n : queued h n = true <-> In n h.
  Proof.
    unfold queued. rewrite existsb_exists. split.
    - intros (x & Hx & E). apply idx_eqb_eq in E. subst; auto.
    - intros H. exists n. split; auto. apply idx_eqb_refl.
  Qed.

  (** Effect of the neighbour loop: new queue elements are fresh, are exactly the
      unlabelled linked neighbours that were not queued. *)
  Lemma enqueue_fold s cur : Good s -> in_bounds d cur = true -> elig cur = true ->
    forall ns q h, (forall n, In n ns -> face_adjacent cur n) -> NoDup h -> incl q h ->
    exists new,
      fold_left (enqueue are_connected get_component s cur) ns (q, h) = (q ++ new, rev new ++ h) /\
      NoDup (rev new ++ h) /\
      (forall n, In n new -> face_adjacent cur n /\ in_bounds d n = true /\ elig n = true /\
                             lab s n = 0 /\ link cur n = true) /\
      (forall n, In n ns -> in_bounds d n = true -> elig n = true -> lab s n = 0 ->
                 link cur n = true -> In n (rev new ++ h)).
  Proof.
    intros HG Hcb Hce. induction ns as [|n ns IH]; intros q h Hadj Hnd Hq.
    - exists []. cbn. rewrite app_nil_r. split; auto. split; auto. split; intros m [].
    - cbn [fold_left]. unfold enqueue at 2. rewrite wrap_get by auto.
      destruct (in_bounds d n && elig n && (lab s n =? 0)) eqn:E.
      + apply andb_true_iff in E as (E & E3). apply andb_true_iff in E as (E1 & E2).
        rewrite conn_spec by auto. destruct (link cur n) eqn:El.
        * destruct (queued h n) eqn:Eq.
          -- destruct (IH q h) as (new & F & ND & A & B); auto.
             { intros; apply Hadj; right; auto. }
             exists new. split; auto. split; auto. split; auto.
             intros m [<-|Hm]; auto. intros. apply in_app_iff; right. apply queued_spec; auto.
          -- destruct (IH (q ++ [n]) (n :: h)) as (new & F & ND & A & B).
             { intros; apply Hadj; right; auto. }
             { constructor; auto. rewrite <- queued_spec. congruence. }
             { intros m Hm. apply in_app_iff in Hm. destruct Hm as [Hm|[<-|[]]]; cbn; auto. }
             exists (n :: new). rewrite F. cbn [rev]. rewrite <- !app_assoc. cbn [app].
             split; auto. split; auto. split.
             ++ intros m [<-|Hm]; auto. repeat split; auto; try lia. apply Hadj; left; auto.
             ++ intros m [<-|Hm]; auto. intros. apply in_app_iff; right; left; auto.
        * destruct (IH q h) as (new & F & ND & A & B); auto.
          { intros; apply Hadj; right; auto. }
          exists new. split; auto. split; auto. split; auto.
          intros m [<-|Hm]; auto. intros; congruence.
      + destruct (IH q h) as (new & F & ND & A & B); auto.
        { intros; apply Hadj; right; auto. }
        exists new. split; auto. split; auto. split; auto.
        intros m [<-|Hm]; auto. intros Hb He Hl. rewrite Hb, He, Hl in E. discriminate.
  Qed.

  (** Loop invariant of one flood fill from [start] with number [c].  [V] lists
      the popped cells, the hash table holds popped and waiting cells. *)
  Record Fill (s0 : S) (start : idx) (c : Z) (V q h : list idx) (s : S) : Prop := {
    F_good : Good s;
    F_perm : forall i, In i h <-> In i V \/ In i q;
    F_nodup : NoDup (V ++ q);
    F_hnd : NoDup h;
    F_reach : forall i, In i h -> J start i;
    F_zero : forall i, In i h -> lab s0 i = 0;
    F_start : In start h;
    F_lab : forall i, in_bounds d i = true -> lab s i = if queued V i then c else lab s0 i;
    F_closed : forall v n, In v V -> face_adjacent v n -> in_bounds d n = true ->
       elig n = true -> lab s0 n = 0 -> link v n = true -> In n h
  }.

  Lemma NoDup_count (l : list idx) :
    NoDup l -> (forall i, In i l -> in_bounds d i = true) ->
    (List.length l <= Z.to_nat (ncells d))%nat.
  Proof.
    intros Hn Hb. rewrite <- sweep_length by auto. apply NoDup_incl_length; auto.
    intros i Hi. apply sweep_in; auto.
  Qed.

  Lemma bfs_correct s0 start c :
    0 < c < 4294967296 ->
    forall fuel V q h s,
      Fill s0 start c V q h s ->
      (Z.to_nat (ncells d) < fuel + List.length V)%nat ->
      exists s' V', bfs are_connected get_component mark_component fuel s q h c = Ok s' /\
        Fill s0 start c V' [] V' s'.
  Proof.
    intros Hc. induction fuel as [|fuel IH]; intros V q h s HF Hfuel.
    - destruct q as [|cur q].
      + cbn. exists s, V. split; auto. destruct HF.
        assert (Hhv : forall i, In i h <-> In i V) by (intros i; rewrite F_perm0; cbn; tauto).
        constructor; auto.
        * intros i; cbn; tauto.
        * rewrite app_nil_r in F_nodup0. auto.
        * intros i Hi. apply F_reach0, Hhv; auto.
        * intros i Hi. apply F_zero0, Hhv; auto.
        * apply Hhv; auto.
        * intros. apply Hhv. eapply F_closed0; eauto.
      + exfalso. cbn in Hfuel.
        assert (L : (List.length (V ++ cur :: q) <= Z.to_nat (ncells d))%nat).
        { apply NoDup_count; [apply HF|]. intros i Hi.
          apply (joined_inb d elig link start i). apply (F_reach _ _ _ _ _ _ _ HF).
          apply (F_perm _ _ _ _ _ _ _ HF). apply in_app_iff in Hi. tauto. }
        rewrite app_length in L. cbn in L. lia.
    - destruct q as [|cur q].
      + cbn. exists s, V. split; auto. destruct HF.
        assert (Hhv : forall i, In i h <-> In i V) by (intros i; rewrite F_perm0; cbn; tauto).
        constructor; auto.
        * intros i; cbn; tauto.
        * rewrite app_nil_r in F_nodup0. auto.
        * intros i Hi. apply F_reach0, Hhv; auto.
        * intros i Hi. apply F_zero0, Hhv; auto.
        * apply Hhv; auto.
        * intros. apply Hhv. eapply F_closed0; eauto.
      + cbn [bfs]. destruct HF.
        assert (Hcur : J start cur) by (apply F_reach0, F_perm0; cbn; auto).
        destruct (joined_inb _ _ _ _ _ Hcur) as (_ & _ & Hcb & Hce).
        assert (HG' : Good (mark_component s cur c)) by (apply Good_mark; auto; lia).
        assert (Hqh : incl q h) by (intros i Hi; apply F_perm0; cbn; auto).
        destruct (enqueue_fold (mark_component s cur c) cur HG' Hcb Hce (face_neighbors cur) q h)
          as (new & EF & ND & A & B); auto.
        { intros n Hn. apply face_neighbors_spec; auto. }
        rewrite EF.
        assert (Lab' : forall i, in_bounds d i = true ->
                  lab (mark_component s cur c) i = if queued (V ++ [cur]) i then c else lab s0 i).
        { intros i Hi. rewrite lab_mark by (auto; lia). rewrite F_lab0 by auto.
          unfold queued. rewrite existsb_app. cbn [existsb]. rewrite orb_false_r.
          destruct (idx_eqb_spec cur i) as [<-|Hne].
          - rewrite idx_eqb_refl, orb_true_r. auto.
          - replace (idx_eqb i cur) with false
              by (destruct (idx_eqb_spec i cur); congruence).
            rewrite orb_false_r. auto. }
        apply (IH (V ++ [cur])).
        * constructor.
          -- auto.
          -- intros i. rewrite !in_app_iff, <- in_rev, F_perm0. cbn. tauto.
          -- rewrite <- app_assoc. cbn [app].
             replace (V ++ cur :: q ++ new) with ((V ++ cur :: q) ++ new)
               by (rewrite <- app_assoc; reflexivity).
             apply NoDup_app_intro; auto.
             ++ apply NoDup_rev in ND. rewrite rev_app_distr, rev_involutive in ND.
                clear - ND. induction (rev h) as [|x l IHl]; cbn in ND; auto.
                inversion ND; auto.
             ++ intros i Hi Hi'. assert (Hih : In i h).
                { apply F_perm0. apply in_app_iff in Hi. auto. }
                clear - ND Hih Hi'. apply in_rev in Hi'. induction (rev new) as [|x l IHl]; auto.
                cbn in ND. inversion ND; subst. destruct Hi' as [->|Hi']; auto.
                apply H1. apply in_app_iff; auto.
          -- auto.
          -- intros i Hi. apply in_app_iff in Hi. destruct Hi as [Hi|Hi]; auto.
             apply in_rev in Hi. destruct (A i Hi) as (A1 & A2 & A3 & _ & A5).
             eapply joined_step; eauto.
          -- intros i Hi. apply in_app_iff in Hi. destruct Hi as [Hi|Hi]; auto.
             apply in_rev in Hi. destruct (A i Hi) as (A1 & A2 & A3 & A4 & A5).
             rewrite Lab' in A4 by auto. destruct (queued (V ++ [cur]) i); auto. lia.
          -- apply in_app_iff; auto.
          -- apply Lab'.
          -- intros v n Hv Hadj Hn He Hz Hl. apply in_app_iff in Hv.
             destruct (queued (V ++ [cur]) n) eqn:Eq.
             { apply queued_spec in Eq. apply in_app_iff. right. apply F_perm0.
               apply in_app_iff in Eq. destruct Eq as [Eq|[<-|[]]]; cbn; auto. }
             destruct Hv as [Hv|[<-|[]]].
             ++ apply in_app_iff; right. eapply F_closed0; eauto.
             ++ apply B; auto; [apply face_neighbors_spec; auto|].
                rewrite Lab' by auto. rewrite Eq; auto.
        * rewrite app_length. cbn [List.length]. lia.
  Qed.

  (** The flood fill gives [c] to exactly the region of [start]. *)
  Lemma mark_correct s0 start c :
    Good s0 -> 0 < c < 4294967296 -> in_bounds d start = true -> elig start = true ->
    (forall i, J start i -> lab s0 i = 0) ->
    exists s', mark_connected_component d are_connected get_component mark_component s0 start c
                 = Ok (s', 0) /\ Good s' /\
      (forall i, J start i -> lab s' i = c) /\
      (forall i, in_bounds d i = true -> lab s' i = lab s0 i \/ (lab s' i = c /\ J start i)).
  Proof.
    intros HG Hc Hb He Hz. unfold mark_connected_component.
    assert (Hss : J start start) by (constructor; auto).
    destruct (bfs_correct s0 start c Hc (Datatypes.S (Z.to_nat (ncells d))) [] [start] [start] s0)
      as (s' & V & E & HF).
    - constructor; auto.
      + intros i; cbn; tauto.
      + cbn. repeat constructor. intros [].
      + repeat constructor. intros [].
      + intros i [<-|[]]; auto.
      + intros i [<-|[]]; auto.
      + cbn; auto.
      + intros v n [].
    - cbn. lia.
    - rewrite E. cbn [bind]. exists s'. split; auto. destruct HF. split; auto.
      assert (HV : forall i, J start i -> In i V).
      { assert (G : forall a i, J a i -> a = start -> In i V).
        { intros a i Hi. induction Hi as [a Ha Hae|a b x Hab IH Hadj Hx Hxe Hl]; intros ->; auto.
          apply (F_closed0 b x); auto. apply Hz.
          exact (joined_step _ _ _ _ _ _ Hab Hadj Hx Hxe Hl). }
        intros i Hi. exact (G start i Hi eq_refl). }
      split.
      + intros i Hi. rewrite F_lab0 by (apply (joined_inb _ _ _ _ _ Hi)).
        rewrite (proj2 (queued_spec V i)); auto.
      + intros i Hi. rewrite F_lab0 by auto. destruct (queued V i) eqn:Eq; auto.
        right. split; auto. apply F_reach0. apply queued_spec; auto.
  Qed.

  (** Invariant of the sweep: [pre] has been visited and [n] numbers given out. *)
  Definition Swept (pre : list idx) (s : S) (n : Z) : Prop :=
    Good s /\ 0 <= n <= Z.of_nat (List.length pre) /\
    (forall a, in_bounds d a = true -> elig a = false -> lab s a = 0) /\
    (forall a, in_bounds d a = true -> 0 <= lab s a <= n) /\
    (forall a, In a pre -> elig a = true -> 1 <= lab s a) /\
    (forall k, 1 <= k <= n -> exists a, In a pre /\ elig a = true /\ lab s a = k) /\
    (forall a b, in_bounds d a = true -> in_bounds d b = true -> elig a = true -> elig b = true ->
       lab s a <> 0 -> (lab s a = lab s b <-> J a b)) /\
    (forall p1 a p2, pre = p1 ++ a :: p2 -> elig a = true ->
       lab s a = 1 \/ exists b, In b p1 /\ elig b = true /\ lab s a - 1 <= lab s b).

  Lemma sweep_step pre a post s n :
    sweep d = pre ++ a :: post -> Swept pre s n ->
    exists s' n',
      cc_visit d are_connected get_component mark_component (CS s 0 n false) a
        = Ok (CS s' 0 n' false) /\ Swept (pre ++ [a]) s' n'.
  Proof.
    intros El (HG & Hn & H0 & Hr & Hp & Hk & Hj & Ho).
    assert (Hinc : forall i, In i (pre ++ [a]) -> in_bounds d i = true).
    { intros i Hi. apply sweep_in. rewrite El. apply in_app_iff in Hi.
      apply in_app_iff. cbn in *. tauto. }
    assert (Hab : in_bounds d a = true) by (apply Hinc, in_app_iff; cbn; auto).
    unfold cc_visit; cbn [cs_returned cs_map cs_count cs_marked].
    rewrite get_spec by auto. rewrite Hab. cbn [andb].
    assert (Hlen : Z.of_nat (List.length pre) < ncells d).
    { pose proof (sweep_length d Hdx Hdy Hdz) as L. rewrite El, app_length in L. cbn in L. lia. }
    destruct (elig a) eqn:Hae; [destruct (Z.eqb_spec (lab s a) 0) as [Hz|Hz]|].
    - (* a new region *)
      rewrite wrap_u32_id by lia.
      assert (HZ : forall i, J a i -> lab s i = 0).
      { intros i Hi. destruct (joined_inb _ _ _ _ _ Hi) as (_ & _ & Hib & Hie).
        destruct (Z.eq_dec (lab s i) 0) as [|Hne]; auto. exfalso.
        apply Hne. rewrite <- Hz. apply Hj; auto. apply joined_sym; auto. }
      destruct (mark_correct s a (n + 1)) as (s' & E & HG' & Hin & Hout); auto; [lia|].
      rewrite E. cbn [bind]. exists s', (n + 1). split.
      { f_equal. f_equal. lia. }
      assert (Hpre : forall i, In i pre -> elig i = true -> lab s' i = lab s i).
      { intros i Hi Hie. assert (Hib : in_bounds d i = true) by (apply Hinc, in_app_iff; auto).
        destruct (Hout i Hib) as [|(_ & HJ)]; auto. apply HZ in HJ.
        specialize (Hp i Hi Hie). lia. }
      assert (Ha' : lab s' a = n + 1) by (apply Hin; constructor; auto).
      split; auto. split.
      { rewrite app_length. cbn [List.length]. lia. }
      split.
      { intros b Hb Hbe. destruct (Hout b Hb) as [->|(_ & HJ)]; [apply H0; auto|].
        destruct (joined_inb _ _ _ _ _ HJ) as (_ & _ & _ & Hbe'). congruence. }
      split.
      { intros b Hb. destruct (Hout b Hb) as [->|(-> & _)]; [|lia]. specialize (Hr b Hb). lia. }
      split.
      { intros b Hb Hbe. apply in_app_iff in Hb. destruct Hb as [Hb|[<-|[]]].
        - rewrite Hpre by auto. auto.
        - rewrite Ha'. lia. }
      split.
      { intros k Hkr. destruct (Z.eq_dec k (n + 1)) as [->|Hne].
        - exists a. split; [apply in_app_iff; cbn; auto|]. auto.
        - destruct (Hk k ltac:(lia)) as (b & Hb & Hbe & Hbl). exists b.
          split; [apply in_app_iff; auto|]. split; auto. rewrite Hpre; auto. }
      split.
      { intros b c Hb Hc Hbe Hce Hne.
        destruct (Hout b Hb) as [Eb|(Eb & Jb)].
        - destruct (Hout c Hc) as [Ec|(Ec & Jc)].
          + rewrite Eb, Ec in *. apply Hj; auto.
          + rewrite Eb, Ec in *. split.
            * intros E1. specialize (Hr b Hb). lia.
            * intros Jbc. exfalso.
              assert (J a b) by (eapply joined_trans; [exact Jc|apply joined_sym; auto]).
              apply HZ in H. congruence.
        - rewrite Eb in *. split.
          + intros E1. destruct (Hout c Hc) as [Ec|(Ec & Jc)].
            * specialize (Hr c Hc). lia.
            * eapply joined_trans; [apply joined_sym; [auto|exact Jb]|exact Jc].
          + intros Jbc. symmetry. apply Hin. eapply joined_trans; eauto. }
      { intros p1 b p2 Ep Hbe.
        destruct p2 as [|x p2].
        - apply app_inj_tail in Ep. destruct Ep as (<- & <-). rewrite Ha'.
          destruct (Z.eq_dec n 0) as [->|Hnz]; [left; lia|right].
          destruct (Hk n ltac:(lia)) as (c & Hc & Hce & Hcl). exists c. split; auto. split; auto.
          rewrite Hpre by auto. lia.
        - destruct (exists_last (l := x :: p2)) as (p3 & y & E3); [discriminate|].
          rewrite E3 in Ep. rewrite app_comm_cons, app_assoc in Ep.
          apply app_inj_tail in Ep. destruct Ep as (Ep & _).
          assert (Hbp : In b pre) by (rewrite Ep; apply in_app_iff; right; left; auto).
          rewrite Hpre by auto.
          destruct (Ho p1 b p3 Ep Hbe) as [|(c & Hc & Hce & Hcl)]; auto.
          right. exists c. split; auto. split; auto. rewrite Hpre; auto.
          rewrite Ep. apply in_app_iff; auto. }
    - (* already numbered *)
      exists s, n. split; auto.
      split; auto. split.
      { rewrite app_length. lia. }
      split; auto. split; auto. split.
      { intros b Hb Hbe. apply in_app_iff in Hb. destruct Hb as [Hb|[<-|[]]]; auto.
        specialize (Hr a Hab). lia. }
      split.
      { intros k Hkr. destruct (Hk k Hkr) as (b & Hb & Hbr). exists b.
        split; [apply in_app_iff; auto|auto]. }
      split; auto.
      { intros p1 b p2 Ep Hbe.
        destruct p2 as [|x p2].
        - apply app_inj_tail in Ep. destruct Ep as (<- & <-).
          specialize (Hr a Hab). right.
          destruct (Hk n ltac:(lia)) as (c & Hc & Hce & Hcl). exists c. split; auto. split; auto. lia.
        - destruct (exists_last (l := x :: p2)) as (p3 & y & E3); [discriminate|].
          rewrite E3 in Ep. rewrite app_comm_cons, app_assoc in Ep.
          apply app_inj_tail in Ep. destruct Ep as (Ep & _). eapply Ho; eauto. }
    - (* does not take part *)
      change (-1 =? 0) with false. cbn iota. exists s, n. split; auto.
      split; auto. split.
      { rewrite app_length. lia. }
      split; auto. split; auto. split.
      { intros b Hb Hbe. apply in_app_iff in Hb. destruct Hb as [Hb|[<-|[]]]; auto. congruence. }
      split.
      { intros k Hkr. destruct (Hk k Hkr) as (b & Hb & Hbr). exists b.
        split; [apply in_app_iff; auto|auto]. }
      split; auto.
      { intros p1 b p2 Ep Hbe.
        destruct p2 as [|x p2].
        - apply app_inj_tail in Ep. destruct Ep as (<- & <-). congruence.
        - destruct (exists_last (l := x :: p2)) as (p3 & y & E3); [discriminate|].
          rewrite E3 in Ep. rewrite app_comm_cons, app_assoc in Ep.
          apply app_inj_tail in Ep. destruct Ep as (Ep & _). eapply Ho; eauto. }
  Qed.

  (** Resetting the labels. *)
  Lemma reset_spec s :
    Good s ->
    let s0 := fold_left (fun s i => mark_component s i 0) (sweep d) s in
    Good s0 /\ forall i, in_bounds d i = true -> lab s0 i = 0.
  Proof.
    intros HG. cbn zeta.
    destruct (fold_left_inv_prefix (fun s i => mark_component s i 0)
      (fun pre s => Good s /\ forall i, In i pre -> in_bounds d i = true -> lab s i = 0)
      (sweep d) s) as (H1 & H2).
    - split; auto. intros i [].
    - intros pre a post s1 El (H1 & H2).
      assert (Ha : in_bounds d a = true).
      { apply sweep_in. rewrite El. apply in_app_iff; right; left; auto. }
      split.
      + apply Good_mark; auto. lia.
      + intros i Hi Hib. rewrite lab_mark by (auto; lia).
        destruct (idx_eqb_spec a i); auto. apply in_app_iff in Hi.
        destruct Hi as [Hi|[Hi|[]]]; auto. congruence.
    - split; auto. intros i Hi. apply H2; auto. apply sweep_in; auto.
  Qed.

  Theorem compute_correct s :
    Good s ->
    exists s' n,
      compute_connected_components d are_connected get_component mark_component s = Ok (s', n) /\
      Good s' /\ n <= ncells d /\
      regions_numbered d elig link (lab s') n /\ numbered_in_sweep_order d elig (lab s').
  Proof.
    intros HG. unfold compute_connected_components.
    destruct (reset_spec s HG) as (HG0 & HL0).
    set (s0 := fold_left (fun s i => mark_component s i 0) (sweep d) s) in *.
    destruct (foldM_inv_prefix (cc_visit d are_connected get_component mark_component)
      (fun pre st => exists s n, st = CS s 0 n false /\ Swept pre s n)
      (sweep d) (CS s0 0 0 false)) as (st & E & s' & n & -> & HS).
    - exists s0, 0. split; auto. split; auto. split; [cbn; lia|]. split; auto.
      split; [intros a Ha; rewrite HL0; auto; lia|].
      split; [intros a []|]. split; [intros k Hk; lia|].
      split; [intros a b Ha Hb Hae Hbe Hne; rewrite HL0 in Hne; congruence|].
      intros p1 a p2 Ep. destruct p1; discriminate.
    - intros pre a post st El (s1 & n & -> & HS).
      destruct (sweep_step pre a post s1 n El HS) as (s2 & n2 & E2 & HS2). eauto 6.
    - rewrite E. cbn [bind cs_map cs_count]. exists s', n. split; auto.
      destruct HS as (HG' & Hn & H0 & Hr & Hp & Hk & Hj & Ho).
      assert (Hs1 : forall a, in_bounds d a = true -> elig a = true -> 1 <= lab s' a).
      { intros a Ha Hae. apply Hp; auto. apply sweep_in; auto. }
      split; auto. split.
      { rewrite sweep_length in Hn by auto.
        assert (0 <= ncells d) by (unfold ncells; nia). lia. }
      split; auto. split; [lia|]. split.
      { intros a Ha Hae. split; [apply Hs1; auto|]. apply Hr; auto. }
      split; auto. split.
      { intros k Hkr. destruct (Hk k Hkr) as (a & Ha & Hae & Hal). exists a.
        split; [apply sweep_in; auto|auto]. }
      intros a b Ha Hb Hae Hbe. apply Hj; auto. specialize (Hs1 a Ha Hae). lia.
  Qed.
End Correct.

(** The numbering is determined by the regions: two correct numberings in sweep
    order agree on every cell and use the same count. *)
Lemma labels_unique_prefix d elig link lab n lab' n' :
  regions_numbered d elig link lab n -> numbered_in_sweep_order d elig lab ->
  regions_numbered d elig link lab' n' -> numbered_in_sweep_order d elig lab' ->
  forall post pre, sweep d = pre ++ post ->
    (forall a, In a pre -> elig a = true -> lab a = lab' a) /\
    exists m, 0 <= m /\ (forall a, In a pre -> elig a = true -> lab a <= m) /\
      forall k, 1 <= k <= m -> exists a, In a pre /\ elig a = true /\ lab a = k.
Proof.
  intros (_ & R1 & _ & _ & R4) O (_ & R1' & _ & _ & R4') O' post pre. revert post.
  induction pre as [|a pre IH] using rev_ind; intros post El.
  - split; [intros a []|]. exists 0. split; [lia|]. split; [intros a []|]. intros k Hk. lia.
  - rewrite <- app_assoc in El. cbn in El.
    destruct (IH _ El) as (IHe & m & Hm & IHm & IHk).
    assert (Hinb : forall i, In i (pre ++ [a]) -> in_bounds d i = true).
    { intros i Hi. apply sweep_in. rewrite El. apply in_app_iff in Hi. apply in_app_iff.
      cbn in *. tauto. }
    assert (Hab : in_bounds d a = true) by (apply Hinb, in_app_iff; cbn; auto).
    destruct (elig a) eqn:Hae.
    2:{ split.
        - intros b Hb Hbe. apply in_app_iff in Hb. destruct Hb as [Hb|[<-|[]]]; auto. congruence.
        - exists m. split; auto. split.
          + intros b Hb Hbe. apply in_app_iff in Hb. destruct Hb as [Hb|[<-|[]]]; auto. congruence.
          + intros k Hk. destruct (IHk k Hk) as (b & Hb & Hr). exists b.
            split; [apply in_app_iff; auto|auto]. }
    (* bounds on the two numbers of a *)
    assert (Hle : lab a <= m + 1).
    { destruct (O pre a post El Hae) as [->|(b & Hb & Hbe & Hbl)]; [lia|].
      specialize (IHm b Hb Hbe). lia. }
    assert (Hle' : lab' a <= m + 1).
    { destruct (O' pre a post El Hae) as [->|(b & Hb & Hbe & Hbl)]; [lia|].
      specialize (IHm b Hb Hbe). rewrite (IHe b Hb Hbe) in IHm. lia. }
    pose proof (R1 a Hab Hae) as Ha1. pose proof (R1' a Hab Hae) as Ha1'.
    assert (Eq : lab a = lab' a).
    { destruct (Z_le_dec (lab a) m) as [Hl|Hl].
      - destruct (IHk (lab a) ltac:(lia)) as (b & Hb & Hbe & Hbl).
        assert (Hbb : in_bounds d b = true) by (apply Hinb, in_app_iff; auto).
        rewrite <- Hbl. rewrite (IHe b Hb Hbe). apply R4'; auto. apply R4; auto.
      - destruct (Z_le_dec (lab' a) m) as [Hl'|Hl'].
        + destruct (IHk (lab' a) ltac:(lia)) as (b & Hb & Hbe & Hbl).
          assert (Hbb : in_bounds d b = true) by (apply Hinb, in_app_iff; auto).
          rewrite <- Hbl. symmetry. apply R4; auto. apply R4'; auto.
          rewrite <- (IHe b Hb Hbe). auto.
        + lia. }
    split.
    + intros b Hb Hbe. apply in_app_iff in Hb. destruct Hb as [Hb|[<-|[]]]; auto.
    + exists (Z.max m (lab a)). split; [lia|]. split.
      * intros b Hb Hbe. apply in_app_iff in Hb. destruct Hb as [Hb|[<-|[]]]; [|lia].
        specialize (IHm b Hb Hbe). lia.
      * intros k Hk. destruct (Z_le_dec k m) as [Hkm|Hkm].
        -- destruct (IHk k ltac:(lia)) as (b & Hb & Hr). exists b.
           split; [apply in_app_iff; auto|auto].
        -- exists a. split; [apply in_app_iff; cbn; auto|]. split; auto. lia.
Qed.

Lemma labels_unique d elig link lab n lab' n' :
  regions_numbered d elig link lab n -> numbered_in_sweep_order d elig lab ->
  regions_numbered d elig link lab' n' -> numbered_in_sweep_order d elig lab' ->
  n = n' /\ forall a, in_bounds d a = true -> lab a = lab' a.
Proof.
  intros R O R' O'.
  destruct (labels_unique_prefix d elig link lab n lab' n' R O R' O' [] (sweep d)) as (He & _).
  { rewrite app_nil_r; auto. }
  assert (Ha : forall a, in_bounds d a = true -> lab a = lab' a).
  { intros a Ha. destruct (elig a) eqn:Hae.
    - apply He; auto. apply sweep_in; auto.
    - destruct R as (_ & _ & R2 & _), R' as (_ & _ & R2' & _). rewrite R2, R2'; auto. }
  split; auto.
  destruct R as (Hn & R1 & R2 & R3 & R4), R' as (Hn' & R1' & R2' & R3' & R4').
  destruct (Z.lt_trichotomy n n') as [Hlt|[Heq|Hlt]]; auto.
  - destruct (R3' n' ltac:(lia)) as (a & Hab & Hae & Hal). specialize (R1 a Hab Hae).
    rewrite (Ha a Hab) in R1. lia.
  - destruct (R3 n ltac:(lia)) as (a & Hab & Hae & Hal). specialize (R1' a Hab Hae).
    rewrite <- (Ha a Hab) in R1'. lia.
Qed.

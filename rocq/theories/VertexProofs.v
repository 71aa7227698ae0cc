(** Proofs about the vertex-graph walk. *)
From Coq Require Import Permutation Lia.
From Verif Require Import Base BaseFacts Grid GridFacts TopoSpec SurfaceSpec Surfaces.

Lemma mem_in i l : mem i l = true <-> In i l.
Proof.
  unfold mem. rewrite existsb_exists. split.
  - intros (j & Hj & E). apply idx_eqb_eq in E. subst. auto.
  - intros H. exists i. split; auto. apply idx_eqb_refl.
Qed.
Lemma mem_false i l : mem i l = false <-> ~ In i l.
Proof. rewrite <- mem_in. destruct (mem i l); split; congruence. Qed.

Lemma NoDup_left {A} (l1 l2 : list A) : NoDup (l1 ++ l2) -> NoDup l1.
Proof.
  induction l1 as [|a l1 IH]; cbn [app]; intros H; [constructor|].
  inversion H; subst. constructor; auto. intros Hin. apply H2. apply in_app_iff. auto.
Qed.

(** ** Reachability *)
Lemma reaches_trans {V} (link : V -> V -> Prop) a b c :
  reaches link a b -> reaches link b c -> reaches link a c.
Proof. intros H1 H2. induction H2 as [|u v w H2 IH L]; auto. eapply reaches_step; [apply IH; exact H1|exact L]. Qed.

Lemma reaches_one {V} (link : V -> V -> Prop) a b : link a b -> reaches link a b.
Proof. intros H. eapply reaches_step; [apply reaches_refl|exact H]. Qed.

Lemma reaches_closed {V} (link : V -> V -> Prop) (P : V -> Prop) a b :
  (forall x y, P x -> link x y -> P y) -> P a -> reaches link a b -> P b.
Proof. intros HP Ha H. induction H; eauto. Qed.

Lemma reaches_sym_in {V} (link : V -> V -> Prop) (P : V -> Prop) a b :
  (forall x y, P x -> link x y -> P y /\ link y x) -> P a -> reaches link a b -> reaches link b a.
Proof.
  intros HP Ha H. induction H as [|u v w H IH L]; [apply reaches_refl|].
  assert (Pv : P v) by (eapply reaches_closed; [|exact Ha|exact H]; intros x y; apply HP).
  destruct (HP v w Pv L) as [_ L']. eapply reaches_trans; [apply reaches_one; exact L'|auto].
Qed.

(** ** Counting components *)
Lemma relation_length {A B} (R : A -> B -> Prop) (l1 : list A) : forall l2 : list B,
  NoDup l1 -> (forall x, In x l1 -> exists y, In y l2 /\ R x y) ->
  (forall x x' y, In x l1 -> In x' l1 -> R x y -> R x' y -> x = x') ->
  (length l1 <= length l2)%nat.
Proof.
  induction l1 as [|x l1 IH]; intros l2 Hn Ht Hi; cbn [length]; [lia|].
  destruct (Ht x (or_introl eq_refl)) as (y & Hy & Rxy).
  destruct (in_split _ _ Hy) as (p & q & ->).
  inversion Hn as [|? ? Hx Hn']; subst.
  assert (H : (length l1 <= length (p ++ q))%nat).
  { apply IH; auto.
    - intros x' Hx'. destruct (Ht x' (or_intror Hx')) as (y' & Hy' & R').
      exists y'. split; auto. apply in_app_iff in Hy'. destruct Hy' as [H|[H|H]].
      + apply in_app_iff. auto.
      + subst y'. exfalso. assert (x = x') by (eapply Hi; cbn; eauto). subst. auto.
      + apply in_app_iff. auto.
    - intros a a' b Ha Ha'. apply Hi; cbn; auto. }
  rewrite app_length in *. cbn [length]. lia.
Qed.


Definition symmetric_in {V} (vs : list V) (link : V -> V -> Prop) : Prop :=
  forall x y, In x vs -> link x y -> In y vs /\ link y x.

Lemma count_le {V W} (vs : list V) (link : V -> V -> Prop) (ws : list W) (link' : W -> W -> Prop)
    (f : V -> W) n m :
  symmetric_in vs link -> symmetric_in ws link' ->
  (forall v, In v vs -> In (f v) ws) ->
  (forall x x', In x vs -> In x' vs -> reaches link' (f x) (f x') -> reaches link x x') ->
  component_count vs link n -> component_count ws link' m -> (n <= m)%nat.
Proof.
  intros S1 S2 Hf Hr (r1 & <- & N1 & I1 & U1) (r2 & <- & N2 & I2 & U2).
  apply relation_length with (R := fun a b => In b ws /\ reaches link' b (f a)); auto.
  - intros x Hx. destruct (U2 (f x) (Hf x (I1 x Hx))) as (y & (Hy & Ry) & _).
    exists y. repeat split; auto.
  - intros x x' y Hx Hx' (Hy & R) (_ & R').
    assert (B : reaches link' (f x) y)
      by (eapply reaches_sym_in with (P := fun v => In v ws); [exact S2|exact Hy|exact R]).
    assert (C : reaches link x x') by (apply Hr; auto; eapply reaches_trans; eauto).
    destruct (U1 x' (I1 x' Hx')) as (r & _ & Ur).
    transitivity r; [symmetry|]; apply Ur; split; auto. apply reaches_refl.
Qed.

Lemma count_unique {V} (vs ws : list V) (link : V -> V -> Prop) n m :
  symmetric_in vs link -> symmetric_in ws link -> (forall v, In v vs <-> In v ws) ->
  component_count vs link n -> component_count ws link m -> n = m.
Proof.
  intros S1 S2 E C1 C2. apply Nat.le_antisymm.
  - apply (count_le vs link ws link (fun v => v)); auto. intros v. apply E.
  - apply (count_le ws link vs link (fun v => v)); auto. intros v. apply E.
Qed.

(** ** The walk *)
Lemma steps_spec : forall s, In s steps <-> exists k, 0 <= k < 6 /\ s = (k, direction k).
Proof.
  intros s. split.
  - cbn. intros [<-|[<-|[<-|[<-|[<-|[<-|[]]]]]]];
      [exists 0|exists 1|exists 2|exists 3|exists 4|exists 5]; (split; [lia|reflexivity]).
  - intros (k & Hk & ->).
    assert (k = 0 \/ k = 1 \/ k = 2 \/ k = 3 \/ k = 4 \/ k = 5) as [->|[->|[->|[->|[->| ->]]]]] by lia;
      cbn; auto 10.
Qed.

Section Walk.
  Variable conn : list (idx * Z).
  Hypothesis nodup : NoDup (map fst conn).
  Let V := map fst conn.

  Lemma conn_at_ok v b : In (v, b) conn -> conn_at conn v = Ok b.
  Proof.
    subst V. induction conn as [|[w c] l IH]; [intros []|]. cbn [conn_at map fst] in *.
    inversion nodup as [|? ? Hw Hn]; subst. intros [E|H].
    - inversion E; subst. rewrite idx_eqb_refl. auto.
    - destruct (idx_eqb_spec v w) as [->|N]; auto.
      exfalso. apply Hw. apply in_map_iff. exists (w, b). auto.
  Qed.

  Lemma conn_at_missing v : ~ In v V -> conn_at conn v = Throw "out_of_range".
  Proof.
    clear nodup. subst V. induction conn as [|[w c] l IH]; cbn [conn_at map fst]; auto. intros H.
    destruct (idx_eqb_spec v w) as [->|N]; [exfalso; apply H; left; auto|].
    apply IH. intros H'. apply H. right. auto.
  Qed.

  Lemma in_V v : In v V <-> exists b, In (v, b) conn.
  Proof.
    unfold V. rewrite in_map_iff. split.
    - intros ([w b] & <- & H). eauto.
    - intros (b & H). exists (v, b). auto.
  Qed.

  (** One vertex's neighbours are appended. *)
  Lemma push_fold v bits l : forall q s, exists new,
    fold_left (push v bits) l (q, s) = (q ++ new, rev new ++ s) /\ NoDup new /\
    (forall w, In w new -> ~ In w s /\ exists e, In e l /\ Z.testbit bits (fst e) = true /\ w = add v (snd e)) /\
    (forall e, In e l -> Z.testbit bits (fst e) = true -> In (add v (snd e)) (rev new ++ s)).
  Proof.
    induction l as [|e l IH]; intros q s; cbn [fold_left].
    - exists []. rewrite app_nil_r. cbn. repeat split; auto using NoDup_nil; intros; contradiction.
    - unfold push at 2. destruct (Z.testbit bits (fst e)) eqn:B; cbn [andb].
      destruct (mem (add v (snd e)) s) eqn:M; cbn [negb].
      + destruct (IH q s) as (new & E & N & H1 & H2). exists new. split; [exact E|]. split; [exact N|].
        split.
        * intros w Hw. destruct (H1 w Hw) as (A & e' & Ie & Be & We). split; auto.
          exists e'. cbn. auto.
        * intros e' [<-|Ie] Be; auto. apply in_app_iff. right. apply mem_in. auto.
      + destruct (IH (q ++ [add v (snd e)]) (add v (snd e) :: s)) as (new & E & N & H1 & H2).
        exists (add v (snd e) :: new). apply mem_false in M. split; [|split; [|split]].
        * rewrite E. f_equal; [rewrite <- app_assoc; auto|]. cbn [rev]. rewrite <- app_assoc. auto.
        * constructor; auto. intros Hin. apply (H1 _ Hin). left. auto.
        * intros w [<-|Hw].
          { split; auto. exists e. cbn. auto. }
          destruct (H1 w Hw) as (A & e' & Ie & Be & We). split.
          { intros F. apply A. right. auto. }
          exists e'. cbn. auto.
        * intros e' Ie Be. cbn [rev]. rewrite <- app_assoc. cbn [app].
          destruct Ie as [<-|Ie]; [apply in_app_iff; right; left; auto|]. apply H2; auto.
      + destruct (IH q s) as (new & E & N & H1 & H2). exists new. split; [exact E|]. split; [exact N|].
        split.
        * intros w Hw. destruct (H1 w Hw) as (A & e' & Ie & Be & We). split; auto.
          exists e'. cbn. auto.
        * intros e' [<-|Ie] Be; auto. congruence.
  Qed.

  Lemma push_steps v bits q s : In (v, bits) conn -> exists new,
    fold_left (push v bits) steps (q, s) = (q ++ new, rev new ++ s) /\ NoDup new /\
    (forall w, In w new -> ~ In w s /\ points_at conn v w) /\
    (forall w, points_at conn v w -> In w (rev new ++ s)).
  Proof.
    intros Hv. destruct (push_fold v bits steps q s) as (new & E & N & H1 & H2).
    exists new. split; [exact E|]. split; [exact N|]. split.
    - intros w Hw. destruct (H1 w Hw) as (A & e & Ie & Be & ->). split; auto.
      apply steps_spec in Ie. destruct Ie as (k & Hk & ->). exists bits, k. auto.
    - intros w (b & k & Hb & Hk & Tb & ->).
      assert (b = bits) as -> by (pose proof (conn_at_ok _ _ Hb); pose proof (conn_at_ok _ _ Hv); congruence).
      apply (H2 (k, direction k)); auto. apply steps_spec. eauto.
  Qed.

  (** What one call of the walk does. *)
  Definition closure (k : idx) (l : list idx) : Prop :=
    NoDup l /\ incl l V /\ In k l /\
    (forall x, In x l -> reaches (points_at conn) k x) /\
    (forall x w, In x l -> points_at conn x w -> In w l).

  Lemma walk_ok k : forall fuel done queue queued marked count,
    NoDup (done ++ queue) -> (forall x, In x queued <-> In x (done ++ queue)) ->
    incl done V -> In k (done ++ queue) ->
    (forall x, In x (done ++ queue) -> reaches (points_at conn) k x) ->
    (forall x w, In x done -> points_at conn x w -> In w (done ++ queue)) ->
    (length conn < fuel + length done)%nat ->
    (exists l, walk fuel conn queue queued marked count =
                 Ok (rev (skipn (length done) l) ++ marked, (count + length l - length done)%nat) /\
               closure k l /\ firstn (length done) l = done) \/
    (walk fuel conn queue queued marked count = Throw "out_of_range" /\
     exists w, reaches (points_at conn) k w /\ ~ In w V).
  Proof.
    induction fuel as [|fuel IH]; intros done queue queued marked count Hn Hq Hd Hk Hr Hc Hf;
      (destruct queue as [|v queue]; cbn [walk];
        [left; exists done; rewrite app_nil_r in *; rewrite skipn_all, firstn_all; cbn [rev app];
         split; [f_equal; f_equal; lia|split; [|reflexivity]]; repeat split; auto|]).
    - (* no fuel: more vertices than exist *)
      exfalso. apply NoDup_left in Hn.
      pose proof (NoDup_incl_length Hn Hd) as H. unfold V in H. rewrite map_length in H. lia.
    - destruct (in_dec idx_eq_dec v V) as [Hv|Hv].
      2:{ right. rewrite (conn_at_missing v Hv). cbn [bind]. split; auto.
          exists v. split; auto. apply Hr. apply in_app_iff. right. left. auto. }
      apply in_V in Hv. destruct Hv as (b & Hb). rewrite (conn_at_ok _ _ Hb). cbn [bind].
      destruct (push_steps v b queue queued Hb) as (new & E & Nn & H1 & H2). rewrite E.
      assert (Q : done ++ v :: queue = (done ++ [v]) ++ queue) by (rewrite <- app_assoc; auto).
      rewrite Q in *.
      assert (Hset : forall x, In x (rev new ++ queued) <-> In x ((done ++ [v]) ++ queue ++ new)).
      { intros x. rewrite !in_app_iff, <- in_rev, Hq, !in_app_iff. tauto. }
      destruct (IH (done ++ [v]) (queue ++ new) (rev new ++ queued) (v :: marked) (S count))
        as [(l & El & Cl & Fl)|(El & W)].
      + rewrite app_assoc. apply NoDup_app_intro; auto.
        intros x Hx Hx'. apply (H1 x Hx'). apply Hq. auto.
      + exact Hset.
      + intros x Hx. apply in_app_iff in Hx. destruct Hx as [Hx|[<-|[]]]; [apply Hd; auto|].
        apply in_V. eauto.
      + rewrite app_assoc. apply in_app_iff. left. auto.
      + intros x Hx. rewrite app_assoc in Hx. apply in_app_iff in Hx. destruct Hx as [Hx|Hx]; auto.
        eapply reaches_step; [apply Hr|apply (H1 x Hx)].
        apply in_app_iff. left. apply in_app_iff. right. left. auto.
      + intros x w Hx P. apply in_app_iff in Hx. destruct Hx as [Hx|[<-|[]]].
        * rewrite app_assoc. apply in_app_iff. left. eapply Hc; eauto.
        * apply Hset. apply H2. exact P.
      + rewrite app_length. cbn [length]. lia.
      + left. exists l. split; [|split; [exact Cl|]].
        * rewrite El. rewrite app_length in *. cbn [length] in *.
          assert (D : skipn (length done) l = v :: skipn (length done + 1) l).
          { rewrite <- (firstn_skipn (length done + 1) l) at 1. rewrite Fl.
            rewrite <- app_assoc. rewrite skipn_app, skipn_all, Nat.sub_diag. reflexivity. }
          rewrite D. cbn [rev]. rewrite <- app_assoc. cbn [app]. f_equal. f_equal.
          assert (length done + 1 <= length l)%nat; [|lia].
          assert (length (firstn (length done + 1) l) = length (done ++ [v])) by congruence.
          rewrite firstn_length, app_length in H. cbn in H. lia.
        * rewrite app_length in Fl. cbn [length] in Fl.
          assert (firstn (length done) (firstn (length done + 1) l) = done)
            by (rewrite Fl, firstn_app, firstn_all, Nat.sub_diag, app_nil_r; auto).
          rewrite firstn_firstn in H. rewrite Nat.min_l in H by lia. auto.
      + right. auto.
  Qed.

  Lemma walk_start k marked : In k V ->
    (exists l, walk (S (length conn)) conn [k] [k] marked 0 = Ok (rev l ++ marked, length l) /\
               closure k l) \/
    (walk (S (length conn)) conn [k] [k] marked 0 = Throw "out_of_range" /\
     exists w, reaches (points_at conn) k w /\ ~ In w V).
  Proof.
    intros Hk. destruct (walk_ok k (S (length conn)) [] [k] [k] marked 0) as [(l & E & C & _)|H].
    - cbn. constructor; [intros []|constructor].
    - cbn. tauto.
    - intros x [].
    - left. auto.
    - intros x [<-|[]]. apply reaches_refl.
    - intros x w [].
    - cbn [length]. lia.
    - left. exists l. cbn [length skipn] in E. rewrite E. split; auto. f_equal. f_equal. lia.
    - right. exact H.
  Qed.

  Lemma reaches_outside k w : In k V -> reaches (points_at conn) k w -> ~ In w V ->
    has_dangling_bit conn.
  Proof.
    intros Hk H. induction H as [|u v w H IH L]; intros Hw; [contradiction|].
    destruct (in_dec idx_eq_dec v V) as [Hv|Hv]; auto.
    exists v, w. auto.
  Qed.

  (** Never anything but a number or the exception of a missing vertex. *)
  Lemma scan_total keys : incl keys V -> forall marked comps processed,
    (exists n, scan conn keys marked comps processed = Ok n) \/
    (scan conn keys marked comps processed = Throw "out_of_range" /\ has_dangling_bit conn).
  Proof.
    induction keys as [|k keys IH]; intros Hk marked comps processed; cbn [scan]; [eauto|].
    assert (In k V) by (apply Hk; left; auto).
    assert (incl keys V) by (intros x Hx; apply Hk; right; auto).
    destruct (mem k marked); [apply IH; auto|].
    destruct (walk_start k marked) as [(l & E & _)|(E & w & R & N)]; auto; rewrite E; cbn [bind].
    - destruct (processed + length l =? length conn)%nat; [eauto|]. apply IH; auto.
    - right. split; auto. eapply reaches_outside; eauto.
  Qed.

  Hypothesis symmetric : graph_symmetric conn.

  Lemma closed_back (l : list idx) x y : (forall a w, In a l -> points_at conn a w -> In w l) ->
    incl l V -> In x V -> reaches (points_at conn) x y -> In y l -> In x l.
  Proof.
    intros Hc Hl Hx H. induction H as [|u v w H IH L]; auto. intros Hw.
    apply IH; auto. apply (Hc w v Hw). apply symmetric; auto.
  Qed.

  Lemma scan_ok keys : incl keys V -> forall reps marked processed,
    NoDup marked -> incl marked V -> processed = length marked ->
    (forall a w, In a marked -> points_at conn a w -> In w marked) ->
    NoDup reps -> incl reps marked ->
    (forall v, In v marked -> exists! r, In r reps /\ reaches (points_at conn) r v) ->
    (forall v, In v V -> In v marked \/ In v keys) ->
    (exists n, scan conn keys marked (length reps) processed = Ok n /\
               component_count V (points_at conn) n /\ ~ has_dangling_bit conn) \/
    (scan conn keys marked (length reps) processed = Throw "out_of_range" /\ has_dangling_bit conn).
  Proof.
    assert (Done : forall reps marked, incl V marked -> incl marked V ->
      (forall a w, In a marked -> points_at conn a w -> In w marked) ->
      NoDup reps -> incl reps marked ->
      (forall v, In v marked -> exists! r, In r reps /\ reaches (points_at conn) r v) ->
      component_count V (points_at conn) (length reps) /\ ~ has_dangling_bit conn).
    { intros reps marked A B C D E F. split.
      - exists reps. repeat split; auto. intros x Hx. apply B, E. auto.
      - intros (v & w & P & N). apply N, B. apply (C v); auto. apply A. apply in_V.
        destruct P as (b & k & P & _). eauto. }
    induction keys as [|k keys IH]; intros Hk reps marked processed Nm Im Ep Cm Nr Ir Ur Cov; cbn [scan].
    - left. exists (length reps). split; auto. apply (Done reps marked); auto.
      intros v Hv. destruct (Cov v Hv) as [|[]]; auto.
    - assert (HkV : In k V) by (apply Hk; left; auto).
      assert (Hks : incl keys V) by (intros x Hx; apply Hk; right; auto).
      destruct (mem k marked) eqn:M.
      { apply mem_in in M. apply IH; auto. intros v Hv. destruct (Cov v Hv) as [|[<-|]]; auto. }
      apply mem_false in M.
      destruct (walk_start k marked) as [(l & E & (Nl & Il & Kl & Rl & Cl))|(E & w & R & N)]; auto;
        rewrite E; cbn [bind].
      2:{ right. split; auto. eapply reaches_outside; eauto. }
      assert (Disj : forall x, In x l -> ~ In x marked).
      { intros x Hx Hm. apply M. apply (closed_back marked k x); auto. }
      assert (Nm' : NoDup (rev l ++ marked)).
      { apply NoDup_app_intro; auto using NoDup_rev. intros x Hx. apply Disj. apply in_rev. auto. }
      assert (Im' : incl (rev l ++ marked) V).
      { intros x Hx. apply in_app_iff in Hx. rewrite <- in_rev in Hx. destruct Hx; auto. }
      assert (Cm' : forall a w, In a (rev l ++ marked) -> points_at conn a w -> In w (rev l ++ marked)).
      { intros a w Ha P. rewrite in_app_iff, <- in_rev in *. destruct Ha as [Ha|Ha]; eauto. }
      assert (Nr' : NoDup (k :: reps)).
      { constructor; auto. }
      assert (Ir' : incl (k :: reps) (rev l ++ marked)).
      { intros x [<-|Hx]; apply in_app_iff; [left; rewrite <- in_rev; auto|right; auto]. }
      assert (Ur' : forall v, In v (rev l ++ marked) ->
                exists! r, In r (k :: reps) /\ reaches (points_at conn) r v).
      { intros v Hv. rewrite in_app_iff, <- in_rev in Hv. destruct Hv as [Hv|Hv].
        - exists k. split; [split; [left; auto|auto]|]. intros r ([<-|Hr] & Rr); auto.
          exfalso. apply (Disj v Hv). eapply reaches_closed with (P := fun x => In x marked); eauto.
        - destruct (Ur v Hv) as (r & (Hr & Rr) & U). exists r. split; [split; [right; auto|auto]|].
          intros r' ([<-|Hr'] & Rr'); [|apply U; auto].
          exfalso. apply M. apply (closed_back marked k v); auto. }
      assert (El : (processed + length l = length (rev l ++ marked))%nat)
        by (rewrite app_length, rev_length; lia).
      destruct (processed + length l =? length conn)%nat eqn:F.
      + apply Nat.eqb_eq in F. left. exists (length (k :: reps)). split; auto.
        apply (Done (k :: reps) (rev l ++ marked)); auto.
        apply NoDup_length_incl; auto. unfold V. rewrite map_length. lia.
      + apply (IH Hks (k :: reps)); auto.
        intros v Hv. destruct (Cov v Hv) as [|[<-|]]; auto; left; apply in_app_iff; auto.
        left. rewrite <- in_rev. auto.
  Qed.

  Lemma components_ok :
    (exists n, surface_vertex_components conn = Ok n /\
               component_count V (points_at conn) n /\ ~ has_dangling_bit conn) \/
    (surface_vertex_components conn = Throw "out_of_range" /\ has_dangling_bit conn).
  Proof.
    apply (scan_ok V (incl_refl V) [] [] 0%nat); auto using NoDup_nil; try (intros x []; fail).
  Qed.

  Lemma symmetric_links : ~ has_dangling_bit conn -> symmetric_in V (points_at conn).
  Proof.
    intros Nd x y Hx L. destruct (in_dec idx_eq_dec y V) as [Hy|Hy].
    - split; auto.
    - exfalso. apply Nd. exists x, y. auto.
  Qed.
End Walk.

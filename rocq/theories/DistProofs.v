(** Proofs about the distance-field construction. *)
From Verif Require Import Base BaseFacts Grid GridFacts DistModel DistSpec.

(** ** Directions *)

Lemma dirs3_in a b c :
  In (a, b, c) dirs3 <-> -1 <= a <= 1 /\ -1 <= b <= 1 /\ -1 <= c <= 1.
Proof.
  unfold dirs3. rewrite in_flat_map. split.
  - intros (x & Hx & H). apply in_flat_map in H. destruct H as (y & Hy & H).
    apply in_map_iff in H. destruct H as (z & E & Hz). injection E as -> -> ->.
    cbn in *. lia.
  - intros (Ha & Hb & Hc). exists a; split; [cbn; lia|].
    apply in_flat_map. exists b; split; [cbn; lia|].
    apply in_map_iff. exists c; split; [auto|cbn; lia].
Qed.

Lemma direction_number_inj s t :
  In s dirs3 -> In t dirs3 -> direction_number s = direction_number t -> s = t.
Proof.
  destruct s as [[a b] c], t as [[a' b'] c']. rewrite !dirs3_in; cbn. intros H1 H2 E.
  assert (a = a') by lia. assert (b = b') by lia. assert (c = c') by lia. congruence.
Qed.

Lemma direction_number_range t : In t dirs3 -> 0 <= direction_number t <= 26.
Proof. destruct t as [[a b] c]. rewrite dirs3_in; cbn. lia. Qed.

Lemma neighborhood_in n src t :
  In src dirs3 ->
  (In t (neighborhood n (direction_number src)) <-> In t dirs3 /\ keep_target n src t = true).
Proof.
  intros Hs. unfold neighborhood. rewrite in_flat_map. split.
  - intros (s & Hin & H).
    destruct (Z.eqb_spec (direction_number s) (direction_number src)) as [E|E]; [|destruct H].
    apply direction_number_inj in E; auto. subst s. apply filter_In in H; auto.
  - intros H. exists src; split; auto. rewrite Z.eqb_refl. apply filter_In; auto.
Qed.

Lemma distsq_nonneg a b : 0 <= distsq a b.
Proof.
  unfold distsq. pose proof (Z.square_nonneg (ix a - ix b)).
  pose proof (Z.square_nonneg (iy a - iy b)). pose proof (Z.square_nonneg (iz a - iz b)). lia.
Qed.

Lemma sq_zero a : a * a = 0 -> a = 0.
Proof. nia. Qed.

Lemma distsq_zero a b : distsq a b = 0 -> a = b.
Proof.
  unfold distsq; destruct a as [ix0 iy0 iz0], b as [ix1 iy1 iz1]; cbn. intros H.
  pose proof (Z.square_nonneg (ix0 - ix1)). pose proof (Z.square_nonneg (iy0 - iy1)).
  pose proof (Z.square_nonneg (iz0 - iz1)).
  assert (ix0 - ix1 = 0) by (apply sq_zero; lia). assert (iy0 - iy1 = 0) by (apply sq_zero; lia).
  assert (iz0 - iz1 = 0) by (apply sq_zero; lia). f_equal; lia.
Qed.

Lemma distsq_self a : distsq a a = 0.
Proof. unfold distsq; lia. Qed.

(** Moving by [t] changes the squared distance by 2 t.o + |t|^2. *)
Lemma distsq_add l t c :
  let '(a, b, e) := t in
  distsq (add l t) c = distsq l c + 2 * (a * (ix l - ix c) + b * (iy l - iy c) + e * (iz l - iz c))
                       + (a * a + b * b + e * e).
Proof. destruct t as [[a b] e]; unfold distsq, add; cbn [ix iy iz]. ring. Qed.

(** Unit steps along one axis. *)
Definition axis (t : Z * Z * Z) : Prop :=
  let '(a, b, c) := t in
  -1 <= a <= 1 /\ -1 <= b <= 1 /\ -1 <= c <= 1 /\ Z.abs a + Z.abs b + Z.abs c = 1.

Definition dot (t : Z * Z * Z) (l c : idx) : Z :=
  let '(a, b, e) := t in a * (ix l - ix c) + b * (iy l - iy c) + e * (iz l - iz c).

Lemma axis_dirs t : axis t -> In t dirs3.
Proof. destruct t as [[a b] c]. unfold axis. rewrite dirs3_in. lia. Qed.

Lemma distsq_axis l t c : axis t -> distsq (add l t) c = distsq l c + 2 * dot t l c + 1.
Proof.
  intros Ha. pose proof (distsq_add l t c) as H. destruct t as [[a b] e].
  unfold axis in Ha. unfold dot. rewrite H.
  assert (a * a + b * b + e * e = 1) by nia. lia.
Qed.

Lemma dot_self t l : dot t l l = 0.
Proof. destruct t as [[a b] c]; unfold dot; lia. Qed.

Lemma dot_le_one t a b : axis t -> within_one a b -> dot t a b <= 1.
Proof.
  destruct t as [[x y] z]. unfold axis, within_one, dot. intros (Hx & Hy & Hz & Hs) (W1 & W2 & W3).
  assert (H : (x = 0 /\ y = 0) \/ (x = 0 /\ z = 0) \/ (y = 0 /\ z = 0)) by lia.
  destruct H as [[-> ->]|[[-> ->]|[-> ->]]]; nia.
Qed.

Lemma keep_axis src t :
  axis t ->
  (let '(a, b, c) := src in let '(x, y, z) := t in 0 <= a * x /\ 0 <= b * y /\ 0 <= c * z) ->
  keep_target 1 src t = true.
Proof.
  destruct src as [[a b] c], t as [[x y] z]. unfold axis, keep_target. intros Ha Hs.
  destruct ((x =? 0) && (y =? 0) && (z =? 0)) eqn:E0; [exfalso; lia|].
  change (1 <=? 1) with true. cbn iota.
  destruct (Z.abs x + Z.abs y + Z.abs z =? 1) eqn:E1; [cbn [negb]|exfalso; lia].
  destruct ((a * x <? 0) || (b * y <? 0) || (c * z <? 0)) eqn:E2; [exfalso; lia|]. auto.
Qed.

Lemma keep_is_axis src t : In t dirs3 -> keep_target 1 src t = true -> axis t.
Proof.
  destruct src as [[a b] c], t as [[x y] z]. rewrite dirs3_in. unfold axis, keep_target.
  intros Ht. destruct ((x =? 0) && (y =? 0) && (z =? 0)) eqn:E0; [discriminate|].
  change (1 <=? 1) with true. cbn iota.
  destruct (Z.abs x + Z.abs y + Z.abs z =? 1) eqn:E1; [|discriminate]. intros _. lia.
Qed.

Lemma nearest_exists pts c p : In p pts -> exists v, nearest_distsq pts c v.
Proof.
  revert p. induction pts as [|q l IH]; intros p Hp; [destruct Hp|].
  destruct l as [|r l].
  - exists (distsq c q). split; [exists q; cbn; auto|]. intros p' [<-|[]]. lia.
  - destruct (IH r (or_introl eq_refl)) as (v & (w & Hw & Hv) & Hmin).
    destruct (Z_le_dec v (distsq c q)) as [Hle|Hgt].
    + exists v. split; [exists w; split; auto; right; auto|].
      intros p' [<-|Hp']; auto.
    + exists (distsq c q). split; [exists q; split; auto; left; auto|].
      intros p' [<-|Hp']; [lia|]. specialize (Hmin p' Hp'). lia.
Qed.

(** ** One run of the algorithm, fixed grid and points *)
Section Run.
  Variable d : dims.
  Variable pts : list idx.

  Hypothesis Hx : 0 <= nx d.
  Hypothesis Hy : 0 <= ny d.
  Hypothesis Hz : 0 <= nz d.

  Definition maxd : Z := nx d * nx d + ny d * ny d + nz d * nz d.

  Hypothesis Hmax : maxd <= 2147483647.

  Hypothesis Hpts : forall p, In p pts -> in_bounds d p = true.

  Lemma dim_bound : nx d <= 46340 /\ ny d <= 46340 /\ nz d <= 46340.
  Proof. unfold maxd in Hmax. nia. Qed.

  Lemma maxd_eq : max_distance_square d = Ok maxd.
  Proof.
    pose proof dim_bound. unfold max_distance_square, i64, bind.
    repeat match goal with
    | |- context [if ?c then _ else _] =>
        let H := fresh in assert (H : c = true) by nia; rewrite H; clear H
    end. reflexivity.
  Qed.

  Lemma maxd_nonneg : 0 <= maxd.
  Proof. unfold maxd; nia. Qed.

  Lemma u32_idx_id i : in_bounds d i = true -> u32_idx i = i.
  Proof.
    intros H; apply in_bounds_spec in H. pose proof dim_bound. unfold u32_idx.
    rewrite !wrap_u32_id by lia. destruct i; auto.
  Qed.

  Lemma distsq_maxd a b : in_bounds d a = true -> in_bounds d b = true -> distsq a b <= maxd.
  Proof.
    rewrite !in_bounds_spec. unfold distsq, maxd. intros Ha Hb.
    assert (forall p q n, 0 <= p < n -> 0 <= q < n -> (p - q) * (p - q) <= n * n) by (intros; nia).
    pose proof (H (ix a) (ix b) (nx d) ltac:(lia) ltac:(lia)).
    pose proof (H (iy a) (iy b) (ny d) ltac:(lia) ltac:(lia)).
    pose proof (H (iz a) (iz b) (nz d) ltac:(lia) ltac:(lia)). lia.
  Qed.

  Lemma compute_distance_squared_ok a b :
    in_bounds d a = true -> in_bounds d b = true ->
    compute_distance_squared a b = Ok (distsq a b).
  Proof.
    intros Ha Hb. pose proof (distsq_maxd a b Ha Hb) as HM. pose proof dim_bound as HB.
    apply in_bounds_spec in Ha, Hb. unfold compute_distance_squared.
    rewrite !wrap_s32_id by lia. unfold distsq in *.
    set (u := ix a - ix b) in *. set (v := iy a - iy b) in *. set (w := iz a - iz b) in *.
    assert (0 <= u * u /\ 0 <= v * v /\ 0 <= w * w) by nia.
    rewrite !i32_ok by (unfold u, v, w; lia). cbn [bind].
    rewrite !i32_ok by lia. cbn [bind].
    rewrite !i32_ok by lia. cbn [bind].
    rewrite !i32_ok by lia. reflexivity.
  Qed.

  (** Entries and states the run can contain. *)
  Definition ent_ok (e : entry) : Prop :=
    in_bounds d (e_loc e) = true /\ In (e_cp e) pts /\
    e_d e = distsq (e_loc e) (e_cp e) /\
    exists t, In t dirs3 /\ e_dir e = direction_number t.

  Definition bucket (s : dstate) (k : Z) : list entry := nth (Z.to_nat k) (ds_buckets s) [].

  Definition cell (s : dstate) (i : idx) : option entry := gget (ds_field s) i.

  Definition Inv (s : dstate) : Prop :=
    wf_grid (ds_field s) /\ gdims (ds_field s) = d /\
    List.length (ds_buckets s) = Z.to_nat (maxd + 1) /\
    (forall i e, in_bounds d i = true -> cell s i = Some e -> ent_ok e /\ e_loc e = i) /\
    (forall k e, 0 <= k -> In e (bucket s k) -> ent_ok e /\ e_d e = k).

  Definition stored_le (s : dstate) (n : idx) (v : Z) : Prop :=
    exists e, cell s n = Some e /\ e_d e <= v.

  Definition mono (s s' : dstate) : Prop :=
    forall n v, in_bounds d n = true -> stored_le s n v -> stored_le s' n v.

  Definition new_entry (e : entry) (t : Z * Z * Z) : entry :=
    let n := add (e_loc e) t in E (distsq n (e_cp e)) (direction_number t) n (e_cp e).

  (** The state after accepting the offer of [e] in direction [t]. *)
  Definition accept (e : entry) (t : Z * Z * Z) (s : dstate) : dstate :=
    let e' := new_entry e t in
    DS (gset (ds_field s) (e_loc e') (Some e'))
       (upd (Z.to_nat (e_d e')) (bucket s (e_d e') ++ [e']) (ds_buckets s)).

  (** When the offer is accepted. *)
  Definition accepted (bq : Z) (e : entry) (t : Z * Z * Z) (s : dstate) : Prop :=
    let e' := new_entry e t in
    in_bounds d (e_loc e') = true /\ improves (e_d e') (cell s (e_loc e')) = true /\
    e_d e' <> bq.

  (** ** Basic facts about [accept] *)

  Lemma new_entry_ok e t :
    ent_ok e -> In t dirs3 -> in_bounds d (add (e_loc e) t) = true -> ent_ok (new_entry e t).
  Proof.
    intros (_ & Hc & _ & _) Ht Hn. unfold ent_ok, new_entry; cbn.
    repeat split; auto. exists t; auto.
  Qed.

  Lemma ent_ok_range e : ent_ok e -> 0 <= e_d e <= maxd.
  Proof.
    intros (Hl & Hc & -> & _). pose proof (distsq_nonneg (e_loc e) (e_cp e)).
    pose proof (distsq_maxd _ _ Hl (Hpts _ Hc)). lia.
  Qed.

  Section Accept.
    Variables (bq : Z) (e : entry) (t : Z * Z * Z) (s : dstate).
    Hypothesis HI : Inv s.
    Hypothesis He : ent_ok e.
    Hypothesis Ht : In t dirs3.
    Hypothesis HA : accepted bq e t s.

    Let e' := new_entry e t.

    Lemma accept_ent : ent_ok e'.
    Proof. apply new_entry_ok; auto. apply HA. Qed.

    Lemma accept_cell i :
      cell (accept e t s) i = if idx_eqb (e_loc e') i then Some e' else cell s i.
    Proof.
      unfold cell, accept; cbn [ds_field]. destruct HI as (W & Ed & _).
      apply gget_gset; auto. rewrite Ed. apply HA.
    Qed.

    Lemma accept_bucket k :
      0 <= k ->
      bucket (accept e t s) k = if k =? e_d e' then bucket s k ++ [e'] else bucket s k.
    Proof.
      intros Hk. unfold bucket, accept; cbn [ds_buckets].
      pose proof (ent_ok_range _ accept_ent) as HR.
      destruct HI as (_ & _ & L & _).
      destruct (Z.eqb_spec k (e_d e')) as [->|Hne].
      - fold e'. rewrite upd_nth_same; [reflexivity|]. rewrite L. lia.
      - fold e'. rewrite upd_nth_other; [reflexivity|]. lia.
    Qed.

    Lemma accept_inv : Inv (accept e t s).
    Proof.
      pose proof HI as (W & Ed & L & C & B).
      refine (conj _ (conj _ (conj _ (conj _ _)))).
      - apply gset_wf; auto.
      - unfold accept; cbn [ds_field]. rewrite gset_dims; auto.
      - unfold accept; cbn [ds_buckets]. rewrite upd_length; auto.
      - intros i e0 Hi. rewrite accept_cell. destruct (idx_eqb_spec (e_loc e') i) as [<-|].
        + intros [= <-]. split; [apply accept_ent|auto].
        + apply C; auto.
      - intros k e0 Hk. rewrite accept_bucket by auto.
        destruct (Z.eqb_spec k (e_d e')) as [->|].
        + intros Hin. apply in_app_iff in Hin. destruct Hin as [Hin|[<-|[]]].
          * apply B; auto.
          * split; [apply accept_ent|auto].
        + apply B; auto.
    Qed.

    Lemma accept_mono : mono s (accept e t s).
    Proof.
      intros n v Hn (e0 & E0 & Hle). unfold stored_le. rewrite accept_cell.
      destruct (idx_eqb_spec (e_loc e') n) as [Heq|]; [|eauto].
      exists e'; split; auto. destruct HA as (_ & Hi & _). fold e' in Hi.
      rewrite Heq, E0 in Hi. unfold improves in Hi. lia.
    Qed.
  End Accept.

  Lemma mono_refl s : mono s s.
  Proof. intros n v _ H; auto. Qed.

  Lemma mono_trans s1 s2 s3 : mono s1 s2 -> mono s2 s3 -> mono s1 s3.
  Proof. intros H1 H2 n v Hn H. auto. Qed.

  (** An offer either changes nothing, because the target is outside or already
      as good, or is exactly [accept]. *)
  Lemma offer_cases bq e s t :
    Inv s -> ent_ok e -> e_d e = bq -> In t (neighborhood (Z.min bq 1) (e_dir e)) ->
    let n := add (e_loc e) t in
    (offer maxd bq e s t = Ok s /\
       (in_bounds d n = true -> stored_le s n (distsq n (e_cp e)))) \/
    (offer maxd bq e s t = Ok (accept e t s) /\ accepted bq e t s).
  Proof.
    intros HI He Hbq Hin n.
    destruct He as (Hl & Hc & Hd & src & Hsrc & Edir) eqn:HeE; clear HeE.
    pose proof HI as (W & Ed & L & C & B). pose proof dim_bound as HB.
    rewrite Edir in Hin. apply neighborhood_in in Hin; auto. destruct Hin as (Ht & Hk).
    destruct t as [[a b] c]. unfold offer.
    pose proof (proj1 (dirs3_in a b c) Ht) as Hr.
    pose proof (proj1 (in_bounds_spec _ _) Hl) as Hlr.
    rewrite !i32_ok by lia. cbn [bind].
    change (I (ix (e_loc e) + a) (iy (e_loc e) + b) (iz (e_loc e) + c)) with n.
    rewrite Ed. destruct (in_bounds d n) eqn:Hn; cbn [negb]; [|left; split; auto; discriminate].
    rewrite compute_distance_squared_ok by auto. cbn [bind].
    pose proof (distsq_maxd n (e_cp e) Hn (Hpts _ Hc)) as HM.
    replace (maxd <? distsq n (e_cp e)) with false by lia.
    change (gget (ds_field s) n) with (cell s n).
    destruct (improves (distsq n (e_cp e)) (cell s n)) eqn:HI'.
    - right.
      assert (Hne : distsq n (e_cp e) <> bq).
      { unfold n. pose proof (distsq_add (e_loc e) (a, b, c) (e_cp e)) as HA.
        cbv beta iota zeta in HA. rewrite HA, <- Hd, Hbq. clear HA.
        destruct (Z.eq_dec bq 0) as [E0|E0].
        - rewrite E0 in *. assert (e_loc e = e_cp e) by (apply distsq_zero; lia).
          rewrite H. unfold keep_target in Hk. destruct src as [[? ?] ?].
          destruct ((a =? 0) && (b =? 0) && (c =? 0)) eqn:Ez; [discriminate|].
          assert (a * a <= 1 /\ b * b <= 1 /\ c * c <= 1 /\ 0 <= a * a /\ 0 <= b*b /\ 0 <= c*c) by nia.
          assert (a * a + b * b + c * c <> 0) by nia. nia.
        - assert (Z.min bq 1 = 1).
          { pose proof (distsq_nonneg (e_loc e) (e_cp e)). lia. }
          rewrite H in Hk. unfold keep_target in Hk. destruct src as [[? ?] ?].
          destruct ((a =? 0) && (b =? 0) && (c =? 0)) eqn:Ez; [discriminate|].
          cbn [Z.leb] in Hk. change (1 <=? 1) with true in Hk. cbn iota in Hk.
          destruct (Z.abs a + Z.abs b + Z.abs c =? 1) eqn:E1; [|discriminate].
          assert (a * a + b * b + c * c = 1) by nia. lia. }
      replace (distsq n (e_cp e) =? bq) with false by lia.
      unfold push_bucket. rewrite L.
      pose proof (distsq_nonneg n (e_cp e)).
      replace ((0 <=? distsq n (e_cp e)) &&
               (distsq n (e_cp e) <? Z.of_nat (Z.to_nat (maxd + 1)))) with true by lia.
      cbn [bind]. rewrite u32_idx_id by auto. split; [reflexivity|].
      repeat split; auto.
    - left. split; auto. intros _. unfold improves in HI'.
      destruct (cell s n) as [e0|] eqn:Ec; [|discriminate].
      exists e0; split; auto. lia.
  Qed.

  (** Every in-bounds target of [e]'s neighbourhood holds at most what [e] offers. *)
  Definition done (s : dstate) (bq : Z) (e : entry) : Prop :=
    forall t, In t (neighborhood (Z.min bq 1) (e_dir e)) ->
      in_bounds d (add (e_loc e) t) = true ->
      stored_le s (add (e_loc e) t) (distsq (add (e_loc e) t) (e_cp e)).

  Lemma done_mono s s' bq e : mono s s' -> done s bq e -> done s' bq e.
  Proof. intros Hm Hd t Ht Hb. apply Hm; auto. Qed.

  (** A predicate kept by every accepted offer of [e]. *)
  Definition stable (bq : Z) (e : entry) (P : dstate -> Prop) : Prop :=
    forall s t, Inv s -> P s -> In t (neighborhood (Z.min bq 1) (e_dir e)) ->
      accepted bq e t s -> P (accept e t s).

  Lemma neighborhood_dirs bq e t :
    ent_ok e -> In t (neighborhood bq (e_dir e)) -> In t dirs3.
  Proof.
    intros (_ & _ & _ & src & Hs & Ed) Hin. rewrite Ed in Hin.
    apply neighborhood_in in Hin; auto. apply Hin.
  Qed.

  Lemma accept_stored bq e t s :
    Inv s -> ent_ok e -> In t dirs3 -> accepted bq e t s ->
    stored_le (accept e t s) (add (e_loc e) t) (distsq (add (e_loc e) t) (e_cp e)).
  Proof.
    intros HI He Ht HA. exists (new_entry e t). split; [|cbn; lia].
    rewrite (accept_cell bq); auto. unfold new_entry; cbn. rewrite idx_eqb_refl; auto.
  Qed.

  Lemma process_entry_ok (P : dstate -> Prop) bq e s :
    ent_ok e -> e_d e = bq -> stable bq e P -> Inv s -> P s ->
    exists s', process_entry maxd bq s e = Ok s' /\ Inv s' /\ P s' /\ mono s s' /\ done s' bq e.
  Proof.
    intros He Hbq HP HI Hs. unfold process_entry.
    assert (Hr : 0 <= e_dir e <= 26).
    { destruct He as (_ & _ & _ & t & Ht & ->). apply direction_number_range; auto. }
    replace ((e_dir e <? 0) || (26 <? e_dir e)) with false by lia.
    destruct (foldM_inv_prefix (offer maxd bq e)
      (fun pre s1 => Inv s1 /\ P s1 /\ mono s s1 /\
         forall t, In t pre -> in_bounds d (add (e_loc e) t) = true ->
           stored_le s1 (add (e_loc e) t) (distsq (add (e_loc e) t) (e_cp e)))
      (neighborhood (Z.min bq 1) (e_dir e)) s) as (s' & E & HI' & HP' & HM' & HD').
    - split; [exact HI|]. split; [exact Hs|]. split; [apply mono_refl|]. intros t [].
    - intros pre t post s1 El (HI1 & HP1 & HM1 & HD1).
      assert (Hin : In t (neighborhood (Z.min bq 1) (e_dir e))).
      { rewrite El. apply in_app_iff; right; left; auto. }
      destruct (offer_cases bq e s1 t HI1 He Hbq Hin) as [(Eo & Ho)|(Eo & HA)].
      + exists s1. split; [exact Eo|]. split; [exact HI1|]. split; [exact HP1|].
        split; [exact HM1|].
        intros t' Ht' Hb. apply in_app_iff in Ht'. destruct Ht' as [Ht'|[<-|[]]]; auto.
      + assert (Ht : In t dirs3) by (eapply neighborhood_dirs; eauto).
        exists (accept e t s1).
        pose proof (accept_mono bq e t s1 HI1 HA) as HMa.
        split; [exact Eo|]. split; [apply (accept_inv bq); auto|].
        split; [apply HP; auto|]. split.
        * eapply mono_trans; eauto.
        * intros t' Ht' Hb. apply in_app_iff in Ht'. destruct Ht' as [Ht'|[<-|[]]].
          -- apply HMa; auto.
          -- apply (accept_stored bq); auto.
    - exists s'. auto.
  Qed.

  (** Clearing the bucket keeps the rest. *)
  Definition cleared (bq : Z) (s : dstate) : dstate :=
    DS (ds_field s) (upd (Z.to_nat bq) [] (ds_buckets s)).

  Lemma cleared_bucket bq s k :
    0 <= bq -> 0 <= k ->
    bucket (cleared bq s) k = if k =? bq then [] else bucket s k.
  Proof.
    intros Hb Hk. unfold bucket, cleared; cbn [ds_buckets].
    destruct (Z.eqb_spec k bq) as [->|Hne].
    - destruct (Nat.lt_ge_cases (Z.to_nat bq) (List.length (ds_buckets s))).
      + apply upd_nth_same; auto.
      + apply nth_overflow. rewrite upd_length; auto.
    - apply upd_nth_other. lia.
  Qed.

  Lemma cleared_inv bq s : 0 <= bq -> Inv s -> Inv (cleared bq s).
  Proof.
    intros Hb (W & Ed & L & C & B). refine (conj W (conj Ed (conj _ (conj C _)))).
    - unfold cleared; cbn [ds_buckets]. rewrite upd_length; auto.
    - intros k e Hk. rewrite cleared_bucket by auto. destruct (k =? bq); [intros []|].
      apply B; auto.
  Qed.

  Lemma process_bucket_ok (P : dstate -> Prop) bq s :
    0 <= bq -> Inv s -> P s ->
    (forall e, In e (bucket s bq) -> stable bq e P) ->
    exists s1, process_bucket maxd s bq = Ok (cleared bq s1) /\ Inv s1 /\ P s1 /\
      mono s s1 /\ (forall e, In e (bucket s bq) -> done s1 bq e).
  Proof.
    intros Hb HI Hs HP. unfold process_bucket. fold (bucket s bq).
    destruct (foldM_inv_prefix (process_entry maxd bq)
      (fun pre s1 => Inv s1 /\ P s1 /\ mono s s1 /\ forall e, In e pre -> done s1 bq e)
      (bucket s bq) s) as (s' & E & HI' & HP' & HM' & HD').
    - split; auto. split; auto. split; [apply mono_refl|]. intros e [].
    - intros pre e post s1 El (HI1 & HP1 & HM1 & HD1).
      assert (Hin : In e (bucket s bq)) by (rewrite El; apply in_app_iff; right; left; auto).
      destruct HI as (_ & _ & _ & _ & B). destruct (B bq e Hb Hin) as (He & Hed).
      destruct (process_entry_ok P bq e s1 He Hed (HP e Hin) HI1 HP1)
        as (s2 & E2 & HI2 & HP2 & HM2 & HD2).
      exists s2. split; auto. split; auto. split; auto. split; [eapply mono_trans; eauto|].
      intros e' He'. apply in_app_iff in He'. destruct He' as [He'|[<-|[]]]; auto.
      eapply done_mono; eauto.
    - exists s'. rewrite E. cbn [bind]. split; auto.
  Qed.

  (** ** Seeding *)

  Definition seed_entry (p : idx) : entry := E 0 (direction_number (0, 0, 0)) p p.

  Definition Seeded (done_pts : list idx) (s : dstate) : Prop :=
    Inv s /\
    (forall i e, in_bounds d i = true -> cell s i = Some e -> e = seed_entry i /\ In i done_pts) /\
    (forall k e, 0 <= k -> In e (bucket s k) -> k = 0 /\ exists p, In p done_pts /\ e = seed_entry p) /\
    (forall p, In p done_pts -> cell s p = Some (seed_entry p) /\ In (seed_entry p) (bucket s 0)).

  Lemma seed_entry_ok p : In p pts -> ent_ok (seed_entry p).
  Proof.
    intros Hp. unfold ent_ok, seed_entry; cbn. repeat split; auto.
    - rewrite distsq_self; auto.
    - exists (0, 0, 0). split; [|reflexivity]. apply dirs3_in; lia.
  Qed.

  Definition init_state : dstate :=
    DS (mk_grid d None None) (repeat [] (Z.to_nat (maxd + 1))).

  Lemma init_seeded : Seeded [] init_state.
  Proof.
    assert (C0 : forall i, in_bounds d i = true -> cell init_state i = None).
    { intros i Hi. unfold cell, init_state; cbn [ds_field]. apply gget_mk_grid; auto. }
    assert (B0 : forall k, bucket init_state k = []).
    { intros k. unfold bucket, init_state; cbn [ds_buckets].
      destruct (Nat.lt_ge_cases (Z.to_nat k) (Z.to_nat (maxd + 1))).
      - apply nth_repeat_lt; auto.
      - apply nth_overflow. rewrite repeat_length; auto. }
    split; [|split; [|split]].
    - refine (conj _ (conj _ (conj _ (conj _ _)))).
      + apply mk_grid_wf; auto.
      + reflexivity.
      + cbn. apply repeat_length.
      + intros i e Hi. rewrite C0; auto. discriminate.
      + intros k e _. rewrite B0. intros [].
    - intros i e Hi. rewrite C0; auto. discriminate.
    - intros k e _. rewrite B0. intros [].
    - intros p [].
  Qed.

  Lemma seed_step done_pts p s :
    In p pts -> Seeded done_pts s ->
    exists s', seed_point s p = Ok s' /\ Seeded (done_pts ++ [p]) s'.
  Proof.
    intros Hp (HI & HC & HB & HD). pose proof HI as (W & Ed & L & C & B).
    pose proof (Hpts p Hp) as Hb. unfold seed_point. rewrite Ed, Hb.
    rewrite u32_idx_id by auto. unfold push_bucket. rewrite L.
    pose proof maxd_nonneg.
    replace ((0 <=? 0) && (0 <? Z.of_nat (Z.to_nat (maxd + 1)))) with true by lia.
    cbn [bind]. fold (seed_entry p).
    set (s' := DS (gset (ds_field s) p (Some (seed_entry p)))
                  (upd (Z.to_nat 0) (nth (Z.to_nat 0) (ds_buckets s) [] ++ [seed_entry p])
                     (ds_buckets s))).
    assert (Cs : forall i, cell s' i = if idx_eqb p i then Some (seed_entry p) else cell s i).
    { intros i. unfold cell, s'; cbn [ds_field]. apply gget_gset; auto. rewrite Ed; auto. }
    assert (Bs : forall k, 0 <= k ->
              bucket s' k = if k =? 0 then bucket s 0 ++ [seed_entry p] else bucket s k).
    { intros k Hk. unfold bucket, s'; cbn [ds_buckets].
      destruct (Z.eqb_spec k 0) as [->|Hne].
      - rewrite upd_nth_same; auto. rewrite L. lia.
      - rewrite upd_nth_other; auto. lia. }
    exists s'. split; [reflexivity|].
    assert (In p (done_pts ++ [p])) by (apply in_app_iff; right; left; auto).
    split; [|split; [|split]].
    - refine (conj _ (conj _ (conj _ (conj _ _)))).
      + apply gset_wf; auto.
      + unfold s'; cbn [ds_field]. rewrite gset_dims; auto.
      + unfold s'; cbn [ds_buckets]. rewrite upd_length; auto.
      + intros i e Hi. rewrite Cs. destruct (idx_eqb_spec p i) as [<-|]; [|apply C; auto].
        intros [= <-]. split; [apply seed_entry_ok; auto|reflexivity].
      + intros k e Hk. rewrite Bs by auto. destruct (Z.eqb_spec k 0) as [->|]; [|apply B; auto].
        intros Hin. apply in_app_iff in Hin. destruct Hin as [Hin|[<-|[]]].
        * apply B; auto.
        * split; [apply seed_entry_ok; auto|reflexivity].
    - intros i e Hi. rewrite Cs. destruct (idx_eqb_spec p i) as [<-|].
      + intros [= <-]. auto.
      + intros Hc. destruct (HC i e Hi Hc). split; auto. apply in_app_iff; auto.
    - intros k e Hk. rewrite Bs by auto. destruct (Z.eqb_spec k 0) as [->|].
      + intros Hin. split; auto. apply in_app_iff in Hin. destruct Hin as [Hin|[<-|[]]].
        * destruct (HB 0 e Hk Hin) as (_ & q & Hq & ->). exists q. split; auto.
          apply in_app_iff; auto.
        * exists p; auto.
      + intros Hin. destruct (HB k e Hk Hin) as (-> & _). lia.
    - intros q Hq. rewrite Cs, Bs by lia. cbn [Z.eqb]. rewrite in_app_iff.
      apply in_app_iff in Hq. destruct Hq as [Hq|[<-|[]]].
      + destruct (HD q Hq) as (Hc & Hin). destruct (idx_eqb_spec p q) as [<-|]; auto.
      + rewrite idx_eqb_refl. cbn; auto.
  Qed.

  Lemma seed_all :
    exists s1, foldM seed_point pts init_state = Ok s1 /\ Seeded pts s1.
  Proof.
    apply (foldM_inv_prefix seed_point Seeded).
    - apply init_seeded.
    - intros pre p post s El Hs. apply seed_step; auto.
      rewrite El. apply in_app_iff; right; left; auto.
  Qed.

  (** ** Generic statement about a whole run *)

  (** To show that the run succeeds and ends in a state satisfying [J (maxd+1)],
      give an invariant indexed by the next bucket. *)
  Lemma run_inv (J : Z -> dstate -> Prop) :
    (forall s, Seeded pts s -> J 0 s) ->
    (forall k s, 0 <= k <= maxd -> Inv s -> J k s ->
        exists s', process_bucket maxd s k = Ok s' /\ Inv s' /\ J (k + 1) s') ->
    exists s, build_distance_field d pts = Ok (ds_field s) /\ Inv s /\ J (maxd + 1) s.
  Proof.
    intros H0 Hstep. unfold build_distance_field. rewrite maxd_eq. cbn [bind].
    destruct seed_all as (s1 & E1 & HS). fold init_state. rewrite E1. cbn [bind].
    pose proof maxd_nonneg.
    destruct (zloop_inv (process_bucket maxd) (fun k s => Inv s /\ J k s) (maxd + 1) s1)
      as (s2 & E2 & HI2 & HJ2).
    - lia.
    - split; [apply HS|apply H0; auto].
    - intros k s Hk (HI & HJ). apply Hstep; auto. lia.
    - rewrite E2. cbn [bind]. exists s2; auto.
  Qed.

  (** ** First consequences: the run succeeds, distances are realised *)

  Lemma stable_bucket_grow bq e k x :
    ent_ok e -> 0 <= k -> stable bq e (fun s => In x (bucket s k)).
  Proof.
    intros He Hk s t HI Hx' Hin HA.
    rewrite (accept_bucket bq); auto; [|eapply neighborhood_dirs; eauto].
    destruct (k =? _); auto. apply in_app_iff; auto.
  Qed.

  Lemma stable_true bq e : stable bq e (fun _ => True).
  Proof. intros s t _ _ _ _; exact Logic.I. Qed.

  Lemma stable_and bq e P Q :
    stable bq e P -> stable bq e Q -> stable bq e (fun s => P s /\ Q s).
  Proof. intros HP HQ s t HI (H1 & H2) Hin HA. split; [apply HP|apply HQ]; auto. Qed.

  Lemma stable_mono bq e n v :
    ent_ok e -> in_bounds d n = true -> stable bq e (fun s => stored_le s n v).
  Proof. intros He Hn s t HI H Hin HA. eapply accept_mono; eauto. Qed.

  Lemma cleared_mono bq s : mono s (cleared bq s).
  Proof. intros n v _ H. exact H. Qed.

  (** Sources hold 0; after bucket 0 the 26-neighbours of sources are bounded;
      after bucket 3 so are the cells one axis step further, as far as the
      first-level entries reach. *)

  (** Shape of the state right after bucket 0. *)
  Definition Level1 (s : dstate) : Prop :=
    (forall i e, in_bounds d i = true -> cell s i = Some e ->
       within_one i (e_cp e) /\
       e_dir e = direction_number (ix i - ix (e_cp e), iy i - iy (e_cp e), iz i - iz (e_cp e)) /\
       (1 <= e_d e -> In e (bucket s (e_d e)))) /\
    (forall p n, In p pts -> in_bounds d n = true -> within_one n p ->
       stored_le s n (distsq n p)) /\
    (forall k e, 1 <= k -> In e (bucket s k) ->
       e_dir e = direction_number (ix (e_loc e) - ix (e_cp e), iy (e_loc e) - iy (e_cp e),
                                   iz (e_loc e) - iz (e_cp e)) /\ within_one (e_loc e) (e_cp e)).

  Lemma level1 s :
    Seeded pts s ->
    exists s', process_bucket maxd s 0 = Ok s' /\ Inv s' /\ Level1 s' /\ bucket s' 0 = [].
  Proof.
    intros (HI & HC & HB & HD).
    pose (dir_ok := fun e : entry =>
      e_dir e = direction_number (ix (e_loc e) - ix (e_cp e), iy (e_loc e) - iy (e_cp e),
                                   iz (e_loc e) - iz (e_cp e)) /\ within_one (e_loc e) (e_cp e)).
    pose (P := fun s1 : dstate =>
      (forall i e, in_bounds d i = true -> cell s1 i = Some e -> dir_ok e /\ In e (bucket s1 (e_d e))) /\
      (forall k e, 0 <= k -> In e (bucket s1 k) -> dir_ok e)).
    assert (Dseed : forall p, dir_ok (seed_entry p)).
    { intros p. unfold dir_ok, seed_entry, within_one; cbn. rewrite !Z.sub_diag. cbn. lia. }
    destruct (process_bucket_ok P 0 s) as (s1 & E1 & HI1 & (HP1 & HP2) & HM1 & HD1).
    - lia.
    - auto.
    - split.
      + intros i e Hi Hc. destruct (HC i e Hi Hc) as (-> & Hp). split; [apply Dseed|].
        apply HD in Hp. cbn. apply Hp.
      + intros k e Hk Hin. destruct (HB k e Hk Hin) as (_ & p & _ & ->). apply Dseed.
    - intros e Hin s1 t HI1 (HP1 & HP2) Ht HA.
      destruct (HB 0 e ltac:(lia) Hin) as (_ & p & Hp & ->).
      pose proof (seed_entry_ok p Hp) as He.
      assert (Htd : In t dirs3) by (eapply neighborhood_dirs; eauto).
      assert (Dn : dir_ok (new_entry (seed_entry p) t)).
      { destruct t as [[a b] c]. unfold dir_ok, new_entry, seed_entry, within_one; cbn.
        apply dirs3_in in Htd. split; lia. }
      split.
      + intros i e Hi. rewrite (accept_cell 0); auto.
        destruct (idx_eqb_spec (e_loc (new_entry (seed_entry p) t)) i) as [<-|].
        * intros [= <-]. split; auto.
          rewrite (accept_bucket 0); auto; [|cbn; apply distsq_nonneg].
          rewrite Z.eqb_refl. apply in_app_iff; right; left; auto.
        * intros Hc. destruct (HP1 i e Hi Hc) as (H1 & H2). split; auto.
          apply (stable_bucket_grow 0); auto.
          destruct HI1 as (_ & _ & _ & C & _). destruct (C i e Hi Hc) as (Hok & _).
          apply ent_ok_range in Hok; lia.
      + intros k e Hk. rewrite (accept_bucket 0); auto.
        destruct (k =? _); [|apply HP2; auto]. intros Hin'. apply in_app_iff in Hin'.
        destruct Hin' as [Hin'|[<-|[]]]; auto. eapply HP2; eauto.
    - exists (cleared 0 s1). split; auto. split; [apply cleared_inv; auto; lia|].
      split; [|rewrite cleared_bucket by lia; reflexivity].
      split; [|split].
      + intros i e Hi Hc. change (cell s1 i = Some e) in Hc.
        destruct (HP1 i e Hi Hc) as ((D1 & D2) & Hin).
        destruct HI1 as (_ & _ & _ & C & _). destruct (C i e Hi Hc) as (Hok & El).
        rewrite El in *. split; auto. split; auto. intros H1.
        rewrite cleared_bucket by lia. replace (e_d e =? 0) with false by lia. auto.
      + intros p n Hp Hn Hw. apply cleared_mono; auto.
        destruct (idx_eq_dec n p) as [->|Hne].
        * apply HM1; auto. rewrite distsq_self. exists (seed_entry p).
          split; [apply HD; auto|cbn; lia].
        * destruct (HD p Hp) as (_ & Hin). specialize (HD1 _ Hin).
          specialize (HD1 (ix n - ix p, iy n - iy p, iz n - iz p)).
          destruct Hw as (W1 & W2 & W3).
          assert (En : add (e_loc (seed_entry p)) (ix n - ix p, iy n - iy p, iz n - iz p) = n).
          { destruct n, p; unfold add, seed_entry; cbn. f_equal; lia. }
          rewrite En in HD1. apply HD1; auto.
          change (e_dir (seed_entry p)) with (direction_number (0, 0, 0)).
          apply neighborhood_in; [apply dirs3_in; lia|]. split; [apply dirs3_in; lia|].
          unfold keep_target. change (1 <=? Z.min 0 1) with false. cbn iota.
          destruct ((ix n - ix p =? 0) && (iy n - iy p =? 0) && (iz n - iz p =? 0)) eqn:Ez; auto.
          exfalso. apply Hne. destruct n, p; cbn in *. f_equal; lia.
      + intros k e Hk. rewrite cleared_bucket by lia. replace (k =? 0) with false by lia.
        intros Hin. apply (HP2 k e); auto. lia.
  Qed.

  (** After bucket 0, processing continues with axis steps only; an entry that
      sits in a later bucket will be processed. *)
  Lemma run_from_level1 (X : entry -> Prop) s1 :
    Inv s1 ->
    (forall e, X e -> ent_ok e /\ 1 <= e_d e /\ In e (bucket s1 (e_d e))) ->
    forall k s, 1 <= k <= maxd -> Inv s ->
      mono s1 s /\ (forall e, X e -> (k <= e_d e -> In e (bucket s (e_d e))) /\
                                 (e_d e < k -> done s 1 e)) ->
      exists s', process_bucket maxd s k = Ok s' /\ Inv s' /\
        mono s1 s' /\ (forall e, X e -> (k + 1 <= e_d e -> In e (bucket s' (e_d e))) /\
                                 (e_d e < k + 1 -> done s' 1 e)).
  Proof.
    intros HI1 HX k s Hk HI (HM & HE).
    destruct (process_bucket_ok
      (fun s' => forall e, X e -> k <= e_d e -> In e (bucket s' (e_d e))) k s)
      as (s2 & E2 & HI2 & HP2 & HM2 & HD2).
    - lia.
    - auto.
    - intros e Xe Hle. apply (HE e); auto.
    - intros e Hin s' t HI' HP' Ht HA e0 Xe Hle.
      destruct HI as (_ & _ & _ & _ & B). destruct (B k e ltac:(lia) Hin) as (He & _).
      apply (stable_bucket_grow k); auto. lia.
    - exists (cleared k s2). split; auto. split; [apply cleared_inv; auto; lia|].
      split; [eapply mono_trans; [eauto|]; eapply mono_trans; [eauto|apply cleared_mono]|].
      intros e Xe. split; intros Hk'.
      + rewrite cleared_bucket by lia. replace (e_d e =? k) with false by lia. apply HP2; auto. lia.
      + apply (done_mono s2); [apply cleared_mono|].
        destruct (Z.eq_dec (e_d e) k) as [Ek|Hne].
        * specialize (HD2 e). rewrite <- Ek in HD2 at 1. destruct (HE e Xe) as (Hb & _).
          specialize (HD2 (Hb ltac:(lia))). intros t Ht. apply HD2.
          replace (Z.min k 1) with 1 by lia. replace (Z.min 1 1) with 1 in Ht by lia. auto.
        * apply (done_mono s); auto. apply HE; auto. lia.
  Qed.

  (** Facts about the final field, for arbitrary obstacle sets. *)
  Lemma final_facts :
    exists s, build_distance_field d pts = Ok (ds_field s) /\ Inv s /\
      exists s1, Level1 s1 /\ Inv s1 /\ mono s1 s /\
        forall i e, in_bounds d i = true -> cell s1 i = Some e -> 1 <= e_d e -> done s 1 e.
  Proof.
    pose (J := fun k s => if k =? 0 then Seeded pts s else
      exists s1, Level1 s1 /\ Inv s1 /\ mono s1 s /\
        forall e, (exists i, in_bounds d i = true /\ cell s1 i = Some e /\ 1 <= e_d e) ->
           (k <= e_d e -> In e (bucket s (e_d e))) /\ (e_d e < k -> done s 1 e)).
    destruct (run_inv J) as (s & E & HI & HJ).
    - intros s Hs. unfold J; cbn. auto.
    - intros k s Hk HI HJ. unfold J in HJ. destruct (Z.eqb_spec k 0) as [->|Hne].
      + destruct (level1 s HJ) as (s' & E' & HI' & HL & _). exists s'. split; auto. split; auto.
        unfold J. cbn. exists s'. split; [exact HL|]. split; [exact HI'|]. split; [apply mono_refl|].
        intros e (i & Hi & Hc & H1). split.
        * intros _. destruct HL as (HL & _). apply (HL i e); auto.
        * intros Hlt. lia.
      + destruct HJ as (s1 & HL & HI1 & HM & HE).
        destruct (run_from_level1
          (fun e => exists i, in_bounds d i = true /\ cell s1 i = Some e /\ 1 <= e_d e) s1 HI1)
          with (k := k) (s := s) as (s' & E' & HI' & HM' & HE'); auto; try lia.
        * intros e (i & Hi & Hc & H1). destruct HI1 as (_ & _ & _ & C & _).
          split; [apply (C i e); auto|]. split; auto. destruct HL as (HL & _). apply (HL i e); auto.
        * exists s'. split; auto. split; auto. unfold J. replace (k + 1 =? 0) with false by lia.
          exists s1. auto.
    - pose proof maxd_nonneg. unfold J in HJ. replace (maxd + 1 =? 0) with false in HJ by lia.
      destruct HJ as (s1 & HL & HI1 & HM & HE).
      exists s. split; auto. split; auto. exists s1. split; auto. split; auto. split; auto.
      intros i e Hi Hc H1. apply HE; [eauto|].
      destruct HI1 as (_ & _ & _ & C & _). destruct (C i e Hi Hc) as (Hok & _).
      apply ent_ok_range in Hok. lia.
  Qed.

End Run.

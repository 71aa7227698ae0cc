(** Comparing runs of the distance-field construction: repeated obstacles do not
    matter, and where values are exact neither does the order. *)
From Coq Require Import Permutation.
From Verif Require Import Base BaseFacts Grid GridFacts DistModel DistSpec DistProofs DistThms DistPlanar DistReach FieldSpec.

Definition lift {A B} (f : A -> B) (m : res A) : res B := let* a := m in Ok (f a).

(** The same state with another bucket 0. *)
Definition swap0 (B : list entry) (s : dstate) : dstate := DS (ds_field s) (upd 0 B (ds_buckets s)).

Lemma upd_comm {A} n m (v w : A) l : n <> m -> upd n v (upd m w l) = upd m w (upd n v l).
Proof.
  revert n m; induction l as [|a l IH]; intros [|n] [|m] H; cbn; auto; try congruence.
  f_equal. apply IH. congruence.
Qed.

Lemma upd_upd {A} n (v w : A) l : upd n v (upd n w l) = upd n v l.
Proof. revert n; induction l as [|a l IH]; intros [|n]; cbn; auto. f_equal; auto. Qed.

Lemma push_swap bs B k e : k <> 0 ->
  push_bucket (upd 0 B bs) k e = lift (fun b => upd 0 B b) (push_bucket bs k e).
Proof.
  intros Hk. unfold push_bucket. rewrite upd_length.
  destruct ((0 <=? k) && (k <? Z.of_nat (List.length bs))) eqn:E; [|reflexivity].
  cbn [lift bind]. rewrite upd_nth_other by lia. rewrite (upd_comm (Z.to_nat k) 0) by lia. reflexivity.
Qed.

Lemma offer_swap m e B s t : offer m 0 e (swap0 B s) t = lift (swap0 B) (offer m 0 e s t).
Proof.
  destruct t as [[a b] c]. unfold offer. cbn [swap0 ds_field ds_buckets].
  destruct (i32 (ix (e_loc e) + a)) as [x| |]; [cbn [bind]|reflexivity|reflexivity].
  destruct (i32 (iy (e_loc e) + b)) as [y| |]; [cbn [bind]|reflexivity|reflexivity].
  destruct (i32 (iz (e_loc e) + c)) as [z| |]; [cbn [bind]|reflexivity|reflexivity].
  destruct (negb _); [reflexivity|].
  destruct (compute_distance_squared _ _) as [nd| |]; [cbn [bind]|reflexivity|reflexivity].
  destruct (m <? nd); [reflexivity|]. destruct (improves _ _); [|reflexivity].
  destruct (Z.eqb_spec nd 0); [reflexivity|].
  rewrite push_swap by auto. destruct (push_bucket _ _ _); reflexivity.
Qed.

Lemma offers_swap m e B l s :
  foldM (offer m 0 e) l (swap0 B s) = lift (swap0 B) (foldM (offer m 0 e) l s).
Proof.
  revert s; induction l as [|t l IH]; intros s; [reflexivity|]. cbn [foldM].
  rewrite offer_swap. destruct (offer m 0 e s t) as [s1| |]; cbn [lift bind]; [apply IH|reflexivity|reflexivity].
Qed.

Lemma entries_swap m B l s :
  foldM (process_entry m 0) l (swap0 B s) = lift (swap0 B) (foldM (process_entry m 0) l s).
Proof.
  revert s; induction l as [|e l IH]; intros s; [reflexivity|]. cbn [foldM].
  assert (E : process_entry m 0 (swap0 B s) e = lift (swap0 B) (process_entry m 0 s e)).
  { unfold process_entry. destruct (_ || _); [reflexivity|]. apply offers_swap. }
  rewrite E. destruct (process_entry m 0 s e) as [s1| |]; cbn [lift bind]; [apply IH|reflexivity|reflexivity].
Qed.

Lemma gset_same {A} (g : grid A) i v : wf_grid g -> in_bounds (gdims g) i = true -> gget g i = v -> gset g i v = g.
Proof.
  intros W Hb Hv. apply grid_ext; auto.
  - apply gset_wf; auto.
  - apply gset_dims.
  - apply gset_oob.
  - intros j Hj. rewrite gget_gset; auto. destruct (idx_eqb_spec i j) as [<-|]; auto.
Qed.

Lemma zrange_cons n : 0 < n -> exists rest, zrange n = 0 :: rest.
Proof.
  intros H. unfold zrange. replace (Z.to_nat n) with (S (Z.to_nat n - 1)) by lia. cbn [seq map]. eauto.
Qed.

Section Repeat.
  Variables (d : dims) (l1 l2 : list idx) (p : idx).
  Hypothesis Hsz : size_ok d.
  Hypothesis Hin : all_inside d (l1 ++ l2).
  Hypothesis Hp : In p l1.

  Let pts := l1 ++ l2.
  Let Hx := proj1 Hsz.
  Let Hy := proj1 (proj2 Hsz).
  Let Hz := proj1 (proj2 (proj2 Hsz)).
  Let Hm := proj2 (proj2 (proj2 Hsz)).

  Lemma seed_ok s q : Inv d pts s -> In q pts ->
    seed_point s q = Ok (DS (gset (ds_field s) q (Some (seed_entry q)))
                            (upd 0 (nth 0 (ds_buckets s) [] ++ [seed_entry q]) (ds_buckets s))).
  Proof.
    intros HI Hq. pose proof HI as (W & Ed & L & C & B). pose proof (Hin q Hq) as Hb.
    unfold seed_point. rewrite Ed, Hb.
    rewrite (u32_idx_id d pts Hx Hy Hz Hm Hin) by auto. unfold push_bucket. rewrite L.
    pose proof (maxd_nonneg d Hx Hy Hz Hm).
    replace ((0 <=? 0) && (0 <? Z.of_nat (Z.to_nat (maxd d + 1)))) with true by lia. reflexivity.
  Qed.

  (** Seeding the rest after a repetition: the same state but for the repeated entry
      in bucket 0. *)
  Lemma seed_rest e B1 l : forall done_pts s R,
    (forall q, In q l -> In q pts) -> Seeded d pts done_pts s -> nth 0 (ds_buckets s) [] = B1 ++ R ->
    exists s' R', foldM seed_point l s = Ok s' /\ Seeded d pts (done_pts ++ l) s' /\
      nth 0 (ds_buckets s') [] = B1 ++ R' /\
      foldM seed_point l (swap0 (B1 ++ e :: R) s) = Ok (swap0 (B1 ++ e :: R') s').
  Proof.
    induction l as [|q l IH]; intros dn s R Hl HS HR.
    - exists s, R. rewrite app_nil_r. auto.
    - pose proof HS as (HI & _). cbn [foldM].
      pose proof (Hl q (or_introl eq_refl)) as Hq.
      destruct (seed_step d pts Hx Hy Hz Hm Hin dn q s Hq HS) as (s1 & E1 & HS1).
      rewrite E1. cbn [bind]. rewrite seed_ok in E1 by auto.
      match type of E1 with Ok ?a = Ok ?b => assert (Es : a = b) by congruence end. subst s1. clear E1.
      pose proof HI as (W & Ed & L & C & B). pose proof (maxd_nonneg d Hx Hy Hz Hm) as HM.
      set (s1 := DS _ _) in *.
      destruct (IH (dn ++ [q]) s1 (R ++ [seed_entry q])) as (s' & R' & E & HS' & HB & E').
      + intros a Ha. apply Hl. right; auto.
      + exact HS1.
      + unfold s1; cbn [ds_buckets]. rewrite upd_nth_same by (rewrite L; lia). rewrite HR, <- app_assoc. reflexivity.
      + exists s', R'. split; [exact E|]. rewrite <- app_assoc in HS'. split; [exact HS'|]. split; [exact HB|].
        rewrite <- E'.
        assert (E2 : seed_point (swap0 (B1 ++ e :: R) s) q = Ok (swap0 (B1 ++ e :: R ++ [seed_entry q]) s1)).
        { unfold seed_point, swap0; cbn [ds_field ds_buckets]. rewrite Ed, (Hin q Hq).
          rewrite (u32_idx_id d pts Hx Hy Hz Hm Hin) by auto. fold (seed_entry q).
          unfold push_bucket. rewrite upd_length, L.
          replace ((0 <=? 0) && (0 <? Z.of_nat (Z.to_nat (maxd d + 1)))) with true by lia. cbn [bind].
          change (Z.to_nat 0) with 0%nat. rewrite upd_nth_same by (rewrite L; lia).
          unfold s1; cbn [ds_field ds_buckets]. rewrite !upd_upd, <- app_assoc. reflexivity. }
        rewrite E2. reflexivity.
  Qed.

  (** Processing an entry again changes nothing. *)
  Lemma process_again bq e s : Inv d pts s -> ent_ok d pts e -> e_d e = bq -> done d s bq e ->
    process_entry (maxd d) bq s e = Ok s.
  Proof.
    intros HI He Hbq Hd. unfold process_entry.
    destruct (_ || _); [reflexivity|].
    assert (G : forall l, (forall t, In t l -> In t (neighborhood (Z.min bq 1) (e_dir e))) ->
              foldM (offer (maxd d) bq e) l s = Ok s).
    { induction l as [|t l IH]; intros Hl; [reflexivity|]. cbn [foldM].
      destruct (offer_cases d pts Hx Hy Hz Hm Hin bq e s t HI He Hbq (Hl t (or_introl eq_refl))) as [(-> & _)|(_ & A1 & A2 & A3)].
      - cbn [bind]. apply IH. intros t' H. apply Hl. right; auto.
      - exfalso. destruct (Hd t (Hl t (or_introl eq_refl)) A1) as (e0 & E0 & Hle).
        change (e_loc (new_entry e t)) with (add (e_loc e) t) in A2. rewrite E0 in A2. cbn [improves] in A2.
        change (e_d (new_entry e t)) with (distsq (add (e_loc e) t) (e_cp e)) in A2. lia. }
    apply G. auto.
  Qed.

  Lemma repeated_obstacle : build_distance_field d (l1 ++ p :: l2) = build_distance_field d (l1 ++ l2).
  Proof.
    unfold build_distance_field. rewrite (maxd_eq d Hx Hy Hz Hm). cbn [bind].
    fold (init_state d). rewrite !foldM_app.
    destruct (foldM_inv_prefix seed_point (Seeded d pts) l1 (init_state d)) as (s1 & E1 & HS1).
    { apply init_seeded; auto. }
    { intros pre q post s El Hs. apply (seed_step d pts Hx Hy Hz Hm Hin); auto. unfold pts. rewrite El.
      apply in_app_iff. left. apply in_app_iff. right. left. auto. }
    rewrite E1. cbn [bind foldM].
    pose proof HS1 as (HI1 & _ & HB1 & HD1). destruct (HD1 p Hp) as (Hc & Hb).
    rewrite seed_ok by (auto; unfold pts; apply in_app_iff; auto). cbn [bind].
    pose proof HI1 as (W1 & Ed1 & L1 & C1 & B1).
    assert (Hpb : in_bounds d p = true) by (apply Hin; apply in_app_iff; auto).
    rewrite gset_same; auto; [|rewrite Ed1; auto].
    fold (swap0 (nth 0 (ds_buckets s1) [] ++ [seed_entry p]) s1).
    destruct (seed_rest (seed_entry p) (nth 0 (ds_buckets s1) []) l2 l1 s1 []) as (s2 & R & E2 & HS2 & HR & E2').
    { intros q Hq. unfold pts. apply in_app_iff; auto. }
    { exact HS1. }
    { rewrite app_nil_r. reflexivity. }
    rewrite E2, E2'. cbn [bind]. pose proof (maxd_nonneg d Hx Hy Hz Hm) as HM.
    set (b := nth 0 (ds_buckets s1) []) in *.
    destruct (zrange_cons (maxd d + 1) ltac:(lia)) as (rest & ->). cbn [foldM].
    assert (E : process_bucket (maxd d) (swap0 (b ++ seed_entry p :: R) s2) 0 = process_bucket (maxd d) s2 0).
    { unfold process_bucket. change (Z.to_nat 0) with 0%nat.
      pose proof HS2 as (HI2 & _ & HB2 & HD2). pose proof HI2 as (W2 & Ed2 & L2 & C2 & B2).
      replace (nth 0 (ds_buckets (swap0 (b ++ seed_entry p :: R) s2)) []) with (b ++ seed_entry p :: R)
        by (unfold swap0; cbn [ds_buckets]; rewrite upd_nth_same by (rewrite L2; lia); reflexivity).
      rewrite HR, entries_swap.
      replace (foldM (process_entry (maxd d) 0) (b ++ seed_entry p :: R) s2)
        with (foldM (process_entry (maxd d) 0) (b ++ R) s2).
      - destruct (foldM (process_entry (maxd d) 0) (b ++ R) s2) as [s3| |]; [|reflexivity|reflexivity].
        cbn [lift bind swap0 ds_field ds_buckets]. rewrite upd_upd. reflexivity.
      - rewrite !foldM_app.
        assert (Hent : forall e, In e b -> ent_ok d pts e /\ e_d e = 0).
        { intros e He. apply (B1 0); [lia|exact He]. }
        destruct (foldM_inv_prefix (process_entry (maxd d) 0)
          (fun pre s => Inv d pts s /\ forall e, In e pre -> done d s 0 e) b s2) as (s3 & E3 & HI3 & HD3).
        + split; [exact HI2|]. intros e [].
        + intros pre e post s El (HI & HD).
          assert (He : In e b) by (rewrite El; apply in_app_iff; right; left; auto).
          destruct (Hent e He) as (Hok & H0).
          destruct (process_entry_ok d pts Hx Hy Hz Hm Hin (fun _ => True) 0 e s Hok H0 (stable_true d pts 0 e) HI Logic.I)
            as (s' & E' & HI' & _ & HM' & HD').
          exists s'. split; [exact E'|]. split; [exact HI'|].
          intros e' He'. apply in_app_iff in He' as [He'|[<-|[]]]; [|exact HD']. eapply done_mono; eauto.
        + rewrite E3. cbn [bind foldM]. destruct (Hent (seed_entry p) Hb) as (Hok & H0).
          rewrite process_again; auto. }
    rewrite E. reflexivity.
  Qed.
End Repeat.

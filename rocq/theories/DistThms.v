(** Theorems about the distance-field construction, derived from the run
    invariants in DistProofs.v. *)
From Verif Require Import Base BaseFacts Grid GridFacts DistModel DistSpec DistProofs.

Section Thms.
  Variables (d : dims) (pts : list idx).
  Hypothesis Hsz : size_ok d.

  Lemma build_total : all_inside d pts -> exists f, build_distance_field d pts = Ok f.
  Proof.
    intros Hp. destruct Hsz as (H1 & H2 & H3 & H4).
    destruct (final_facts d pts H1 H2 H3 H4 Hp) as (s & E & _). eauto.
  Qed.

  Lemma build_throws :
    (exists p, In p pts /\ in_bounds d p = false) ->
    exists msg, build_distance_field d pts = Throw msg.
  Proof.
    intros (p & Hin & Hp). destruct Hsz as (H1 & H2 & H3 & H4).
    unfold build_distance_field. rewrite maxd_eq by auto. cbn [bind].
    pose proof (maxd_nonneg d H1 H2 H3 H4) as HM.
    assert (G : forall l s, In p l -> gdims (ds_field s) = d -> ds_buckets s <> [] ->
                exists msg, foldM seed_point l s = Throw msg).
    { induction l as [|q l IH]; intros s [].
      - intros Ed Hb. subst q. cbn [foldM]. unfold seed_point. rewrite Ed, Hp. cbn. eauto.
      - intros Ed Hb. cbn [foldM]. unfold seed_point. rewrite Ed.
        destruct (in_bounds d q); [|cbn; eauto].
        unfold push_bucket.
        replace ((0 <=? 0) && (0 <? Z.of_nat (List.length (ds_buckets s)))) with true.
        2:{ destruct (ds_buckets s); [congruence|cbn [List.length]; lia]. }
        cbn [bind]. apply IH; auto.
        + cbn [ds_field]. rewrite gset_dims; auto.
        + cbn [ds_buckets]. destruct (ds_buckets s); [congruence|]. cbn. discriminate. }
    destruct (G pts (DS (mk_grid d None None) (repeat [] (Z.to_nat (maxd d + 1))))) as (msg & E);
      auto.
    - cbn. replace (Z.to_nat (maxd d + 1)) with (S (Z.to_nat (maxd d))) by lia. discriminate.
    - rewrite E. cbn. eauto.
  Qed.

  Section Inside.
    Hypothesis Hp : all_inside d pts.
    Variable f : dfield.
    Hypothesis Hf : build_distance_field d pts = Ok f.

    Lemma build_facts :
      exists s, f = ds_field s /\ Inv d pts s /\
      exists s1, Level1 d pts s1 /\ Inv d pts s1 /\ mono d s1 s /\
        forall i e, in_bounds d i = true -> cell s1 i = Some e -> 1 <= e_d e -> done d s 1 e.
    Proof.
      destruct Hsz as (H1 & H2 & H3 & H4).
      destruct (final_facts d pts H1 H2 H3 H4 Hp) as (s & E & HI & H).
      exists s. split; [congruence|]. auto.
    Qed.

    Lemma build_dims : gdims f = d /\ wf_grid f.
    Proof. destruct build_facts as (s & -> & (W & Ed & _) & _). auto. Qed.

    Lemma build_realised c m :
      in_bounds d c = true -> cell_distsq f c = Some m ->
      exists p, In p pts /\ distsq c p = m.
    Proof.
      destruct build_facts as (s & -> & (_ & _ & _ & C & _) & _).
      intros Hc Hm. unfold cell_distsq in Hm. fold (cell s c) in Hm.
      destruct (cell s c) as [e|] eqn:Ec; [|discriminate]. injection Hm as <-.
      destruct (C c e Hc Ec) as ((_ & Hin & Hd & _) & El).
      exists (e_cp e). split; auto. rewrite Hd, El; auto.
    Qed.

    Lemma stored_le_cell s c v :
      stored_le s c v -> exists m, cell_distsq (ds_field s) c = Some m /\ m <= v.
    Proof.
      intros (e & Ec & Hle). unfold cell_distsq. fold (cell s c). rewrite Ec. eauto.
    Qed.

    Lemma build_source c : In c pts -> cell_distsq f c = Some 0.
    Proof.
      intros Hin. pose proof (Hp c Hin) as Hb.
      destruct build_facts as (s & Ef & HI & s1 & (_ & HL & _) & _ & HM & _).
      assert (W : within_one c c) by (unfold within_one; lia).
      destruct (stored_le_cell s c 0) as (m & Em & Hm).
      { apply HM; auto. rewrite <- (distsq_self c). apply HL; auto. }
      rewrite <- Ef in Em. destruct (build_realised c m Hb Em) as (p & _ & Hd).
      pose proof (distsq_nonneg c p). rewrite Em. f_equal. lia.
    Qed.

    Lemma build_zero_iff c :
      in_bounds d c = true -> (cell_distsq f c = Some 0 <-> In c pts).
    Proof.
      intros Hb. split; [|apply build_source].
      intros E. destruct (build_realised c 0 Hb E) as (p & Hin & Hd).
      apply distsq_zero in Hd. subst; auto.
    Qed.

    Lemma build_upper_near c p :
      in_bounds d c = true -> In p pts -> within_one c p ->
      exists m, cell_distsq f c = Some m /\ m <= distsq c p.
    Proof.
      intros Hb Hin Hw.
      destruct build_facts as (s & Ef & HI & s1 & (_ & HL & _) & _ & HM & _).
      destruct (stored_le_cell s c (distsq c p)) as (m & Em & Hm).
      { apply HM; auto. }
      rewrite <- Ef in Em. eauto.
    Qed.

    (** One axis step beyond the 26-neighbourhood, directly away from the nearest
        obstacle. *)
    Lemma build_level2 m t p :
      in_bounds d m = true -> in_bounds d (add m t) = true -> In p pts ->
      within_one m p -> axis t -> dot t m p = 1 ->
      (forall q, In q pts -> distsq (add m t) p <= distsq (add m t) q) ->
      exists v, cell_distsq f (add m t) = Some v /\ v <= distsq (add m t) p.
    Proof.
      intros Hm Ht Hin Hw Hax Hdot Hmin.
      destruct build_facts as (s & Ef & HI & s1 & (HL & HN & _) & HI1 & HM & HD).
      destruct (HN p m Hin Hm Hw) as (e & Ec & Hle).
      destruct (HL m e Hm Ec) as (Hwe & Hdir & _).
      destruct HI1 as (_ & _ & _ & C & _). destruct (C m e Hm Ec) as ((_ & Hcp & Hed & _) & El).
      rewrite El in Hed. specialize (Hmin _ Hcp).
      rewrite !distsq_axis in Hmin by auto. rewrite Hdot, <- Hed in Hmin.
      pose proof (dot_le_one t m (e_cp e) Hax Hwe) as Hd1.
      assert (Hd2 : dot t m (e_cp e) = 1) by lia.
      assert (H1 : 1 <= e_d e).
      { pose proof (distsq_nonneg m (e_cp e)). destruct (Z.eq_dec (e_d e) 0) as [E0|]; [|lia].
        rewrite E0 in Hed. symmetry in Hed. apply distsq_zero in Hed.
        rewrite <- Hed in Hd2. rewrite dot_self in Hd2. lia. }
      specialize (HD m e Hm Ec H1 t).
      destruct (stored_le_cell s (add m t) (distsq (add m t) p)) as (v & Ev & Hv).
      { destruct HD as (e' & Ee' & Hle').
        - rewrite Hdir. destruct Hwe as (W1 & W2 & W3). apply neighborhood_in.
          + apply dirs3_in; lia.
          + split; [apply axis_dirs; auto|]. apply keep_axis; auto.
            unfold dot in Hd2. unfold axis in Hax. destruct t as [[a b] c]. nia.
        - rewrite El; auto.
        - rewrite El in *. exists e'. split; auto. rewrite distsq_axis in * by auto. lia. }
      rewrite <- Ef in Ev. eauto.
    Qed.

    (** A cell at nearest squared distance at most 6 is exact. *)
    Lemma build_upper_6 c v :
      in_bounds d c = true -> nearest_distsq pts c v -> v <= 6 ->
      exists m, cell_distsq f c = Some m /\ m <= v.
    Proof.
      intros Hb ((p & Hin & Hv) & Hmin) H6.
      pose proof (Hp p Hin) as Hpb.
      assert (K : within_one c p \/
                  exists t m, axis t /\ c = add m t /\ within_one m p /\ dot t m p = 1 /\
                              in_bounds d m = true).
      { unfold distsq in Hv. apply in_bounds_spec in Hb. apply in_bounds_spec in Hpb.
        set (x := ix c - ix p) in *. set (y := iy c - iy p) in *. set (z := iz c - iz p) in *.
        assert (Hx : Z.abs x <= 2) by nia. assert (Hy : Z.abs y <= 2) by nia.
        assert (Hz : Z.abs z <= 2) by nia.
        destruct (Z.eq_dec (Z.abs x) 2) as [X|X];
          [|destruct (Z.eq_dec (Z.abs y) 2) as [Y|Y];
            [|destruct (Z.eq_dec (Z.abs z) 2) as [ZZ|ZZ]]].
        - right. assert (Z.abs y <= 1) by nia. assert (Z.abs z <= 1) by nia.
          exists (Z.sgn x, 0, 0), (I (ix c - Z.sgn x) (iy c) (iz c)).
          unfold axis, add, dot, within_one. rewrite in_bounds_spec. cbn [ix iy iz].
          destruct c as [cx cy cz]; cbn [ix iy iz] in *.
          split; [lia|]. split; [f_equal; lia|]. split; [lia|]. split; lia.
        - right. assert (Z.abs x <= 1) by nia. assert (Z.abs z <= 1) by nia.
          exists (0, Z.sgn y, 0), (I (ix c) (iy c - Z.sgn y) (iz c)).
          unfold axis, add, dot, within_one. rewrite in_bounds_spec. cbn [ix iy iz].
          destruct c as [cx cy cz]; cbn [ix iy iz] in *.
          split; [lia|]. split; [f_equal; lia|]. split; [lia|]. split; lia.
        - right. assert (Z.abs y <= 1) by nia. assert (Z.abs x <= 1) by nia.
          exists (0, 0, Z.sgn z), (I (ix c) (iy c) (iz c - Z.sgn z)).
          unfold axis, add, dot, within_one. rewrite in_bounds_spec. cbn [ix iy iz].
          destruct c as [cx cy cz]; cbn [ix iy iz] in *.
          split; [lia|]. split; [f_equal; lia|]. split; [lia|]. split; lia.
        - left. unfold within_one. lia. }
      destruct K as [K|(t & m & Hax & -> & Hw & Hdot & Hmb)].
      - destruct (build_upper_near c p Hb Hin K) as (m & Em & Hm). exists m. split; auto. lia.
      - destruct (build_level2 m t p) as (w & Ew & Hw'); auto.
        + intros q Hq. rewrite Hv. apply Hmin; auto.
        + exists w. split; auto. lia.
    Qed.

    Lemma build_exact_6 c v :
      in_bounds d c = true -> nearest_distsq pts c v -> v <= 6 -> cell_distsq f c = Some v.
    Proof.
      intros Hb Hn H6. destruct (build_upper_6 c v Hb Hn H6) as (m & Em & Hm).
      destruct (build_realised c m Hb Em) as (q & Hq & Hd). destruct Hn as (_ & Hmin).
      specialize (Hmin q Hq). rewrite Em. f_equal. lia.
    Qed.

    Lemma build_exact_near c p :
      in_bounds d c = true -> In p pts -> within_one c p ->
      exists v, cell_distsq f c = Some v /\ nearest_distsq pts c v.
    Proof.
      intros Hb Hin Hw. destruct (nearest_exists pts c p Hin) as (v & Hv).
      exists v. split; auto. apply build_exact_6; auto.
      destruct Hv as (_ & Hmin). specialize (Hmin p Hin).
      destruct Hw as (W1 & W2 & W3). unfold distsq in Hmin. nia.
    Qed.

    Lemma build_empty c : pts = [] -> in_bounds d c = true -> cell_distsq f c = None.
    Proof.
      intros E Hb. destruct (cell_distsq f c) as [m|] eqn:Em; auto.
      destruct (build_realised c m Hb Em) as (p & Hin & _). rewrite E in Hin. destruct Hin.
    Qed.
  End Inside.
End Thms.

(** ** A single obstacle *)
Section Single.
  Variables (d : dims) (pts : list idx) (p : idx).
  Hypothesis Hsz : size_ok d.
  Hypothesis Hp : all_inside d pts.
  Hypothesis Hin : In p pts.
  Hypothesis Hone : forall q, In q pts -> q = p.

  Let maxd := maxd d.

  (** The entry's direction does not oppose its offset from the obstacle. *)
  Definition away (e : entry) : Prop :=
    exists a b c, In (a, b, c) dirs3 /\ e_dir e = direction_number (a, b, c) /\
      0 <= a * (ix (e_loc e) - ix p) /\ 0 <= b * (iy (e_loc e) - iy p) /\
      0 <= c * (iz (e_loc e) - iz p).

  Definition assigned (s : dstate) (c : idx) : Prop := cell s c <> None.

  Definition Single (b : Z) (s : dstate) : Prop :=
    (forall i e, in_bounds d i = true -> cell s i = Some e -> b <= e_d e ->
       In e (bucket s (e_d e))) /\
    (forall k e, b <= k -> In e (bucket s k) -> away e) /\
    (forall c, in_bounds d c = true -> within_one c p -> assigned s c) /\
    (forall m t, in_bounds d m = true -> in_bounds d (add m t) = true -> axis t ->
       1 <= dot t m p -> distsq m p < b -> assigned s (add m t)).

  (** Every cell not adjacent to the obstacle is one axis step beyond a cell
      that is strictly on the same side. *)
  Lemma has_pred c :
    in_bounds d c = true -> ~ within_one c p ->
    exists m t, axis t /\ c = add m t /\ in_bounds d m = true /\ 1 <= dot t m p.
  Proof.
    intros Hb Hw. pose proof (Hp p Hin) as Hpb.
    apply in_bounds_spec in Hb. apply in_bounds_spec in Hpb. unfold within_one in Hw.
    destruct (Z_le_dec (Z.abs (ix c - ix p)) 1) as [X|X];
      [destruct (Z_le_dec (Z.abs (iy c - iy p)) 1) as [Y|Y]|].
    - exists (I (ix c) (iy c) (iz c - Z.sgn (iz c - iz p))), (0, 0, Z.sgn (iz c - iz p)).
      unfold axis, add, dot. rewrite in_bounds_spec. cbn [ix iy iz].
      destruct c as [cx cy cz]; cbn [ix iy iz] in *.
      split; [lia|]. split; [f_equal; lia|]. split; lia.
    - exists (I (ix c) (iy c - Z.sgn (iy c - iy p)) (iz c)), (0, Z.sgn (iy c - iy p), 0).
      unfold axis, add, dot. rewrite in_bounds_spec. cbn [ix iy iz].
      destruct c as [cx cy cz]; cbn [ix iy iz] in *.
      split; [lia|]. split; [f_equal; lia|]. split; lia.
    - exists (I (ix c - Z.sgn (ix c - ix p)) (iy c) (iz c)), (Z.sgn (ix c - ix p), 0, 0).
      unfold axis, add, dot. rewrite in_bounds_spec. cbn [ix iy iz].
      destruct c as [cx cy cz]; cbn [ix iy iz] in *.
      split; [lia|]. split; [f_equal; lia|]. split; lia.
  Qed.

  Lemma assigned_upto b s c :
    Single b s -> in_bounds d c = true -> distsq c p <= b -> assigned s c.
  Proof.
    intros (_ & _ & HW & HC) Hb Hd.
    destruct (Z_le_dec (Z.abs (ix c - ix p)) 1) as [X|X];
    destruct (Z_le_dec (Z.abs (iy c - iy p)) 1) as [Y|Y];
    destruct (Z_le_dec (Z.abs (iz c - iz p)) 1) as [Z1|Z1].
    1: apply HW; auto; unfold within_one; auto.
    all: destruct (has_pred c Hb) as (m & t & Hax & -> & Hm & Hdot);
         [unfold within_one; lia|].
    all: rewrite distsq_axis in Hd by auto; apply HC; auto; lia.
  Qed.

  Lemma single_step b s :
    1 <= b <= maxd -> Inv d pts s -> Single b s ->
    exists s', process_bucket maxd s b = Ok s' /\ Inv d pts s' /\ Single (b + 1) s'.
  Proof.
    intros Hb HI HS. pose proof Hsz as (H1 & H2 & H3 & H4).
    pose proof HS as (HS1 & HS2 & HS3 & HS4).
    pose (P := fun s1 : dstate =>
      mono d s s1 /\
      (forall i e, in_bounds d i = true -> cell s1 i = Some e -> b + 1 <= e_d e ->
         In e (bucket s1 (e_d e))) /\
      (forall k e, b + 1 <= k -> In e (bucket s1 k) -> away e)).
    destruct (process_bucket_ok d pts H1 H2 H3 H4 Hp P b s)
      as (s1 & E1 & HI1 & (HM1 & HP1 & HP2) & _ & HD1).
    - lia.
    - auto.
    - split; [apply mono_refl|]. split.
      + intros i e Hi Hc Hle. apply (HS1 i); auto. lia.
      + intros k e Hk. apply HS2. lia.
    - intros e He s1 t HI1 (HM1 & HP1 & HP2) Ht HA.
      pose proof HI as (_ & _ & _ & _ & B). destruct (B b e ltac:(lia) He) as (Hok & Hed).
      pose proof Hok as (Hl & Hcp & Hed' & src & Hsrc & Hdir).
      assert (Ecp : e_cp e = p) by auto.
      assert (Htd : In t dirs3) by (eapply neighborhood_dirs; eauto).
      assert (Hax : axis t).
      { rewrite Hdir in Ht. apply neighborhood_in in Ht; auto. destruct Ht as (_ & Hk).
        replace (Z.min b 1) with 1 in Hk by lia. apply keep_is_axis in Hk; auto. }
      pose proof HA as (Hnb & Himp & Hne). cbn [new_entry e_loc e_d] in Hnb, Himp, Hne.
      (* the target was unassigned *)
      assert (Hnone : cell s1 (add (e_loc e) t) = None).
      { destruct (cell s1 (add (e_loc e) t)) as [e0|] eqn:E0; auto.
        destruct HI1 as (_ & _ & _ & C1 & _). destruct (C1 _ _ Hnb E0) as ((_ & Hcp0 & Hd0 & _) & El0).
        unfold improves in Himp. rewrite Hd0, El0, (Hone _ Hcp0), Ecp in Himp. lia. }
      assert (Hfar : b < distsq (add (e_loc e) t) p).
      { destruct (Z_le_dec (distsq (add (e_loc e) t) p) b) as [Hle|]; [|lia].
        exfalso. pose proof (assigned_upto b s _ HS Hnb Hle) as Ha. unfold assigned in Ha.
        destruct (cell s (add (e_loc e) t)) as [e0|] eqn:E0; [|congruence].
        destruct (HM1 _ (e_d e0) Hnb) as (e1 & Ee1 & _); [exists e0; split; auto; lia|].
        congruence. }
      assert (Haway : away (new_entry e t)).
      { destruct t as [[a b'] c]. exists a, b', c. cbn [new_entry e_loc e_dir].
        split; auto. split; auto.
        rewrite distsq_axis, <- Ecp, <- Hed', Hed in Hfar by auto.
        rewrite Ecp in Hfar. unfold dot in Hfar. unfold axis in Hax. unfold add; cbn [ix iy iz].
        destruct Hax as (? & ? & ? & Hsum).
        assert (Hc3 : (a = 0 /\ b' = 0) \/ (a = 0 /\ c = 0) \/ (b' = 0 /\ c = 0)) by lia.
        destruct Hc3 as [[-> ->]|[[-> ->]|[-> ->]]]; nia. }
      split; [|split].
      + eapply mono_trans; eauto. eapply accept_mono; eauto.
      + intros i e0 Hi. rewrite (accept_cell d pts b); auto.
        destruct (idx_eqb_spec (e_loc (new_entry e t)) i) as [<-|].
        * intros [= <-] Hle. rewrite (accept_bucket d pts Hp b); auto.
          -- rewrite Z.eqb_refl. apply in_app_iff; right; left; auto.
          -- lia.
        * intros Hc Hle. apply (stable_bucket_grow d pts Hp b); auto; [lia|]. eapply HP1; eauto.
      + intros k e0 Hk. rewrite (accept_bucket d pts Hp b); auto; [|lia].
        destruct (k =? _); [|apply HP2; auto].
        intros Hin'. apply in_app_iff in Hin'. destruct Hin' as [Hin'|[<-|[]]]; auto.
        eapply HP2; eauto.
    - exists (cleared b s1). split; auto.
      split; [apply cleared_inv; auto; lia|].
      split; [|split; [|split]].
      + intros i e Hi Hc Hle. rewrite cleared_bucket by lia.
        replace (e_d e =? b) with false by lia. apply (HP1 i); auto.
      + intros k e Hk. rewrite cleared_bucket by lia.
        replace (k =? b) with false by lia. apply HP2; auto.
      + intros c Hc Hw. specialize (HS3 c Hc Hw). unfold assigned in *.
        destruct (cell s c) as [e0|] eqn:E0; [|congruence].
        destruct (HM1 c (e_d e0) Hc) as (e1 & Ee1 & _); [exists e0; split; auto; lia|].
        change (cell (cleared b s1) c) with (cell s1 c). congruence.
      + intros m t Hm Ht Hax Hdot Hlt.
        change (assigned s1 (add m t)). unfold assigned.
        destruct (Z.eq_dec (distsq m p) b) as [Eb|Hne].
        * pose proof (assigned_upto b s m HS Hm ltac:(lia)) as Ha. unfold assigned in Ha.
          destruct (cell s m) as [e|] eqn:Ec; [|congruence].
          pose proof HI as (_ & _ & _ & C & B).
          destruct (C m e Hm Ec) as ((_ & Hcp & Hd & _) & El).
          rewrite El, (Hone _ Hcp), Eb in Hd.
          assert (Hbk : In e (bucket s b)) by (rewrite <- Hd; apply (HS1 m); auto; lia).
          destruct (HS2 b e ltac:(lia) Hbk) as (a & b' & c & Hdirs & Hdir & A1 & A2 & A3).
          specialize (HD1 e Hbk t). rewrite El in *.
          destruct HD1 as (e1 & Ee1 & _); auto; [|congruence].
          rewrite Hdir. replace (Z.min b 1) with 1 by lia.
          apply neighborhood_in; auto. split; [apply axis_dirs; auto|].
          apply keep_axis; auto. destruct t as [[tx ty] tz].
          unfold dot in Hdot. unfold axis in Hax. destruct Hax as (? & ? & ? & Hsum).
          assert (Hc3 : (tx = 0 /\ ty = 0) \/ (tx = 0 /\ tz = 0) \/ (ty = 0 /\ tz = 0)) by lia.
          destruct Hc3 as [[-> ->]|[[-> ->]|[-> ->]]]; nia.
        * pose proof (HS4 m t Hm Ht Hax Hdot ltac:(lia)) as Ha. unfold assigned in Ha.
          destruct (cell s (add m t)) as [e0|] eqn:E0; [|congruence].
          destruct (HM1 _ (e_d e0) Ht) as (e1 & Ee1 & _); [exists e0; split; auto; lia|].
          congruence.
  Qed.

  Lemma single_exact :
    exists f, build_distance_field d pts = Ok f /\
      forall c, in_bounds d c = true -> cell_distsq f c = Some (distsq c p).
  Proof.
    pose proof Hsz as (H1 & H2 & H3 & H4).
    destruct (run_inv d pts H1 H2 H3 H4 Hp
                (fun k s => if k =? 0 then Seeded d pts pts s else Single k s))
      as (s & E & HI & HJ).
    - auto.
    - intros k s Hk HI HJ. destruct (Z.eqb_spec k 0) as [->|Hne].
      + destruct (level1 d pts H1 H2 H3 H4 Hp s HJ) as (s' & E' & HI' & (L1 & L2 & L3) & _).
        exists s'. split; auto. split; auto. change (0 + 1 =? 0) with false. cbn iota.
        change (0 + 1) with 1.
        split; [|split; [|split]].
        * intros i e Hi Hc Hle. apply (L1 i e); auto.
        * intros k e Hk' Hink. destruct (L3 k e Hk' Hink) as (Hdir & W1 & W2 & W3).
          assert (Ecp : e_cp e = p).
          { destruct HI' as (_ & _ & _ & _ & B). apply Hone. apply (B k e); auto. lia. }
          rewrite Ecp in *.
          exists (ix (e_loc e) - ix p), (iy (e_loc e) - iy p), (iz (e_loc e) - iz p).
          split; [apply dirs3_in; lia|]. split; auto. nia.
        * intros c Hc Hw. destruct (L2 p c Hin Hc Hw) as (e & Ee & _).
          unfold assigned. congruence.
        * intros m t Hm Ht Hax Hdot Hlt. pose proof (distsq_nonneg m p).
          assert (Ez : distsq m p = 0) by lia. apply distsq_zero in Ez. subst m.
          rewrite dot_self in Hdot. lia.
      + destruct (single_step k s) as (s' & E' & HI' & HS'); auto; [unfold maxd; lia|].
        exists s'. split; auto. split; auto. replace (k + 1 =? 0) with false by lia. auto.
    - pose proof (maxd_nonneg d H1 H2 H3 H4).
      replace (DistProofs.maxd d + 1 =? 0) with false in HJ by lia.
      exists (ds_field s). split; auto. intros c Hc.
      assert (Ha : assigned s c).
      { apply (assigned_upto _ s c HJ Hc).
        pose proof (distsq_maxd d pts Hp c p Hc (Hp p Hin)). lia. }
      unfold assigned in Ha. unfold cell_distsq. fold (cell s c).
      destruct (cell s c) as [e|] eqn:Ec; [|congruence].
      destruct HI as (_ & _ & _ & C & _). destruct (C c e Hc Ec) as ((_ & Hcp & Hd & _) & El).
      rewrite Hd, El, (Hone _ Hcp). auto.
  Qed.
End Single.

Lemma build_throws_iff d pts :
  size_ok d ->
  ((exists msg, build_distance_field d pts = Throw msg) <->
   (exists p, In p pts /\ in_bounds d p = false)).
Proof.
  intros Hsz. split; [|apply build_throws; auto].
  intros (msg & E).
  destruct (existsb (fun p => negb (in_bounds d p)) pts) eqn:Ex.
  - apply existsb_exists in Ex. destruct Ex as (p & Hp & Hb). exists p. split; auto.
    destruct (in_bounds d p); [discriminate Hb|reflexivity].
  - exfalso. destruct (build_total d pts Hsz) as (f & Ef); [|congruence].
    intros p Hp. destruct (in_bounds d p) eqn:Hb; auto.
    assert (existsb (fun p => negb (in_bounds d p)) pts = true); [|congruence].
    apply existsb_exists. exists p. rewrite Hb. auto.
Qed.

Lemma build_never_under d pts f :
  size_ok d -> all_inside d pts -> build_distance_field d pts = Ok f ->
  forall c m, in_bounds d c = true -> cell_distsq f c = Some m ->
    (exists p, In p pts /\ distsq c p = m) /\
    (forall v, nearest_distsq pts c v -> v <= m).
Proof.
  intros Hs Hp Hf c m Hb Hm.
  destruct (build_realised d pts Hs Hp f Hf c m Hb Hm) as (p & Hin & Hd).
  split; [eauto|]. intros v (_ & Hmin). rewrite <- Hd. auto.
Qed.

Lemma empty_infinite d f :
  size_ok d -> build_distance_field d [] = Ok f ->
  forall c, in_bounds d c = true -> cell_distsq f c = None.
Proof.
  intros Hs Hf c Hc. apply (build_empty d [] Hs); auto. intros p [].
Qed.

Lemma finite_partial d pts f c :
  size_ok d -> all_inside d pts -> build_distance_field d pts = Ok f ->
  in_bounds d c = true ->
  ((exists p, In p pts /\ forall q, In q pts -> q = p) \/
   (exists v, nearest_distsq pts c v /\ v <= 6)) ->
  exists m, cell_distsq f c = Some m.
Proof.
  intros Hs Hp Hf Hc [(p & Hin & Hone)|(v & Hv & H6)].
  - destruct (single_exact d pts p Hs Hp Hin Hone) as (f' & E & H).
    assert (f' = f) by congruence. subst f'. eauto.
  - exists v. apply (build_exact_6 d pts Hs Hp f Hf); auto.
Qed.

Ltac check_inside :=
  intros p Hp; cbn in Hp;
  repeat match type of Hp with
         | _ \/ _ => destruct Hp as [<-|Hp]; [reflexivity|]
         | False => destruct Hp
         end.

Lemma exactness_fails : exists d pts f c v,
  size_ok d /\ all_inside d pts /\ build_distance_field d pts = Ok f /\
  in_bounds d c = true /\ nearest_distsq pts c v /\ v = 8 /\ cell_distsq f c = Some 9.
Proof.
  exists (D 7 4 1), [I 1 1 0; I 2 2 0; I 4 3 0].
  assert (Hs : size_ok (D 7 4 1)) by (unfold size_ok; cbn; lia).
  assert (Ha : all_inside (D 7 4 1) [I 1 1 0; I 2 2 0; I 4 3 0]) by check_inside.
  destruct (build_distance_field (D 7 4 1) [I 1 1 0; I 2 2 0; I 4 3 0]) as [f| |] eqn:E;
    [|vm_compute in E; discriminate|vm_compute in E; discriminate].
  exists f, (I 4 0 0), 8. split; auto. split; auto. split; auto.
  split; [reflexivity|]. split.
  - split; [exists (I 2 2 0); cbn; auto|].
    intros p Hp. cbn in Hp. destruct Hp as [<-|[<-|[<-|[]]]]; vm_compute; discriminate.
  - split; auto. vm_compute in E. injection E as <-. vm_compute. reflexivity.
Qed.

Lemma dist_example :
  let d := D 5 4 3 in let pts := [I 0 0 0; I 4 3 2; I 0 0 0] in
  size_ok d /\ all_inside d pts /\
  match build_distance_field d pts with
  | Ok f => cell_distsq f (I 2 1 0) = Some 5 /\ cell_distsq f (I 4 2 2) = Some 1
  | _ => False
  end.
Proof.
  split; [unfold size_ok; cbn; lia|]. split; [check_inside|]. vm_compute. auto.
Qed.

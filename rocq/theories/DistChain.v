(** How the entries of a history are chained: each goes back to its obstacle by
    outward steps, and each has been offered to all six face neighbours. *)
From Verif Require Import Base BaseFacts Grid GridFacts DistModel DistSpec DistProofs DistTrace.

Section Chain.
  Variable d : dims.
  Variable pts : list idx.
  Variables (k : Z) (H : history) (s : dstate).
  Hypothesis T : trace d pts k H s.

  Lemma known_nonneg e : known pts H e -> 0 <= e_d e.
  Proof.
    intros Ke. destruct (tr_ok _ _ _ _ _ T _ Ke) as (_ & _ & -> & _). apply distsq_nonneg.
  Qed.

  Lemma known_zero e : known pts H e -> e_d e = 0 -> exists p, In p pts /\ e = seed_entry p.
  Proof.
    intros [?|(p & Hp)] E; auto. exfalso.
    destruct (tr_pair _ _ _ _ _ T _ _ Hp) as (Kp & _ & Hlt & _).
    pose proof (known_nonneg _ Kp). lia.
  Qed.

  Lemma targets_seed p t :
    In t dirs3 -> t <> (0, 0, 0) -> In t (targets (seed_entry p)).
  Proof.
    intros Ht Hne. unfold targets. change (e_dir (seed_entry p)) with (direction_number (0, 0, 0)).
    apply neighborhood_in; [apply dirs3_in; lia|]. split; auto.
    change (Z.min (e_d (seed_entry p)) 1) with 0.
    unfold keep_target. destruct t as [[a b] c].
    destruct ((a =? 0) && (b =? 0) && (c =? 0)) eqn:E.
    - exfalso. apply Hne. apply andb_true_iff in E. destruct E as (E & Ec).
      apply andb_true_iff in E. destruct E as (Ea & Eb).
      apply Z.eqb_eq in Ea, Eb, Ec. congruence.
    - reflexivity.
  Qed.

  (** The three kinds of entries. *)
  Lemma known_kind e :
    known pts H e ->
    (exists p, In p pts /\ e = seed_entry p) \/
    (exists p t, In p pts /\ In t dirs3 /\ e = new_entry (seed_entry p) t) \/
    (exists p t, In (p, e) H /\ known pts H p /\ 1 <= e_d p /\ e_d p < e_d e /\
       axis t /\ e = new_entry p t /\ 0 <= dot t (e_loc p) (e_cp p)).
  Proof.
    intros [?|(p & Hp)]; auto. right.
    destruct (tr_pair _ _ _ _ _ T _ _ Hp) as (Kp & _ & Hlt & t & Ht & ->).
    pose proof (tr_ok _ _ _ _ _ T _ Kp) as Okp.
    assert (Htd : In t dirs3) by (eapply neighborhood_dirs; eauto).
    pose proof (known_nonneg _ Kp).
    destruct (Z.eq_dec (e_d p) 0) as [E0|E0].
    - left. destruct (known_zero _ Kp E0) as (q & Hq & ->). exists q, t. auto.
    - right. exists p, t. split; auto. split; auto. split; [lia|]. split; auto.
      assert (Ha : axis t).
      { destruct Okp as (_ & _ & _ & src & Hs & Ed). unfold targets in Ht. rewrite Ed in Ht.
        apply neighborhood_in in Ht; auto. destruct Ht as (_ & Hk).
        replace (Z.min (e_d p) 1) with 1 in Hk by lia. eapply keep_is_axis; eauto. }
      split; auto. split; auto.
      destruct Okp as (_ & _ & Ed & _). cbn [new_entry e_d] in Hlt.
      rewrite distsq_axis in Hlt by auto. lia.
  Qed.

  (** A face step either is a target or leads to a cell a smaller known entry
      already covers. *)
  Lemma face_step e t :
    known pts H e -> axis t ->
    In t (targets e) \/
    (exists p, In (p, e) H /\ known pts H p /\ e_d p < e_d e /\ e_loc p = add (e_loc e) t /\
       e_cp p = e_cp e) \/
    (exists p r, In p pts /\ e_cp e = p /\ In r (targets (seed_entry p)) /\ 1 <= e_d e /\
       add p r = add (e_loc e) t) \/
    (1 <= e_d e /\ e_cp e = add (e_loc e) t).
  Proof.
    intros Ke Ha. pose proof (axis_dirs t Ha) as Htd.
    destruct (known_kind e Ke) as
      [(p & Hp & ->)|[(p & r & Hp & Hr & ->)|(p & r & Hpe & Kp & H1 & Hlt & Har & Ee & Hdot)]].
    - left. apply targets_seed; auto. intros ->. unfold axis in Ha. lia.
    - destruct (Z_le_dec 1 (e_d (new_entry (seed_entry p) r))) as [H1|H1].
      2:{ (* r = 0 *)
          pose proof (known_nonneg _ Ke). destruct (known_zero _ Ke ltac:(lia)) as (q & Hq & E).
          left. rewrite E. apply targets_seed; auto. intros ->. unfold axis in Ha. lia. }
      destruct r as [[a b] c], t as [[x y] z].
      destruct (Z_lt_dec (a * x) 0) as [L1|L1]; [|
        destruct (Z_lt_dec (b * y) 0) as [L2|L2]; [|
          destruct (Z_lt_dec (c * z) 0) as [L3|L3]]].
      4:{ left. unfold targets. cbn [new_entry e_dir]. apply neighborhood_in; auto. split; auto.
          replace (Z.min (e_d (new_entry (seed_entry p) (a, b, c))) 1) with 1 by lia.
          apply keep_axis; auto. lia. }
      all: right; right; apply dirs3_in in Hr; unfold axis in Ha;
        cbn [new_entry e_loc e_cp seed_entry];
        assert (Hc : add (add p (a, b, c)) (x, y, z) = add p (a + x, b + y, c + z))
          by (unfold add; cbn [ix iy iz]; f_equal; lia).
      all: rewrite Hc.
      all: assert (Hb : In (a + x, b + y, c + z) dirs3) by (apply dirs3_in; nia).
      all: destruct (Z.eq_dec (Z.abs (a + x) + Z.abs (b + y) + Z.abs (c + z)) 0) as [E0|E0];
        [right; split; [exact H1|]; unfold add; destruct p as [p1 p2 p3]; cbn [ix iy iz]; f_equal; lia|].
      all: left; exists p, (a + x, b + y, c + z); split; [exact Hp|]; split; [reflexivity|];
        split; [apply targets_seed; [exact Hb|intros [= E1 E2 E3]; apply E0; lia]|];
        split; [exact H1|reflexivity].
    - subst e. destruct r as [[a b] c], t as [[x y] z].
      assert (Hd : In (a, b, c) dirs3) by (apply axis_dirs; auto).
      unfold axis in Ha, Har.
      destruct (Z.eq_dec (a * x + b * y + c * z) (-1)) as [E|E].
      + right. left. exists p. split; auto. split; auto. split; auto. split; [|reflexivity].
        cbn [new_entry e_loc]. unfold add; cbn [ix iy iz]. destruct (e_loc p) as [p1 p2 p3]; cbn [ix iy iz].
        assert (x = -a /\ y = -b /\ z = -c) as (-> & -> & ->).
        { assert (Hc3 : (x = 0 /\ y = 0) \/ (x = 0 /\ z = 0) \/ (y = 0 /\ z = 0)) by lia.
          assert (Hc4 : (a = 0 /\ b = 0) \/ (a = 0 /\ c = 0) \/ (b = 0 /\ c = 0)) by lia.
          destruct Hc3 as [[-> ->]|[[-> ->]|[-> ->]]];
          destruct Hc4 as [[-> ->]|[[-> ->]|[-> ->]]]; nia. }
        f_equal; lia.
      + left. unfold targets. cbn [new_entry e_dir]. apply neighborhood_in; auto. split; auto.
        replace (Z.min (e_d (new_entry p (a, b, c))) 1) with 1 by lia.
        apply keep_axis; [unfold axis; lia|].
        assert (Hc3 : (x = 0 /\ y = 0) \/ (x = 0 /\ z = 0) \/ (y = 0 /\ z = 0)) by lia.
        assert (Hc4 : (a = 0 /\ b = 0) \/ (a = 0 /\ c = 0) \/ (b = 0 /\ c = 0)) by lia.
        destruct Hc3 as [[-> ->]|[[-> ->]|[-> ->]]];
        destruct Hc4 as [[-> ->]|[[-> ->]|[-> ->]]]; nia.
  Qed.

  Lemma known_dist e : known pts H e -> e_d e = distsq (e_loc e) (e_cp e).
  Proof. intros Ke. apply (tr_ok _ _ _ _ _ T _ Ke). Qed.

  Lemma seed_known p : In p pts -> known pts H (seed_entry p).
  Proof. left; eauto. Qed.

  (** A processed entry has been offered to every face neighbour inside. *)
  Lemma offered e t :
    known pts H e -> e_d e < k -> axis t -> in_bounds d (add (e_loc e) t) = true ->
    stored_le s (add (e_loc e) t) (distsq (add (e_loc e) t) (e_cp e)).
  Proof.
    intros Ke Hk Ha Hb. pose proof (known_nonneg _ Ke).
    destruct (face_step e t Ke Ha) as
      [Ht|[(p & Hpe & Kp & Hlt & El & Ec)|[(p & r & Hp & Ec & Hr & H1 & El)|(H1 & Ec)]]].
    - apply (tr_done _ _ _ _ _ T e Ke Hk t); auto.
    - pose proof (tr_stored _ _ _ _ _ T _ Kp) as Hs.
      rewrite known_dist, El, Ec in Hs by auto. auto.
    - pose proof (tr_done _ _ _ _ _ T _ (seed_known p Hp)) as Hd.
      rewrite Ec, <- El in *. apply (Hd ltac:(cbn; lia) r); auto.
    - assert (Hp : In (e_cp e) pts) by apply (tr_ok _ _ _ _ _ T _ Ke).
      pose proof (tr_stored _ _ _ _ _ T _ (seed_known _ Hp)) as Hs. cbn [seed_entry e_loc e_d] in Hs.
      rewrite <- Ec, distsq_self. auto.
  Qed.

  (** An accepted entry beats what smaller processed entries offered there. *)
  Lemma beats e1 t p2 c2 :
    known pts H e1 -> In (p2, c2) H -> e_d e1 < e_d p2 -> axis t ->
    add (e_loc e1) t = e_loc c2 ->
    e_d c2 < distsq (e_loc c2) (e_cp e1).
  Proof.
    intros Ke Hpc Hlt Ha El. pose proof (known_nonneg _ Ke).
    destruct (tr_pair _ _ _ _ _ T _ _ Hpc) as (_ & _ & Hlt2 & _).
    destruct (face_step e1 t Ke Ha) as
      [Ht|[(p & Hpe & Kp & Hlt' & El' & Ec)|[(p & r & Hp & Ec & Hr & H1 & El')|(H1 & Ec)]]].
    - eapply (tr_order _ _ _ _ _ T); eauto.
    - exfalso. destruct (tr_late _ _ _ _ _ T p p2 c2 Kp Hpc) as [->|L]; [congruence| |].
      + lia.
      + lia.
    - rewrite Ec. change p with (e_cp (seed_entry p)).
      eapply (tr_order _ _ _ _ _ T (seed_entry p) p2 c2 r); eauto.
      + apply seed_known; auto.
      + cbn; lia.
      + cbn [seed_entry e_loc]. congruence.
    - exfalso. assert (Hp : In (e_cp e1) pts) by apply (tr_ok _ _ _ _ _ T _ Ke).
      destruct (tr_late _ _ _ _ _ T _ p2 c2 (seed_known _ Hp) Hpc) as [E|L].
      + cbn. congruence.
      + rewrite <- E in Hlt2. cbn in Hlt2. lia.
      + cbn in L. lia.
  Qed.
End Chain.

(** Exactness where an obstacle reaches a cell inside the region it is nearest
    to, on grids of any shape. *)
From Verif Require Import Base BaseFacts Grid GridFacts DistModel DistSpec DistProofs DistTrace DistThms.

(** A step to a face neighbour is an axis step. *)
Lemma face_axis c c' : distsq c c' = 1 -> exists t, axis t /\ c' = add c t.
Proof.
  destruct c as [x y z], c' as [x' y' z']. unfold distsq. cbn [ix iy iz]. intros E.
  exists (x' - x, y' - y, z' - z). split.
  - unfold axis. assert (K : forall a, a * a = Z.abs a * Z.abs a) by (intros a; rewrite <- Z.abs_mul, Z.abs_eq; nia).
    rewrite (K (x - x')), (K (y - y')), (K (z - z')) in E. nia.
  - unfold add. cbn [ix iy iz]. f_equal; lia.
Qed.

Lemma add_sub_dot s l t o : axis s -> axis t -> 0 <= dot s l o -> 0 <= dot t (add l s) o ->
  (let '(a, b, c) := s in let '(x, y, z) := t in 0 <= a * x /\ 0 <= b * y /\ 0 <= c * z).
Proof.
  destruct s as [[a b] c], t as [[x y] z], l as [l1 l2 l3], o as [o1 o2 o3]. unfold axis, dot, add. cbn [ix iy iz].
  intros (A1 & A2 & A3 & A4) (B1 & B2 & B3 & B4) H1 H2.
  assert (Ha : (b = 0 /\ c = 0) \/ (a = 0 /\ c = 0) \/ (a = 0 /\ b = 0)) by lia.
  assert (Hb : (y = 0 /\ z = 0) \/ (x = 0 /\ z = 0) \/ (x = 0 /\ y = 0)) by lia.
  destruct Ha as [[-> ->]|[[-> ->]|[-> ->]]], Hb as [[-> ->]|[[-> ->]|[-> ->]]]; try lia.
Qed.

Lemma seed_dot s t o : axis t -> 0 <= dot t (add o s) o ->
  (let '(a, b, c) := s in let '(x, y, z) := t in 0 <= a * x /\ 0 <= b * y /\ 0 <= c * z).
Proof.
  destruct s as [[a b] c], t as [[x y] z], o as [o1 o2 o3]. unfold dot, add, axis. cbn [ix iy iz]. intros Ha Hd.
  assert (Hb : (y = 0 /\ z = 0) \/ (x = 0 /\ z = 0) \/ (x = 0 /\ y = 0)) by lia.
  destruct Hb as [[-> ->]|[[-> ->]|[-> ->]]]; lia.
Qed.

Section Reach.
  Variables (d : dims) (pts : list idx) (o : idx).
  Hypothesis Hx : 0 <= nx d.
  Hypothesis Hy : 0 <= ny d.
  Hypothesis Hz : 0 <= nz d.
  Hypothesis Hmax : maxd d <= 2147483647.
  Hypothesis Hpts : forall p, In p pts -> in_bounds d p = true.

  Hypothesis Ho : In o pts.

  Let maxd := maxd d.
  Let R := reached d pts o.

  Lemma reached_inside c : R c -> in_bounds d c = true.
  Proof. intros H. destruct H; auto. Qed.

  Lemma reached_nearest c q : R c -> In q pts -> distsq c o <= distsq c q.
  Proof.
    intros H Hq. destruct H as [_|c c' H _ _ _ _ N]; auto. rewrite distsq_self. apply distsq_nonneg.
  Qed.

  (** [e] offers its cell's value in every direction away from [o]. *)
  Definition leads (e : entry) : Prop :=
    forall t, axis t -> 0 <= dot t (e_loc e) o -> In t (neighborhood (Z.min (e_d e) 1) (e_dir e)).

  Record progress (k : Z) (s : dstate) : Prop := {
    pr_source : stored_le s o 0;
    pr_offered : forall c c', R c -> held_by pts o c -> R c' -> distsq c c' = 1 -> distsq c o < distsq c' o ->
      distsq c o < k -> stored_le s c' (distsq c' o);
    pr_queued : forall c, R c -> held_by pts o c -> k <= distsq c o -> stored_le s c (distsq c o) ->
      exists e, In e (bucket s (distsq c o)) /\ e_loc e = c /\ e_cp e = o /\ e_d e = distsq c o /\ leads e
  }.

  Lemma pr_known k s c : progress k s -> R c -> distsq c o <= k -> stored_le s c (distsq c o).
  Proof.
    intros P H L. pose proof H as H'. destruct H as [_|b c H Hb E Out Ib N].
    - rewrite distsq_self. apply (pr_source _ _ P).
    - apply (pr_offered _ _ P b c); auto. lia.
  Qed.

  Lemma seed_leads : leads (seed_entry o).
  Proof.
    intros t Ht _. change (neighborhood (Z.min (e_d (seed_entry o)) 1) (e_dir (seed_entry o))) with (targets (seed_entry o)).
    unfold targets. change (e_dir (seed_entry o)) with (direction_number (0, 0, 0)).
    apply neighborhood_in; [apply dirs3_in; lia|]. split; [apply axis_dirs; auto|].
    change (Z.min (e_d (seed_entry o)) 1) with 0. destruct t as [[a b] c]. unfold keep_target, axis in *.
    destruct ((a =? 0) && (b =? 0) && (c =? 0)) eqn:E; [lia|reflexivity].
  Qed.

  Lemma progress_seeded s : Seeded d pts pts s -> progress 0 s.
  Proof.
    intros (HI & HC & HB & HD). destruct (HD o Ho) as (Co & Bo). split.
    - exists (seed_entry o). split; [exact Co|cbn; lia].
    - intros c c' _ _ _ _ _ L. pose proof (distsq_nonneg c o). lia.
    - intros c Rc Hc _ (e & Ec & Le). destruct (HC c e (reached_inside c Rc) Ec) as (-> & Hin).
      destruct (idx_eqb_spec c o) as [->|Ne].
      + exists (seed_entry o). rewrite distsq_self. split; [exact Bo|]. repeat split; auto. exact seed_leads.
      + exfalso. specialize (Hc c Hin Ne). rewrite distsq_self in Hc. pose proof (distsq_nonneg c o). lia.
  Qed.

  Lemma progress_bucket k s : 0 <= k -> Inv d pts s -> progress k s ->
    exists s', process_bucket maxd s k = Ok s' /\ Inv d pts s' /\ progress (k + 1) s'.
  Proof.
    intros Hk HI P.
    pose (Q := fun s1 => mono d s s1 /\ progress k s1).
    destruct (process_bucket_ok d pts Hx Hy Hz Hmax Hpts Q k s) as (s1 & E1 & HI1 & (_ & P1) & HM & HD); auto.
    - split; [apply mono_refl|exact P].
    - intros e Hi s1 t HI1 (M1 & P1) Ht HA.
      assert (Be : ent_ok d pts e /\ e_d e = k) by (destruct HI as (_ & _ & _ & _ & B); apply (B k e); auto).
      destruct Be as (Oe & Ee). assert (Htd : In t dirs3) by (eapply neighborhood_dirs; eauto).
      assert (HMa : mono d s1 (accept e t s1)) by (eapply accept_mono; eauto).
      split; [intros n v Hn Hv; apply HMa; auto|]. split.
      + apply HMa; [apply Hpts; exact Ho|apply (pr_source _ _ P1)].
      + intros c c' Rc Hc Rc' N1 Out L. apply HMa; [apply reached_inside; auto|]. apply (pr_offered _ _ P1 c c'); auto.
      + intros c Rc Hc L St.
        set (n := new_entry e t) in *.
        rewrite (accept_bucket d pts Hpts k) by (auto using distsq_nonneg). fold n.
        destruct St as (e0 & E0 & L0). rewrite (accept_cell d pts k) in E0 by auto. fold n in E0.
        destruct (idx_eqb_spec (e_loc n) c) as [El|Ne].
        * injection E0 as <-.
          assert (On : ent_ok d pts n) by (eapply accept_ent; eauto).
          destruct On as (_ & Hcp & Dn & _).
          assert (Ecp : e_cp n = o).
          { destruct (idx_eqb_spec (e_cp n) o) as [?|Ne]; auto. exfalso. rewrite Dn, El in L0. specialize (Hc _ Hcp Ne). lia. }
          assert (En : e_d n = distsq c o) by (rewrite Dn, El, Ecp; auto).
          assert (Lt : k < e_d n).
          { destruct HA as (_ & Himp & Hne). fold n in Himp, Hne.
            destruct (Z.eq_dec (e_d n) k) as [?|?]; [contradiction|].
            destruct (Z_lt_dec k (e_d n)) as [?|?]; auto. lia. }
          exists n. rewrite <- En, Z.eqb_refl. split; [apply in_app_iff; right; left; auto|].
          do 3 (split; [auto|]). intros t' Ht' Hd'.
          replace (Z.min (e_d n) 1) with 1 by lia. change (e_dir n) with (direction_number t).
          apply neighborhood_in; auto. split; [apply axis_dirs; auto|]. apply keep_axis; auto.
          assert (Ece : e_cp e = o) by exact Ecp.
          change (e_loc n) with (add (e_loc e) t) in Hd'.
          destruct (Z.eq_dec k 0) as [K0|K0].
          -- assert (El0 : e_loc e = o).
             { rewrite <- Ece. apply distsq_zero. destruct Oe as (_ & _ & <- & _). lia. }
             rewrite El0 in Hd'. apply (seed_dot t t' o); auto.
          -- assert (At : axis t).
             { destruct Oe as (_ & _ & _ & src & Hs & Ed). rewrite Ed in Ht. apply neighborhood_in in Ht; auto.
               destruct Ht as (_ & Hkeep). replace (Z.min k 1) with 1 in Hkeep by lia. eapply keep_is_axis; eauto. }
             apply (add_sub_dot t (e_loc e) t' o); auto.
             assert (Dn' : e_d n = distsq (e_loc e) (e_cp e) + 2 * dot t (e_loc e) (e_cp e) + 1) by (apply distsq_axis; auto).
             destruct Oe as (_ & _ & De & _). rewrite Ece in *. lia.
        * destruct (pr_queued _ _ P1 c Rc Hc L) as (e1 & B1 & F1); [exists e0; auto|].
          exists e1. split; [|exact F1]. destruct (_ =? _); auto. apply in_app_iff; auto.
    - exists (cleared k s1). split; [exact E1|]. split; [apply cleared_inv; auto|]. split.
      + exact (pr_source _ _ P1).
      + intros c c' Rc Hc Rc' N1 Out L. destruct (Z.eq_dec (distsq c o) k) as [Ek|?].
        * destruct (pr_queued _ _ P c Rc Hc ltac:(lia)) as (e & Be & El & Ec & Ed & Le).
          { apply (pr_known k s c P Rc). lia. }
          rewrite Ek in Be. destruct (face_axis c c' N1) as (t & At & ->).
          pose proof (HD e Be t) as Dn. rewrite El, Ec in Dn. apply Dn; [|apply reached_inside; auto].
          rewrite <- Ek, <- Ed. apply Le; auto. rewrite El. rewrite distsq_axis in Out by auto. lia.
        * apply (pr_offered _ _ P1 c c'); auto. lia.
      + intros c Rc Hc L St. destruct (pr_queued _ _ P1 c Rc Hc ltac:(lia) St) as (e & Be & F).
        exists e. split; [|exact F]. rewrite cleared_bucket by lia. replace (distsq c o =? k) with false by lia. exact Be.
  Qed.

  Lemma reach_final : exists s, build_distance_field d pts = Ok (ds_field s) /\ Inv d pts s /\ progress (maxd + 1) s.
  Proof.
    apply (run_inv d pts Hx Hy Hz Hmax Hpts progress).
    - exact progress_seeded.
    - intros k s Hk HI P. apply progress_bucket; auto. lia.
  Qed.
End Reach.

(** The main result. *)
Lemma reached_exact d pts f o c : size_ok d -> all_inside d pts -> build_distance_field d pts = Ok f ->
  reached d pts o c -> cell_distsq f c = Some (distsq c o) /\ nearest_distsq pts c (distsq c o).
Proof.
  intros (Hx & Hy & Hz & Hm) Hp Hf Rc.
  assert (Ho : In o pts) by (clear Hf; induction Rc; auto).
  assert (N : nearest_distsq pts c (distsq c o)).
  { split; [exists o; auto|]. intros q Hq. eapply reached_nearest; eauto. }
  split; [|exact N].
  assert (Ic : in_bounds d c = true) by (eapply reached_inside; eauto).
  destruct (reach_final d pts o Hx Hy Hz Hm Hp Ho) as (s & E & HI & P).
  assert (St : stored_le s c (distsq c o)).
  { eapply pr_known; eauto. pose proof (distsq_maxd d pts Hp c o Ic (Hp _ Ho)). lia. }
  destruct (stored_le_cell s c _ St) as (m & Em & Lm).
  assert (Ef : f = ds_field s) by congruence. subst f. rewrite Em. f_equal.
  destruct (build_never_under d pts (ds_field s) (conj Hx (conj Hy (conj Hz Hm))) Hp E c m Ic Em) as (_ & G).
  specialize (G _ N). lia.
Qed.

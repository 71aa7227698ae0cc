From Coq Require Import Relations.Relation_Operators Permutation.
From Verif Require Import Base BaseFacts Floats Grid GridFacts SdfGen Arith SdfQuery QuerySpec QueryProofs
  Extrema ExtremaSpec.

Section Extrema.
  Variable f : field ieee.
  Variable p : pose ieee.
  Let d := f_dims f.
  Hypothesis Hx : 0 <= nx d.
  Hypothesis Hy : 0 <= ny d.
  Hypothesis Hz : 0 <= nz d.
  Hypothesis Hloc : forall i, in_bounds d i = true -> located (center_of p i).

  Lemma known_located v : known v = true <-> located v.
  Proof. unfold known, located. rewrite !andb_true_iff. tauto. Qed.

  Lemma off_known : known off_grid = true.
  Proof. reflexivity. Qed.
  Lemma unset_unknown : known unset = false.
  Proof. reflexivity. Qed.

  Lemma grad_some i : in_bounds d i = true -> exists g, gradient f p i true = Some g.
  Proof.
    intros B. destruct (gradient f p i true) as [g|] eqn:E; eauto.
    apply gradient_none in E. destruct E as [E|(E & _)]; [|discriminate]. unfold d in B. congruence.
  Qed.

  Lemma flat_spec i g : gradient f p i true = Some g -> (effective_flat f g = true <-> flat_cell f p i).
  Proof.
    intros E. unfold effective_flat, flat_cell, threshold, step_resolution. rewrite !andb_true_iff.
    split.
    - intros ((H1 & H2) & H3). eauto 6.
    - intros (g' & E' & H1 & H2 & H3). rewrite E in E'. injection E' as <-. tauto.
  Qed.

  Lemma next_axis_moves g i j : next_axis (step_resolution f) g i = j <-> moves f g i j.
  Proof.
    unfold next_axis, moves, threshold, step_resolution.
    destruct (gt64 g _), (lt64 g _); split; intros H; try lia; intuition (try congruence); lia.
  Qed.

  Lemma next_steps i g : gradient f p i true = Some g -> effective_flat f g = false ->
    forall j, steps_to f p i j <-> j = next_from_gradient f i g.
  Proof.
    intros E Hf j. unfold steps_to, next_from_gradient. split.
    - intros (_ & g' & E' & H1 & H2 & H3). rewrite E in E'. injection E' as <-.
      apply next_axis_moves in H1, H2, H3. destruct j as [a b c]; cbn [ix iy iz] in *. congruence.
    - intros ->. split.
      + intros Hfl. apply (flat_spec i g E) in Hfl. congruence.
      + exists g. split; auto. cbn [ix iy iz].
        split; [|split]; apply next_axis_moves; reflexivity.
  Qed.

  Lemma steps_fun i j k : steps_to f p i j -> steps_to f p i k -> j = k.
  Proof.
    intros H1 H2. pose proof H1 as (Hf & g & E & _).
    destruct (effective_flat f g) eqn:Hg; [apply (flat_spec i g E) in Hg; contradiction|].
    apply (next_steps i g E Hg) in H1, H2. congruence.
  Qed.

  Lemma leads_trans i j k : leads_to f p i j -> leads_to f p j k -> leads_to f p i k.
  Proof.
    intros H. induction H as [|i a j H1 H2 IH]; auto. intros H. apply (rt1n_trans _ _ i a); auto. apply IH. auto.
  Qed.

  Lemma cycle_back c cur : leads_to f p c cur -> steps_to f p cur c -> leads_back f p c.
  Proof.
    intros H Hc. inversion H as [|a b Hab Hb]; subst.
    - exists cur. split; [exact Hc|apply rt1n_refl].
    - exists a. split; [exact Hab|]. apply (leads_trans a cur); [exact Hb|].
      apply (rt1n_trans _ _ cur c); [exact Hc|apply rt1n_refl].
  Qed.

  (** Where a value comes from. *)
  Definition origin (i : idx) (v : vec ieee) : Prop :=
    (v = off_grid /\ leaves_from f p i) \/ (exists j, stops_at f p i j /\ v = center_of p j).

  Lemma origin_back i j v : leads_to f p i j -> origin j v -> origin i v.
  Proof.
    intros H [(Hv & a & b & H1 & H2)|(a & (H1 & H2) & Hv)].
    - left. split; auto. exists a, b. split; auto. eapply leads_trans; eauto.
    - right. exists a. split; auto. split; auto. eapply leads_trans; eauto.
  Qed.

  Definition value_at (m : grid (vec ieee)) i := fst (get m i).

  (** A known cell has its final value. *)
  Definition settled (m : grid (vec ieee)) (i : idx) : Prop :=
    (flat_cell f p i -> value_at m i = center_of p i) /\
    (forall j, steps_to f p i j -> in_bounds d j = false -> value_at m i = off_grid) /\
    (forall j, steps_to f p i j -> in_bounds d j = true -> value_at m j = value_at m i) /\
    origin i (value_at m i).

  Definition inv (m : grid (vec ieee)) : Prop :=
    gdims m = d /\ wf_grid m /\
    forall i, in_bounds d i = true -> known (value_at m i) = true -> settled m i.

  (** What the loop returns. *)
  Definition good_path (m : grid (vec ieee)) (v : vec ieee) (path : list idx) : Prop :=
    known v = true /\
    (forall i, In i path -> in_bounds d i = true -> known (value_at m i) = true -> value_at m i = v) /\
    (forall i, In i path -> in_bounds d i = true -> known (value_at m i) = false ->
       (flat_cell f p i /\ v = center_of p i) \/
       (exists j, steps_to f p i j /\
          (in_bounds d j = false -> v = off_grid) /\ (in_bounds d j = true -> In j path))) /\
    (forall i, In i path -> in_bounds d i = true -> origin i v).

  Record chain (m : grid (vec ieee)) (path : list idx) (cur : idx) (g : vec ieee) : Prop := {
    ch_in : forall i, In i path -> in_bounds d i = true;
    ch_nodup : NoDup path;
    ch_unknown : forall i, In i path -> known (value_at m i) = false;
    ch_cur : In cur path;
    ch_next : forall i, In i path -> i = cur \/ exists j, steps_to f p i j /\ In j path;
    ch_leads : forall i, In i path -> leads_to f p i cur;
    ch_grad : gradient f p cur true = Some g;
    ch_slope : effective_flat f g = false
  }.

  Lemma chain_length m path cur g : chain m path cur g -> (length path <= Z.to_nat (ncells d))%nat.
  Proof.
    intros C. rewrite <- (sweep_length d) by auto. apply NoDup_incl_length; [apply (ch_nodup _ _ _ _ C)|].
    intros i Hi. apply sweep_in. apply (ch_in _ _ _ _ C). auto.
  Qed.

  Lemma existsb_idx c path : existsb (idx_eqb c) path = true <-> In c path.
  Proof.
    rewrite existsb_exists. split.
    - intros (x & Hi & E). apply idx_eqb_eq in E. subst. auto.
    - intros Hi. exists c. split; auto. apply idx_eqb_refl.
  Qed.

  Lemma follow_loop_good fuel m : inv m -> forall path cur g,
    chain m path cur g -> (Z.to_nat (ncells d) < fuel + length path)%nat ->
    exists v path', follow_loop fuel f p m path cur g = Ok (v, path') /\ incl path path' /\
      good_path m v path'.
  Proof.
    intros (Em & Wm & Im). induction fuel as [|fuel IH]; intros path cur g C Hfu.
    { pose proof (chain_length _ _ _ _ C). lia. }
    cbn [follow_loop]. set (c := next_from_gradient f cur g).
    assert (Hc : steps_to f p cur c).
    { apply (next_steps cur g (ch_grad _ _ _ _ C) (ch_slope _ _ _ _ C)). reflexivity. }
    destruct (existsb (idx_eqb c) path) eqn:Ex.
    { apply existsb_idx in Ex. exists (center_of p c), path. split; auto. split; [apply incl_refl|].
      pose proof (ch_in _ _ _ _ C c Ex) as Bc.
      split; [apply known_located, Hloc; auto|]. split; [|split].
      - intros i Hi _ K. rewrite (ch_unknown _ _ _ _ C i Hi) in K. discriminate.
      - intros i Hi Bi _. right. destruct (ch_next _ _ _ _ C i Hi) as [->|(j & Hj & Hij)].
        + exists c. split; auto. split; [intros H; congruence|auto].
        + exists j. split; auto. split; auto. intros H.
          rewrite (ch_in _ _ _ _ C j Hij) in H. discriminate.
      - intros i Hi Bi. right. exists c. split; auto. split; [|split; auto].
        + eapply leads_trans; [apply (ch_leads _ _ _ _ C); auto|].
          eapply rt1n_trans; [exact Hc|apply rt1n_refl].
        + right. apply (cycle_back c cur); auto. apply (ch_leads _ _ _ _ C). auto. }
    assert (Nc : ~ In c path) by (intros H; apply existsb_idx in H; congruence).
    rewrite Em.
    assert (In_app : forall i, In i (path ++ [c]) <-> In i path \/ i = c).
    { intros i. rewrite in_app_iff. cbn. intuition. }
    assert (Hold : forall i, In i path -> exists j, steps_to f p i j /\ In j (path ++ [c])).
    { intros i Hi. destruct (ch_next _ _ _ _ C i Hi) as [->|(j & Hj & Hij)].
      - exists c. split; auto. apply In_app. auto.
      - exists j. split; auto. apply In_app. auto. }
    destruct (in_bounds d c) eqn:Bc; cbn [negb].
    2: { exists off_grid, (path ++ [c]). split; auto. split; [apply incl_appl, incl_refl|].
      split; [reflexivity|]. split; [|split].
      - intros i Hi Bi K. apply In_app in Hi. destruct Hi as [Hi|Hi]; [|congruence].
        rewrite (ch_unknown _ _ _ _ C i Hi) in K. discriminate.
      - intros i Hi Bi _. apply In_app in Hi. destruct Hi as [Hi|Hi]; [|congruence].
        right. destruct (Hold i Hi) as (j & Hj & Hij). exists j. auto.
      - intros i Hi Bi. apply In_app in Hi. destruct Hi as [Hi|Hi]; [|congruence].
        left. split; auto. exists cur, c. split; [apply (ch_leads _ _ _ _ C); auto|].
        split; [apply (ch_in _ _ _ _ C), (ch_cur _ _ _ _ C)|]. split; auto. }
    assert (Hleads : forall i, In i path -> leads_to f p i c).
    { intros i Hi. eapply leads_trans; [apply (ch_leads _ _ _ _ C); auto|].
      eapply rt1n_trans; [exact Hc|apply rt1n_refl]. }
    change (fst (get m c)) with (value_at m c).
    destruct (known (value_at m c)) eqn:Kc.
    { exists (value_at m c), (path ++ [c]). split; auto. split; [apply incl_appl, incl_refl|].
      split; auto. split; [|split].
      - intros i Hi Bi K. apply In_app in Hi. destruct Hi as [Hi|Hi]; [|congruence].
        rewrite (ch_unknown _ _ _ _ C i Hi) in K. discriminate.
      - intros i Hi Bi Ki. apply In_app in Hi. destruct Hi as [Hi|Hi]; [|congruence].
        right. destruct (Hold i Hi) as (j & Hj & Hij). exists j. split; auto. split; auto.
        intros H. apply In_app in Hij. destruct Hij as [Hij|Hij]; [|congruence].
        rewrite (ch_in _ _ _ _ C j Hij) in H. discriminate.
      - intros i Hi Bi. destruct (Im c Bc Kc) as (_ & _ & _ & Ho).
        apply In_app in Hi. destruct Hi as [Hi|Hi]; [|subst i; auto].
        apply (origin_back i c); auto. }
    destruct (grad_some c Bc) as (g' & Eg). rewrite Eg.
    destruct (effective_flat f g') eqn:Ef.
    { pose proof (proj1 (flat_spec c g' Eg) Ef) as Hfl.
      assert (Oc : origin c (center_of p c)).
      { right. exists c. split; auto. split; [apply rt1n_refl|]. auto. }
      exists (center_of p c), (path ++ [c]). split; auto. split; [apply incl_appl, incl_refl|].
      split; [apply known_located, Hloc; auto|]. split; [|split].
      - intros i Hi Bi K. apply In_app in Hi. destruct Hi as [Hi|Hi]; [|congruence].
        rewrite (ch_unknown _ _ _ _ C i Hi) in K. discriminate.
      - intros i Hi Bi Ki. apply In_app in Hi. destruct Hi as [Hi|Hi]; [|subst i; left; auto].
        right. destruct (Hold i Hi) as (j & Hj & Hij). exists j. split; auto. split; auto.
        intros H. apply In_app in Hij. destruct Hij as [Hij|Hij]; [|congruence].
        rewrite (ch_in _ _ _ _ C j Hij) in H. discriminate.
      - intros i Hi Bi. apply In_app in Hi. destruct Hi as [Hi|Hi]; [|subst i; auto].
        apply (origin_back i c); auto. }
    destruct (IH (path ++ [c]) c g') as (v & path' & E & Hi & Hg).
    - constructor; auto.
      + intros i Hi. apply In_app in Hi. destruct Hi as [Hi|Hi]; [apply (ch_in _ _ _ _ C); auto|congruence].
      + apply (Permutation_NoDup (l := c :: path)); [apply Permutation_cons_append|].
        constructor; [exact Nc|apply (ch_nodup _ _ _ _ C)].
      + intros i Hi. apply In_app in Hi.
        destruct Hi as [Hi|Hi]; [apply (ch_unknown _ _ _ _ C); auto|subst i; auto].
      + apply In_app. auto.
      + intros i Hi. apply In_app in Hi. destruct Hi as [Hi|Hi]; [right; auto|auto].
      + intros i Hi. apply In_app in Hi. destruct Hi as [Hi|Hi]; [auto|subst i; apply rt1n_refl].
    - rewrite app_length. cbn [length]. lia.
    - exists v, path'. split; auto. split; auto. intros i Hp. apply Hi. apply In_app. auto.
  Qed.

  Lemma idx_dec (a b : idx) : {a = b} + {a <> b}.
  Proof. decide equality; apply Z.eq_dec. Qed.

  (** Marking the path. *)
  Lemma mark_path v path : forall m, gdims m = d -> wf_grid m ->
    let m' := fold_left (fun m' j => fst (set m' j v)) path m in
    gdims m' = d /\ wf_grid m' /\
    forall i, in_bounds d i = true ->
      (In i path -> value_at m' i = v) /\ (~ In i path -> value_at m' i = value_at m i).
  Proof.
    induction path as [|j path IH]; intros m Em Wm; cbn [fold_left].
    - split; auto. split; auto. intros i Bi. split; [intros []|auto].
    - specialize (IH (fst (set m j v))). change (fst (set m j v)) with (gset m j v) in *.
      destruct IH as (Ed & Wd & H); [rewrite gset_dims; auto|apply gset_wf; auto|].
      split; auto. split; auto. intros i Bi. destruct (H i Bi) as (H1 & H2).
      assert (Hs : value_at (gset m j v) i = if idx_eqb j i then v else value_at m i).
      { unfold value_at. change (gget (gset m j v) i = if idx_eqb j i then v else gget m i).
        destruct (in_bounds d j) eqn:Bj.
        - rewrite gget_gset by (auto; rewrite Em; auto). destruct (idx_eqb j i) eqn:Eij; auto.
        - rewrite gset_oob_id by (rewrite Em; auto). destruct (idx_eqb j i) eqn:Eij; auto.
          apply idx_eqb_eq in Eij. congruence. }
      destruct (in_dec idx_dec i path) as [Hi|Hi].
      + split; auto. intros Hn. exfalso. apply Hn. right. auto.
      + rewrite (H2 Hi), Hs. destruct (idx_eqb j i) eqn:Eij.
        * split; auto. intros Hn. exfalso. apply Hn. left. apply idx_eqb_eq in Eij. auto.
        * split; auto. intros [Hj|Hj]; [|contradiction]. subst j. rewrite idx_eqb_refl in Eij. discriminate.
  Qed.

  Lemma good_path_inv m v path : inv m -> good_path m v path ->
    let m' := fold_left (fun m' j => fst (set m' j v)) path m in
    inv m' /\
    (forall i, in_bounds d i = true -> In i path -> known (value_at m' i) = true) /\
    (forall i, in_bounds d i = true -> known (value_at m i) = true -> value_at m' i = value_at m i).
  Proof.
    intros (Em & Wm & Im) (Kv & G1 & G2 & G3) m'.
    destruct (mark_path v path m Em Wm) as (Ed & Wd & H). fold m' in Ed, Wd, H.
    pose proof (in_dec idx_dec) as dec.
    assert (Keep : forall i, in_bounds d i = true -> known (value_at m i) = true -> value_at m' i = value_at m i).
    { intros i Bi Ki. destruct (dec i path) as [Hi|Hi].
      - rewrite (proj1 (H i Bi) Hi). symmetry. apply G1; auto.
      - apply (proj2 (H i Bi) Hi). }
    split; [|split; auto].
    2: { intros i Bi Hi. rewrite (proj1 (H i Bi) Hi). auto. }
    split; auto. split; auto. intros i Bi Ki.
    destruct (known (value_at m i)) eqn:Kold.
    - (* already known *)
      destruct (Im i Bi Kold) as (S1 & S2 & S3 & S4). unfold settled. rewrite (Keep i Bi Kold).
      split; auto. split; auto. split; auto.
      intros j Hj Bj. rewrite <- (S3 j Hj Bj) at 1. apply Keep; auto. rewrite (S3 j Hj Bj). auto.
    - destruct (dec i path) as [Hi|Hi].
      2: { rewrite (proj2 (H i Bi) Hi) in Ki. congruence. }
      unfold settled. rewrite (proj1 (H i Bi) Hi).
      destruct (G2 i Hi Bi Kold) as [(Hfl & Hv)|(j & Hj & Hout & Hin)].
      + split; auto. split; [intros j (Hn & _); contradiction|].
        split; [intros j (Hn & _); contradiction|]. auto.
      + split; [intros Hfl; destruct Hj as (Hn & _); contradiction|].
        split; [intros k Hk Bk; apply Hout; rewrite (steps_fun i j k); auto|].
        split; auto.
        intros k Hk Bk. rewrite <- (steps_fun i j k Hj Hk) in *. apply (proj1 (H j Bk)). auto.
  Qed.

  Lemma follow_step m i : inv m -> in_bounds d i = true ->
    exists m', follow f p m i = Ok m' /\ inv m' /\ known (value_at m' i) = true /\
      forall j, in_bounds d j = true -> known (value_at m j) = true -> value_at m' j = value_at m j.
  Proof.
    intros I Bi. unfold follow. change (fst (get m i)) with (value_at m i).
    destruct (known (value_at m i)) eqn:Ki; [exists m; auto|].
    destruct (grad_some i Bi) as (g & Eg). rewrite Eg.
    destruct (effective_flat f g) eqn:Ef.
    - pose proof (proj1 (flat_spec i g Eg) Ef) as Hfl.
      assert (G : good_path m (center_of p i) [i]).
      { split; [apply known_located, Hloc; auto|]. split; [|split].
        - intros j [Hj|[]] _ K. subst. congruence.
        - intros j [Hj|[]] _ _. subst. left. auto.
        - intros j [Hj|[]] _. subst. right. exists j. split; auto. split; [apply rt1n_refl|]. auto. }
      destruct (good_path_inv m _ _ I G) as (I' & K' & P'). cbn [fold_left] in *.
      eexists. split; [reflexivity|]. split; auto. split; auto. apply K'; auto. left. auto.
    - destruct (follow_loop_good (S (Z.to_nat (ncells (gdims m)))) m I [i] i g) as (v & path & E & Hi & G).
      { constructor; auto.
        - intros j [Hj|[]]. subst. auto.
        - constructor; [intros []|constructor].
        - intros j [Hj|[]]. subst. auto.
        - left. auto.
        - intros j [Hj|[]]. left. auto.
        - intros j [Hj|[]]. subst. apply rt1n_refl. }
      { destruct I as (-> & _). cbn [length]. lia. }
      rewrite E. cbn [bind].
      destruct (good_path_inv m _ _ I G) as (I' & K' & P').
      eexists. split; [reflexivity|]. split; auto. split; auto. apply K'; auto. apply Hi. left. auto.
  Qed.

  Lemma follow_all l : (forall i, In i l -> in_bounds d i = true) -> forall m, inv m ->
    exists m', foldM (follow f p) l m = Ok m' /\ inv m' /\
      (forall i, In i l -> known (value_at m' i) = true) /\
      (forall j, in_bounds d j = true -> known (value_at m j) = true -> value_at m' j = value_at m j).
  Proof.
    induction l as [|i l IH]; intros Hl m I; cbn [foldM].
    - exists m. split; [reflexivity|]. split; [exact I|]. split; [intros i []|auto].
    - destruct (follow_step m i I) as (m1 & E1 & I1 & K1 & P1); [apply Hl; left; auto|].
      rewrite E1. cbn [bind].
      destruct (IH (fun j Hj => Hl j (or_intror Hj)) m1 I1) as (m2 & E2 & I2 & K2 & P2).
      exists m2. split; auto. split; auto. split.
      + intros j [Hj|Hj]; auto. subst j. rewrite P2; auto. apply Hl. left. auto.
      + intros j Bj Kj. rewrite P2, P1; auto. rewrite P1; auto.
  Qed.

  Lemma extrema_correct :
    exists m, compute_extrema f p d = Ok m /\ gdims m = d /\
    forall i, in_bounds d i = true ->
      (flat_cell f p i -> get m i = (center_of p i, true)) /\
      (forall j, steps_to f p i j -> in_bounds d j = false -> get m i = (off_grid, true)) /\
      (forall j, steps_to f p i j -> in_bounds d j = true -> get m i = get m j) /\
      ((get m i = (off_grid, true) /\ leaves_from f p i) \/
       (exists j, stops_at f p i j /\ get m i = (center_of p j, true))).
  Proof.
    assert (I0 : inv (mk_grid d unset unset)).
    { split; auto. split; [apply mk_grid_wf; auto|]. intros i Bi K. exfalso.
      unfold value_at in K. change (known (gget (mk_grid d unset unset) i) = true) in K.
      rewrite gget_mk_grid in K by auto. destruct (in_bounds d i); discriminate. }
    destruct (follow_all (sweep d) (fun i Hi => proj1 (sweep_in d i) Hi) _ I0) as (m & E & (Em & Wm & Im) & K & _).
    exists m. split; auto. split; auto. intros i Bi.
    assert (Hg : forall j, in_bounds d j = true -> get m j = (value_at m j, true)).
    { intros j Bj. unfold value_at. rewrite get_eq, Em, Bj. reflexivity. }
    destruct (Im i Bi (K i (proj2 (sweep_in d i) Bi))) as (S1 & S2 & S3 & S4).
    rewrite (Hg i Bi). split; [|split; [|split]].
    - intros H. rewrite (S1 H). auto.
    - intros j H1 H2. rewrite (S2 j H1 H2). auto.
    - intros j H1 H2. rewrite (Hg j H2), (S3 j H1 H2). auto.
    - destruct S4 as [(H1 & H2)|(j & H1 & H2)].
      + left. rewrite H1. auto.
      + right. exists j. rewrite H2. auto.
  Qed.
End Extrema.

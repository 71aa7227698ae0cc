From Verif Require Import Base BaseFacts Floats Grid GridFacts CollisionMap SdfGen SdfLock.

(** Every reference handed out since the field was locked is to the
    out-of-bounds value. *)
Definition held (s0 : sdf) (n : nat) (st : sdf * list cref) : Prop :=
  s_locked (fst st) = true /\ gdims (s_grid (fst st)) = gdims (s_grid s0) /\
  gdata (s_grid (fst st)) = gdata (s_grid s0) /\
  (n <= length (snd st))%nat /\
  forall k r, (n <= k)%nat -> nth_error (snd st) k = Some r -> r = ROob.

Lemma held_step s0 n st st' o :
  held s0 n st -> o <> SUnlock -> (forall k v, o = SWriteRef k v -> (n <= k)%nat) ->
  sdf_step st o = Ok st' -> held s0 n st'.
Proof.
  destruct st as [s refs]. intros (L & Hd & Hv & Hn & Hr) Hu Hw E. cbn [fst snd] in *.
  destruct o as [i v|i|k v| | |f]; cbn [sdf_step] in E.
  - injection E as <-. unfold sdf_set. rewrite L, andb_false_r. split; [|split; [|split; [|split]]]; auto.
  - injection E as <-. unfold sdf_get_mutable. rewrite L, andb_false_r. cbn [fst].
    split; [|split; [|split; [|split]]]; auto; cbn [fst snd].
    + rewrite app_length. lia.
    + intros k r Hk Ek. destruct (Nat.lt_ge_cases k (length refs)) as [Hl|Hl].
      * rewrite nth_error_app1 in Ek by auto. eauto.
      * rewrite nth_error_app2 in Ek by auto. destruct (k - length refs)%nat as [|m]; cbn in Ek.
        -- congruence.
        -- destruct m; discriminate.
  - destruct (nth_error refs k) as [r|] eqn:Ek; [|discriminate]. injection E as <-.
    rewrite (Hr k r (Hw k v eq_refl) Ek). split; [|split; [|split; [|split]]]; auto.
  - injection E as <-. split; [|split; [|split; [|split]]]; auto.
  - congruence.
  - injection E as <-. split; [|split; [|split; [|split]]]; auto.
Qed.

Lemma held_run s0 n ops : forall st st',
  held s0 n st -> ~ In SUnlock ops -> (forall k v, In (SWriteRef k v) ops -> (n <= k)%nat) ->
  sdf_run st ops = Ok st' -> held s0 n st'.
Proof.
  unfold sdf_run. induction ops as [|o ops IH]; intros st st' H Hu Hw E; cbn [foldM] in E.
  - injection E as <-. auto.
  - destruct (sdf_step st o) as [st1| |] eqn:E1; try discriminate. cbn [bind] in E.
    apply (IH st1); auto.
    + apply (held_step s0 n st st1 o); auto.
      * intros ->. apply Hu. left. auto.
      * intros k v ->. apply (Hw k v). left. auto.
    + intros Hi. apply Hu. right. auto.
    + intros k v Hi. apply (Hw k v). right. auto.
Qed.

Lemma sdf_run_wf ops : forall st st', wf_grid (s_grid (fst st)) ->
  sdf_run st ops = Ok st' -> wf_grid (s_grid (fst st')).
Proof.
  unfold sdf_run. induction ops as [|o ops IH]; intros [s refs] st' W E; cbn [foldM] in E.
  - injection E as <-. auto.
  - destruct (sdf_step (s, refs) o) as [[s1 refs1]| |] eqn:E1; try discriminate. cbn [bind] in E.
    apply (IH (s1, refs1)); auto. cbn [fst] in *. clear E.
    destruct o as [i v|i|k v| | |f]; cbn [sdf_step] in E1.
    + injection E1 as <- <-. unfold sdf_set. destruct (_ && _); cbn [fst s_grid]; auto. apply gset_wf. auto.
    + injection E1 as <- <-. auto.
    + destruct (nth_error refs k) as [[j|]|]; [| |discriminate]; injection E1 as <- <-; cbn; auto.
      apply gset_wf. auto.
    + injection E1 as <- <-. auto.
    + injection E1 as <- <-. auto.
    + injection E1 as <- <-. auto.
Qed.

Lemma locked_unchanged s refs ops s' refs' :
  wf_grid (s_grid s) ->
  s_locked s = true -> ~ In SUnlock ops ->
  (forall k v, In (SWriteRef k v) ops -> (length refs <= k)%nat) ->
  sdf_run (s, refs) ops = Ok (s', refs') ->
  s_locked s' = true /\
  (forall i, in_bounds (sdf_dims s) i = true -> sdf_get s' i = sdf_get s i) /\
  (forall i v, snd (sdf_set s' i v) = false /\ fst (sdf_set s' i v) = s') /\
  (forall i, snd (sdf_get_mutable s' i) = false).
Proof.
  intros W L Hu Hw E.
  assert (H : held s (length refs) (s', refs')).
  { apply (held_run s (length refs) ops (s, refs)); auto.
    split; [|split; [|split; [|split]]]; auto; cbn [snd fst].
    intros k r Hk Ek. apply nth_error_None in Hk. congruence. }
  destruct H as (L' & Hd & Hv & _). cbn [fst snd] in *.
  split; auto. split.
  { intros i B. unfold sdf_get, get. unfold sdf_dims in B. rewrite Hd, B, Hv.
    apply f_equal2; [|reflexivity]. apply nth_indep. unfold wf_grid in W.
    pose proof (data_index_range _ _ B). lia. }
  split.
  - intros i v. unfold sdf_set. rewrite L', andb_false_r. auto.
  - intros i. unfold sdf_get_mutable. rewrite L', andb_false_r. auto.
Qed.

Lemma foldM_app_ok {A B} (f : A -> B -> res A) l1 l2 a b : foldM f (l1 ++ l2) a = Ok b ->
  exists m, foldM f l1 a = Ok m /\ foldM f l2 m = Ok b.
Proof. intros H. rewrite foldM_app in H. destruct (foldM f l1 a) as [m| |]; try discriminate. cbn [bind] in H. eauto. Qed.

Lemma locked_history s0 before s1 refs1 after s2 refs2 :
  wf_grid (s_grid s0) ->
  sdf_run (s0, []) (before ++ [SLock]) = Ok (s1, refs1) ->
  ~ In SUnlock after ->
  (forall k v, In (SWriteRef k v) after -> (length refs1 <= k)%nat) ->
  sdf_run (s1, refs1) after = Ok (s2, refs2) ->
  (forall i, in_bounds (sdf_dims s1) i = true -> sdf_get s2 i = sdf_get s1 i) /\
  (forall i v, snd (sdf_set s2 i v) = false /\ fst (sdf_set s2 i v) = s2) /\
  (forall i, snd (sdf_get_mutable s2 i) = false).
Proof.
  intros W E1 Hu Hw E2.
  assert (W1 : wf_grid (s_grid s1)) by exact (sdf_run_wf _ (s0, []) (s1, refs1) W E1).
  assert (L : s_locked s1 = true).
  { apply foldM_app_ok in E1. destruct E1 as ([s r] & _ & E). cbn in E. injection E as <- _. reflexivity. }
  destruct (locked_unchanged s1 refs1 after s2 refs2 W1 L Hu Hw E2) as (_ & H). exact H.
Qed.

(** Two cells; references are taken and used around Lock(). *)
Definition small_field : sdf := new_sdf (D 2 1 1) (b64_of_Z 1) zero32 "".

Lemma kept_reference_writes :
  exists s0 before s1 refs1 after s2 refs2 i,
    wf_grid (s_grid s0) /\ sdf_run (s0, []) (before ++ [SLock]) = Ok (s1, refs1) /\
    ~ In SUnlock after /\ sdf_run (s1, refs1) after = Ok (s2, refs2) /\
    in_bounds (sdf_dims s1) i = true /\ sdf_get s2 i <> sdf_get s1 i.
Proof.
  exists small_field, [SGetRef (I 0 0 0)], (sdf_lock small_field), [RCell (I 0 0 0)],
    [SWriteRef 0 one32].
  exists (SDF (G (D 2 1 1) [one32; zero32] zero32) (b64_of_Z 1) "" true), [RCell (I 0 0 0)], (I 0 0 0).
  split; [apply mk_grid_wf; cbn; lia|]. split; [reflexivity|]. split; [intros [H|[]]; discriminate H|].
  split; [reflexivity|]. split; [reflexivity|]. cbn. discriminate.
Qed.

Lemma refused_reference_writes :
  exists s0 before s1 refs1 after s2 refs2 i,
    wf_grid (s_grid s0) /\ sdf_run (s0, []) (before ++ [SLock]) = Ok (s1, refs1) /\
    ~ In SUnlock after /\ (forall k v, In (SWriteRef k v) after -> (length refs1 <= k)%nat) /\
    sdf_run (s1, refs1) after = Ok (s2, refs2) /\
    in_bounds (sdf_dims s1) i = false /\ sdf_get s2 i <> sdf_get s1 i.
Proof.
  exists small_field, [], (sdf_lock small_field), [], [SGetRef (I 0 0 0); SWriteRef 0 one32].
  exists (SDF (G (D 2 1 1) [zero32; zero32] one32) (b64_of_Z 1) "" true), [ROob], (I 5 0 0).
  split; [apply mk_grid_wf; cbn; lia|]. split; [reflexivity|]. split; [intros [H|[H|[]]]; discriminate H|].
  split; [intros k v [H|[H|[]]]; [discriminate H|injection H as <- _; cbn; lia]|].
  split; [reflexivity|]. split; [reflexivity|]. cbn. discriminate.
Qed.

(** Without writes through references nothing at all changes, out of bounds
    included. *)
Lemma locked_no_writes s refs ops s' refs' :
  s_locked s = true -> ~ In SUnlock ops -> (forall k v, ~ In (SWriteRef k v) ops) ->
  sdf_run (s, refs) ops = Ok (s', refs') -> s_grid s' = s_grid s.
Proof.
  revert s refs. unfold sdf_run. induction ops as [|o ops IH]; intros s refs L Hu Hw E; cbn [foldM] in E.
  - injection E as <- _. auto.
  - destruct (sdf_step (s, refs) o) as [[s1 refs1]| |] eqn:E1; try discriminate. cbn [bind] in E.
    assert (K : s_locked s1 = true /\ s_grid s1 = s_grid s).
    { destruct o as [i v|i|k v| | |f]; cbn [sdf_step] in E1.
      - injection E1 as <- _. unfold sdf_set. rewrite L, andb_false_r. auto.
      - injection E1 as <- _. auto.
      - exfalso. apply (Hw k v). left. auto.
      - injection E1 as <- _. auto.
      - exfalso. apply Hu. left. auto.
      - injection E1 as <- _. auto. }
    destruct K as (K1 & K2). rewrite <- K2. apply (IH s1 refs1); auto.
    + intros H. apply Hu. right. auto.
    + intros k v H. apply (Hw k v). right. auto.
Qed.

Lemma locked_oob s refs ops s' refs' :
  s_locked s = true -> ~ In SUnlock ops -> (forall k v, ~ In (SWriteRef k v) ops) ->
  sdf_run (s, refs) ops = Ok (s', refs') -> forall i, sdf_get s' i = sdf_get s i.
Proof.
  intros L Hu Hw E i. unfold sdf_get. rewrite (locked_no_writes s refs ops s' refs' L Hu Hw E). auto.
Qed.

(** After the last Unlock() the field can be written. *)
Lemma unlocked_step st st' o : sdf_step st o = Ok st' -> o <> SLock -> wf_grid (s_grid (fst st)) ->
  s_locked (fst st) = false \/ o = SUnlock ->
  s_locked (fst st') = false /\ sdf_dims (fst st') = sdf_dims (fst st).
Proof.
  destruct st as [s refs]. intros E Hl W L. unfold sdf_dims. cbn [fst] in *.
  destruct o as [i v|i|k v| | |f]; cbn [sdf_step] in E; try (destruct L as [L|L]; [|discriminate]).
  - injection E as <-. unfold sdf_set. destruct (_ && _); cbn [fst s_locked s_grid]; rewrite ?gset_dims; auto.
  - injection E as <-. auto.
  - destruct (nth_error refs k) as [[j|]|]; [| |discriminate]; injection E as <-; cbn [fst sdf_write_ref s_locked s_grid];
      rewrite ?gset_dims; auto.
  - congruence.
  - injection E as <-. auto.
  - injection E as <-. auto.
Qed.

Lemma step_dims st st' o : sdf_step st o = Ok st' -> sdf_dims (fst st') = sdf_dims (fst st).
Proof.
  destruct st as [s refs]. intros E. unfold sdf_dims. cbn [fst] in *.
  destruct o as [i v|i|k v| | |f]; cbn [sdf_step] in E.
  - injection E as <-. unfold sdf_set. destruct (_ && _); cbn [fst s_grid]; rewrite ?gset_dims; auto.
  - injection E as <-. auto.
  - destruct (nth_error refs k) as [[j|]|]; [| |discriminate]; injection E as <-; cbn [fst sdf_write_ref s_grid];
      rewrite ?gset_dims; auto.
  - injection E as <-. auto.
  - injection E as <-. auto.
  - injection E as <-. auto.
Qed.

Lemma run_dims ops : forall st st', sdf_run st ops = Ok st' -> sdf_dims (fst st') = sdf_dims (fst st).
Proof.
  unfold sdf_run. induction ops as [|o ops IH]; intros st st' E; cbn [foldM] in E.
  - injection E as <-. auto.
  - destruct (sdf_step st o) as [st1| |] eqn:E1; try discriminate. cbn [bind] in E.
    rewrite (IH st1 st' E). apply (step_dims st st1 o). auto.
Qed.

Lemma unlocked_run ops : forall st st', s_locked (fst st) = false -> wf_grid (s_grid (fst st)) -> ~ In SLock ops ->
  sdf_run st ops = Ok st' -> s_locked (fst st') = false.
Proof.
  unfold sdf_run. induction ops as [|o ops IH]; intros st st' L W Hn E; cbn [foldM] in E.
  - injection E as <-. auto.
  - destruct (sdf_step st o) as [st1| |] eqn:E1; try discriminate. cbn [bind] in E.
    apply (IH st1); auto.
    + apply (unlocked_step st st1 o E1); auto. intros ->. apply Hn. left. auto.
    + apply (sdf_run_wf [o] st); auto. unfold sdf_run. cbn [foldM]. rewrite E1. reflexivity.
    + intros H. apply Hn. right. auto.
Qed.

Lemma unlocked_history s0 before s1 refs1 after s2 refs2 :
  wf_grid (s_grid s0) ->
  sdf_run (s0, []) (before ++ [SUnlock]) = Ok (s1, refs1) -> ~ In SLock after ->
  sdf_run (s1, refs1) after = Ok (s2, refs2) ->
  forall i v, in_bounds (sdf_dims s0) i = true ->
    snd (sdf_set s2 i v) = true /\ sdf_get (fst (sdf_set s2 i v)) i = (v, true) /\
    (forall j, j <> i -> sdf_get (fst (sdf_set s2 i v)) j = sdf_get s2 j) /\
    snd (sdf_get_mutable s2 i) = true.
Proof.
  intros W E1 Hn E2 i v Hi.
  assert (W1 : wf_grid (s_grid s1)) by exact (sdf_run_wf _ (s0, []) (s1, refs1) W E1).
  assert (W2 : wf_grid (s_grid s2)) by exact (sdf_run_wf after (s1, refs1) (s2, refs2) W1 E2).
  assert (D2 : sdf_dims s2 = sdf_dims s0).
  { pose proof (run_dims _ _ _ E1) as A. pose proof (run_dims _ _ _ E2) as B. cbn [fst] in *. congruence. }
  assert (L1 : s_locked s1 = false).
  { unfold sdf_run in E1. rewrite foldM_app in E1. destruct (foldM sdf_step before (s0, [])) as [[s refs]| |]; try discriminate.
    cbn [bind foldM sdf_step] in E1. injection E1 as <- _. reflexivity. }
  pose proof (unlocked_run after (s1, refs1) _ L1 W1 Hn E2) as L2. cbn [fst] in L2.
  unfold sdf_set, sdf_get_mutable, sdf_get. rewrite D2, Hi, L2. cbn [andb negb fst snd s_grid].
  split; [auto|]. split; [|split; [|auto]].
  - apply get_set_same; auto. unfold sdf_dims in D2. rewrite D2. auto.
  - intros j Hj. apply get_set_other. auto.
Qed.

Lemma lock_case :
  let h1 := [SSet (I 1 0 0) one32] in
  let h2 := [SSet (I 0 0 0) one32; SGetRef (I 0 0 0); SWriteRef 0 one32; SLock] in
  exists s1 s2 refs2,
    wf_grid (s_grid small_field) /\
    sdf_run (small_field, []) (h1 ++ [SLock]) = Ok (s1, []) /\
    ~ In SUnlock h2 /\ sdf_run (s1, []) h2 = Ok (s2, refs2) /\
    sdf_get s2 (I 1 0 0) = (one32, true) /\ sdf_get s2 (I 0 0 0) = (zero32, true).
Proof.
  intros h1 h2. do 3 eexists. split; [apply mk_grid_wf; cbn; lia|]. split; [reflexivity|].
  split; [intros H; repeat (destruct H as [H|H]; [discriminate H|]); exact H|].
  split; [reflexivity|]. split; reflexivity.
Qed.

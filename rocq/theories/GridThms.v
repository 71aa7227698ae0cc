From Verif Require Import Base BaseFacts Grid GridFacts GridSpec.

Lemma set_get_laws {A} (g g' : grid A) i v ok :
  wf_grid g -> set g i v = (g', ok) ->
  ok = in_bounds (gdims g) i /\
  (ok = true -> get g' i = (v, true)) /\
  (forall j, j <> i -> get g' j = get g j) /\
  (ok = false -> g' = g) /\
  wf_grid g'.
Proof.
  intros W E. rewrite set_eq in E. injection E as <- <-.
  split; [auto|]. split; [intros H; apply get_set_same; auto|].
  split; [intros j Hj; apply get_set_other; auto|].
  split; [intros H; apply gset_oob_id; auto|apply gset_wf; auto].
Qed.

Lemma apply_writes_spec {A} (writes : list (idx * A)) : forall g,
  wf_grid g ->
  wf_grid (apply_writes g writes) /\ gdims (apply_writes g writes) = gdims g /\
  goob (apply_writes g writes) = goob g /\
  forall i, in_bounds (gdims g) i = true ->
    get (apply_writes g writes) i = (last_write writes i (gget g i), true).
Proof.
  induction writes as [|[j v] ws IH]; intros g W; cbn [apply_writes fold_left last_write].
  - repeat split; try apply W. intros i Hi. rewrite get_eq, Hi; auto.
  - destruct (IH (gset g j v) (gset_wf _ _ _ W)) as (W' & E1 & E2 & HR).
    rewrite gset_dims in *. rewrite gset_oob in E2.
    split; [exact W'|]. split; [exact E1|]. split; [exact E2|].
    intros i Hi. unfold apply_writes in HR. cbn [fst snd]. fold (gset g j v). rewrite HR by auto.
    f_equal. f_equal. destruct (in_bounds (gdims g) j) eqn:Hj.
    + apply gget_gset; auto.
    + rewrite gset_oob_id by auto. destruct (idx_eqb_spec j i); congruence.
Qed.

Lemma set_history {A} d (def oob : A) writes i :
  0 <= nx d -> 0 <= ny d -> 0 <= nz d ->
  get (apply_writes (mk_grid d def oob) writes) i =
    if in_bounds d i then (last_write writes i def, true) else (oob, false).
Proof.
  intros H1 H2 H3.
  destruct (apply_writes_spec writes (mk_grid d def oob)) as (W & E1 & E2 & HR);
    [apply mk_grid_wf; auto|].
  destruct (in_bounds d i) eqn:Hi.
  - rewrite HR by auto. rewrite gget_mk_grid by auto. auto.
  - unfold get. rewrite E1; cbn [gdims mk_grid]. rewrite Hi, E2. auto.
Qed.

(** Proofs about Resample. *)
From Coq Require Import Reals Lra Lia Sorted.
From Verif Require Import Base BaseFacts Floats Grid GridFacts CollisionMap TaggedMap Arith SdfQuery
  QuerySpec Resample ResampleSpec.
Local Open Scope Z_scope.

(** ** The sweep visits cells in order *)
Lemma SS_app {A} (R : A -> A -> Prop) l1 l2 :
  StronglySorted R l1 -> StronglySorted R l2 -> (forall a b, In a l1 -> In b l2 -> R a b) ->
  StronglySorted R (l1 ++ l2).
Proof.
  induction 1 as [|a l S IH F]; intros S2 H; cbn; auto. constructor.
  - apply IH; auto. intros; apply H; cbn; auto.
  - rewrite Forall_forall in *. intros b Hb. apply in_app_or in Hb. destruct Hb; auto.
    apply H; cbn; auto.
Qed.

Lemma SS_flat_map {A B} (R : A -> A -> Prop) (Q : B -> B -> Prop) (f : A -> list B) l :
  StronglySorted R l -> (forall a, In a l -> StronglySorted Q (f a)) ->
  (forall a b x y, R a b -> In x (f a) -> In y (f b) -> Q x y) ->
  StronglySorted Q (flat_map f l).
Proof.
  induction 1 as [|a l S IH F]; intros Hf HR; cbn; [constructor|].
  apply SS_app; [apply Hf; cbn; auto|apply IH; auto; intros; apply Hf; cbn; auto|].
  intros x y Hx Hy. apply in_flat_map in Hy. destruct Hy as (b & Hb & Hy).
  rewrite Forall_forall in F. eapply HR; eauto.
Qed.

Lemma SS_map {A B} (R : A -> A -> Prop) (Q : B -> B -> Prop) (f : A -> B) l :
  StronglySorted R l -> (forall a b, R a b -> Q (f a) (f b)) -> StronglySorted Q (map f l).
Proof.
  induction 1 as [|a l S IH F]; intros H; cbn; constructor; auto.
  rewrite Forall_forall in *. intros y Hy. apply in_map_iff in Hy. destruct Hy as (b & <- & Hb). auto.
Qed.

Lemma SS_seq n s : StronglySorted lt (seq s n).
Proof.
  revert s; induction n as [|n IH]; intros s; cbn; constructor; auto.
  rewrite Forall_forall. intros x Hx. apply in_seq in Hx. lia.
Qed.

Lemma SS_zrange n : StronglySorted Z.lt (zrange n).
Proof. unfold zrange. eapply SS_map; [apply SS_seq|]. intros; lia. Qed.

Lemma sweep_ordered d : StronglySorted visited_before (sweep d).
Proof.
  unfold sweep. eapply SS_flat_map; [apply SS_zrange| |].
  - intros x _. eapply SS_flat_map; [apply SS_zrange| |].
    + intros y _. eapply SS_map; [apply SS_zrange|]. intros a b H. unfold visited_before; cbn; auto.
    + intros a b i j H Hi Hj. apply in_map_iff in Hi. apply in_map_iff in Hj.
      destruct Hi as (u & <- & _), Hj as (w & <- & _). unfold visited_before; cbn; auto.
  - intros a b i j H Hi Hj. apply in_flat_map in Hi. apply in_flat_map in Hj.
    destruct Hi as (y & _ & Hi), Hj as (y' & _ & Hj).
    apply in_map_iff in Hi. apply in_map_iff in Hj.
    destruct Hi as (u & <- & _), Hj as (w & <- & _). unfold visited_before; cbn; auto.
Qed.

(** ** The last writer wins *)
Section Writes.
  Context {C : Type}.
  Variables (t : idx -> idx) (src : idx -> C).
  Definition writes (l : list idx) (g : grid C) : grid C :=
    fold_left (fun g i => gset g (t i) (src i)) l g.

  Lemma writes_dims l g : gdims (writes l g) = gdims g.
  Proof. revert g; induction l; intros g; cbn; auto. rewrite IHl. apply gset_dims. Qed.
  Lemma writes_oob l g : goob (writes l g) = goob g.
  Proof. revert g; induction l; intros g; cbn; auto. rewrite IHl. apply gset_oob. Qed.
  Lemma writes_wf l g : wf_grid g -> wf_grid (writes l g).
  Proof. revert g; induction l; intros g W; cbn; auto. apply IHl, gset_wf; auto. Qed.

  Lemma writes_last l g j : StronglySorted visited_before l -> wf_grid g -> in_bounds (gdims g) j = true ->
    (exists i, In i l /\ t i = j /\ (forall k, In k l -> t k = j -> k = i \/ visited_before k i) /\
               gget (writes l g) j = src i) \/
    ((forall i, In i l -> t i <> j) /\ gget (writes l g) j = gget g j).
  Proof.
    revert g; induction l as [|a l IH]; intros g S W B; cbn; [right; auto|].
    inversion S as [|? ? S' F]; subst.
    assert (W' : wf_grid (gset g (t a) (src a))) by (apply gset_wf; auto).
    assert (B' : in_bounds (gdims (gset g (t a) (src a))) j = true) by (rewrite gset_dims; auto).
    destruct (IH _ S' W' B') as [(i & Hi & Ti & Last & E)|(No & E)].
    - left. exists i. split; auto. split; auto. split; auto.
      intros k [<-|Hk] Tk; auto. right. rewrite Forall_forall in F. auto.
    - destruct (idx_eq_dec (t a) j) as [Ta|Ta].
      + left. exists a. split; auto. split; auto. split.
        * intros k [<-|Hk] Tk; auto. destruct (No k Hk Tk).
        * unfold writes in E. rewrite E. rewrite gget_gset; auto; [|rewrite Ta; auto].
          rewrite Ta, idx_eqb_refl. reflexivity.
      + right. split; [intros i [<-|Hi]; auto|]. unfold writes in E. rewrite E.
        destruct (in_bounds (gdims g) (t a)) eqn:Ba.
        * rewrite gget_gset; auto. destruct (idx_eqb_spec (t a) j); congruence.
        * rewrite gset_oob_id; auto.
  Qed.
End Writes.

Section Both.
  Context {A : arith}.
  Variables (p p' : pose A) (d' : dims).

  Lemma cm_set_grid r i v : cm_grid (fst (cm_set r i v)) = gset (cm_grid r) i v.
  Proof.
    unfold cm_set, cm_dims. destruct (in_bounds (gdims (cm_grid r)) i) eqn:E; cbn; auto.
    rewrite gset_oob_id; auto.
  Qed.

  Lemma tm_set_grid r i v : tm_grid (fst (tm_set r i v)) = gset (tm_grid r) i v.
  Proof.
    unfold tm_set, tm_dims. destruct (in_bounds (gdims (tm_grid r)) i) eqn:E; cbn; auto.
    rewrite gset_oob_id; auto.
  Qed.

  Lemma cm_resample_grid m : cm_grid (cm_resample p p' d' m) =
    writes (target p p') (fun i => fst (cm_get m i)) (sweep (cm_dims m))
      (mk_grid d' (goob (cm_grid m)) (goob (cm_grid m))).
  Proof.
    unfold cm_resample, writes.
    change (mk_grid d' (goob (cm_grid m)) (goob (cm_grid m))) with
      (cm_grid (cm_new (cm_frame m) d' (goob (cm_grid m)) (goob (cm_grid m)))).
    generalize (cm_new (cm_frame m) d' (goob (cm_grid m)) (goob (cm_grid m))).
    induction (sweep (cm_dims m)) as [|a l IH]; intros r; cbn [fold_left]; auto.
    rewrite IH, cm_set_grid. reflexivity.
  Qed.

  Lemma tm_resample_grid m : tm_grid (tm_resample p p' d' m) =
    writes (target p p') (fun i => fst (tm_get m i)) (sweep (tm_dims m))
      (mk_grid d' (goob (tm_grid m)) (goob (tm_grid m))).
  Proof.
    unfold tm_resample, writes.
    change (mk_grid d' (goob (tm_grid m)) (goob (tm_grid m))) with
      (tm_grid (tm_new (tm_frame m) d' (goob (tm_grid m)) (goob (tm_grid m)))).
    generalize (tm_new (tm_frame m) d' (goob (tm_grid m)) (goob (tm_grid m))).
    induction (sweep (tm_dims m)) as [|a l IH]; intros r; cbn [fold_left]; auto.
    rewrite IH, tm_set_grid. reflexivity.
  Qed.

  Lemma cm_resample_shape m :
    cm_dims (cm_resample p p' d' m) = d' /\
    goob (cm_grid (cm_resample p p' d' m)) = goob (cm_grid m) /\
    cm_frame (cm_resample p p' d' m) = cm_frame m /\
    cm_components_valid (cm_resample p p' d' m) = false.
  Proof.
    unfold cm_dims at 1. rewrite cm_resample_grid, writes_dims, writes_oob. repeat split.
    - unfold cm_resample. apply fold_left_inv with (I := fun r => cm_frame r = cm_frame m); auto.
      intros r i _ H. unfold cm_set. destruct (in_bounds (cm_dims r) (target p p' i)); auto.
    - unfold cm_resample. apply fold_left_inv with (I := fun r => cm_components_valid r = false); auto.
      intros r i _ H. unfold cm_set. destruct (in_bounds (cm_dims r) (target p p' i)); auto.
  Qed.

  Lemma tm_resample_shape m :
    tm_dims (tm_resample p p' d' m) = d' /\
    goob (tm_grid (tm_resample p p' d' m)) = goob (tm_grid m) /\
    tm_frame (tm_resample p p' d' m) = tm_frame m /\
    tm_components_valid (tm_resample p p' d' m) = false.
  Proof.
    unfold tm_dims at 1. rewrite tm_resample_grid, writes_dims, writes_oob. repeat split.
    - unfold tm_resample. apply fold_left_inv with (I := fun r => tm_frame r = tm_frame m); auto.
      intros r i _ H. unfold tm_set. destruct (in_bounds (tm_dims r) (target p p' i)); auto.
    - unfold tm_resample. apply fold_left_inv with (I := fun r => tm_components_valid r = false); auto.
      intros r i _ H. unfold tm_set. destruct (in_bounds (tm_dims r) (target p p' i)); auto.
  Qed.

  Lemma bounds_nonneg d j : in_bounds d j = true -> 0 <= nx d /\ 0 <= ny d /\ 0 <= nz d.
  Proof. rewrite in_bounds_spec. lia. Qed.

  Lemma cm_resample_cell m j : in_bounds d' j = true ->
    (exists i, last_to (cm_dims m) (target p p') j i /\
       fst (cm_get (cm_resample p p' d' m) j) = fst (cm_get m i)) \/
    ((forall i, in_bounds (cm_dims m) i = true -> target p p' i <> j) /\
       fst (cm_get (cm_resample p p' d' m) j) = goob (cm_grid m)).
  Proof.
    intros B. destruct (bounds_nonneg d' j B) as (X & Y & Z0).
    destruct (writes_last (target p p') (fun i => fst (cm_get m i)) (sweep (cm_dims m))
      (mk_grid d' (goob (cm_grid m)) (goob (cm_grid m))) j (sweep_ordered _) (mk_grid_wf _ _ _ X Y Z0) B)
      as [(i & Hi & Ti & L & E)|(No & E)].
    - left. exists i. apply sweep_in in Hi. split.
      + split; auto. split; auto. intros k Hk. apply L, sweep_in; auto.
      + rewrite <- E. unfold cm_get at 1. rewrite cm_resample_grid. reflexivity.
    - right. split.
      + intros i Hi. apply No, sweep_in; auto.
      + unfold cm_get. rewrite cm_resample_grid. fold (gget (writes (target p p') (fun i => fst (cm_get m i))
          (sweep (cm_dims m)) (mk_grid d' (goob (cm_grid m)) (goob (cm_grid m)))) j).
        rewrite E. apply gget_mk_grid; auto.
  Qed.

  Lemma tm_resample_cell m j : in_bounds d' j = true ->
    (exists i, last_to (tm_dims m) (target p p') j i /\
       fst (tm_get (tm_resample p p' d' m) j) = fst (tm_get m i)) \/
    ((forall i, in_bounds (tm_dims m) i = true -> target p p' i <> j) /\
       fst (tm_get (tm_resample p p' d' m) j) = goob (tm_grid m)).
  Proof.
    intros B. destruct (bounds_nonneg d' j B) as (X & Y & Z0).
    destruct (writes_last (target p p') (fun i => fst (tm_get m i)) (sweep (tm_dims m))
      (mk_grid d' (goob (tm_grid m)) (goob (tm_grid m))) j (sweep_ordered _) (mk_grid_wf _ _ _ X Y Z0) B)
      as [(i & Hi & Ti & L & E)|(No & E)].
    - left. exists i. apply sweep_in in Hi. split.
      + split; auto. split; auto. intros k Hk. apply L, sweep_in; auto.
      + rewrite <- E. unfold tm_get at 1. rewrite tm_resample_grid. reflexivity.
    - right. split.
      + intros i Hi. apply No, sweep_in; auto.
      + unfold tm_get. rewrite tm_resample_grid. fold (gget (writes (target p p') (fun i => fst (tm_get m i))
          (sweep (tm_dims m)) (mk_grid d' (goob (tm_grid m)) (goob (tm_grid m)))) j).
        rewrite E. apply gget_mk_grid; auto.
  Qed.
End Both.

(** Facts about the voxel-grid model. *)
From Verif Require Import Base BaseFacts Grid.
From Coq Require Import FinFun.

Lemma idx_eqb_spec a b : reflect (a = b) (idx_eqb a b).
Proof.
  unfold idx_eqb; destruct a as [a1 a2 a3], b as [b1 b2 b3]; cbn.
  destruct (Z.eqb_spec a1 b1), (Z.eqb_spec a2 b2), (Z.eqb_spec a3 b3); cbn;
    constructor; congruence.
Qed.

Lemma idx_eqb_eq a b : idx_eqb a b = true <-> a = b.
Proof. destruct (idx_eqb_spec a b); intuition congruence. Qed.

Lemma idx_eqb_refl a : idx_eqb a a = true.
Proof. apply idx_eqb_eq; auto. Qed.

Lemma idx_eq_dec (a b : idx) : {a = b} + {a <> b}.
Proof. destruct (idx_eqb_spec a b); auto. Qed.

Lemma in_bounds_spec d i :
  in_bounds d i = true <->
  0 <= ix i < nx d /\ 0 <= iy i < ny d /\ 0 <= iz i < nz d.
Proof. unfold in_bounds; lia. Qed.

Lemma data_index_range d i :
  in_bounds d i = true -> 0 <= data_index d i < ncells d.
Proof.
  rewrite in_bounds_spec. unfold data_index, ncells.
  destruct d as [a b c], i as [x y z]; cbn. intros (Hx & Hy & Hz).
  assert (y * c + z < b * c) by nia. assert (0 <= y * c + z) by nia.
  assert (x * (b * c) <= (a - 1) * (b * c)) by nia. nia.
Qed.

Lemma data_index_inj d i j :
  in_bounds d i = true -> in_bounds d j = true ->
  data_index d i = data_index d j -> i = j.
Proof.
  rewrite !in_bounds_spec. unfold data_index.
  destruct d as [a b c], i as [x y z], j as [x' y' z']; cbn.
  intros (Hx & Hy & Hz) (Hx' & Hy' & Hz') E.
  assert (R : 0 <= y * c + z < b * c) by nia.
  assert (R' : 0 <= y' * c + z' < b * c) by nia.
  assert (x = x').
  { apply (Z.div_unique_pos (x' * (b * c) + (y' * c + z')) (b * c) x (y * c + z)) in R;
      [|lia].
    apply (Z.div_unique_pos (x' * (b * c) + (y' * c + z')) (b * c) x' (y' * c + z')) in R';
      [|lia]. congruence. }
  subst x'. assert (E2 : y * c + z = y' * c + z') by lia.
  assert (y = y').
  { pose proof (Z.div_unique_pos (y' * c + z') c y z ltac:(lia) ltac:(lia)).
    pose proof (Z.div_unique_pos (y' * c + z') c y' z' ltac:(lia) ltac:(lia)). congruence. }
  subst y'. f_equal; lia.
Qed.

Lemma data_index_nat_inj d i j :
  in_bounds d i = true -> in_bounds d j = true ->
  Z.to_nat (data_index d i) = Z.to_nat (data_index d j) -> i = j.
Proof.
  intros Hi Hj E. apply (data_index_inj d); auto.
  pose proof (data_index_range d i Hi). pose proof (data_index_range d j Hj). lia.
Qed.

Section Laws.
  Context {A : Type}.
  Implicit Types (g : grid A) (v : A).

  Lemma gset_dims g i v : gdims (gset g i v) = gdims g.
  Proof. unfold gset, set; destruct (in_bounds (gdims g) i); reflexivity. Qed.

  Lemma gset_oob g i v : goob (gset g i v) = goob g.
  Proof. unfold gset, set; destruct (in_bounds (gdims g) i); reflexivity. Qed.

  Lemma gset_wf g i v : wf_grid g -> wf_grid (gset g i v).
  Proof.
    unfold wf_grid; rewrite gset_dims. unfold gset, set.
    destruct (in_bounds (gdims g) i); cbn; rewrite ?upd_length; auto.
  Qed.

  Lemma wf_index_lt g i :
    wf_grid g -> in_bounds (gdims g) i = true ->
    (Z.to_nat (data_index (gdims g) i) < List.length (gdata g))%nat.
  Proof.
    intros (_ & _ & _ & L) Hb. rewrite L. pose proof (data_index_range _ _ Hb). lia.
  Qed.

  Lemma get_set_same g i v :
    wf_grid g -> in_bounds (gdims g) i = true -> get (gset g i v) i = (v, true).
  Proof.
    intros W Hb. unfold get, gset, set. rewrite Hb; cbn. rewrite Hb.
    rewrite upd_nth_same; auto. apply wf_index_lt; auto.
  Qed.

  Lemma get_set_other g i j v : i <> j -> get (gset g i v) j = get g j.
  Proof.
    intros Hne. unfold get, gset, set.
    destruct (in_bounds (gdims g) i) eqn:Hi; cbn; auto.
    destruct (in_bounds (gdims g) j) eqn:Hj; cbn; auto.
    rewrite upd_nth_other; auto. intros E; apply Hne. eapply data_index_nat_inj; eauto.
  Qed.

  Lemma gset_oob_id g i v : in_bounds (gdims g) i = false -> gset g i v = g.
  Proof. intros H; unfold gset, set; rewrite H; reflexivity. Qed.

  Lemma gget_gset g i j v :
    wf_grid g -> in_bounds (gdims g) i = true ->
    gget (gset g i v) j = if idx_eqb i j then v else gget g j.
  Proof.
    intros W Hb. unfold gget. destruct (idx_eqb_spec i j) as [<-|Hne].
    - rewrite get_set_same; auto.
    - rewrite get_set_other; auto.
  Qed.

  Lemma set_eq g i v : set g i v = (gset g i v, in_bounds (gdims g) i).
  Proof. unfold gset, set; destruct (in_bounds (gdims g) i); reflexivity. Qed.

  Lemma get_eq g i : get g i = (gget g i, in_bounds (gdims g) i).
  Proof. unfold gget, get; destruct (in_bounds (gdims g) i); reflexivity. Qed.

  Lemma gget_oob g i : in_bounds (gdims g) i = false -> gget g i = goob g.
  Proof. unfold gget, get; intros ->; reflexivity. Qed.

  Lemma gget_nth_error g i :
    wf_grid g -> in_bounds (gdims g) i = true ->
    nth_error (gdata g) (Z.to_nat (data_index (gdims g) i)) = Some (gget g i).
  Proof.
    intros W Hb. unfold gget, get; rewrite Hb; cbn.
    apply nth_error_nth'. apply wf_index_lt; auto.
  Qed.

  Lemma mk_grid_wf d (def oob : A) :
    0 <= nx d -> 0 <= ny d -> 0 <= nz d -> wf_grid (mk_grid d def oob).
  Proof. intros; unfold wf_grid, mk_grid; cbn. rewrite repeat_length; auto. Qed.

  Lemma nth_repeat_lt (a b : A) n m : (m < n)%nat -> nth m (repeat a n) b = a.
  Proof. revert m; induction n as [|n IH]; intros [|m] H; cbn; try lia; auto. apply IH; lia. Qed.

  Lemma gget_mk_grid d (def oob : A) i :
    in_bounds d i = true -> gget (mk_grid d def oob) i = def.
  Proof.
    intros Hb. unfold gget, get, mk_grid; cbn. rewrite Hb; cbn.
    apply nth_repeat_lt. pose proof (data_index_range d i Hb). lia.
  Qed.
End Laws.

(** ** The sweep *)

Lemma zrange_in n k : In k (zrange n) <-> 0 <= k < n.
Proof.
  unfold zrange. rewrite in_map_iff. split.
  - intros (m & <- & Hm). apply in_seq in Hm. lia.
  - intros H. exists (Z.to_nat k). rewrite in_seq. lia.
Qed.

Lemma zrange_nodup n : NoDup (zrange n).
Proof.
  unfold zrange. apply Injective_map_NoDup; [|apply seq_NoDup].
  intros a b; lia.
Qed.

Lemma zrange_length n : List.length (zrange n) = Z.to_nat n.
Proof. unfold zrange; rewrite map_length, seq_length; auto. Qed.

Lemma sweep_in d i : In i (sweep d) <-> in_bounds d i = true.
Proof.
  rewrite in_bounds_spec. unfold sweep. rewrite in_flat_map. split.
  - intros (x & Hx & Hi). apply in_flat_map in Hi. destruct Hi as (y & Hy & Hi).
    apply in_map_iff in Hi. destruct Hi as (z & <- & Hz).
    rewrite zrange_in in *; cbn; auto.
  - intros (Hx & Hy & Hz). exists (ix i). split; [apply zrange_in; auto|].
    apply in_flat_map. exists (iy i). split; [apply zrange_in; auto|].
    apply in_map_iff. exists (iz i). split; [destruct i; auto | apply zrange_in; auto].
Qed.

Lemma NoDup_app_intro {A} (l1 l2 : list A) :
  NoDup l1 -> NoDup l2 -> (forall a, In a l1 -> ~ In a l2) -> NoDup (l1 ++ l2).
Proof.
  induction l1 as [|a l1 IH]; cbn; intros H1 H2 H; auto.
  inversion H1; subst. constructor.
  - rewrite in_app_iff. intros [Hc|Hc]; auto. apply (H a); auto.
  - apply IH; auto.
Qed.

Lemma NoDup_flat_map {A B} (f : A -> list B) l :
  NoDup l -> (forall a, In a l -> NoDup (f a)) ->
  (forall a b c, In a l -> In b l -> In c (f a) -> In c (f b) -> a = b) ->
  NoDup (flat_map f l).
Proof.
  induction l as [|a l IH]; cbn; intros Hl Hf Hd; [constructor|].
  inversion Hl; subst. apply NoDup_app_intro; auto.
  - apply IH; [auto|auto|]. intros; eapply Hd; eauto.
  - intros c Hc Hc'. apply in_flat_map in Hc'. destruct Hc' as (b & Hb & Hcb).
    assert (a = b) by (eapply Hd; eauto). subst; auto.
Qed.

Lemma sweep_nodup d : NoDup (sweep d).
Proof.
  unfold sweep. apply NoDup_flat_map; [apply zrange_nodup| |].
  - intros x _. apply NoDup_flat_map; [apply zrange_nodup| |].
    + intros y _. apply Injective_map_NoDup; [|apply zrange_nodup].
      intros a b E; injection E; auto.
    + intros a b c _ _ Ha Hb. apply in_map_iff in Ha, Hb.
      destruct Ha as (za & <- & _), Hb as (zb & E & _). injection E; auto.
  - intros a b c _ _ Ha Hb. apply in_flat_map in Ha, Hb.
    destruct Ha as (ya & _ & Ha), Hb as (yb & _ & Hb).
    apply in_map_iff in Ha, Hb.
    destruct Ha as (za & <- & _), Hb as (zb & E & _). injection E; auto.
Qed.

Lemma flat_map_const_length {A B} (f : A -> list B) l n :
  (forall a, In a l -> List.length (f a) = n) ->
  List.length (flat_map f l) = (List.length l * n)%nat.
Proof.
  induction l as [|a l IH]; cbn; intros H; auto.
  rewrite app_length, IH, H; auto.
Qed.

Lemma sweep_length d :
  0 <= nx d -> 0 <= ny d -> 0 <= nz d ->
  List.length (sweep d) = Z.to_nat (ncells d).
Proof.
  intros Hx Hy Hz. unfold sweep, ncells.
  rewrite (flat_map_const_length _ _ (Z.to_nat (ny d) * Z.to_nat (nz d))).
  - rewrite zrange_length. rewrite !Z2Nat.inj_mul by nia. lia.
  - intros x _. rewrite (flat_map_const_length _ _ (Z.to_nat (nz d))).
    + rewrite zrange_length; auto.
    + intros y _. rewrite map_length, zrange_length; auto.
Qed.

(** Position of an index in the sweep is its data index. *)
Lemma nth_flat_map_const {A B} (f : A -> list B) l n k j da db :
  (forall a, In a l -> List.length (f a) = n) ->
  (k < List.length l)%nat -> (j < n)%nat ->
  nth (k * n + j) (flat_map f l) db = nth j (f (nth k l da)) db.
Proof.
  revert k; induction l as [|a l IH]; cbn; intros k Hlen Hk Hj; [lia|].
  destruct k as [|k]; cbn.
  - apply app_nth1. rewrite Hlen; auto.
  - rewrite app_nth2 by (rewrite Hlen by auto; lia).
    rewrite Hlen by auto. replace (n + k * n + j - n)%nat with (k * n + j)%nat by lia.
    apply IH; auto; lia.
Qed.

Lemma nth_zrange n k d : (k < Z.to_nat n)%nat -> nth k (zrange n) d = Z.of_nat k.
Proof.
  intros H. unfold zrange.
  rewrite (nth_indep _ d (Z.of_nat 0%nat)) by (rewrite map_length, seq_length; auto).
  rewrite map_nth. rewrite seq_nth by auto. lia.
Qed.

Lemma sweep_nth d i def :
  in_bounds d i = true -> nth (Z.to_nat (data_index d i)) (sweep d) def = i.
Proof.
  intros Hb. apply in_bounds_spec in Hb. destruct Hb as (Hx & Hy & Hz).
  unfold sweep, data_index.
  set (f := fun x : Z => flat_map (fun y : Z => map (fun z : Z => I x y z) (zrange (nz d)))
                          (zrange (ny d))).
  assert (Lf : forall x, List.length (f x) = (Z.to_nat (ny d) * Z.to_nat (nz d))%nat).
  { intros x; unfold f. rewrite (flat_map_const_length _ _ (Z.to_nat (nz d))).
    - rewrite zrange_length; auto.
    - intros; rewrite map_length, zrange_length; auto. }
  assert (En : Z.to_nat (ix i * (ny d * nz d) + iy i * nz d + iz i) =
    (Z.to_nat (ix i) * (Z.to_nat (ny d) * Z.to_nat (nz d))
          + (Z.to_nat (iy i) * Z.to_nat (nz d) + Z.to_nat (iz i)))%nat).
  { assert (0 <= ny d * nz d) by (apply Z.mul_nonneg_nonneg; lia).
    assert (0 <= ix i * (ny d * nz d)) by (apply Z.mul_nonneg_nonneg; lia).
    assert (0 <= iy i * nz d) by (apply Z.mul_nonneg_nonneg; lia).
    apply Nat2Z.inj. rewrite Z2Nat.id by lia.
    rewrite !Nat2Z.inj_add, !Nat2Z.inj_mul, !Z2Nat.id by lia. ring. }
  rewrite En; clear En.
  rewrite (nth_flat_map_const f _ (Z.to_nat (ny d) * Z.to_nat (nz d)) _ _ 0);
    [| intros; apply Lf | rewrite zrange_length; lia | nia].
  rewrite nth_zrange by lia. unfold f.
  rewrite (nth_flat_map_const _ _ (Z.to_nat (nz d)) _ _ 0);
    [| intros; rewrite map_length, zrange_length; auto | rewrite zrange_length; lia | lia].
  rewrite nth_zrange by lia.
  rewrite (nth_indep _ def (I (Z.of_nat (Z.to_nat (ix i))) (Z.of_nat (Z.to_nat (iy i))) 0))
    by (rewrite map_length, zrange_length; lia).
  rewrite (map_nth (fun z => I _ _ z)). rewrite nth_zrange by lia.
  rewrite !Z2Nat.id by lia. destruct i; auto.
Qed.

(** A well-formed grid's data vector lists its cells in sweep order. *)
Lemma gdata_sweep {A} (g : grid A) :
  wf_grid g -> gdata g = map (gget g) (sweep (gdims g)).
Proof.
  intros W. pose proof W as (Hx & Hy & Hz & L).
  apply (nth_ext _ _ (goob g) (gget g (I 0 0 0))).
  - rewrite map_length, sweep_length; auto.
  - intros n Hn.
    assert (Hs : (n < List.length (sweep (gdims g)))%nat) by (rewrite sweep_length; auto; lia).
    rewrite map_nth. set (i := nth n (sweep (gdims g)) (I 0 0 0)).
    assert (Hb : in_bounds (gdims g) i = true) by (apply sweep_in, nth_In; auto).
    assert (En : Z.to_nat (data_index (gdims g) i) = n).
    { pose proof (sweep_nth _ i (I 0 0 0) Hb) as E.
      pose proof (wf_index_lt g i W Hb).
      apply (proj1 (NoDup_nth (sweep (gdims g)) (I 0 0 0)) (sweep_nodup _));
        auto; rewrite ?sweep_length; auto; lia. }
    unfold gget, get. rewrite Hb; cbn. rewrite En; auto.
Qed.

(** Two well-formed grids with equal dimensions, cells and oob value are equal. *)
Lemma grid_ext {A} (g h : grid A) :
  wf_grid g -> wf_grid h -> gdims g = gdims h -> goob g = goob h ->
  (forall i, in_bounds (gdims g) i = true -> gget g i = gget h i) -> g = h.
Proof.
  intros Wg Wh Ed Eo Ec.
  pose proof (gdata_sweep g Wg) as Dg. pose proof (gdata_sweep h Wh) as Dh.
  destruct g as [dg lg og], h as [dh lh oh]; cbn in *. subst dh oh.
  f_equal. rewrite Dg, Dh. apply map_ext_in. intros i Hi. apply Ec. apply sweep_in; auto.
Qed.

(** Counting-loop rule for [for (k = 0; k < n; k++)]. *)
Lemma zrange_split n pre a post :
  zrange n = pre ++ a :: post -> a = Z.of_nat (List.length pre) /\ 0 <= a < n.
Proof.
  intros H.
  assert (L : (List.length pre < Z.to_nat n)%nat).
  { rewrite <- zrange_length, H, app_length; cbn; lia. }
  pose proof (nth_zrange n (List.length pre) 0 L) as E.
  rewrite H, app_nth2, Nat.sub_diag in E by lia; cbn in E. lia.
Qed.

Lemma zloop_inv {S} (f : S -> Z -> res S) (J : Z -> S -> Prop) n s :
  0 <= n -> J 0 s ->
  (forall k s, 0 <= k < n -> J k s -> exists s', f s k = Ok s' /\ J (k + 1) s') ->
  exists s', foldM f (zrange n) s = Ok s' /\ J n s'.
Proof.
  intros Hn H0 Hstep.
  destruct (foldM_inv_prefix f (fun pre s => J (Z.of_nat (List.length pre)) s) (zrange n) s)
    as (s' & E & HJ); auto.
  - intros pre a post s1 El HI. apply zrange_split in El as (-> & Hr).
    destruct (Hstep _ _ Hr HI) as (s2 & E2 & J2). exists s2; split; auto.
    rewrite app_length; cbn. rewrite Nat2Z.inj_add; cbn; auto.
  - exists s'; split; auto. rewrite zrange_length, Z2Nat.id in HJ; auto.
Qed.

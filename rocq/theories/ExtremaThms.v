From Coq Require Import Relations.Relation_Operators Permutation.
From Verif Require Import Base BaseFacts Floats Grid GridFacts CollisionMap SdfGen Arith SdfQuery QuerySpec
  QueryProofs SdfField QueryWitness Extrema ExtremaSpec ExtremaProofs.

(** ** A map larger than the field *)
Section Larger.
  Variable f : field ieee.
  Variable p : pose ieee.
  Variable wd : dims.
  Hypothesis Hx : 0 <= nx wd.
  Hypothesis Hy : 0 <= ny wd.
  Hypothesis Hz : 0 <= nz wd.
  Let d := f_dims f.

  Definition empty_read : string := "raw_gradient[0] of an empty vector".

  Definition known_inside (m : grid (vec ieee)) : Prop :=
    gdims m = wd /\ wf_grid m /\
    forall i, in_bounds wd i = true -> known (value_at m i) = true -> in_bounds d i = true.

  Lemma grad_inside i g : gradient f p i true = Some g -> in_bounds d i = true.
  Proof.
    intros E. destruct (in_bounds d i) eqn:B; auto.
    assert (gradient f p i true = None) by (apply gradient_none; auto). congruence.
  Qed.

  Lemma loop_inside fuel m : known_inside m -> forall path cur g,
    NoDup path -> (forall i, In i path -> in_bounds wd i = true /\ in_bounds d i = true) ->
    (Z.to_nat (ncells wd) < fuel + length path)%nat ->
    follow_loop fuel f p m path cur g = UB empty_read \/
    exists v path', follow_loop fuel f p m path cur g = Ok (v, path') /\
      forall i, In i path' -> in_bounds wd i = true -> in_bounds d i = true.
  Proof.
    intros (Em & Wm & Im). induction fuel as [|fuel IH]; intros path cur g Hn Hp Hf.
    { assert (length path <= Z.to_nat (ncells wd))%nat; [|lia].
      rewrite <- (sweep_length wd) by auto. apply NoDup_incl_length; auto.
      intros i Hi. apply sweep_in. apply Hp. auto. }
    cbn [follow_loop]. set (c := next_from_gradient f cur g).
    destruct (existsb (idx_eqb c) path) eqn:Ex.
    { right. do 2 eexists. split; [reflexivity|]. intros i Hi _. apply Hp. auto. }
    rewrite Em. destruct (in_bounds wd c) eqn:Bc; cbn [negb].
    2: { right. do 2 eexists. split; [reflexivity|]. intros i Hi Bi. apply in_app_iff in Hi.
         destruct Hi as [Hi|[Hi|[]]]; [apply Hp; auto|congruence]. }
    change (fst (get m c)) with (value_at m c).
    destruct (known (value_at m c)) eqn:Kc.
    { right. do 2 eexists. split; [reflexivity|]. intros i Hi Bi. apply in_app_iff in Hi.
      destruct Hi as [Hi|[Hi|[]]]; [apply Hp; auto|]. subst i. auto. }
    destruct (gradient f p c true) as [g'|] eqn:Eg; [|left; reflexivity].
    pose proof (grad_inside c g' Eg) as Bd.
    assert (Hp' : forall i, In i (path ++ [c]) -> in_bounds wd i = true /\ in_bounds d i = true).
    { intros i Hi. apply in_app_iff in Hi. destruct Hi as [Hi|[Hi|[]]]; [apply Hp; auto|subst i; auto]. }
    destruct (effective_flat f g').
    { right. do 2 eexists. split; [reflexivity|]. intros i Hi _. apply Hp'. auto. }
    apply IH; auto.
    - apply (Permutation_NoDup (l := c :: path)); [apply Permutation_cons_append|].
      constructor; auto. intros H. apply existsb_idx in H. congruence.
    - rewrite app_length. cbn [length]. lia.
  Qed.

  Lemma mark_inside v path : forall m, known_inside m ->
    (forall i, In i path -> in_bounds wd i = true -> in_bounds d i = true) ->
    known_inside (fold_left (fun m' j => fst (set m' j v)) path m).
  Proof.
    induction path as [|j path IH]; intros m (Em & Wm & Im) Hp; cbn [fold_left]; [split; auto|].
    apply IH; [|intros i Hi; apply Hp; right; auto].
    change (fst (set m j v)) with (gset m j v).
    split; [rewrite gset_dims; auto|]. split; [apply gset_wf; auto|].
    intros i Bi Ki. destruct (in_bounds wd j) eqn:Bj.
    - unfold value_at in Ki. change (known (gget (gset m j v) i) = true) in Ki.
      rewrite gget_gset in Ki by (auto; rewrite Em; auto). destruct (idx_eqb j i) eqn:Eij.
      + apply idx_eqb_eq in Eij. subst j. apply Hp; auto. left. auto.
      + apply Im; auto.
    - rewrite gset_oob_id in Ki by (rewrite Em; auto). apply Im; auto.
  Qed.

  Lemma follow_inside m i : known_inside m -> in_bounds wd i = true ->
    (in_bounds d i = false -> follow f p m i = UB empty_read) /\
    (follow f p m i = UB empty_read \/ exists m', follow f p m i = Ok m' /\ known_inside m').
  Proof.
    intros I Bi. pose proof I as (Em & Wm & Im). unfold follow. change (fst (get m i)) with (value_at m i).
    destruct (known (value_at m i)) eqn:Ki.
    { rewrite (Im i Bi Ki). split; [discriminate|]. right. eauto. }
    destruct (gradient f p i true) as [g|] eqn:Eg; [|auto].
    pose proof (grad_inside i g Eg) as Bd. rewrite Bd. split; [discriminate|].
    destruct (effective_flat f g).
    { right. eexists. split; [reflexivity|].
      apply (mark_inside (center_of p i) [i] m I). intros j [Hj|[]]. subst j. auto. }
    destruct (loop_inside (S (Z.to_nat (ncells (gdims m)))) m I [i] i g) as [E|(v & path & E & Hp)].
    - constructor; [intros []|constructor].
    - intros j [Hj|[]]. subst j. auto.
    - rewrite Em. cbn [length]. lia.
    - rewrite E. auto.
    - rewrite E. cbn [bind]. right. eexists. split; [reflexivity|]. apply mark_inside; auto.
  Qed.

  Lemma larger_map_ub i : in_bounds wd i = true -> in_bounds d i = false ->
    compute_extrema f p wd = UB empty_read.
  Proof.
    intros Bi Bd. unfold compute_extrema.
    assert (I0 : known_inside (mk_grid wd unset unset)).
    { split; auto. split; [apply mk_grid_wf; auto|]. intros j Bj K. exfalso.
      unfold value_at in K. change (known (gget (mk_grid wd unset unset) j) = true) in K.
      rewrite gget_mk_grid in K by auto. destruct (in_bounds wd j); discriminate. }
    assert (Hi : In i (sweep wd)) by (apply sweep_in; auto).
    assert (Hl : forall j, In j (sweep wd) -> in_bounds wd j = true) by (intros j; apply sweep_in).
    revert I0. generalize (mk_grid wd unset unset) as m.
    revert Hi Hl. generalize (sweep wd) as l. induction l as [|j l IH]; intros Hi Hl m I0; [destruct Hi|].
    cbn [foldM]. destruct (follow_inside m j I0 (Hl j (or_introl eq_refl))) as (H1 & [H2|(m' & H2 & I')]).
    - rewrite H2. reflexivity.
    - destruct Hi as [Hi|Hi].
      + subst j. rewrite (H1 Bd). reflexivity.
      + rewrite H2. cbn [bind]. apply IH; auto. intros k Hk. apply Hl. right. auto.
  Qed.
End Larger.

(** ** Cell counts recomputed from the size *)
Definition ceil64 (x : binary64) : Z := - floor64 (opp64 x).
Definition trunc64 (x : binary64) : Z := if lt64 x zero64 then ceil64 x else floor64 x.

Definition tenth : binary64 := div64 (b64_of_Z 1) (b64_of_Z 10).
Definition hundredth : binary64 := div64 (b64_of_Z 1) (b64_of_Z 100).

Lemma counts_change :
  ceil64 (div64 (mul64 tenth (b64_of_Z 3)) tenth) = 4 /\
  trunc64 (div64 (mul64 hundredth (b64_of_Z 29)) hundredth) = 28.
Proof. split; vm_compute; reflexivity. Qed.

(** Three cells of size 0.1 in a row, counted again by rounding up. *)
Definition recount (count : binary64 -> Z) (f : field ieee) : dims :=
  D (count (div64 (vx (f_size f)) (f_res f))) (count (div64 (vy (f_size f)) (f_res f)))
    (count (div64 (vz (f_size f)) (f_res f))).

Definition row_sdf (n : Z) (r : binary64) : sdf := new_sdf (D n 1 1) r zero32 "".

Lemma recount_ceil : recount ceil64 (sdf_field (row_sdf 3 tenth)) = D 4 1 1.
Proof. vm_compute. reflexivity. Qed.
Lemma recount_trunc : recount trunc64 (sdf_field (row_sdf 29 hundredth)) = D 28 1 1.
Proof. vm_compute. reflexivity. Qed.

Lemma recount_ceil_ub p :
  compute_extrema (sdf_field (row_sdf 3 tenth)) p (recount ceil64 (sdf_field (row_sdf 3 tenth))) = UB empty_read.
Proof.
  rewrite recount_ceil. apply (larger_map_ub (sdf_field (row_sdf 3 tenth)) p (D 4 1 1)) with (i := I 3 0 0);
    try (cbn [nx ny nz]; lia); reflexivity.
Qed.

(** ** A case: the corridor *)

Definition extrema_check : bool :=
  match corridor_sdf with
  | Ok (s, _) =>
      let f := sdf_field s in let p := ieee_pose one64 in
      forallb (fun i => known (center_of p i)) (sweep (f_dims f)) &&
      (nx (f_dims f) =? 6) && (ny (f_dims f) =? 1) && (nz (f_dims f) =? 1) &&
      match compute_extrema f p (f_dims f) with
      | Ok m =>
          let x i := vx (fst (get m (I i 0 0))) in
          same64 (x 0) inf64 && same64 (x 1) (vx (center_of p (I 2 0 0))) &&
          same64 (x 3) (x 2) && same64 (x 4) (x 1) && same64 (x 5) inf64
      | _ => false
      end
  | _ => false
  end.

Lemma extrema_check_true : extrema_check = true.
Proof. vm_compute. reflexivity. Qed.

Lemma extrema_case :
  exists s x m, corridor_sdf = Ok (s, x) /\
    (forall i, in_bounds (f_dims (sdf_field s)) i = true -> located (center_of (ieee_pose one64) i)) /\
    f_dims (sdf_field s) = D 6 1 1 /\
    compute_extrema (sdf_field s) (ieee_pose one64) (f_dims (sdf_field s)) = Ok m /\
    vx (fst (get m (I 0 0 0))) = inf64 /\
    vx (fst (get m (I 1 0 0))) = vx (center_of (ieee_pose one64) (I 2 0 0)) /\
    vx (fst (get m (I 3 0 0))) = vx (fst (get m (I 2 0 0))).
Proof.
  pose proof extrema_check_true as H. unfold extrema_check in H.
  destruct corridor_sdf as [[s x]|w|w]; [|discriminate H|discriminate H].
  set (f := sdf_field s) in *. set (p := ieee_pose one64) in *.
  apply andb_true_iff in H. destruct H as (H & H2). apply andb_true_iff in H. destruct H as (H & Hz).
  apply andb_true_iff in H. destruct H as (H & Hy). apply andb_true_iff in H. destruct H as (H1 & Hx).
  destruct (compute_extrema f p (f_dims f)) as [m|w|w] eqn:E; [|discriminate H2|discriminate H2].
  exists s, x, m. split; [reflexivity|]. split.
  { intros i B. apply known_located. rewrite forallb_forall in H1. apply H1. apply sweep_in. exact B. }
  fold f p. split.
  { apply Z.eqb_eq in Hx, Hy, Hz. destruct (f_dims f) as [a b c]. cbn [nx ny nz] in *. congruence. }
  split; [exact E|].
  apply andb_true_iff in H2. destruct H2 as (H2 & _). apply andb_true_iff in H2. destruct H2 as (H2 & _).
  apply andb_true_iff in H2. destruct H2 as (H2 & H3). apply andb_true_iff in H2. destruct H2 as (H4 & H5).
  apply same64_eq in H3, H4, H5. auto.
Qed.

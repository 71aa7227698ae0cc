(** Facts about the shared vocabulary. *)
From Verif Require Import Base.

Section FoldM.
  Context {S A : Type}.
  Variable f : S -> A -> res S.

  Lemma foldM_app l1 l2 s :
    foldM f (l1 ++ l2) s = let* s' := foldM f l1 s in foldM f l2 s'.
  Proof.
    revert s; induction l1 as [|a l1 IH]; intros s; cbn; [reflexivity|].
    destruct (f s a); cbn; auto.
  Qed.

  (** Invariant rule: the body always succeeds and keeps [I]. *)
  Lemma foldM_inv (I : S -> Prop) l s :
    I s ->
    (forall s a, In a l -> I s -> exists s', f s a = Ok s' /\ I s') ->
    exists s', foldM f l s = Ok s' /\ I s'.
  Proof.
    revert s; induction l as [|a l IH]; intros s HI Hstep; cbn.
    - exists s; auto.
    - destruct (Hstep s a (or_introl eq_refl) HI) as (s1 & E1 & I1).
      rewrite E1; cbn. apply IH; auto. intros s2 a2 Hin HI2. apply Hstep; auto.
      right; auto.
  Qed.

  (** Invariant rule that also remembers the processed prefix. *)
  Lemma foldM_inv_prefix (I : list A -> S -> Prop) l s :
    I [] s ->
    (forall pre a post s, l = pre ++ a :: post -> I pre s ->
        exists s', f s a = Ok s' /\ I (pre ++ [a]) s') ->
    exists s', foldM f l s = Ok s' /\ I l s'.
  Proof.
    intros H0 Hstep.
    assert (G : forall post pre s, l = pre ++ post -> I pre s ->
              exists s', foldM f post s = Ok s' /\ I l s').
    { induction post as [|a post IH]; intros pre s1 El HI; cbn.
      - exists s1; split; auto. rewrite El, app_nil_r; auto.
      - destruct (Hstep pre a post s1 El HI) as (s2 & E2 & I2).
        rewrite E2; cbn. apply (IH (pre ++ [a])); auto.
        rewrite <- app_assoc; auto. }
    apply (G l [] s); auto.
  Qed.

  (** Partial-correctness version: if the loop returned normally. *)
  Lemma foldM_ok_inv (I : S -> Prop) l s s' :
    I s ->
    (forall s a s', In a l -> I s -> f s a = Ok s' -> I s') ->
    foldM f l s = Ok s' -> I s'.
  Proof.
    revert s; induction l as [|a l IH]; intros s HI Hstep; cbn.
    - intros E; inversion E; subst; auto.
    - destruct (f s a) as [s1| |] eqn:E1; cbn; try discriminate.
      apply IH.
      + eapply Hstep; eauto. left; auto.
      + intros; eapply Hstep; eauto. right; auto.
  Qed.
End FoldM.

Section Fold.
  Context {S A : Type}.
  Variable f : S -> A -> S.

  Lemma fold_left_inv (I : S -> Prop) l s :
    I s -> (forall s a, In a l -> I s -> I (f s a)) -> I (fold_left f l s).
  Proof.
    revert s; induction l as [|a l IH]; intros s HI Hs; cbn; auto.
    apply IH; [apply Hs; cbn; auto|]. intros; apply Hs; cbn; auto.
  Qed.

  Lemma fold_left_inv_prefix (I : list A -> S -> Prop) l s :
    I [] s ->
    (forall pre a post s, l = pre ++ a :: post -> I pre s -> I (pre ++ [a]) (f s a)) ->
    I l (fold_left f l s).
  Proof.
    intros H0 Hstep.
    assert (G : forall post pre s, l = pre ++ post -> I pre s -> I l (fold_left f post s)).
    { induction post as [|a post IH]; intros pre s1 El HI; cbn.
      - rewrite El, app_nil_r; auto.
      - apply (IH (pre ++ [a])); [rewrite <- app_assoc; auto|]. eapply Hstep; eauto. }
    apply (G l [] s); auto.
  Qed.
End Fold.

Section Upd.
  Context {A : Type}.

  Lemma upd_length n (v : A) l : length (upd n v l) = length l.
  Proof. revert n; induction l as [|a l IH]; intros [|n]; cbn; auto. Qed.

  Lemma upd_same n (v : A) l :
    (n < length l)%nat -> nth_error (upd n v l) n = Some v.
  Proof.
    revert n; induction l as [|a l IH]; intros [|n]; cbn; try lia; auto.
    intros H; apply IH; lia.
  Qed.

  Lemma upd_other n m (v : A) l :
    n <> m -> nth_error (upd n v l) m = nth_error l m.
  Proof.
    revert n m; induction l as [|a l IH]; intros [|n] [|m] H; cbn; auto; try lia.
  Qed.

  Lemma nth_error_to_nth (l : list A) n d x :
    nth_error l n = Some x -> nth n l d = x.
  Proof. intros H; erewrite nth_error_nth; eauto. Qed.

  Lemma upd_nth_same n (v d : A) l : (n < length l)%nat -> nth n (upd n v l) d = v.
  Proof. intros H; apply nth_error_to_nth, upd_same; auto. Qed.

  Lemma upd_nth_other n m (v d : A) l : n <> m -> nth m (upd n v l) d = nth m l d.
  Proof.
    revert n m; induction l as [|a l IH]; intros [|n] [|m] H; cbn; auto; try lia.
  Qed.

  Lemma upd_same_id n (d : A) l : upd n (nth n l d) l = l.
  Proof. revert n; induction l as [|a l IH]; intros [|n]; cbn; auto. f_equal; auto. Qed.
End Upd.

Lemma int32_ok_spec z : int32_ok z = true <-> -2147483648 <= z <= 2147483647.
Proof. unfold int32_ok; lia. Qed.

Lemma i32_ok z : -2147483648 <= z <= 2147483647 -> i32 z = Ok z.
Proof. intros H; unfold i32. rewrite (proj2 (int32_ok_spec z) H); reflexivity. Qed.

Lemma wrap_s32_id z : -2147483648 <= z <= 2147483647 -> wrap_s32 z = z.
Proof.
  intros H; unfold wrap_s32.
  destruct (Z_lt_dec z 0).
  - replace (z mod 4294967296) with (z + 4294967296).
    + destruct (z + 4294967296 <? 2147483648) eqn:E; lia.
    + replace z with ((z + 4294967296) + (-1) * 4294967296) at 2 by lia.
      rewrite Z.mod_add by lia. symmetry; apply Z.mod_small; lia.
  - rewrite Z.mod_small by lia. destruct (z <? 2147483648) eqn:E; lia.
Qed.

Lemma wrap_u32_id z : 0 <= z < 4294967296 -> wrap_u32 z = z.
Proof. intros H; apply Z.mod_small; auto. Qed.

Lemma wrap_u32_range z : 0 <= wrap_u32 z < 4294967296.
Proof. apply Z.mod_pos_bound; lia. Qed.

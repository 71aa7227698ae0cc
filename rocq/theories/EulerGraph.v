(** Euler's formula for subgraphs of a plane graph, given by its edges with the
    two vertices they join and the two faces they separate. *)
From Coq Require Import Permutation Lia.
From Verif Require Import Base SurfaceSpec VertexProofs.

(** ** Counting components while adding edges *)
Section Components.
  Context {V : Type} (eq_dec : forall a b : V, {a = b} + {a <> b}).

  Definition joins (l : list (V * V)) (a b : V) : Prop := In (a, b) l \/ In (b, a) l.

  Lemma joins_back l a b : reaches (joins l) a b -> reaches (joins l) b a.
  Proof.
    induction 1 as [|a b c R IH L]; [constructor|]. eapply reaches_trans; [|exact IH].
    eapply reaches_step; [constructor|]. unfold joins in *. tauto.
  Qed.

  Lemma joins_more l l' a b : (forall e, In e l -> In e l') -> reaches (joins l) a b -> reaches (joins l') a b.
  Proof.
    intros S. induction 1 as [|a b c R IH L]; [constructor|]. eapply reaches_step; [exact IH|].
    unfold joins in *. destruct L; auto.
  Qed.

  Lemma joins_add l u v a b : reaches (joins ((u, v) :: l)) a b ->
    reaches (joins l) a b \/ (reaches (joins l) a u /\ reaches (joins l) v b) \/
    (reaches (joins l) a v /\ reaches (joins l) u b).
  Proof.
    induction 1 as [|a b c R IH L]; [left; constructor|].
    assert (K : joins l b c \/ (b = u /\ c = v) \/ (b = v /\ c = u)).
    { destruct L as [[E|L]|[E|L]]; [injection E; auto|left; left; auto|injection E; auto|left; right; auto]. }
    destruct K as [K|[(-> & ->)|(-> & ->)]].
    - destruct IH as [IH|[(I1 & I2)|(I1 & I2)]].
      + left. eapply reaches_step; eauto.
      + right. left. split; auto. eapply reaches_step; eauto.
      + right. right. split; auto. eapply reaches_step; eauto.
    - destruct IH as [IH|[(I1 & I2)|(I1 & I2)]].
      + right. left. split; [auto|constructor].
      + right. left. split; [auto|constructor].
      + left. auto.
    - destruct IH as [IH|[(I1 & I2)|(I1 & I2)]].
      + right. right. split; [auto|constructor].
      + left. auto.
      + right. right. split; [auto|constructor].
  Qed.

  Variable vs : list V.
  Hypothesis Nd : NoDup vs.

  Definition within (l : list (V * V)) : Prop := forall u v, In (u, v) l -> In u vs /\ In v vs.

  Lemma within_symmetric l : within l -> symmetric_in vs (joins l).
  Proof. intros W x y Hx [L|L]; apply W in L as L'; unfold joins; tauto. Qed.

  Lemma count_same l l' n : (forall e, In e l <-> In e l') ->
    component_count vs (joins l) n -> component_count vs (joins l') n.
  Proof.
    intros S (reps & H1 & H2 & H3 & H4). exists reps. do 3 (split; [auto|]).
    intros v Hv. destruct (H4 v Hv) as (r & (Hr & R) & U). exists r. split.
    - split; auto. eapply joins_more; [|exact R]. intros e. apply S.
    - intros r' (Hr' & R'). apply U. split; auto. eapply joins_more; [|exact R']. intros e. apply S.
  Qed.

  Lemma count_none : component_count vs (joins []) (length vs).
  Proof.
    exists vs. split; auto. split; auto. split; [intros x; auto|].
    intros v Hv. exists v. split; [split; [auto|constructor]|].
    intros r (_ & R). induction R as [|a b c R IH L]; auto. destruct L as [[]|[]].
  Qed.

  Lemma count_decides l n : component_count vs (joins l) n -> forall a b, In a vs -> In b vs ->
    reaches (joins l) a b \/ ~ reaches (joins l) a b.
  Proof.
    intros (reps & _ & _ & _ & H) a b Ha Hb.
    destruct (H a Ha) as (r & (Hr & R) & _), (H b Hb) as (r' & (Hr' & R') & U).
    destruct (eq_dec r r') as [->|N].
    - left. eapply reaches_trans; [apply joins_back; exact R|exact R'].
    - right. intros K. apply N. symmetry. apply U. split; auto. eapply reaches_trans; eauto.
  Qed.

  Lemma count_add l u v n : In u vs -> In v vs -> component_count vs (joins l) n ->
    (reaches (joins l) u v /\ component_count vs (joins ((u, v) :: l)) n) \/
    (~ reaches (joins l) u v /\ exists n', n = S n' /\ component_count vs (joins ((u, v) :: l)) n').
  Proof.
    intros Hu Hv C. pose proof (count_decides l n C u v Hu Hv) as Dc.
    assert (M : forall a b, reaches (joins l) a b -> reaches (joins ((u, v) :: l)) a b).
    { intros a b. apply joins_more. intros e. cbn. auto. }
    destruct C as (reps & H1 & H2 & H3 & H4).
    assert (Q : forall r r' x, In x vs -> In r reps -> In r' reps -> reaches (joins l) r x ->
                  reaches (joins l) r' x -> r = r').
    { intros r r' x Hx Hr Hr' R R'. destruct (H4 x Hx) as (q & _ & U).
      transitivity q; [symmetry|]; apply U; auto. }
    destruct Dc as [Y|N].
    - left. split; auto. exists reps. do 3 (split; [auto|]). intros x Hx.
      destruct (H4 x Hx) as (r & (Hr & R) & U). exists r. split; [auto|].
      intros r' (Hr' & R'). apply U. split; auto. apply joins_add in R'.
      destruct R' as [R'|[(R1 & R2)|(R1 & R2)]]; auto.
      + eapply reaches_trans; [exact R1|]. eapply reaches_trans; [exact Y|exact R2].
      + eapply reaches_trans; [exact R1|]. eapply reaches_trans; [apply joins_back; exact Y|exact R2].
    - right. split; auto.
      destruct (H4 u Hu) as (ru & (Hru & Ru) & _), (H4 v Hv) as (rv & (Hrv & Rv) & _).
      assert (Nr : ru <> rv).
      { intros ->. apply N. eapply reaches_trans; [apply joins_back; exact Ru|exact Rv]. }
      destruct (in_split rv reps Hrv) as (p & q & E).
      assert (K : forall r, In r (p ++ q) <-> In r reps /\ r <> rv).
      { intros r. rewrite E, !in_app_iff. cbn [In]. pose proof H2 as H2'. rewrite E in H2'.
        apply NoDup_remove_2 in H2'. rewrite in_app_iff in H2'. split.
        - intros H. split; [tauto|]. intros ->. tauto.
        - intros ([H|[H|H]] & Hn); auto. congruence. }
      exists (length (p ++ q)). split.
      { rewrite <- H1, E, !app_length. cbn [length]. lia. }
      exists (p ++ q). split; auto. split.
      { rewrite E in H2. apply NoDup_remove_1 in H2. auto. }
      split. { intros r Hr. apply H3. apply K; auto. }
      intros x Hx. destruct (H4 x Hx) as (r & (Hr & R) & U).
      destruct (eq_dec r rv) as [->|Nrv].
      + exists ru. split.
        * split; [apply K; auto|]. eapply reaches_trans; [apply M; exact Ru|].
          eapply reaches_trans; [apply (reaches_one _ u v); left; left; reflexivity|].
          apply M.
          eapply reaches_trans; [apply joins_back; exact Rv|exact R].
        * intros r' (Hr' & R'). apply K in Hr' as (Hr' & Nr'). apply joins_add in R'.
          destruct R' as [R'|[(R1 & R2)|(R1 & R2)]].
          -- exfalso. apply Nr'. apply (Q r' rv x); auto.
          -- apply (Q ru r' u); auto.
          -- exfalso. apply Nr'. apply (Q r' rv v); auto.
      + exists r. split; [split; [apply K; auto|apply M; auto]|].
        intros r' (Hr' & R'). apply K in Hr' as (Hr' & Nr'). apply joins_add in R'.
        destruct R' as [R'|[(R1 & R2)|(R1 & R2)]].
        * apply (Q r r' x); auto.
        * exfalso. apply Nrv. apply (Q r rv x); auto. eapply reaches_trans; [exact Rv|exact R2].
        * exfalso. apply Nr'. apply (Q r' rv v); auto.
  Qed.

  Lemma count_exists l : within l -> exists n, component_count vs (joins l) n.
  Proof.
    induction l as [|[u v] l IH]; intros W; [exists (length vs); apply count_none|].
    destruct IH as (n & C); [intros a b H; apply W; cbn; auto|].
    destruct (W u v) as (Hu & Hv); [left; reflexivity|].
    destruct (count_add l u v n Hu Hv C) as [(_ & C')|(_ & n' & _ & C')]; eauto.
  Qed.

  Lemma bool_of (P : V -> Prop) l : (forall w, In w l -> P w \/ ~ P w) ->
    exists f : V -> bool, forall w, In w l -> (f w = true <-> P w).
  Proof.
    induction l as [|a l IH]; intros H; [exists (fun _ => false); intros w []|].
    destruct IH as (f & Hf); [intros w Hw; apply H; cbn; auto|].
    assert (exists b : bool, b = true <-> P a) as (b & Hb).
    { destruct (H a) as [Y|N]; [cbn; auto|exists true; tauto|exists false; split; [discriminate|tauto]]. }
    exists (fun w => if eq_dec w a then b else f w). intros w Hw. destruct (eq_dec w a) as [->|N]; auto.
    apply Hf. destruct Hw; congruence.
  Qed.
End Components.

(** ** Parity *)
Section Parity.
  Context {A : Type}.
  Definition parity (p : A -> bool) (l : list A) : bool := fold_right (fun a b => xorb (p a) b) false l.

  Lemma parity_ext p q l : (forall a, In a l -> p a = q a) -> parity p l = parity q l.
  Proof.
    induction l as [|a l IH]; intros H; auto. cbn [parity fold_right].
    fold (parity p l) (parity q l). rewrite IH, (H a); cbn; auto. intros b Hb. apply H. cbn. auto.
  Qed.
  Lemma parity_false p l : (forall a, In a l -> p a = false) -> parity p l = false.
  Proof.
    induction l as [|a l IH]; intros H; auto. cbn [parity fold_right].
    fold (parity p l). rewrite IH, (H a); cbn; auto. intros b Hb. apply H. cbn. auto.
  Qed.
  Lemma parity_xor p q l : parity (fun a => xorb (p a) (q a)) l = xorb (parity p l) (parity q l).
  Proof.
    induction l as [|a l IH]; auto. cbn [parity fold_right].
    fold (parity p l) (parity q l) (parity (fun a => xorb (p a) (q a)) l). rewrite IH.
    destruct (p a), (q a), (parity p l), (parity q l); reflexivity.
  Qed.
  Lemma parity_and b p l : parity (fun a => b && p a) l = b && parity p l.
  Proof. destruct b; cbn [andb]; auto. apply parity_false. auto. Qed.
  Lemma parity_app p l m : parity p (l ++ m) = xorb (parity p l) (parity p m).
  Proof.
    induction l as [|a l IH]; cbn [app]; [destruct (parity p m); reflexivity|].
    cbn [parity fold_right]. fold (parity p (l ++ m)) (parity p l). rewrite IH.
    destruct (p a), (parity p l), (parity p m); reflexivity.
  Qed.
  Lemma parity_perm p l m : Permutation l m -> parity p l = parity p m.
  Proof.
    induction 1 as [|a l m P IH|a b l|l m n P IH P' IH']; auto; [| |congruence].
    - cbn [parity fold_right]. fold (parity p l) (parity p m). rewrite IH. reflexivity.
    - cbn [parity fold_right]. destruct (p a), (p b), (fold_right (fun a b => xorb (p a) b) false l); reflexivity.
  Qed.
  Lemma parity_at (dec : forall a b : A, {a = b} + {a <> b}) (q : A -> bool) x l : NoDup l -> In x l ->
    parity (fun a => (if dec a x then true else false) && q a) l = q x.
  Proof.
    intros N H. destruct (in_split x l H) as (l1 & l2 & ->). rewrite parity_app.
    apply NoDup_remove_2 in N. rewrite in_app_iff in N.
    rewrite parity_false; [|intros a Ha; destruct (dec a x) as [->|]; tauto].
    cbn [parity fold_right]. fold (parity (fun a => (if dec a x then true else false) && q a) l2).
    rewrite parity_false; [|intros a Ha; destruct (dec a x) as [->|]; tauto].
    destruct (dec x x) as [_|]; [|congruence]. destruct (q x); reflexivity.
  Qed.
End Parity.

Lemma parity_swap {A B} (f : A -> B -> bool) l m :
  parity (fun a => parity (f a) m) l = parity (fun b => parity (fun a => f a b) l) m.
Proof.
  induction l as [|a l IH].
  - symmetry. apply parity_false. auto.
  - cbn [parity fold_right]. fold (parity (fun a => parity (f a) m) l). rewrite IH, <- parity_xor. reflexivity.
Qed.

(** ** Plane graphs *)
Record edge (V F : Type) := E { tail : V; head : V; left : F; right : F }.
Arguments E {V F}. Arguments tail {V F}. Arguments head {V F}. Arguments left {V F}. Arguments right {V F}.

Section Plane.
  Context {V F : Type} (vdec : forall a b : V, {a = b} + {a <> b}) (fdec : forall a b : F, {a = b} + {a <> b}).
  Variables (vs : list V) (fs : list F) (es : list (edge V F)).
  Hypothesis Nv : NoDup vs.
  Hypothesis Nf : NoDup fs.
  Hypothesis Wv : forall e, In e es -> In (tail e) vs /\ In (head e) vs.
  Hypothesis Wf : forall e, In e es -> In (left e) fs /\ In (right e) fs.

  Definition bounds (x : F) (e : edge V F) : bool :=
    xorb (if fdec x (left e) then true else false) (if fdec x (right e) then true else false).

  (** The edges around a face change sides of any set of vertices an even number
      of times. *)
  Hypothesis Even : forall (U : V -> bool) x, In x fs ->
    parity (fun e => xorb (U (tail e)) (U (head e)) && bounds x e) es = false.

  Definition primal (l : list (edge V F)) : list (V * V) := map (fun e => (tail e, head e)) l.
  Definition dual (l : list (edge V F)) : list (F * F) := map (fun e => (left e, right e)) l.

  Lemma primal_within l : incl l es -> within vs (primal l).
  Proof.
    intros I u v H. apply in_map_iff in H as (e & Q & H). injection Q as <- <-. apply Wv. auto.
  Qed.
  Lemma dual_within l : incl l es -> within fs (dual l).
  Proof.
    intros I u v H. apply in_map_iff in H as (e & Q & H). injection Q as <- <-. apply Wf. auto.
  Qed.

  (** An edge joining two components has a cycle of other edges around it. *)
  Lemma cut A e B : Permutation es (A ++ e :: B) -> ~ reaches (joins (primal A)) (tail e) (head e) ->
    reaches (joins (dual B)) (left e) (right e).
  Proof.
    intros P N.
    assert (IA : incl A es) by (intros x Hx; apply (Permutation_in x (Permutation_sym P)), in_app_iff; auto).
    assert (IB : incl B es) by (intros x Hx; apply (Permutation_in x (Permutation_sym P)), in_app_iff; cbn; auto).
    assert (Ie : In e es) by (apply (Permutation_in e (Permutation_sym P)), in_app_iff; cbn; auto).
    destruct (count_exists vdec vs Nv (primal A) (primal_within A IA)) as (k & Ck).
    destruct (count_exists fdec fs Nf (dual B) (dual_within B IB)) as (f & Cf).
    destruct (Wv e Ie) as (V1 & V2). destruct (Wf e Ie) as (F1 & F2).
    destruct (count_decides fdec fs (dual B) f Cf (left e) (right e) F1 F2) as [Y|Nr]; auto. exfalso.
    destruct (bool_of vdec (reaches (joins (primal A)) (tail e)) vs) as (U & HU).
    { intros w Hw. eapply (count_decides vdec); eauto. }
    destruct (bool_of fdec (reaches (joins (dual B)) (left e)) fs) as (X & HX).
    { intros w Hw. eapply (count_decides fdec); eauto. }
    assert (T : parity (fun x => X x && parity (fun e => xorb (U (tail e)) (U (head e)) && bounds x e) es) fs = false).
    { apply parity_false. intros x Hx. rewrite Even; auto. destruct (X x); reflexivity. }
    rewrite (parity_ext _ (fun x => parity (fun e => X x && (xorb (U (tail e)) (U (head e)) && bounds x e)) es)) in T
      by (intros x _; rewrite parity_and; reflexivity).
    rewrite parity_swap in T.
    rewrite (parity_ext _ (fun e => xorb (U (tail e)) (U (head e)) && xorb (X (left e)) (X (right e)))) in T; cycle 1.
    { intros g Hg. destruct (Wf g Hg) as (G1 & G2).
      rewrite (parity_ext _ (fun x => xorb (U (tail g)) (U (head g)) &&
        xorb ((if fdec x (left g) then true else false) && X x) ((if fdec x (right g) then true else false) && X x))).
      - rewrite parity_and, parity_xor, !parity_at; auto.
      - intros x _. unfold bounds. destruct (X x), (xorb (U (tail g)) (U (head g))), (fdec x (left g)), (fdec x (right g)); reflexivity. }
    rewrite (parity_perm _ _ _ P), parity_app in T. cbn [parity fold_right] in T.
    fold (parity (fun e => xorb (U (tail e)) (U (head e)) && xorb (X (left e)) (X (right e))) B) in T.
    rewrite parity_false in T; cycle 1.
    { intros g Hg. destruct (Wv g (IA g Hg)) as (G1 & G2).
      assert (Q : U (tail g) = U (head g)).
      { apply eq_true_iff_eq. rewrite !HU by auto.
        assert (J : joins (primal A) (tail g) (head g)) by (left; apply in_map_iff; exists g; auto).
        assert (J' : joins (primal A) (head g) (tail g)) by (destruct J; [right|left]; auto).
        split; intros R; eapply reaches_step; eauto. }
      rewrite Q. destruct (U (head g)); reflexivity. }
    rewrite (parity_false _ B) in T; cycle 1.
    { intros g Hg. destruct (Wf g (IB g Hg)) as (G1 & G2).
      assert (Q : X (left g) = X (right g)).
      { apply eq_true_iff_eq. rewrite !HX by auto.
        assert (J : joins (dual B) (left g) (right g)) by (left; apply in_map_iff; exists g; auto).
        assert (J' : joins (dual B) (right g) (left g)) by (destruct J; [right|left]; auto).
        split; intros R; eapply reaches_step; eauto. }
      rewrite Q. destruct (X (right g)), (xorb (U (tail g)) (U (head g))); reflexivity. }
    assert (U1 : U (tail e) = true) by (apply HU; [auto|constructor]).
    assert (U2 : U (head e) = false) by (apply not_true_iff_false; rewrite HU; auto).
    assert (X1 : X (left e) = true) by (apply HX; [auto|constructor]).
    assert (X2 : X (right e) = false) by (apply not_true_iff_false; rewrite HX; auto).
    rewrite U1, U2, X1, X2 in T. discriminate.
  Qed.

  Lemma euler_step A e B k f : Permutation es (A ++ e :: B) ->
    component_count vs (joins (primal A)) k -> component_count fs (joins (dual (e :: B))) f ->
    exists k' f', component_count vs (joins (primal (e :: A))) k' /\
      component_count fs (joins (dual B)) f' /\
      Z.of_nat f' - Z.of_nat k' <= Z.of_nat f - Z.of_nat k + 1.
  Proof.
    intros P Ck Cf.
    assert (Ie : In e es) by (apply (Permutation_in e (Permutation_sym P)), in_app_iff; cbn; auto).
    assert (IB : incl (e :: B) es) by (intros x Hx; apply (Permutation_in x (Permutation_sym P)), in_app_iff; auto).
    assert (IB' : incl B es) by (intros x Hx; apply IB; cbn; auto).
    destruct (Wv e Ie) as (V1 & V2). destruct (Wf e Ie) as (F1 & F2).
    destruct (count_exists fdec fs Nf (dual B) (dual_within B IB')) as (f' & Cf').
    pose proof (count_unique fs fs (joins (dual (e :: B))) f) as Un.
    pose proof (within_symmetric fs _ (dual_within _ IB)) as Sy.
    destruct (count_add vdec vs (primal A) (tail e) (head e) k V1 V2 Ck) as [(_ & Ck')|(N & k' & -> & Ck')].
    - exists k, f'. split; [exact Ck'|]. split; auto.
      destruct (count_add fdec fs (dual B) (left e) (right e) f' F1 F2 Cf') as [(_ & C)|(_ & f2 & -> & C)].
      + rewrite (Un f'); auto; [lia|tauto].
      + rewrite (Un f2); auto; [lia|tauto].
    - exists k', f'. split; [exact Ck'|]. split; auto.
      destruct (count_add fdec fs (dual B) (left e) (right e) f' F1 F2 Cf') as [(_ & C)|(Nr & _)].
      + rewrite (Un f'); auto; [lia|tauto].
      + exfalso. apply Nr. apply (cut A e B); auto.
  Qed.

  Lemma euler_moves M : forall A B k f, Permutation es (A ++ M ++ B) ->
    component_count vs (joins (primal A)) k -> component_count fs (joins (dual (M ++ B))) f ->
    exists k' f', component_count vs (joins (primal (rev M ++ A))) k' /\
      component_count fs (joins (dual B)) f' /\
      Z.of_nat f' - Z.of_nat k' <= Z.of_nat f - Z.of_nat k + Z.of_nat (length M).
  Proof.
    induction M as [|e M IH]; intros A B k f P Ck Cf.
    - exists k, f. split; auto. split; auto. cbn [length]. lia.
    - destruct (euler_step A e (M ++ B) k f P Ck Cf) as (k1 & f1 & C1 & C2 & L1).
      destruct (IH (e :: A) B k1 f1) as (k2 & f2 & C3 & C4 & L2); auto.
      { rewrite P. apply Permutation_sym, Permutation_middle. }
      exists k2, f2. split; [|split; auto].
      + cbn [rev]. rewrite <- app_assoc. exact C3.
      + cbn [length]. lia.
  Qed.

  Hypothesis Whole : Z.of_nat (length vs) - Z.of_nat (length es) + Z.of_nat (length fs) = 2.
  Hypothesis One_v : component_count vs (joins (primal es)) 1.
  Hypothesis One_f : component_count fs (joins (dual es)) 1.

  (** The edges [A] cut the plane into [f] pieces and join the vertices to [k]. *)
  Theorem euler A B k f : Permutation es (A ++ B) ->
    component_count vs (joins (primal A)) k -> component_count fs (joins (dual B)) f ->
    Z.of_nat (length vs) - Z.of_nat (length A) + Z.of_nat f = 1 + Z.of_nat k.
  Proof.
    intros P Ck Cf.
    assert (IA : incl A es) by (intros x Hx; apply (Permutation_in x (Permutation_sym P)), in_app_iff; auto).
    assert (IB : incl B es) by (intros x Hx; apply (Permutation_in x (Permutation_sym P)), in_app_iff; auto).
    assert (Le : length es = (length A + length B)%nat) by (rewrite (Permutation_length P); apply app_length).
    destruct (euler_moves A [] B (length vs) 1) as (k1 & f1 & C1 & C2 & L1); auto.
    { apply count_none; auto. }
    { eapply count_same; [|exact One_f]. intros x. unfold dual. rewrite !in_map_iff.
      split; intros (e & Q & H); exists e; split; auto;
        [eapply Permutation_in; eauto|eapply Permutation_in; [apply Permutation_sym|]; eauto]. }
    rewrite (count_unique vs vs (joins (primal A)) k1 k) in L1; auto; try tauto;
      try (apply within_symmetric, primal_within; auto).
    2:{ eapply count_same; [|exact C1]. intros x. rewrite app_nil_r. unfold primal. rewrite !in_map_iff.
        split; intros (e & Q & H); exists e; split; auto; [apply in_rev|apply in_rev in H]; auto. }
    rewrite (count_unique fs fs (joins (dual B)) f1 f) in L1; auto; try tauto;
      try (apply within_symmetric, dual_within; auto).
    destruct (euler_moves B A [] k f) as (k2 & f2 & C3 & C4 & L2); auto.
    { rewrite app_nil_r; auto. }
    { rewrite app_nil_r; auto. }
    rewrite (count_unique vs vs (joins (primal es)) k2 1%nat) in L2; auto; try tauto;
      try (apply within_symmetric, primal_within, incl_refl).
    2:{ eapply count_same; [|exact C3]. intros x. unfold primal. rewrite !in_map_iff.
        assert (K : forall e, In e (rev B ++ A) <-> In e es).
        { intros e. rewrite in_app_iff, <- in_rev. split.
          - intros [H|H]; auto.
          - intros H. apply (Permutation_in e P), in_app_iff in H. tauto. }
        split; intros (e & Q & H); exists e; split; auto; apply K; auto. }
    rewrite (count_unique fs fs (joins (dual [])) f2 (length fs)) in L2; auto; try tauto;
      try (apply within_symmetric, dual_within; intros x []).
    2:{ apply count_none; auto. }
    lia.
  Qed.
End Plane.

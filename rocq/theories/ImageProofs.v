(** The partial fields of the image node point at sources, at most a chain of
    steps away. *)
From Coq Require Import Lia Reals Lra Psatz Rgeom.
From Flocq Require Import Core.Core IEEE754.Binary IEEE754.Bits.
From Verif Require Import Base BaseFacts Floats FloatFacts FloatFacts2 Grid GridFacts Image ImageSpec.
Local Open Scope Z_scope.

(** * Exact integer arithmetic in doubles *)
Definition is_int (v : binary64) (z : Z) : Prop := finite64 v /\ B2R64 v = IZR z.

Lemma fmt_Z z : Z.abs z <= 2 ^ 53 -> generic_format radix2 (SpecFloat.fexp 53 1024) (IZR z).
Proof. intros H. destruct (of_Z_exact z H) as (_ & E). rewrite <- E. apply generic_format_B2R. Qed.
Lemma small_B z : Z.abs z <= 2 ^ 53 -> (Rabs (IZR z) < bpow radix2 1024)%R.
Proof.
  intros H. rewrite <- abs_IZR. apply Rle_lt_trans with (bpow radix2 53).
  - change (bpow radix2 53) with (IZR (2 ^ 53)). apply IZR_le. lia.
  - apply bpow_lt. lia.
Qed.
Lemma rnd_Z z : Z.abs z <= 2 ^ 53 -> rnd64 (IZR z) = IZR z.
Proof. intros H. apply round_generic; [typeclasses eauto|]. apply fmt_Z, H. Qed.

Lemma int_add a b x y : is_int a x -> is_int b y -> Z.abs (x + y) <= 2 ^ 53 -> is_int (add64 a b) (x + y).
Proof.
  intros (Fa & Ea) (Fb & Eb) H. pose proof (Bplus_correct 53 1024 eq_refl eq_refl binop_nan_pl64 NE a b Fa Fb) as K.
  cbn [BinarySingleNaN.round_mode] in K. rewrite Ea, Eb, <- plus_IZR, rnd_Z in K by auto.
  rewrite Rlt_bool_true in K by (apply small_B; auto). destruct K as (R & F & _). split; [exact F|exact R].
Qed.
Lemma int_mul a b x y : is_int a x -> is_int b y -> Z.abs (x * y) <= 2 ^ 53 -> is_int (mul64 a b) (x * y).
Proof.
  intros (Fa & Ea) (Fb & Eb) H. pose proof (Bmult_correct 53 1024 eq_refl eq_refl binop_nan_pl64 NE a b) as K.
  cbn [BinarySingleNaN.round_mode] in K. rewrite Ea, Eb, <- mult_IZR, rnd_Z in K by auto.
  rewrite Rlt_bool_true in K by (apply small_B; auto). destruct K as (R & F & _). rewrite Fa, Fb in F.
  split; [exact F|exact R].
Qed.
Lemma int_of_Z z : Z.abs z <= 2 ^ 53 -> is_int (b64_of_Z z) z.
Proof. apply of_Z_exact. Qed.
Lemma int_lt a b x y : is_int a x -> is_int b y -> lt64 a b = (x <? y).
Proof.
  intros (Fa & Ea) (Fb & Eb). unfold lt64, b64_compare. rewrite Bcompare_correct by auto.
  rewrite Ea, Eb, Rcompare_IZR. unfold Z.ltb. destruct (x ?= y); reflexivity.
Qed.
Lemma int_zero : is_int zero64 0.
Proof. split; reflexivity. Qed.

(** * Pointers instead of offsets *)
Definition pt (p : idx) : Z * Z := (ix p, iy p).
Definition cell_is (p : idx) (c : cell) (o : option (Z * Z)) : Prop :=
  match o with
  | None => c = empty_cell
  | Some s => is_int (fst c) (fst s - ix p) /\ is_int (snd c) (snd s - iy p)
  end.
Definition closer (p : idx) (c o : option (Z * Z)) : option (Z * Z) :=
  match o with
  | None => c
  | Some s => match c with
              | None => Some s
              | Some t => if d2 (pt p) s <? d2 (pt p) t then Some s else Some t
              end
  end.
Definition look (F : grid (option (Z * Z))) (p : idx) (c : option (Z * Z)) (o : Z * Z) : option (Z * Z) :=
  closer p c (fst (get F (I (ix p + fst o) (iy p + snd o) 0))).
Definition vis (F : grid (option (Z * Z))) (v : idx * list (Z * Z)) : grid (option (Z * Z)) :=
  let '(p, offsets) := v in gset F p (fold_left (look F p) offsets (fst (get F p))).

Definition step_ok (o : Z * Z) : Prop := -1 <= fst o <= 1 /\ -1 <= snd o <= 1.
Definition visits_ok (h w : Z) (L : list (idx * list (Z * Z))) : Prop :=
  forall p offs, In (p, offs) L -> inside h w (pt p) /\ iz p = 0 /\ forall o, In o offs -> step_ok o.

Section Sim.
  Variables (h w : Z).
  Hypothesis OK : image_ok h w.

  Definition rel (f : grid cell) (F : grid (option (Z * Z))) : Prop :=
    gdims f = D h w 1 /\ gdims F = D h w 1 /\ wf_grid f /\ wf_grid F /\ goob f = empty_cell /\ goob F = None /\
    forall p, in_bounds (D h w 1) p = true -> cell_is p (gget f p) (gget F p) /\
      forall s, gget F p = Some s -> inside h w s.

  Lemma d2_bound p s : inside h w p -> inside h w s -> 0 <= d2 p s <= 2 ^ 53 /\
    (fst s - fst p) * (fst s - fst p) <= 2 ^ 53 /\ (snd s - snd p) * (snd s - snd p) <= 2 ^ 53 /\
    Z.abs (fst s - fst p) <= 2 ^ 53 - 2 /\ Z.abs (snd s - snd p) <= 2 ^ 53 - 2.
  Proof.
    destruct OK as (H1 & H2 & H3). unfold inside, d2. intros (A & B) (A' & B').
    change (2 ^ 53) with 9007199254740992 in *.
    set (a := fst s - fst p) in *. set (b := snd s - snd p) in *.
    assert (A1 : - h < a < h) by (unfold a; lia). assert (B1 : - w < b < w) by (unfold b; lia).
    clearbody a b.
    assert (X : a * a <= h * h) by nia.
    assert (Y : b * b <= w * w) by nia.
    assert (X0 : 0 <= a * a) by nia. assert (Y0 : 0 <= b * b) by nia.
    assert (U : h <= 134217728) by nia. assert (V : w <= 134217728) by nia.
    repeat split; lia.
  Qed.

  Lemma dist_int p c s : inside h w (pt p) -> inside h w s ->
    is_int (fst c) (fst s - ix p) -> is_int (snd c) (snd s - iy p) -> is_int (distance_squared c) (d2 (pt p) s).
  Proof.
    intros P S A B. destruct (d2_bound (pt p) s P S) as (K & K1 & K2 & _). unfold pt in K, K1, K2. cbn [fst snd] in K, K1, K2.
    unfold distance_squared, d2, pt in *. cbn [fst snd] in *.
    pose proof (Z.square_nonneg (fst s - ix p)). pose proof (Z.square_nonneg (snd s - iy p)).
    apply int_add; try apply int_mul; auto; lia.
  Qed.

  Lemma far_dist : distance_squared empty_cell = inf64.
  Proof. reflexivity. Qed.
  Lemma far_step o : step_ok o ->
    (add64 inf64 (b64_of_Z (fst o)), add64 inf64 (b64_of_Z (snd o))) = empty_cell.
  Proof.
    intros (A & B).
    assert (X : forall z, -1 <= z <= 1 -> add64 inf64 (b64_of_Z z) = inf64).
    { intros z Hz. assert (z = -1 \/ z = 0 \/ z = 1) as [->|[->| ->]] by lia; reflexivity. }
    rewrite !X by auto. reflexivity.
  Qed.
  Lemma lt_inf v z : is_int v z -> lt64 v inf64 = true.
  Proof. intros (F & _). destruct v as [s|s|s m e|s m e H]; try discriminate; reflexivity. Qed.
  Lemma inf_lt v : lt64 inf64 v = false.
  Proof. destruct v as [s|s|s m e|s m e H]; try reflexivity; try destruct s; reflexivity. Qed.

  Lemma get_rel f F q : rel f F -> iz q = 0 ->
    cell_is q (fst (get f q)) (fst (get F q)) /\
    (forall s, fst (get F q) = Some s -> inside h w s /\ inside h w (pt q)).
  Proof.
    intros (Df & DF & _ & _ & Of & OF & R) Z0. rewrite !get_eq, Df, DF. cbn [fst].
    destruct (in_bounds (D h w 1) q) eqn:E.
    - destruct (R q E) as (A & B). split; [exact A|]. intros s Hs. split; [apply B, Hs|].
      apply in_bounds_spec in E. unfold inside, pt. cbn in *. lia.
    - rewrite !gget_oob by (rewrite ?Df, ?DF; auto). rewrite Of, OF. split; [reflexivity|discriminate].
  Qed.

  Lemma compare_rel f F p c o s : rel f F -> inside h w (pt p) -> step_ok o ->
    cell_is p c s -> (forall t, s = Some t -> inside h w t) ->
    cell_is p (compare_cell f p c o) (look F p s o) /\ (forall t, look F p s o = Some t -> inside h w t).
  Proof.
    intros R P So C S. destruct (get_rel f F (I (ix p + fst o) (iy p + snd o) 0) R eq_refl) as (Q & Qs).
    unfold compare_cell, look. set (q := I _ _ _) in *.
    destruct (fst (get F q)) as [t|] eqn:Et; cbn [cell_is closer] in *.
    - destruct (Qs t eq_refl) as (It & Iq). destruct Q as (Q1 & Q2).
      set (c' := (add64 _ _, add64 _ _)).
      assert (C' : is_int (fst c') (fst t - ix p) /\ is_int (snd c') (snd t - iy p)).
      { destruct (d2_bound _ _ P It) as (_ & _ & _ & B1 & B2). unfold pt in B1, B2. cbn [fst snd] in B1, B2.
        destruct So as (S1 & S2). unfold c'. cbn [fst snd]. split.
        - replace (fst t - ix p) with (fst t - ix q + fst o) by (unfold q; cbn; lia).
          apply int_add; [exact Q1| |unfold q; cbn [ix]; lia].
          apply int_of_Z. change (2 ^ 53) with 9007199254740992; lia.
        - replace (snd t - iy p) with (snd t - iy q + snd o) by (unfold q; cbn; lia).
          apply int_add; [exact Q2| |unfold q; cbn [iy]; lia].
          apply int_of_Z. change (2 ^ 53) with 9007199254740992; lia. }
      pose proof (dist_int p c' t P It (proj1 C') (proj2 C')) as D'.
      destruct s as [u|]; cbn [cell_is] in C.
      + pose proof (dist_int p c u P (S u eq_refl) (proj1 C) (proj2 C)) as Du.
        rewrite (int_lt _ _ _ _ D' Du). destruct (_ <? _).
        * split; [exact C'|]. intros v E; injection E as <-; auto.
        * split; [exact C|]. exact S.
      + subst c. rewrite far_dist, (lt_inf _ _ D'). split; [exact C'|]. intros v E; injection E as <-; auto.
    - rewrite Q. cbn [fst snd empty_cell]. rewrite far_step by auto. rewrite far_dist, inf_lt. split; auto.
  Qed.

  Lemma visit_rel f F v : rel f F -> inside h w (pt (fst v)) -> iz (fst v) = 0 ->
    (forall o, In o (snd v) -> step_ok o) -> rel (visit f v) (vis F v).
  Proof.
    intros R P Pz So. destruct v as [p offs]. cbn [fst snd] in *. unfold visit, vis.
    assert (K : forall l c s, (forall o, In o l -> step_ok o) -> cell_is p c s -> (forall t, s = Some t -> inside h w t) ->
              cell_is p (fold_left (compare_cell f p) l c) (fold_left (look F p) l s) /\
              (forall t, fold_left (look F p) l s = Some t -> inside h w t)).
    { induction l as [|o l IH]; intros c s Sl C S; [split; auto|]. cbn [fold_left].
      destruct (compare_rel f F p c o s R P (Sl o (or_introl eq_refl)) C S) as (A & B).
      apply IH; auto. intros o' Ho. apply Sl. right; auto. }
    destruct (get_rel f F p R Pz) as (C & S).
    destruct (K offs _ _ So C (fun t E => proj1 (S t E))) as (A & B).
    set (c := fold_left (compare_cell f p) _ _) in *. set (s := fold_left (look F p) _ _) in *.
    destruct R as (Df & DF & Wf & WF & Of & OF & R). unfold rel.
    rewrite !gset_dims, !gset_oob. do 2 (split; [auto|]).
    split; [apply gset_wf; auto|]. split; [apply gset_wf; auto|]. do 2 (split; [auto|]).
    assert (Bp : in_bounds (D h w 1) p = true) by (apply in_bounds_spec; unfold inside, pt in P; cbn in *; lia).
    intros q Hq. rewrite (gget_gset f), (gget_gset F) by (rewrite ?Df, ?DF; auto).
    destruct (idx_eqb_spec p q) as [->|]; [split; auto|apply R; auto].
  Qed.

  Lemma visits_rel L f F : rel f F -> visits_ok h w L -> rel (fold_left visit L f) (fold_left vis L F).
  Proof.
    revert f F. induction L as [|[p offs] L IH]; intros f F R V; cbn [fold_left]; auto.
    destruct (V p offs (or_introl eq_refl)) as (A & B & C). apply IH.
    - apply visit_rel; cbn [fst snd]; auto.
    - intros q o H. apply V. right; auto.
  Qed.

  Lemma passes_ok : visits_ok h w (first_pass h w ++ second_pass h w).
  Proof.
    intros p offs H. apply in_app_or in H.
    assert (S : forall o, In o [(-1, 0); (0, -1); (-1, -1); (1, -1); (1, 0); (0, 1); (-1, 1); (1, 1)] -> step_ok o).
    { intros o Ho. cbn in Ho. unfold step_ok. repeat (destruct Ho as [<-|Ho]; [cbn; lia|]). contradiction. }
    destruct H as [H|H]; apply in_flat_map in H; destruct H as (y & Hy & H); rewrite <- ?in_rev in Hy;
      apply zrange_in in Hy; apply in_app_or in H; destruct H as [H|H]; apply in_map_iff in H;
      destruct H as (x & E & Hx); rewrite <- ?in_rev in Hx; apply zrange_in in Hx; injection E as <- <-;
      (split; [unfold inside, pt; cbn [fst snd ix iy]; auto|]; split; [reflexivity|]);
      intros o Ho; apply S; cbn [In] in *; tauto.
  Qed.
End Sim.

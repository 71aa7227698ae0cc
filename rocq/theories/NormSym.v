(** The rounded Euclidean distance between two points does not depend on their
    order. *)
From Coq Require Import Reals Lra.
From Flocq Require Import Core.Core IEEE754.Binary IEEE754.Bits.
From Verif Require Import Base Floats FloatFacts FloatFacts2 Arith TaggedMap.
Open Scope Z_scope.

Lemma sub_swap x y :
  is_finite 53 1024 x = true -> is_finite 53 1024 y = true ->
  sub64 y x = opp64 (sub64 x y) \/ (exists s s', sub64 x y = B754_zero 53 1024 s /\ sub64 y x = B754_zero 53 1024 s').
Proof.
  intros Fx Fy.
  destruct (minus_xr 53 1024 eq_refl eq_refl binop_nan_pl64 x y Fx Fy) as (N1 & X1).
  destruct (minus_xr 53 1024 eq_refl eq_refl binop_nan_pl64 y x Fy Fx) as (N2 & X2).
  fold (b64_minus BinarySingleNaN.mode_NE x y) in N1, X1.
  fold (b64_minus BinarySingleNaN.mode_NE y x) in N2, X2.
  fold (sub64 x y) in N1, X1. fold (sub64 y x) in N2, X2.
  assert (E : xr64 (sub64 y x) = (- xr64 (sub64 x y))%R).
  { unfold xr64. rewrite X1, X2. rewrite <- clamp_opp, <- rnd_opp. f_equal. f_equal. lra. }
  destruct (opp64_xr (sub64 x y) N1) as (No & Xo).
  destruct (Req_dec (xr64 (sub64 y x)) 0) as [Hz|Hz].
  - right. assert (Z0 : forall v : binary64, is_nan 53 1024 v = false -> xr64 v = 0%R ->
      exists s, v = B754_zero 53 1024 s).
    { intros [s|s|s p H|s m e H] Hn Hv; cbn in Hn, Hv; try discriminate; eauto.
      - exfalso. pose proof (bpow_gt_0 radix2 1024). destruct s; lra.
      - exfalso. assert (F2R (Float radix2 (SpecFloat.cond_Zopp s (Zpos m)) e) <> 0%R) as K; [|auto].
        apply F2R_neq_0. destruct s; cbn; discriminate. }
    destruct (Z0 _ N2 Hz) as (s' & E2). assert (Hz1 : xr64 (sub64 x y) = 0%R) by lra.
    destruct (Z0 _ N1 Hz1) as (s & E1). eauto.
  - left. apply xr_inj; auto. unfold xr64 in *. congruence.
Qed.

Lemma square_opp x : is_nan 53 1024 x = false -> mul64 (opp64 x) (opp64 x) = mul64 x x.
Proof.
  intros Hn. destruct (is_finite 53 1024 x) eqn:Fx.
  2:{ destruct x as [[]|[]|s p H|[] m e H]; cbn [is_nan is_finite] in *; try discriminate; reflexivity. }
  assert (Fo : is_finite 53 1024 (opp64 x) = true) by (destruct x; auto; discriminate).
  assert (Ro : B2R 53 1024 (opp64 x) = (- B2R 53 1024 x)%R) by apply B2R_Bopp.
  pose proof (Bmult_correct 53 1024 eq_refl eq_refl binop_nan_pl64 BinarySingleNaN.mode_NE x x) as H1.
  pose proof (Bmult_correct 53 1024 eq_refl eq_refl binop_nan_pl64 BinarySingleNaN.mode_NE (opp64 x) (opp64 x)) as H2.
  fold (b64_mult BinarySingleNaN.mode_NE x x) in H1. fold (mul64 x x) in H1.
  fold (b64_mult BinarySingleNaN.mode_NE (opp64 x) (opp64 x)) in H2. fold (mul64 (opp64 x) (opp64 x)) in H2.
  rewrite Ro in H2. replace (- B2R 53 1024 x * - B2R 53 1024 x)%R with (B2R 53 1024 x * B2R 53 1024 x)%R in H2 by ring.
  destruct (Rlt_bool _ _).
  - destruct H1 as (V1 & F1 & S1), H2 as (V2 & F2 & S2). rewrite Fx, ?Fo in *.
    cbn [andb] in F1, F2.
    assert (N1 : is_nan 53 1024 (mul64 x x) = false) by (destruct (mul64 x x); auto; discriminate).
    assert (N2 : is_nan 53 1024 (mul64 (opp64 x) (opp64 x)) = false)
      by (destruct (mul64 (opp64 x) (opp64 x)); auto; discriminate).
    apply B2R_Bsign_inj; auto.
    + rewrite V1, V2. reflexivity.
    + rewrite (S1 N1), (S2 N2), !xorb_nilpotent. reflexivity.
  - apply B2FF_inj. rewrite H1, H2, !xorb_nilpotent. reflexivity.
Qed.

Lemma square_swap x y :
  is_finite 53 1024 x = true -> is_finite 53 1024 y = true ->
  mul64 (sub64 x y) (sub64 x y) = mul64 (sub64 y x) (sub64 y x).
Proof.
  intros Fx Fy. destruct (minus_xr 53 1024 eq_refl eq_refl binop_nan_pl64 x y Fx Fy) as (N1 & _).
  destruct (sub_swap x y Fx Fy) as [E|(s & s' & E1 & E2)].
  - rewrite E. symmetry. apply square_opp. exact N1.
  - rewrite E1, E2. destruct s, s'; reflexivity.
Qed.

Lemma add_nan_l x y : is_nan 53 1024 x = true -> is_nan 53 1024 (add64 x y) = true.
Proof. destruct x; try discriminate. intros _. unfold add64, b64_plus, Bplus. destruct y; reflexivity. Qed.
Lemma add_nan_r x y : is_nan 53 1024 y = true -> is_nan 53 1024 (add64 x y) = true.
Proof. destruct y; try discriminate. intros _. destruct x; reflexivity. Qed.
Lemma mul_nan x y : is_nan 53 1024 x = true -> is_nan 53 1024 (mul64 x y) = true.
Proof. destruct x; try discriminate. intros _. destruct y; reflexivity. Qed.
Lemma sub_nan_l x y : is_nan 53 1024 x = true -> is_nan 53 1024 (sub64 x y) = true.
Proof. destruct x; try discriminate. intros _. destruct y; reflexivity. Qed.
Lemma sub_nan_r x y : is_nan 53 1024 y = true -> is_nan 53 1024 (sub64 x y) = true.
Proof. destruct y; try discriminate. intros _. destruct x; reflexivity. Qed.
Lemma sqrt_nan x : is_nan 53 1024 x = true -> is_nan 53 1024 (sqrt64 x) = true.
Proof. destruct x; try discriminate. reflexivity. Qed.
Lemma lt_nan x y : is_nan 53 1024 x = true -> lt64 x y = false.
Proof. destruct x; try discriminate. reflexivity. Qed.

Lemma square_nan x y : is_nan 53 1024 x = true \/ is_nan 53 1024 y = true ->
  is_nan 53 1024 (mul64 (sub64 x y) (sub64 x y)) = true.
Proof. intros [H|H]; apply mul_nan; [apply sub_nan_l|apply sub_nan_r]; auto. Qed.

Lemma norm_swap (a b : vec ieee) t :
  isinf64 (vx a) = false -> isinf64 (vy a) = false -> isinf64 (vz a) = false ->
  isinf64 (vx b) = false -> isinf64 (vy b) = false -> isinf64 (vz b) = false ->
  lt64 (norm (vsub a b)) t = lt64 (norm (vsub b a)) t.
Proof.
  destruct a as [a1 a2 a3], b as [b1 b2 b3]. cbn [vx vy vz]. intros A1 A2 A3 B1 B2 B3.
  unfold norm, squared_norm, vsub. cbn [vx vy vz dsqrt dadd dmul dsub ieee].
  assert (K : forall x y : binary64, isinf64 x = false -> isinf64 y = false ->
    (is_finite 53 1024 x = true /\ is_finite 53 1024 y = true) \/
    (is_nan 53 1024 x = true \/ is_nan 53 1024 y = true)).
  { intros [ | | | ] [ | | | ]; cbn; intros; try discriminate; auto. }
  assert (Nan : forall u v w u' v' w' : binary64,
    (is_nan 53 1024 u = true /\ is_nan 53 1024 u' = true) \/
    (is_nan 53 1024 v = true /\ is_nan 53 1024 v' = true) \/
    (is_nan 53 1024 w = true /\ is_nan 53 1024 w' = true) ->
    lt64 (sqrt64 (add64 u (add64 v w))) t = lt64 (sqrt64 (add64 u' (add64 v' w'))) t).
  { intros u v w u' v' w' H.
    rewrite !lt_nan; auto; apply sqrt_nan; destruct H as [(H & H')|[(H & H')|(H & H')]];
    (apply add_nan_l; assumption) || (apply add_nan_r; apply add_nan_l; assumption) ||
    (apply add_nan_r; apply add_nan_r; assumption). }
  destruct (K a1 b1 A1 B1) as [(F1 & F1')|N1].
  2:{ apply Nan. left. split; apply square_nan; tauto. }
  destruct (K a2 b2 A2 B2) as [(F2 & F2')|N2].
  2:{ apply Nan. right; left. split; apply square_nan; tauto. }
  destruct (K a3 b3 A3 B3) as [(F3 & F3')|N3].
  2:{ apply Nan. right; right. split; apply square_nan; tauto. }
  rewrite (square_swap a1 b1), (square_swap a2 b2), (square_swap a3 b3); auto.
Qed.

(** The distance estimate in doubles. *)
From Coq Require Import Reals Lra Lia Psatz.
From Flocq Require Import Core.Core Relative Plus_error Mult_error IEEE754.Binary IEEE754.Bits.
From Verif Require Import Base Floats FloatFacts FloatFacts2 Grid GridFacts Arith SdfQuery SdfField QuerySpec QueryProofs
  DisplaySdf DoubleSpec DoubleQuery.
Open Scope R_scope.

Local Instance prec24 : Prec_gt_0 24 := eq_refl.
Local Instance prec53 : Prec_gt_0 53 := eq_refl.

Definition u : R := bpow radix2 (-53).

(** [x] stands for [X] up to [k] units of rounding, relative to the bound [S]. *)
Definition near (x : binary64) (X S k : R) : Prop :=
  finite_double x /\ Rabs X <= S /\ Rabs (real64 x - X) <= k * u * S.

Lemma u_pos : 0 < u.
Proof. apply bpow_gt_0. Qed.
Lemma u_le : u <= / 1000000000.
Proof. unfold u. cbn -[Rinv IZR]. apply Rinv_le; lra. Qed.

(** ** Single operations *)
Lemma mul64_small x y : finite_double x -> finite_double y -> Rabs (real64 x * real64 y) <= bpow radix2 1000 ->
  finite_double (mul64 x y) /\ exists e t, Rabs e <= u /\ Rabs t <= bpow radix2 (-1075) /\
    real64 (mul64 x y) = real64 x * real64 y * (1 + e) + t.
Proof.
  intros Fx Fy B. destruct (mult_xr 53 1024 eq_refl eq_refl binop_nan_pl64 x y Fx Fy) as (N & X).
  destruct (finite_of_round (mul64 x y) (real64 x * real64 y) N X B) as (F & R). split; [exact F|].
  destruct (relative_error_N_FLT'_ex radix2 (-1074) 53 eq_refl (fun t => negb (Z.even t)) (real64 x * real64 y))
    as (e & t & He & Ht & _ & E).
  exists e, t. split; [eapply Rle_trans; [exact He|apply u_small]|]. split; [|rewrite R; exact E].
  eapply Rle_trans; [exact Ht|]. change (-1074)%Z with (1 + -1075)%Z. rewrite bpow_plus.
  change (bpow radix2 1) with 2. lra.
Qed.

Lemma add64_small x y : finite_double x -> finite_double y -> Rabs (real64 x + real64 y) <= bpow radix2 1000 ->
  finite_double (add64 x y) /\ exists e, Rabs e <= u /\ real64 (add64 x y) = (real64 x + real64 y) * (1 + e).
Proof.
  intros Fx Fy B. destruct (plus_xr 53 1024 eq_refl eq_refl binop_nan_pl64 x y Fx Fy) as (N & X).
  destruct (finite_of_round (add64 x y) (real64 x + real64 y) N X B) as (F & R). split; [exact F|].
  destruct (FLT_plus_error_N_ex radix2 (-1074) 53 (fun t => negb (Z.even t)) (real64 x) (real64 y))
    as (e & He & Ee).
  - apply generic_format_B2R.
  - apply generic_format_B2R.
  - exists e. split; [eapply Rle_trans; [exact He|apply u_small]|]. rewrite R. exact Ee.
Qed.

(** ** Operations on approximations *)
Definition sane (S : R) : Prop := bpow radix2 (-900) <= S <= bpow radix2 900.

Lemma sane_pos S : sane S -> 0 < S.
Proof. intros (H & _). pose proof (bpow_gt_0 radix2 (-900)). lra. Qed.

Lemma near_bound x X S k : 0 < S -> 0 <= k <= 1000 -> near x X S k -> Rabs (real64 x) <= 2 * S.
Proof.
  intros P K (_ & B & E). pose proof u_le. pose proof u_pos.
  replace (real64 x) with (X + (real64 x - X)) by ring. eapply Rle_trans; [apply Rabs_triang|].
  assert (k * u <= 1) by nra. assert (k * u * S <= 1 * S) by (apply Rmult_le_compat_r; lra). lra.
Qed.

Lemma big_ok S : S <= bpow radix2 900 -> 8 * S <= bpow radix2 1000.
Proof.
  intros H. apply Rle_trans with (bpow radix2 3 * bpow radix2 900).
  - change (bpow radix2 3) with 8. lra.
  - rewrite <- bpow_plus. apply bpow_le. lia.
Qed.

Lemma tiny_ok S : bpow radix2 (-900) <= S -> bpow radix2 (-1075) <= u / 1000 * S.
Proof.
  intros H. unfold u. apply Rle_trans with (bpow radix2 (-53) * bpow radix2 (-10) * bpow radix2 (-900)).
  - rewrite <- !bpow_plus. apply bpow_le. lia.
  - pose proof (bpow_gt_0 radix2 (-900)). pose proof (bpow_gt_0 radix2 (-53)).
    apply Rmult_le_compat; try lra.
    + apply Rmult_le_pos; apply bpow_ge_0.
    + unfold Rdiv. apply Rmult_le_compat_l; [lra|]. cbn -[Rinv IZR]. apply Rinv_le; lra.
Qed.

Lemma near_mul x X S k y Y T l : 0 <= k <= 1000 -> 0 <= l <= 1000 -> 0 < S -> 0 < T -> sane (S * T) ->
  near x X S k -> near y Y T l -> near (mul64 x y) (X * Y) (S * T) (k + l + 2).
Proof.
  intros K L PS PT Sane Nx Ny. pose proof (near_bound _ _ _ _ PS K Nx) as Bx. pose proof (near_bound _ _ _ _ PT L Ny) as By.
  destruct Nx as (Fx & BX & Ex). destruct Ny as (Fy & BY & Ey).
  pose proof u_pos as U0. pose proof u_le as U1.
  assert (P : 0 < S * T) by nra.
  assert (Bxy : Rabs (real64 x * real64 y) <= 4 * (S * T)).
  { rewrite Rabs_mult. pose proof (Rabs_pos (real64 x)). pose proof (Rabs_pos (real64 y)).
    apply Rle_trans with ((2 * S) * (2 * T)); [apply Rmult_le_compat; auto|lra]. }
  destruct (mul64_small x y Fx Fy) as (F & e & t & He & Ht & E).
  { pose proof (big_ok _ (proj2 Sane)). lra. }
  split; [exact F|]. split.
  - rewrite Rabs_mult. apply Rmult_le_compat; auto using Rabs_pos.
  - pose proof (tiny_ok _ (proj1 Sane)) as Tn.
    set (a := real64 x - X) in *. set (b := real64 y - Y) in *.
    assert (M1 : Rabs (a * Y) <= k * u * (S * T)).
    { rewrite Rabs_mult. replace (k * u * (S * T)) with (k * u * S * T) by ring.
      apply Rmult_le_compat; auto using Rabs_pos. }
    assert (M2 : Rabs (X * b) <= l * u * (S * T)).
    { rewrite Rabs_mult. replace (l * u * (S * T)) with (S * (l * u * T)) by ring.
      apply Rmult_le_compat; auto using Rabs_pos. }
    assert (M3 : Rabs (a * b) <= u / 10 * (S * T)).
    { rewrite Rabs_mult. apply Rle_trans with (k * u * S * (l * u * T)); [apply Rmult_le_compat; auto using Rabs_pos|].
      replace (k * u * S * (l * u * T)) with ((k * l * u) * u * (S * T)) by ring.
      apply Rmult_le_compat_r; [lra|]. assert (k * l <= 1000000) by nra. assert (0 <= k * l) by nra.
      assert (k * l * u <= 1000000 * / 1000000000) by (apply Rmult_le_compat; lra).
      assert (k * l * u <= / 10) by lra. unfold Rdiv. rewrite (Rmult_comm u (/ 10)). apply Rmult_le_compat_r; lra. }
    assert (M4 : real64 x * real64 y - X * Y = a * Y + X * b + a * b) by (unfold a, b; ring).
    assert (D1 : Rabs (real64 x * real64 y - X * Y) <= (k + l + / 10) * u * (S * T)).
    { rewrite M4. eapply Rle_trans; [apply Rabs_triang|]. pose proof (Rabs_triang (a * Y) (X * b)). 
      replace ((k + l + / 10) * u * (S * T)) with (k * u * (S * T) + l * u * (S * T) + u / 10 * (S * T)) by (unfold Rdiv; ring).
      lra. }
    assert (D2 : Rabs (real64 x * real64 y) <= (1 + / 10) * (S * T)).
    { replace (real64 x * real64 y) with (X * Y + (real64 x * real64 y - X * Y)) by ring.
      eapply Rle_trans; [apply Rabs_triang|].
      assert (Rabs (X * Y) <= S * T) by (rewrite Rabs_mult; apply Rmult_le_compat; auto using Rabs_pos).
      assert ((k + l + / 10) * u <= / 10).
      { apply Rle_trans with (3000 * / 1000000000); [|lra]. apply Rmult_le_compat; lra. }
      assert ((k + l + / 10) * u * (S * T) <= / 10 * (S * T)) by (apply Rmult_le_compat_r; lra). lra. }
    assert (D3 : Rabs (real64 x * real64 y * e) <= (1 + / 10) * u * (S * T)).
    { rewrite Rabs_mult. replace ((1 + / 10) * u * (S * T)) with ((1 + / 10) * (S * T) * u) by ring.
      apply Rmult_le_compat; auto using Rabs_pos. }
    rewrite E.
    replace (real64 x * real64 y * (1 + e) + t - X * Y)
      with ((real64 x * real64 y - X * Y) + real64 x * real64 y * e + t) by ring.
    eapply Rle_trans; [apply Rabs_triang|].
    pose proof (Rabs_triang (real64 x * real64 y - X * Y) (real64 x * real64 y * e)).
    replace ((k + l + 2) * u * (S * T)) with
      ((k + l + / 10) * u * (S * T) + (1 + / 10) * u * (S * T) + u / 1000 * (S * T) + (2 - / 10 - 1 - / 10 - / 1000) * (u * (S * T)))
      by (unfold Rdiv; ring).
    assert (0 <= u * (S * T)) by (apply Rmult_le_pos; lra).
    assert (0 <= (2 - / 10 - 1 - / 10 - / 1000) * (u * (S * T))) by (apply Rmult_le_pos; lra). lra.
Qed.

Section Sum.
  Variables (x y : binary64) (X Y S k T l W m : R).
  Hypotheses (M : 0 <= m <= 1000) (PW : 0 < W) (Big : W <= bpow radix2 900)
    (Hm : k * S + l * T <= m * W) (Nx : near x X S k) (Ny : near y Y T l).

  Lemma sum_split z Z e : Rabs Z <= W -> Rabs (z - Z) <= m * u * W -> Rabs e <= u ->
    Rabs (z * (1 + e) - Z) <= (m + 2) * u * W.
  Proof using M PW.
    clear - M PW. intros BZ D He. pose proof u_pos as U0. pose proof u_le as U1.
    assert (Bz : Rabs z <= 2 * W).
    { replace z with (Z + (z - Z)) by ring. eapply Rle_trans; [apply Rabs_triang|].
      assert (m * u <= 1) by (apply Rle_trans with (1000 * / 1000000000); [apply Rmult_le_compat; lra|lra]).
      assert (m * u * W <= 1 * W) by (apply Rmult_le_compat_r; lra). lra. }
    replace (z * (1 + e) - Z) with ((z - Z) + z * e) by ring.
    eapply Rle_trans; [apply Rabs_triang|]. rewrite Rabs_mult.
    assert (Rabs z * Rabs e <= 2 * W * u) by (apply Rmult_le_compat; auto using Rabs_pos).
    replace ((m + 2) * u * W) with (m * u * W + 2 * W * u) by ring. lra.
  Qed.

  Lemma sum_range z Z : Rabs Z <= W -> Rabs (z - Z) <= m * u * W -> Rabs z <= bpow radix2 1000.
  Proof using M PW Big.
    clear - M PW Big. intros BZ D. pose proof u_pos as U0. pose proof u_le as U1.
    pose proof (big_ok _ Big).
    replace z with (Z + (z - Z)) by ring. eapply Rle_trans; [apply Rabs_triang|].
    assert (m * u <= 1) by (apply Rle_trans with (1000 * / 1000000000); [apply Rmult_le_compat; lra|lra]).
    assert (m * u * W <= 1 * W) by (apply Rmult_le_compat_r; lra). lra.
  Qed.

  Lemma near_add : Rabs (X + Y) <= W -> near (add64 x y) (X + Y) W (m + 2).
  Proof.
    intros BZ. pose proof u_pos as U0.
    destruct Nx as (Fx & BX & Ex). destruct Ny as (Fy & BY & Ey).
    assert (D : Rabs (real64 x + real64 y - (X + Y)) <= m * u * W).
    { replace (real64 x + real64 y - (X + Y)) with ((real64 x - X) + (real64 y - Y)) by ring.
      eapply Rle_trans; [apply Rabs_triang|].
      assert (u * (k * S + l * T) <= u * (m * W)) by (apply Rmult_le_compat_l; lra). lra. }
    destruct (add64_small x y Fx Fy (sum_range _ _ BZ D)) as (F & e & He & E).
    split; [exact F|]. split; [exact BZ|]. rewrite E. apply sum_split; auto.
  Qed.

  Lemma near_sub : Rabs (X - Y) <= W -> near (sub64 x y) (X - Y) W (m + 2).
  Proof.
    intros BZ. pose proof u_pos as U0.
    destruct Nx as (Fx & BX & Ex). destruct Ny as (Fy & BY & Ey).
    assert (D : Rabs (real64 x - real64 y - (X - Y)) <= m * u * W).
    { replace (real64 x - real64 y - (X - Y)) with ((real64 x - X) + - (real64 y - Y)) by ring.
      eapply Rle_trans; [apply Rabs_triang|]. rewrite Rabs_Ropp.
      assert (u * (k * S + l * T) <= u * (m * W)) by (apply Rmult_le_compat_l; lra). lra. }
    destruct (sub64_small x y Fx Fy (sum_range _ _ BZ D)) as (F & e & He & E).
    split; [exact F|]. split; [exact BZ|]. rewrite E. apply sum_split; auto.
  Qed.
End Sum.

(** The difference of two doubles. *)
Lemma near_diff x y W : finite_double x -> finite_double y -> 0 < W <= bpow radix2 900 ->
  Rabs (real64 x - real64 y) <= W -> near (sub64 x y) (real64 x - real64 y) W 1.
Proof.
  intros Fx Fy HW B. destruct (sub64_small x y Fx Fy) as (F & e & He & E).
  { pose proof (big_ok _ (proj2 HW)). lra. }
  split; [exact F|]. split; [exact B|]. rewrite E.
  replace ((real64 x - real64 y) * (1 + e) - (real64 x - real64 y)) with ((real64 x - real64 y) * e) by ring.
  rewrite Rabs_mult. replace (1 * u * W) with (W * u) by ring. apply Rmult_le_compat; auto using Rabs_pos.
Qed.

Lemma near_weaken x X S k k' : k <= k' -> 0 < S -> near x X S k -> near x X S k'.
Proof.
  intros H P (F & B & E). split; [exact F|]. split; [exact B|]. eapply Rle_trans; [exact E|].
  pose proof u_pos. assert (0 <= u * S) by (apply Rmult_le_pos; lra). nra.
Qed.

(** The reciprocal of a positive quantity. *)
Lemma near_inv x X k : 0 <= k <= 100 -> 0 < X -> bpow radix2 (-800) <= X <= bpow radix2 800 -> near x X X k ->
  near (div64 (b64_of_Z 1) x) (/ X) (/ X) (k + 2).
Proof.
  intros K P Rg (F & _ & E). pose proof u_pos as U0. pose proof u_le as U1.
  assert (D : exists d, Rabs d <= k * u /\ real64 x = X * (1 + d)).
  { exists ((real64 x - X) / X). split.
    - unfold Rdiv. rewrite Rabs_mult, (Rabs_pos_eq (/ X)) by (left; apply Rinv_0_lt_compat; auto).
      apply Rmult_le_reg_r with X; auto. rewrite Rmult_assoc, Rinv_l, Rmult_1_r by lra. exact E.
    - field. lra. }
  destruct D as (d & Hd & Ed).
  assert (Kd : Rabs d <= / 1000000).
  { eapply Rle_trans; [exact Hd|]. apply Rle_trans with (100 * / 1000000000); [apply Rmult_le_compat; lra|lra]. }
  pose proof Kd as Kd'. apply Rabs_le_inv in Kd'.
  assert (H1 : bpow radix2 (-801) <= real64 x <= bpow radix2 801).
  { assert (Q1 : bpow radix2 801 = 2 * bpow radix2 800) by (change 801%Z with (1 + 800)%Z; rewrite bpow_plus; reflexivity).
    assert (Q2 : bpow radix2 (-800) = 2 * bpow radix2 (-801)) by (change (-800)%Z with (1 + -801)%Z; rewrite bpow_plus; reflexivity).
    rewrite Ed. pose proof (bpow_gt_0 radix2 (-801)). nra. }
  destruct (div_one x F H1) as (Fi & e & He & Ei). fold u in He.
  split; [exact Fi|]. assert (Pi : 0 < / X) by (apply Rinv_0_lt_compat; auto).
  split; [rewrite Rabs_pos_eq; lra|]. rewrite Ei, Ed.
  replace (/ (X * (1 + d)) * (1 + e) - / X) with (/ X * ((e - d) * / (1 + d))) by (field; split; lra).
  rewrite Rabs_mult, (Rabs_pos_eq (/ X)) by lra. rewrite (Rmult_comm _ (/ X)).
  apply Rmult_le_compat_l; [lra|]. rewrite Rabs_mult.
  assert (I2 : 0 < / (1 + d) <= 1 + / 1000).
  { split; [apply Rinv_0_lt_compat; lra|]. apply Rle_trans with (/ (1 - / 1000000)); [apply Rinv_le; lra|].
    apply Rmult_le_reg_r with (1 - / 1000000); [lra|]. rewrite Rinv_l by lra. lra. }
  rewrite (Rabs_pos_eq (/ (1 + d))) by lra.
  assert (Ed2 : Rabs (e - d) <= (k + 1) * u).
  { unfold Rminus. eapply Rle_trans; [apply Rabs_triang|]. rewrite Rabs_Ropp. lra. }
  apply Rle_trans with ((k + 1) * u * (1 + / 1000)).
  - apply Rmult_le_compat; auto using Rabs_pos; lra.
  - replace ((k + 1) * u * (1 + / 1000)) with ((k + 1) * (1 + / 1000) * u) by ring. apply Rmult_le_compat_r; lra.
Qed.

(** ** Interpolation *)
Lemma between_bound t a b W : -1 <= t <= 2 -> 0 <= W -> Rabs a <= W -> Rabs b <= W -> Rabs (between t a b) <= 3 * W.
Proof.
  intros Ht HW Ha Hb. unfold between. apply Rabs_le_inv in Ha. apply Rabs_le_inv in Hb. apply Rabs_le. nra.
Qed.

Definition cell_like (D : R) : Prop := bpow radix2 (-110) <= D <= bpow radix2 110.

Lemma cell_like_pos D : cell_like D -> 0 < D.
Proof. intros (H & _). pose proof (bpow_gt_0 radix2 (-110)). lra. Qed.

Lemma cell_like_inv D : cell_like D -> cell_like (/ D).
Proof.
  intros C. pose proof (cell_like_pos _ C) as P. destruct C as (H1 & H2). split.
  - change (-110)%Z with (- (110))%Z. rewrite bpow_opp. apply Rinv_le; lra.
  - rewrite <- (Rinv_inv (bpow radix2 110)). apply Rinv_le; [apply Rinv_0_lt_compat, bpow_gt_0|].
    rewrite <- bpow_opp. exact H1.
Qed.

(** Products of a few such quantities. *)
Inductive modest : Z -> R -> Prop :=
| modest_one : forall D, cell_like D -> modest 110 D
| modest_mul : forall m n a b, modest m a -> modest n b -> modest (m + n) (a * b)
| modest_const : forall c, 1 <= c <= 64 -> modest 6 c.

Lemma modest_range n a : modest n a -> bpow radix2 (- n) <= a <= bpow radix2 n.
Proof.
  induction 1 as [D C|m n a b _ IHa _ IHb|c H].
  - exact C.
  - replace (- (m + n))%Z with (- m + - n)%Z by lia. rewrite !bpow_plus.
    pose proof (bpow_gt_0 radix2 (- m)). pose proof (bpow_gt_0 radix2 (- n)).
    split; apply Rmult_le_compat; lra.
  - split; [apply Rle_trans with (bpow radix2 0); [apply bpow_le; lia|cbn; lra]|].
    change (bpow radix2 6) with 64. lra.
Qed.

Lemma modest_sane n a : modest n a -> (n <= 900)%Z -> sane a.
Proof.
  intros M H. apply modest_range in M. destruct M as (M1 & M2). split.
  - apply Rle_trans with (2 := M1). apply bpow_le. lia.
  - apply Rle_trans with (1 := M2). apply bpow_le. lia.
Qed.

Ltac modest := repeat first [apply modest_one; assumption | apply modest_one; apply cell_like_inv; assumption
                            | apply modest_const; lra | apply modest_mul].
Ltac is_sane := eapply modest_sane; [modest|cbn; lia].

Section Bilinear.
  Variables (l1 h1 l2 h2 q1 q2 : binary64) (a00 a01 a10 a11 : binary64) (A00 A01 A10 A11 W : R).
  Notation D1 := (real64 h1 - real64 l1). Notation D2 := (real64 h2 - real64 l2).
  Notation t1 := ((real64 q1 - real64 l1) / D1). Notation t2 := ((real64 q2 - real64 l2) / D2).
  Hypotheses (Fl1 : finite_double l1) (Fh1 : finite_double h1) (Fl2 : finite_double l2) (Fh2 : finite_double h2)
    (Fq1 : finite_double q1) (Fq2 : finite_double q2)
    (C1 : cell_like D1) (C2 : cell_like D2) (CW : cell_like W)
    (T1 : -1 <= t1 <= 2) (T2 : -1 <= t2 <= 2)
    (N00 : near a00 A00 W 1) (N01 : near a01 A01 W 1) (N10 : near a10 A10 W 1) (N11 : near a11 A11 W 1).

  Lemma small_cell D : cell_like D -> 0 < D <= bpow radix2 900 /\ 0 < 2 * D <= bpow radix2 900.
  Proof.
    intros C. pose proof (cell_like_pos _ C). destruct C as (_ & C). split; (split; [lra|]).
    - eapply Rle_trans; [exact C|]. apply bpow_le. lia.
    - apply Rle_trans with (bpow radix2 (1 + 110)); [rewrite bpow_plus; change (bpow radix2 1) with 2; lra|].
      apply bpow_le. lia.
  Qed.

  Lemma step_in D l q : 0 < D -> -1 <= (q - l) / D <= 2 -> Rabs (q - l) <= 2 * D /\ Rabs (D + l - q) <= 2 * D.
  Proof.
    intros P H. assert (E : q - l = (q - l) / D * D) by (field; lra). set (s := (q - l) / D) in *.
    replace (D + l - q) with (D - (q - l)) by ring. rewrite E. split; apply Rabs_le; nra.
  Qed.

  Lemma bilinear_near :
    near (@bilinear ieee l1 h1 l2 h2 q1 q2 a00 a01 a10 a11)
         (between t2 (between t1 A00 A10) (between t1 A01 A11)) (9 * W) 30.
  Proof.
    pose proof (cell_like_pos _ C1) as P1. pose proof (cell_like_pos _ C2) as P2. pose proof (cell_like_pos _ CW) as PW.
    destruct (small_cell _ C1) as (R1 & R1'). destruct (small_cell _ C2) as (R2 & R2').
    destruct (step_in _ _ _ P1 T1) as (S1 & S1'). destruct (step_in _ _ _ P2 T2) as (S2 & S2').
    replace (D1 + real64 l1 - real64 q1) with (real64 h1 - real64 q1) in S1' by ring.
    replace (D2 + real64 l2 - real64 q2) with (real64 h2 - real64 q2) in S2' by ring.
    assert (NA : forall D, 0 < D -> Rabs D <= D) by (intros; rewrite Rabs_pos_eq; lra).
    pose proof (near_diff h1 l1 _ Fh1 Fl1 R1 (NA _ P1)) as Nd1.
    pose proof (near_diff h2 l2 _ Fh2 Fl2 R2 (NA _ P2)) as Nd2.
    pose proof (near_diff h1 q1 _ Fh1 Fq1 R1' S1') as Nhq1. pose proof (near_diff q1 l1 _ Fq1 Fl1 R1' S1) as Nql1.
    pose proof (near_diff h2 q2 _ Fh2 Fq2 R2' S2') as Nhq2. pose proof (near_diff q2 l2 _ Fq2 Fl2 R2' S2) as Nql2.
    assert (PP : 0 < D1 * D2) by nra. assert (PI : 0 < / (D1 * D2)) by (apply Rinv_0_lt_compat; auto).
    pose proof (near_mul _ _ _ 1 _ _ _ 1 ltac:(lra) ltac:(lra) P1 P2 ltac:(is_sane) Nd1 Nd2) as Nm.
    replace (1 + 1 + 2) with 4 in Nm by lra.
    assert (Rm : bpow radix2 (-800) <= D1 * D2 <= bpow radix2 800).
    { assert (M : modest (110 + 110) (D1 * D2)) by modest. apply modest_range in M. destruct M as (M1 & M2).
      split; [eapply Rle_trans; [|exact M1]|eapply Rle_trans; [exact M2|]]; apply bpow_le; cbn; lia. }
    pose proof (near_inv _ _ 4 ltac:(lra) PP Rm Nm) as Ni. replace (4 + 2) with 6 in Ni by lra.
    set (i := div64 (b64_of_Z 1) (mul64 (sub64 h1 l1) (sub64 h2 l2))) in *.
    assert (Ii : modest (110 + 110) (/ (D1 * D2))) by (rewrite Rinv_mult; modest).
    assert (Sa : sane (/ (D1 * D2) * (2 * D1))).
    { eapply modest_sane; [apply modest_mul; [exact Ii|modest]|cbn; lia]. }
    pose proof (near_mul _ _ _ 6 _ _ _ 1 ltac:(lra) ltac:(lra) PI (proj1 R1') Sa Ni Nhq1) as Na.
    pose proof (near_mul _ _ _ 6 _ _ _ 1 ltac:(lra) ltac:(lra) PI (proj1 R1') Sa Ni Nql1) as Nb.
    replace (6 + 1 + 2) with 9 in Na, Nb by lra.
    set (a := mul64 i (sub64 h1 q1)) in *. set (b := mul64 i (sub64 q1 l1)) in *.
    assert (Es : / (D1 * D2) * (2 * D1) = 2 / D2) by (field; lra). rewrite Es in *.
    assert (Ea : / (D1 * D2) * (real64 h1 - real64 q1) = (1 - t1) / D2) by (field; lra).
    assert (Eb : / (D1 * D2) * (real64 q1 - real64 l1) = t1 / D2) by (field; lra).
    rewrite Ea in Na. rewrite Eb in Nb. clear Ea Eb.
    assert (P2' : 0 < 2 / D2) by (apply Rdiv_lt_0_compat; lra).
    assert (M2 : modest (6 + 110) (2 / D2)) by (unfold Rdiv; modest).
    assert (Sv : sane (2 / D2 * W)) by (eapply modest_sane; [apply modest_mul; [exact M2|modest]|cbn; lia]).
    assert (M3 : modest (6 + 110) (3 / D2)) by (unfold Rdiv; modest).
    assert (Row : forall v0 v1 V0 V1, near v0 V0 W 1 -> near v1 V1 W 1 ->
       near (add64 (mul64 a v0) (mul64 b v1)) (between t1 V0 V1 / D2) (3 / D2 * W) 18).
    { intros v0 v1 V0 V1 N0 N1.
      pose proof (near_mul _ _ _ 9 _ _ _ 1 ltac:(lra) ltac:(lra) P2' PW Sv Na N0) as X0.
      pose proof (near_mul _ _ _ 9 _ _ _ 1 ltac:(lra) ltac:(lra) P2' PW Sv Nb N1) as X1.
      replace (9 + 1 + 2) with 12 in X0, X1 by lra.
      assert (PV : 0 < 2 / D2 * W) by (apply Rmult_lt_0_compat; lra).
      assert (E : (1 - t1) / D2 * V0 + t1 / D2 * V1 = between t1 V0 V1 / D2) by (unfold between; field; lra).
      rewrite <- E. replace 18 with (16 + 2) by lra.
      assert (P3 : 0 < 3 / D2 * W) by (apply Rmult_lt_0_compat; [apply Rdiv_lt_0_compat; lra|lra]).
      apply (near_add _ _ _ _ (2 / D2 * W) 12 (2 / D2 * W) 12); auto; [lra| | |].
      - assert (Q : sane (3 / D2 * W)) by (eapply modest_sane; [apply modest_mul; [exact M3|modest]|cbn; lia]). apply Q.
      - unfold Rdiv. lra.
      - rewrite E. unfold Rdiv. rewrite Rabs_mult, (Rabs_pos_eq (/ D2)) by (left; apply Rinv_0_lt_compat; lra).
        replace (3 * / D2 * W) with (3 * W * / D2) by ring.
        apply Rmult_le_compat_r; [left; apply Rinv_0_lt_compat; lra|].
        apply between_bound; [lra|lra|apply N0|apply N1]. }
    pose proof (Row _ _ _ _ N00 N10) as L. pose proof (Row _ _ _ _ N01 N11) as H.
    assert (P3 : 0 < 3 / D2 * W) by (apply Rmult_lt_0_compat; [apply Rdiv_lt_0_compat; lra|lra]).
    assert (S3 : sane (3 / D2 * W * (2 * D2))).
    { eapply modest_sane; [apply modest_mul; [apply modest_mul; [exact M3|modest]|modest]|cbn; lia]. }
    pose proof (near_mul _ _ _ 18 _ _ _ 1 ltac:(lra) ltac:(lra) P3 (proj1 R2') S3 L Nhq2) as XL.
    pose proof (near_mul _ _ _ 18 _ _ _ 1 ltac:(lra) ltac:(lra) P3 (proj1 R2') S3 H Nql2) as XH.
    replace (18 + 1 + 2) with 21 in XL, XH by lra.
    replace (3 / D2 * W * (2 * D2)) with (6 * W) in XL, XH by (field; lra).
    set (B0 := between t1 A00 A10) in *. set (B1 := between t1 A01 A11) in *.
    assert (E : B0 / D2 * (real64 h2 - real64 q2) + B1 / D2 * (real64 q2 - real64 l2) = between t2 B0 B1).
    { unfold between. field. lra. }
    rewrite <- E. replace 30 with (28 + 2) by lra. unfold bilinear. cbn [dadd dsub dmul ddiv of_int ieee].
    fold i. fold a. fold b.
    apply (near_add _ _ _ _ (6 * W) 21 (6 * W) 21); auto; [lra|lra| |lra|].
    - assert (Q : sane (9 * W)) by is_sane. apply Q.
    - rewrite E. replace (9 * W) with (3 * (3 * W)) by ring.
      apply between_bound; [lra|lra| |]; apply between_bound; try lra;
        first [apply N00|apply N01|apply N10|apply N11].
  Qed.
End Bilinear.

Section Trilinear.
  Variables (r : binary64) (c q : vec ieee) (a000 a001 a010 a011 a100 a101 a110 a111 : binary64)
    (A000 A001 A010 A011 A100 A101 A110 A111 W : R).
  Notation h1 := (add64 (vx c) r). Notation h2 := (add64 (vy c) r).
  Notation D1 := (real64 h1 - real64 (vx c)). Notation D2 := (real64 h2 - real64 (vy c)).
  Notation t1 := ((real64 (vx q) - real64 (vx c)) / D1).
  Notation t2 := ((real64 (vy q) - real64 (vy c)) / D2).
  Notation t3 := ((real64 (vz q) - real64 (vz c)) / real64 r).
  Hypotheses (Fr : finite_double r) (Fc : finite_vec c) (Fq : finite_vec q)
    (Fh1 : finite_double h1) (Fh2 : finite_double h2)
    (C1 : cell_like D1) (C2 : cell_like D2) (CR : cell_like (real64 r)) (CW : cell_like W)
    (T1 : -1 <= t1 <= 2) (T2 : -1 <= t2 <= 2) (T3 : -1 <= t3 <= 2)
    (N000 : near a000 A000 W 1) (N001 : near a001 A001 W 1) (N010 : near a010 A010 W 1) (N011 : near a011 A011 W 1)
    (N100 : near a100 A100 W 1) (N101 : near a101 A101 W 1) (N110 : near a110 A110 W 1) (N111 : near a111 A111 W 1).

  Lemma trilinear_near :
    near (@trilinear ieee r c q a000 a001 a010 a011 a100 a101 a110 a111)
         (between t3 (between t2 (between t1 A000 A100) (between t1 A010 A110))
                     (between t2 (between t1 A001 A101) (between t1 A011 A111))) (27 * W) 64.
  Proof.
    destruct Fc as (Fcx & Fcy & Fcz). destruct Fq as (Fqx & Fqy & Fqz).
    pose proof (cell_like_pos _ CW) as PW. pose proof (cell_like_pos _ CR) as PR.
    pose proof (bilinear_near _ _ _ _ _ _ _ _ _ _ _ _ _ _ _ Fcx Fh1 Fcy Fh2 Fqx Fqy C1 C2 CW T1 T2 N000 N010 N100 N110) as L.
    pose proof (bilinear_near _ _ _ _ _ _ _ _ _ _ _ _ _ _ _ Fcx Fh1 Fcy Fh2 Fqx Fqy C1 C2 CW T1 T2 N001 N011 N101 N111) as H.
    unfold trilinear, bilinear_xy. cbn [dadd dsub dmul ddiv of_int ieee].
    set (mz := @bilinear ieee _ _ _ _ _ _ a000 a010 a100 a110) in *.
    set (pz := @bilinear ieee _ _ _ _ _ _ a001 a011 a101 a111) in *.
    set (B0 := between t2 (between t1 A000 A100) _) in *. set (B1 := between t2 (between t1 A001 A101) _) in *.
    assert (Sub : near (sub64 pz mz) (B1 - B0) (18 * W) 32).
    { replace 32 with (30 + 2) by lra. apply (near_sub _ _ _ _ (9 * W) 30 (9 * W) 30); auto; [lra|lra| |lra|].
      - assert (Q : sane (18 * W)) by is_sane. apply Q.
      - unfold Rminus. eapply Rle_trans; [apply Rabs_triang|]. rewrite Rabs_Ropp.
        destruct L as (_ & L & _). destruct H as (_ & H & _). lra. }
    assert (Nr : near r (real64 r) (real64 r) 0).
    { split; [exact Fr|]. rewrite Rminus_diag_eq, Rabs_R0 by auto. rewrite Rabs_pos_eq by lra. lra. }
    assert (Rr : bpow radix2 (-800) <= real64 r <= bpow radix2 800).
    { destruct CR as (M1 & M2).
      split; [eapply Rle_trans; [|exact M1]|eapply Rle_trans; [exact M2|]]; apply bpow_le; cbn; lia. }
    pose proof (near_inv _ _ 0 ltac:(lra) PR Rr Nr) as Ni. replace (0 + 2) with 2 in Ni by lra.
    assert (PI : 0 < / real64 r) by (apply Rinv_0_lt_compat; auto).
    assert (P18 : 0 < 18 * W) by lra.
    pose proof (near_mul _ _ _ 32 _ _ _ 2 ltac:(lra) ltac:(lra) P18 PI ltac:(is_sane) Sub Ni) as Ns.
    replace (32 + 2 + 2) with 36 in Ns by lra.
    destruct (small_cell _ CR) as (_ & R2'). destruct (step_in _ _ _ PR T3) as (S3 & _).
    pose proof (near_diff (vz q) (vz c) _ Fqz Fcz R2' S3) as Nq.
    assert (PS : 0 < 18 * W * / real64 r) by (apply Rmult_lt_0_compat; auto).
    pose proof (near_mul _ _ _ 1 _ _ _ 36 ltac:(lra) ltac:(lra) (proj1 R2') PS ltac:(is_sane) Nq Ns) as Nm.
    replace (1 + 36 + 2) with 39 in Nm by lra.
    replace (2 * real64 r * (18 * W * / real64 r)) with (36 * W) in Nm by (field; lra).
    assert (E : B0 + (real64 (vz q) - real64 (vz c)) * ((B1 - B0) * / real64 r) = between t3 B0 B1).
    { unfold between. field. lra. }
    rewrite <- E. replace 64 with (62 + 2) by lra.
    apply (near_add _ _ _ _ (9 * W) 30 (36 * W) 39); auto; [lra|lra| |lra|].
    - assert (Q : sane (27 * W)) by is_sane. apply Q.
    - rewrite E. replace (27 * W) with (3 * (9 * W)) by ring.
      apply between_bound; [lra|lra|apply L|apply H].
  Qed.
End Trilinear.

(** ** Geometry *)

(** Which side of the centre the point is on is decided without error. *)
Lemma side_exact v c : finite_double v -> finite_double c ->
  le64 (b64_of_Z 0) (sub64 v c) = true <-> real64 c <= real64 v.
Proof.
  intros Fv Fc. destruct (sub_xr v c Fv Fc) as (N & X).
  rewrite le64_spec; [|apply finite_not_nan, zero_real|exact N].
  rewrite (proj1 (finite_xr _ (proj1 zero_real))), (proj2 zero_real), X, <- clamp_nonneg, nearest_sign. lra.
Qed.

Lemma axis_pick n x v c lo hi : finite_double v -> finite_double c -> (0 <= x < n)%Z ->
  @axis_interpolation_indices ieee x n (sub64 v c) = (lo, hi) ->
  cells_on_axis n x (real64 c) (real64 v) lo hi.
Proof.
  intros Fv Fc Hx. unfold axis_interpolation_indices. cbn [dle of_int ieee].
  pose proof (side_exact v c Fv Fc) as S. destruct (le64 (b64_of_Z 0) (sub64 v c)).
  - assert (Hs : real64 c <= real64 v) by (apply S; reflexivity).
    destruct (Z.leb_spec n (x + 1)); [destruct (Z.ltb_spec (x - 1) 0)|]; intros E; injection E as <- <-;
      unfold cells_on_axis; destruct (Z.eqb_spec n 1); repeat split; auto; try lia; try (intros; lia).
  - assert (Hs : ~ real64 c <= real64 v) by (intros K; apply S in K; discriminate).
    destruct (Z.ltb_spec (x - 1) 0); [destruct (Z.leb_spec n (x + 1))|]; intros E; injection E as <- <-;
      unfold cells_on_axis; destruct (Z.eqb_spec n 1); repeat split; auto; try lia; try (intros; lia);
      intros; exfalso; lra.
Qed.

Section AxisPosition.
  Variables (r c v : binary64) (n x lo hi : Z) (delta : R).
  Notation rr := (real64 r).
  Hypotheses (Fr : finite_double r) (Fc : finite_double c) (Fv : finite_double v)
    (Rr : bpow radix2 (-100) <= rr <= bpow radix2 100)
    (Hd : 0 <= delta <= 1 / 16) (Hn : (IZR n + 1) * u <= delta)
    (Hc : Rabs (real64 c - rr * (IZR lo + 1 / 2)) <= delta * rr)
    (Hx : (0 <= lo <= hi /\ hi < n)%Z) (Hxl : x = lo \/ x = hi) (Hhi : (hi = if n =? 1 then lo else lo + 1)%Z)
    (Hv : Rabs (real64 v - rr * (IZR x + 1 / 2)) <= rr * (9 / 16)).
  Notation t := (progress rr lo (real64 v)).
  Notation h := (add64 c r).
  Notation D := (real64 h - real64 c).

  Lemma rr_pos : 0 < rr.
  Proof. pose proof (bpow_gt_0 radix2 (-100)). lra. Qed.

  Lemma rr_like : cell_like rr.
  Proof.
    split; [eapply Rle_trans; [|exact (proj1 Rr)]|eapply Rle_trans; [exact (proj2 Rr)|]]; apply bpow_le; lia.
  Qed.

  Lemma t_range : - (9 / 16) <= t <= 25 / 16.
  Proof.
    pose proof rr_pos as P. unfold progress.
    assert (K : forall s, (real64 v - rr * (IZR x + 1 / 2)) / rr = s -> - (9 / 16) <= s <= 9 / 16).
    { intros s <-. apply Rabs_le_inv in Hv. split.
      - apply Rmult_le_reg_r with rr; auto. unfold Rdiv. rewrite Rmult_assoc, Rinv_l, Rmult_1_r by lra. lra.
      - apply Rmult_le_reg_r with rr; auto. unfold Rdiv. rewrite Rmult_assoc, Rinv_l, Rmult_1_r by lra. lra. }
    destruct Hxl as [->| ->].
    - specialize (K _ eq_refl). lra.
    - destruct (n =? 1)%Z.
      + rewrite Hhi in K. specialize (K _ eq_refl). lra.
      + rewrite Hhi in K. rewrite plus_IZR in K. specialize (K _ eq_refl).
        replace ((real64 v - rr * (IZR lo + 1 / 2)) / rr)
          with ((real64 v - rr * (IZR lo + 1 + 1 / 2)) / rr + 1) by (field; lra). lra.
  Qed.

  Lemma t_back : real64 v = rr * (IZR lo + 1 / 2) + rr * t.
  Proof. pose proof rr_pos. unfold progress. field. lra. Qed.

  Lemma corner_size : Rabs (real64 c + rr) <= rr * (IZR n + 1).
  Proof.
    pose proof rr_pos as P. apply Rabs_le_inv in Hc. apply Rabs_le.
    assert (0 <= IZR lo <= IZR n - 1).
    { replace (IZR n - 1) with (IZR (n - 1)) by (rewrite minus_IZR; reflexivity). split; apply IZR_le; lia. }
    nra.
  Qed.

  Lemma upper_end : finite_double h /\ exists e, Rabs e <= delta /\ D = rr * (1 + e).
  Proof.
    pose proof rr_pos as P. pose proof u_pos as U. pose proof u_le as U1. pose proof corner_size as B.
    assert (Pn : 1 <= IZR n) by (apply IZR_le; lia).
    assert (Small : Rabs (real64 c + rr) <= bpow radix2 1000).
    { eapply Rle_trans; [exact B|]. apply Rle_trans with (bpow radix2 100 * bpow radix2 53).
      - apply Rmult_le_compat; [lra|lra|apply Rr|].
        apply Rmult_le_reg_r with u; [exact U|]. replace (bpow radix2 53 * u) with 1; [lra|].
        unfold u. rewrite <- bpow_plus. reflexivity.
      - rewrite <- bpow_plus. apply bpow_le. lia. }
    destruct (add64_small c r Fc Fr Small) as (F & e & He & E). split; [exact F|].
    exists ((real64 c + rr) * e / rr). split.
    - unfold Rdiv. rewrite !Rabs_mult, (Rabs_pos_eq (/ rr)) by (left; apply Rinv_0_lt_compat; auto).
      apply Rmult_le_reg_r with rr; auto. rewrite Rmult_assoc, Rinv_l, Rmult_1_r by lra.
      apply Rle_trans with (rr * (IZR n + 1) * u); [apply Rmult_le_compat; auto using Rabs_pos|].
      replace (rr * (IZR n + 1) * u) with ((IZR n + 1) * u * rr) by ring. apply Rmult_le_compat_r; lra.
    - rewrite E. field. lra.
  Qed.

  Lemma scaled_e1 : exists e, Rabs e <= delta /\ real64 v - real64 c = rr * (t + e).
  Proof.
    pose proof rr_pos as P. exists ((rr * (IZR lo + 1 / 2) - real64 c) / rr). split.
    - replace ((rr * (IZR lo + 1 / 2) - real64 c) / rr) with (- ((real64 c - rr * (IZR lo + 1 / 2)) * / rr)) by (field; lra).
      rewrite Rabs_Ropp, Rabs_mult, (Rabs_pos_eq (/ rr)) by (left; apply Rinv_0_lt_compat; auto).
      apply Rmult_le_reg_r with rr; auto. rewrite Rmult_assoc, Rinv_l, Rmult_1_r by lra. exact Hc.
    - rewrite t_back at 1. field. lra.
  Qed.

  Lemma axis_xy : finite_double h /\ cell_like D /\ -1 <= (real64 v - real64 c) / D <= 2 /\
    Rabs ((real64 v - real64 c) / D - t) <= 3 * delta.
  Proof.
    pose proof rr_pos as P. pose proof t_range as T.
    destruct upper_end as (F & e2 & H2 & ED). destruct scaled_e1 as (e1 & H1 & EV).
    pose proof H1 as H1'. pose proof H2 as H2'. apply Rabs_le_inv in H1'. apply Rabs_le_inv in H2'.
    split; [exact F|]. rewrite ED, EV. split; [|].
    - destruct Rr as (R1 & R2). split.
      + apply Rle_trans with (bpow radix2 (-100) * (15 / 16)).
        * change (-110)%Z with (-100 + -10)%Z. rewrite bpow_plus. apply Rmult_le_compat_l; [apply bpow_ge_0|].
          cbn -[Rinv IZR]. apply Rle_trans with (/ 2); [apply Rinv_le; lra|lra].
        * apply Rmult_le_compat; try lra. apply bpow_ge_0.
      + apply Rle_trans with (bpow radix2 100 * 2); [apply Rmult_le_compat; lra|].
        change 110%Z with (100 + 10)%Z. rewrite bpow_plus. apply Rmult_le_compat_l; [apply bpow_ge_0|].
        change (bpow radix2 10) with 1024. lra.
    - assert (Q : rr * (t + e1) / (rr * (1 + e2)) = (t + e1) / (1 + e2)) by (field; split; lra).
      rewrite Q. set (s := (t + e1) / (1 + e2)).
      assert (Es : s * (1 + e2) = t + e1) by (unfold s; field; lra).
      assert (K : s - t = (e1 - t * e2) / (1 + e2)) by (unfold s; field; lra).
      assert (Kb : Rabs (s - t) <= 3 * delta).
      { rewrite K. unfold Rdiv. rewrite Rabs_mult, (Rabs_pos_eq (/ (1 + e2))) by (left; apply Rinv_0_lt_compat; lra).
        apply Rmult_le_reg_r with (1 + e2); [lra|]. rewrite Rmult_assoc, Rinv_l, Rmult_1_r by lra.
        unfold Rminus. eapply Rle_trans; [apply Rabs_triang|]. rewrite Rabs_Ropp, Rabs_mult.
        assert (Rabs t <= 25 / 16) by (apply Rabs_le; lra).
        assert (Rabs t * Rabs e2 <= 25 / 16 * delta) by (apply Rmult_le_compat; auto using Rabs_pos).
        assert (3 * delta * (15 / 16) <= 3 * delta * (1 + e2)) by (apply Rmult_le_compat_l; lra). lra. }
      split; [|exact Kb]. apply Rabs_le_inv in Kb. lra.
  Qed.

  Lemma axis_z : -1 <= (real64 v - real64 c) / rr <= 2 /\ Rabs ((real64 v - real64 c) / rr - t) <= delta.
  Proof.
    pose proof rr_pos as P. pose proof t_range as T. destruct scaled_e1 as (e1 & H1 & EV).
    replace ((real64 v - real64 c) / rr) with (t + e1) by (rewrite EV; field; lra).
    replace (t + e1 - t) with e1 by ring. split; [|exact H1]. apply Rabs_le_inv in H1. lra.
  Qed.
End AxisPosition.

(** ** Values at the centres *)
Section Centered.
  Variables (f : field ieee) (W : R).
  Notation r := (f_res f).
  Hypotheses (Fr : finite_double r) (Rr : bpow radix2 (-100) <= real64 r <= bpow radix2 100)
    (HW : W <= bpow radix2 100)
    (Vals : forall j, in_bounds (f_dims f) j = true ->
       finite_float (value f j) /\ Rabs (real32 (value f j)) + real64 r <= W).

  Lemma half_exact : finite_double (mul64 r (@lit ieee 1 2)) /\ real64 (mul64 r (@lit ieee 1 2)) = real64 r / 2.
  Proof.
    pose proof (bpow_gt_0 radix2 (-100)) as P.
    set (hf := @lit ieee 1 2). assert (Fh : finite_double hf) by (vm_compute; reflexivity).
    assert (Rh : real64 hf = / 2).
    { assert (E : eq64 hf (B754_finite 53 1024 false 4503599627370496 (-53) eq_refl) = true) by (vm_compute; reflexivity).
      rewrite eq_finite in E by (auto; vm_compute; reflexivity).
      destruct (Req_EM_T _ _) as [K|]; [|discriminate]. rewrite K. unfold real64. cbn [B2R]. unfold F2R. cbn -[IZR]. lra. }
    destruct (mult_xr 53 1024 eq_refl eq_refl binop_nan_pl64 r hf Fr Fh) as (N & X).
    change (B2R 53 1024 hf) with (real64 hf) in X. rewrite Rh in X.
    destruct (finite_of_round (mul64 r hf) (real64 r * / 2) N X) as (F & R).
    { rewrite Rabs_pos_eq by lra. apply Rle_trans with (bpow radix2 100); [lra|apply bpow_le; lia]. }
    split; [exact F|]. rewrite R. unfold nearest_double. apply round_generic; [apply valid_rnd_N|].
    change (real64 r / 2) with (real64 r * bpow radix2 (-1)). apply mult_bpow_exact_FLT; [apply real_format|].
    assert (M : (-99 <= mag radix2 (real64 r))%Z).
    { apply mag_ge_bpow. rewrite Rabs_pos_eq by lra. apply Rr. }
    lia.
  Qed.

  Lemma W_like : (exists j, in_bounds (f_dims f) j = true) -> cell_like W.
  Proof.
    intros (j & Hj). destruct (Vals j Hj) as (_ & B). pose proof (Rabs_pos (real32 (value f j))).
    split; [apply Rle_trans with (bpow radix2 (-100)); [apply bpow_le; lia|lra]|].
    eapply Rle_trans; [exact HW|]. apply bpow_le. lia.
  Qed.

  Lemma corrected_near j : in_bounds (f_dims f) j = true ->
    exists v, corrected_center_distance f j = Ok v /\ near v (centered_real f j) W 1.
  Proof.
    intros Hj. pose proof (W_like (ex_intro _ j Hj)) as CW. destruct (small_cell _ CW) as (SW & _).
    destruct (Vals j Hj) as (Fv & Bv). pose proof (bpow_gt_0 radix2 (-100)) as P.
    destruct half_exact as (Fo & Ro). destruct (widen_finite _ Fv) as (Fw & Ew).
    assert (Hg : get (f_grid f) j = (value f j, true)).
    { unfold value, gget, get. change (gdims (f_grid f)) with (f_dims f). rewrite Hj. reflexivity. }
    unfold corrected_center_distance. rewrite Hg. cbn [widen dle dsub dadd dmul of_int ieee].
    eexists. split; [reflexivity|]. unfold centered_real.
    set (v := value f j) in *. set (o := mul64 r (@lit ieee 1 2)) in *. set (w := b64_of_b32 v) in *.
    assert (Rw : real64 w = real32 v) by exact Ew.
    assert (B : Rabs (real32 v - real64 o) <= W /\ Rabs (real32 v + real64 o) <= W).
    { rewrite Ro. split; [unfold Rminus|]; (eapply Rle_trans; [apply Rabs_triang|]);
        rewrite ?Rabs_Ropp, (Rabs_pos_eq (real64 r / 2)); lra. }
    assert (Q : le64 (b64_of_Z 0) w = true <-> 0 <= real32 v).
    { rewrite le64_spec; [|apply finite_not_nan, zero_real|apply finite_not_nan; exact Fw].
      rewrite (proj1 (finite_xr _ (proj1 zero_real))), (proj2 zero_real), (proj1 (finite_xr _ Fw)), Rw. tauto. }
    rewrite <- Ro.
    destruct (le64 (b64_of_Z 0) w); destruct (Rle_dec 0 (real32 v)) as [L|n]; try (exfalso; apply n; apply Q; reflexivity).
    - rewrite <- Rw. apply near_diff; auto. rewrite Rw. apply B.
    - exfalso. assert (false = true) by (apply Q; exact L). discriminate.
    - destruct (add64_small w o Fw Fo) as (F & e & He & E).
      { rewrite Rw. pose proof (big_ok _ (proj2 SW)). lra. }
      split; [exact F|]. split; [apply B|]. rewrite E, Rw.
      replace ((real32 v + real64 o) * (1 + e) - (real32 v + real64 o)) with ((real32 v + real64 o) * e) by ring.
      rewrite Rabs_mult. replace (1 * u * W) with (W * u) by ring. apply Rmult_le_compat; auto using Rabs_pos. apply B.
  Qed.
End Centered.

(** ** Moving the point a little *)
Lemma between_move t t' a b a' b' d e M : -1 <= t' <= 2 -> Rabs (t' - t) <= d -> 0 <= e ->
  Rabs (a' - a) <= e -> Rabs (b' - b) <= e -> Rabs a <= M -> Rabs b <= M ->
  Rabs (between t' a' b' - between t a b) <= 3 * e + d * (2 * M).
Proof.
  intros Ht Hd He Ha Hb Ba Bb.
  replace (between t' a' b' - between t a b) with (between t' (a' - a) (b' - b) + (t' - t) * (b - a))
    by (unfold between; ring).
  eapply Rle_trans; [apply Rabs_triang|]. apply Rplus_le_compat; [apply between_bound; auto|].
  rewrite Rabs_mult. apply Rmult_le_compat; auto using Rabs_pos.
  unfold Rminus. eapply Rle_trans; [apply Rabs_triang|]. rewrite Rabs_Ropp. lra.
Qed.

Lemma tri_move t1 t2 t3 s1 s2 s3 A000 A001 A010 A011 A100 A101 A110 A111 d W :
  -1 <= t1 <= 2 -> -1 <= t2 <= 2 -> -1 <= s1 <= 2 -> -1 <= s2 <= 2 -> -1 <= s3 <= 2 ->
  Rabs (s1 - t1) <= 3 * d -> Rabs (s2 - t2) <= 3 * d -> Rabs (s3 - t3) <= d -> 0 <= d -> 0 <= W ->
  Rabs A000 <= W -> Rabs A001 <= W -> Rabs A010 <= W -> Rabs A011 <= W ->
  Rabs A100 <= W -> Rabs A101 <= W -> Rabs A110 <= W -> Rabs A111 <= W ->
  Rabs (between s3 (between s2 (between s1 A000 A100) (between s1 A010 A110))
                   (between s2 (between s1 A001 A101) (between s1 A011 A111)) -
        between t3 (between t2 (between t1 A000 A100) (between t1 A010 A110))
                   (between t2 (between t1 A001 A101) (between t1 A011 A111))) <= 128 * d * W.
Proof.
  intros. assert (P : 0 <= d * W) by (apply Rmult_le_pos; lra).
  assert (S0 : forall a : R, Rabs (a - a) <= 0).
  { intros a. rewrite Rminus_diag_eq, Rabs_R0 by auto. lra. }
  apply Rle_trans with (3 * (3 * (3 * 0 + 3 * d * (2 * W)) + 3 * d * (2 * (3 * W))) + d * (2 * (3 * (3 * W)))); [|lra].
  apply between_move; auto; try lra.
  - apply between_move; auto; try lra; try (apply between_move; auto; lra); apply between_bound; auto; lra.
  - apply between_move; auto; try lra; try (apply between_move; auto; lra); apply between_bound; auto; lra.
  - apply between_bound; auto; try lra; apply between_bound; auto; lra.
  - apply between_bound; auto; try lra; apply between_bound; auto; lra.
Qed.

Lemma combine x E X W d : 0 <= W -> near x E (27 * W) 64 -> Rabs (E - X) <= 128 * d * W ->
  finite_double x /\ Rabs (real64 x - X) <= (bpow radix2 (-42) + 128 * d) * W.
Proof.
  intros P (F & _ & Err) M. split; [exact F|].
  replace (real64 x - X) with ((real64 x - E) + (E - X)) by ring.
  eapply Rle_trans; [apply Rabs_triang|].
  assert (U : 64 * u * (27 * W) <= bpow radix2 (-42) * W).
  { replace (bpow radix2 (-42)) with (2048 * u).
    - pose proof u_pos. assert (0 <= u * W) by (apply Rmult_le_pos; lra). lra.
    - unfold u. change (-42)%Z with (11 + -53)%Z. rewrite bpow_plus. change (bpow radix2 11) with 2048. reflexivity. }
  lra.
Qed.

Section Estimate.
  Variables (f : field ieee) (p : pose ieee) (loc : vec ieee) (delta W : R).
  Notation r := (f_res f).
  Notation q := (to_grid p loc).
  Notation i := (index_of p q).
  Hypotheses (Fr : finite_double r) (Rr : bpow radix2 (-100) <= real64 r <= bpow radix2 100)
    (HW : W <= bpow radix2 100)
    (Vals : forall j, in_bounds (f_dims f) j = true ->
       finite_float (value f j) /\ Rabs (real32 (value f j)) + real64 r <= W)
    (Cen : centers_within f p delta) (Hd : delta <= 1 / 16)
    (Hnx : (IZR (nx (f_dims f)) + 1) * u <= delta) (Hny : (IZR (ny (f_dims f)) + 1) * u <= delta)
    (Fq : finite_vec q) (Hi : in_bounds (f_dims f) i = true) (Hq : lies_in (real64 r) (real_vec q) i).

  Lemma estimate_double : exists e xl xu yl yu zl zu,
    estimate_distance f p loc = Ok (e, true) /\ finite_double e /\
    cells_on_axis (nx (f_dims f)) (ix i) (real64 (vx (center_of p i))) (real64 (vx q)) xl xu /\
    cells_on_axis (ny (f_dims f)) (iy i) (real64 (vy (center_of p i))) (real64 (vy q)) yl yu /\
    cells_on_axis (nz (f_dims f)) (iz i) (real64 (vz (center_of p i))) (real64 (vz q)) zl zu /\
    Rabs (real64 e - interpolation f (real_vec q) xl xu yl yu zl zu) <= (bpow radix2 (-42) + 128 * delta) * W.
  Proof.
    unfold estimate_distance. rewrite Hi. unfold estimate_from_neighbors.
    pose proof Hi as Hb. apply in_bounds_spec in Hb. destruct Hb as (Bx & By & Bz).
    destruct Fq as (Fqx & Fqy & Fqz). destruct Hq as (Qx & Qy & Qz). unfold real_vec in Qx, Qy, Qz. cbn [vx vy vz] in Qx, Qy, Qz.
    destruct (Cen i Hi) as ((Fix & Fiy & Fiz) & _).
    unfold vsub. cbn [dsub ieee vx vy vz].
    destruct (axis_interpolation_indices (ix i) _ _) as [xl xu] eqn:Ax.
    destruct (axis_interpolation_indices (iy i) _ _) as [yl yu] eqn:Ay.
    destruct (axis_interpolation_indices (iz i) _ _) as [zl zu] eqn:Az.
    apply axis_pick in Ax; auto. apply axis_pick in Ay; auto. apply axis_pick in Az; auto.
    pose proof Ax as (Xr & Xi & Xu & _). pose proof Ay as (Yr & Yi & Yu & _). pose proof Az as (Zr & Zi & Zu & _).
    assert (In8 : forall x y z, (x = xl \/ x = xu) -> (y = yl \/ y = yu) -> (z = zl \/ z = zu) ->
                  in_bounds (f_dims f) (I x y z) = true).
    { intros x y z Hx Hy Hz. apply in_bounds_spec. cbn [ix iy iz]. lia. }
    pose proof (W_like f W Rr HW Vals (ex_intro _ i Hi)) as CW. pose proof (cell_like_pos _ CW) as PW.
    assert (Hd0 : 0 <= delta).
    { pose proof u_pos. assert (0 <= IZR (nx (f_dims f))) by (apply IZR_le; lia).
      apply Rle_trans with (2 := Hnx). apply Rmult_le_pos; lra. }
    destruct (Cen (I xl yl zl) (In8 xl yl zl (or_introl eq_refl) (or_introl eq_refl) (or_introl eq_refl)))
      as ((Fcx & Fcy & Fcz) & Kx & Ky & Kz).
    cbn [ix iy iz] in Kx, Ky, Kz. set (c := center_of p (I xl yl zl)) in *.
    destruct (axis_xy r (vx c) (vx q) _ (ix i) xl xu delta Fr Fcx Rr (conj Hd0 Hd) Hnx Kx Xr Xi Xu Qx)
      as (Fh1 & C1 & T1 & M1).
    destruct (axis_xy r (vy c) (vy q) _ (iy i) yl yu delta Fr Fcy Rr (conj Hd0 Hd) Hny Ky Yr Yi Yu Qy)
      as (Fh2 & C2 & T2 & M2).
    destruct (axis_z r (vz c) (vz q) _ (iz i) zl zu delta Rr (conj Hd0 Hd) Kz Zi Zu Qz) as (T3 & M3).
    pose proof (rr_like r Rr) as CR.
    destruct (corrected_near f W Fr Rr HW Vals (I xl yl zl)) as (v000 & -> & N000); [apply In8; auto|].
    destruct (corrected_near f W Fr Rr HW Vals (I xl yl zu)) as (v001 & -> & N001); [apply In8; auto|].
    destruct (corrected_near f W Fr Rr HW Vals (I xl yu zl)) as (v010 & -> & N010); [apply In8; auto|].
    destruct (corrected_near f W Fr Rr HW Vals (I xl yu zu)) as (v011 & -> & N011); [apply In8; auto|].
    destruct (corrected_near f W Fr Rr HW Vals (I xu yl zl)) as (v100 & -> & N100); [apply In8; auto|].
    destruct (corrected_near f W Fr Rr HW Vals (I xu yl zu)) as (v101 & -> & N101); [apply In8; auto|].
    destruct (corrected_near f W Fr Rr HW Vals (I xu yu zl)) as (v110 & -> & N110); [apply In8; auto|].
    destruct (corrected_near f W Fr Rr HW Vals (I xu yu zu)) as (v111 & -> & N111); [apply In8; auto|].
    cbn [bind].
    pose proof (trilinear_near r c q v000 v001 v010 v011 v100 v101 v110 v111 _ _ _ _ _ _ _ _ W
      Fr (conj Fcx (conj Fcy Fcz)) (conj Fqx (conj Fqy Fqz)) Fh1 Fh2 C1 C2 CR CW T1 T2 T3
      N000 N001 N010 N011 N100 N101 N110 N111) as Near.
    assert (RTx : -1 <= progress (real64 r) xl (real64 (vx q)) <= 2).
    { pose proof (t_range r (vx q) _ (ix i) xl xu Rr Xi Xu Qx). lra. }
    assert (RTy : -1 <= progress (real64 r) yl (real64 (vy q)) <= 2).
    { pose proof (t_range r (vy q) _ (iy i) yl yu Rr Yi Yu Qy). lra. }
    pose proof (tri_move _ _ _ _ _ _ _ _ _ _ _ _ _ _ delta W RTx RTy T1 T2 T3 M1 M2 M3 Hd0 (Rlt_le _ _ PW)
      (proj1 (proj2 N000)) (proj1 (proj2 N001)) (proj1 (proj2 N010)) (proj1 (proj2 N011))
      (proj1 (proj2 N100)) (proj1 (proj2 N101)) (proj1 (proj2 N110)) (proj1 (proj2 N111))) as Move.
    destruct (combine _ _ _ _ _ (Rlt_le _ _ PW) Near Move) as (Fe & Err).
    eexists _, xl, xu, yl, yu, zl, zu. split; [reflexivity|]. split; [exact Fe|].
    split; [exact Ax|]. split; [exact Ay|]. split; [exact Az|]. exact Err.
  Qed.
End Estimate.

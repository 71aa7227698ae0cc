(** Gradients in the world frame, in doubles. *)
From Coq Require Import Reals Lra Lia Psatz.
From Flocq Require Import Core.Core IEEE754.Binary IEEE754.Bits.
From Verif Require Import Base BaseFacts Floats FloatFacts FloatFacts2 Grid GridFacts Arith SdfQuery SdfField QuerySpec
  QueryProofs QueryReal QueryThms QueryTurn DoubleSpec DoubleQuery DoubleEstimate DoubleGrid IdealSpec WallSpec WallProject Frame FrameSpec.
Open Scope R_scope.

(** ** Sums of four products *)
Definition pm (s : bool) : binary64 -> binary64 -> binary64 := if s then add64 else sub64.
Definition rpm (s : bool) (x y : R) : R := if s then x + y else x - y.

Definition near (e : R) (x : binary64) (X : R) : Prop := finite_double x /\ Rabs (real64 x - X) <= e.

Section Four.
  Variable B : R.
  Hypothesis SB : bpow radix2 (-100) <= B <= bpow radix2 100.

  Lemma UB_pos : 0 < u /\ 0 < B /\ 0 < u * B /\ u * B <= B / 1000.
  Proof using SB.
    pose proof (bpow_gt_0 radix2 (-100)). assert (U0 : 0 < u) by apply bpow_gt_0. pose proof u_tiny as ((_ & U1) & _).
    assert (0 < B) by lra. split; [exact U0|]. split; [lra|]. split; [apply Rmult_lt_0_compat; lra|].
    rewrite (Rmult_comm u). apply Rmult_le_compat_l; lra.
  Qed.

  Lemma pm_abs s x y : finite_double x -> finite_double y -> Rabs (real64 x) + Rabs (real64 y) <= 8 * B ->
    near (9 * u * B) (pm s x y) (rpm s (real64 x) (real64 y)).
  Proof using SB.
    intros Fx Fy H. destruct s; cbn [pm rpm].
    - apply (add_abs B SB); auto. eapply Rle_trans; [apply Rabs_triang|exact H].
    - apply (sub_abs B SB); auto. unfold Rminus. eapply Rle_trans; [apply Rabs_triang|]. rewrite Rabs_Ropp. exact H.
  Qed.

  (** Products of numbers near two others. *)
  Lemma near_mul x X y Y ex ey a b : near ex x X -> near ey y Y -> Rabs X <= a -> Rabs Y <= b -> (a + ex) * (b + ey) <= 1.9 * B ->
    near (a * ey + b * ex + ex * ey + 9 * u * B) (mul64 x y) (X * Y) /\ Rabs (real64 (mul64 x y)) <= 1.91 * B.
  Proof using SB.
    intros (Fx & Ex) (Fy & Ey) Ha Hb Le. destruct UB_pos as (U0 & B0 & UB0 & UB1).
    set (dx := real64 x - X) in *. set (dy := real64 y - Y) in *.
    assert (Vx : real64 x = X + dx) by (unfold dx; ring). assert (Vy : real64 y = Y + dy) by (unfold dy; ring).
    assert (P : Rabs (real64 x * real64 y) <= 1.9 * B).
    { apply Rle_trans with (2 := Le). rewrite Rabs_mult. apply Rmult_le_compat; try apply Rabs_pos.
      - rewrite Vx. eapply Rle_trans; [apply Rabs_triang|lra].
      - rewrite Vy. eapply Rle_trans; [apply Rabs_triang|lra]. }
    destruct (mul_abs B SB x y Fx Fy) as (F & D); [lra|].
    assert (Q : Rabs (real64 x * real64 y - X * Y) <= a * ey + b * ex + ex * ey).
    { rewrite Vx, Vy. replace ((X + dx) * (Y + dy) - X * Y) with (X * dy + Y * dx + dx * dy) by ring.
      eapply Rle_trans; [apply Rabs_triang|]. apply Rplus_le_compat.
      - eapply Rle_trans; [apply Rabs_triang|]. apply Rplus_le_compat; rewrite Rabs_mult; apply Rmult_le_compat; auto using Rabs_pos.
      - rewrite Rabs_mult. apply Rmult_le_compat; auto using Rabs_pos. }
    apply Rabs_le_inv in D. apply Rabs_le_inv in Q. apply Rabs_le_inv in P.
    split; [split; [exact F|]|]; apply Rabs_le; lra.
  Qed.

  Lemma four s1 s2 s3 x1 x2 x3 x4 y1 y2 y3 y4 X1 X2 X3 X4 Y1 Y2 Y3 Y4 ex ey a b :
    near ex x1 X1 -> near ex x2 X2 -> near ex x3 X3 -> near ex x4 X4 ->
    near ey y1 Y1 -> near ey y2 Y2 -> near ey y3 Y3 -> near ey y4 Y4 ->
    Rabs X1 <= a -> Rabs X2 <= a -> Rabs X3 <= a -> Rabs X4 <= a ->
    Rabs Y1 <= b -> Rabs Y2 <= b -> Rabs Y3 <= b -> Rabs Y4 <= b -> (a + ex) * (b + ey) <= 1.9 * B ->
    near (4 * (a * ey + b * ex + ex * ey) + 63 * u * B)
      (pm s3 (pm s2 (pm s1 (mul64 x1 y1) (mul64 x2 y2)) (mul64 x3 y3)) (mul64 x4 y4))
      (rpm s3 (rpm s2 (rpm s1 (X1 * Y1) (X2 * Y2)) (X3 * Y3)) (X4 * Y4)).
  Proof using SB.
    intros N1 N2 N3 N4 M1 M2 M3 M4 A1 A2 A3 A4 C1 C2 C3 C4 Le. destruct UB_pos as (U0 & B0 & UB0 & UB1).
    destruct (near_mul _ _ _ _ _ _ _ _ N1 M1 A1 C1 Le) as ((F1 & D1) & S1).
    destruct (near_mul _ _ _ _ _ _ _ _ N2 M2 A2 C2 Le) as ((F2 & D2) & S2).
    destruct (near_mul _ _ _ _ _ _ _ _ N3 M3 A3 C3 Le) as ((F3 & D3) & S3).
    destruct (near_mul _ _ _ _ _ _ _ _ N4 M4 A4 C4 Le) as ((F4 & D4) & S4).
    set (e := a * ey + b * ex + ex * ey) in *. clearbody e. clear - SB U0 B0 UB0 UB1 F1 D1 S1 F2 D2 S2 F3 D3 S3 F4 D4 S4.
    set (m1 := mul64 x1 y1) in *. set (m2 := mul64 x2 y2) in *. set (m3 := mul64 x3 y3) in *. set (m4 := mul64 x4 y4) in *.
    set (P1 := X1 * Y1) in *. set (P2 := X2 * Y2) in *. set (P3 := X3 * Y3) in *. set (P4 := X4 * Y4) in *.
    clearbody m1 m2 m3 m4 P1 P2 P3 P4.
    assert (Rp : forall s x y, Rabs (rpm s x y) <= Rabs x + Rabs y).
    { intros s x y. destruct s; cbn [rpm]; [apply Rabs_triang|]. unfold Rminus. eapply Rle_trans; [apply Rabs_triang|]. rewrite Rabs_Ropp. lra. }
    assert (Dp : forall s x X y Y e1 e2, Rabs (x - X) <= e1 -> Rabs (y - Y) <= e2 -> Rabs (rpm s x y - rpm s X Y) <= e1 + e2).
    { intros s x X y Y e1 e2 H1 H2. apply Rabs_le_inv in H1. apply Rabs_le_inv in H2. apply Rabs_le. destruct s; cbn [rpm]; lra. }
    assert (Tr : forall x y z e1 e2, Rabs (x - y) <= e1 -> Rabs (y - z) <= e2 -> Rabs (x - z) <= e1 + e2).
    { intros x y z e1 e2 H1 H2. apply Rabs_le_inv in H1. apply Rabs_le_inv in H2. apply Rabs_le. lra. }
    assert (Sz : forall x y e1, Rabs (x - y) <= e1 -> Rabs x <= Rabs y + e1).
    { intros x y e1 H1. replace x with (y + (x - y)) by ring. eapply Rle_trans; [apply Rabs_triang|]. lra. }
    destruct (pm_abs s1 m1 m2 F1 F2) as (F5 & D5); [lra|]. set (m5 := pm s1 m1 m2) in *. clearbody m5.
    pose proof (Rle_trans _ _ _ (Sz _ _ _ D5) (Rplus_le_compat_r _ _ _ (Rp s1 (real64 m1) (real64 m2)))) as S5.
    pose proof (Tr _ _ _ _ _ D5 (Dp s1 _ _ _ _ _ _ D1 D2)) as G5.
    destruct (pm_abs s2 m5 m3 F5 F3) as (F6 & D6); [lra|]. set (m6 := pm s2 m5 m3) in *. clearbody m6.
    pose proof (Rle_trans _ _ _ (Sz _ _ _ D6) (Rplus_le_compat_r _ _ _ (Rp s2 (real64 m5) (real64 m3)))) as S6.
    pose proof (Tr _ _ _ _ _ D6 (Dp s2 _ _ _ _ _ _ G5 D3)) as G6.
    destruct (pm_abs s3 m6 m4 F6 F4) as (F7 & D7); [lra|].
    pose proof (Tr _ _ _ _ _ D7 (Dp s3 _ _ _ _ _ _ G6 D4)) as G7.
    split; [exact F7|]. eapply Rle_trans; [exact G7|]. lra.
  Qed.
End Four.

Lemma near_more e e' x X : e <= e' -> near e x X -> near e' x X.
Proof. intros H (F & D). split; [exact F|lra]. Qed.

Lemma rpm_size s x y a b : Rabs x <= a -> Rabs y <= b -> Rabs (rpm s x y) <= a + b.
Proof. intros H1 H2. apply Rabs_le_inv in H1. apply Rabs_le_inv in H2. apply Rabs_le. destruct s; cbn [rpm]; lra. Qed.

Lemma prod_size x y a b : Rabs x <= a -> Rabs y <= b -> Rabs (x * y) <= a * b.
Proof. intros H1 H2. rewrite Rabs_mult. apply Rmult_le_compat; auto using Rabs_pos. Qed.

Lemma four_size s1 s2 s3 X1 X2 X3 X4 Y1 Y2 Y3 Y4 a b :
  Rabs X1 <= a -> Rabs X2 <= a -> Rabs X3 <= a -> Rabs X4 <= a ->
  Rabs Y1 <= b -> Rabs Y2 <= b -> Rabs Y3 <= b -> Rabs Y4 <= b ->
  Rabs (rpm s3 (rpm s2 (rpm s1 (X1 * Y1) (X2 * Y2)) (X3 * Y3)) (X4 * Y4)) <= 4 * (a * b).
Proof.
  intros A1 A2 A3 A4 B1 B2 B3 B4. replace (4 * (a * b)) with (a * b + a * b + a * b + a * b) by ring.
  repeat apply rpm_size; apply prod_size; assumption.
Qed.

(** ** The inverse of a quaternion of length 1 *)
Section Quat.
  Variables (delta : R) (w : binary64) (v : vec ieee) (W : R) (U : rvec).
  Hypothesis Hd : bpow radix2 (-53) <= delta <= bpow radix2 (-20).
  Hypotheses (Nw : near delta w W) (Nx : near delta (vx v) (vx U)) (Ny : near delta (vy v) (vy U)) (Nz : near delta (vz v) (vz U)).
  Hypothesis Unit_ : W * W + length_squared U = 1.

  Lemma delta_small : u <= delta <= / 1000000 /\ 0 < u.
  Proof using Hd.
    split; [|apply bpow_gt_0]. split; [apply Hd|]. apply Rle_trans with (1 := proj2 Hd).
    change (bpow radix2 (-20)) with (/ 1048576). apply Rinv_le; lra.
  Qed.

  Lemma one_range : bpow radix2 (-100) <= 1 <= bpow radix2 100.
  Proof using. change 1 with (bpow radix2 0). split; apply bpow_le; lia. Qed.

  Lemma unit_parts : Rabs W <= 1 /\ Rabs (vx U) <= 1 /\ Rabs (vy U) <= 1 /\ Rabs (vz U) <= 1.
  Proof using Unit_.
    clear Nw Nx Ny Nz. unfold length_squared in Unit_. destruct U as [a b c]. cbn [vx vy vz] in *. revert Unit_. rsimp. intros H.
    pose proof (Rle_0_sqr W). pose proof (Rle_0_sqr a). pose proof (Rle_0_sqr b). pose proof (Rle_0_sqr c). unfold Rsqr in *.
    repeat split; apply Rabs_le; split; nra.
  Qed.

  Definition n2 := add64 (add64 (add64 (mul64 (vx v) (vx v)) (mul64 (vy v) (vy v))) (mul64 (vz v) (vz v))) (mul64 w w).

  Lemma n2_near : near (72 * delta) n2 1.
  Proof using Hd Nw Nx Ny Nz Unit_.
    destruct delta_small as ((D1 & D2) & U0). destruct unit_parts as (P0 & P1 & P2 & P3).
    pose proof (four 1 one_range true true true _ _ _ _ _ _ _ _ _ _ _ _ _ _ _ _ _ _ 1 1 Nx Ny Nz Nw Nx Ny Nz Nw P1 P2 P3 P0 P1 P2 P3 P0) as K.
    cbn [rpm pm] in K. fold n2 in K.
    replace (vx U * vx U + vy U * vy U + vz U * vz U + W * W) with 1 in K
      by (rewrite <- Unit_; unfold length_squared; rsimp; ring).
    apply near_more with (2 := K ltac:(nra)). assert (delta * delta <= delta * / 1000000) by (apply Rmult_le_compat_l; lra). lra.
  Qed.

  Lemma n2_positive : lt64 (b64_of_Z 0) n2 = true.
  Proof using Hd Nw Nx Ny Nz Unit_.
    destruct n2_near as (F & D). destruct delta_small as ((D1 & D2) & U0). apply Rabs_le_inv in D.
    destruct (of_Z_exact 0) as (F0 & E0); [lia|]. rewrite (lt_finite _ _ F0 F).
    change (real64 (b64_of_Z 0) = 0) in E0. rewrite E0. destruct (Rlt_dec 0 (real64 n2)); [reflexivity|lra].
  Qed.

  Lemma div_near x X : near (3 * delta) x X -> Rabs X <= 1 -> near (80 * delta) (div64 x n2) X.
  Proof using Hd Nw Nx Ny Nz Unit_.
    intros (Fx & Dx) HX. destruct n2_near as (F & D). destruct delta_small as ((D1 & D2) & U0).
    set (y := real64 n2) in *. assert (Hy : 0.99 <= y <= 1.01) by (apply Rabs_le_inv in D; lra).
    set (z := real64 x / y). assert (Ez : real64 x = z * y) by (unfold z; field; lra).
    assert (Dz : Rabs (z - X) <= 77 * delta).
    { assert (K : Rabs ((z - X) * y) <= 75 * delta).
      { replace ((z - X) * y) with ((real64 x - X) + X * (1 - y)) by (rewrite Ez; ring).
        eapply Rle_trans; [apply Rabs_triang|]. rewrite (Rabs_mult X), (Rabs_minus_sym 1 y).
        assert (Rabs X * Rabs (y - 1) <= 1 * (72 * delta)) by (apply Rmult_le_compat; auto using Rabs_pos). lra. }
      rewrite Rabs_mult, (Rabs_pos_eq y) in K by lra. pose proof (Rabs_pos (z - X)). nra. }
    assert (Bz : Rabs z <= 1.01).
    { replace z with (X + (z - X)) by ring. eapply Rle_trans; [apply Rabs_triang|]. lra. }
    destruct (div64_small x n2 Fx F) as (Fq & e & t & He & Ht & E).
    { fold y. lra. }
    { fold y. fold z. apply Rle_trans with (1 := Bz). apply Rle_trans with (bpow radix2 1); [change (bpow radix2 1) with 2; lra|apply bpow_le; lia]. }
    split; [exact Fq|]. rewrite E. fold y. fold z.
    replace (z * (1 + e) + t - X) with ((z - X) + (z * e + t)) by ring.
    eapply Rle_trans; [apply Rabs_triang|].
    assert (Rabs (z * e + t) <= 3 * delta).
    { eapply Rle_trans; [apply Rabs_triang|]. rewrite Rabs_mult.
      assert (Rabs z * Rabs e <= 1.01 * u) by (apply Rmult_le_compat; auto using Rabs_pos).
      destruct u_tiny as (_ & T). lra. }
    lra.
  Qed.

  Lemma neg_near x X : near delta x X -> Rabs X <= 1 -> near (3 * delta) (sub64 (b64_of_Z 0) x) (- X).
  Proof using Hd.
    intros (Fx & Dx) HX. destruct delta_small as ((D1 & D2) & U0).
    destruct (of_Z_exact 0) as (F0 & E0); [lia|]. change (real64 (b64_of_Z 0) = 0) in E0.
    assert (Bx : Rabs (real64 x) <= 1.01).
    { replace (real64 x) with (X + (real64 x - X)) by ring. eapply Rle_trans; [apply Rabs_triang|]. lra. }
    destruct (sub64_small _ x F0 Fx) as (F & e & He & E).
    { rewrite E0, Rminus_0_l, Rabs_Ropp. apply Rle_trans with (1 := Bx).
      apply Rle_trans with (bpow radix2 1); [change (bpow radix2 1) with 2; lra|apply bpow_le; lia]. }
    split; [exact F|]. rewrite E, E0. replace ((0 - real64 x) * (1 + e) - - X) with (- ((real64 x - X) + real64 x * e)) by ring.
    rewrite Rabs_Ropp. eapply Rle_trans; [apply Rabs_triang|]. rewrite (Rabs_mult (real64 x)).
    assert (Rabs (real64 x) * Rabs e <= 1.01 * u) by (apply Rmult_le_compat; auto using Rabs_pos). lra.
  Qed.

  Variables (g : vec ieee) (G : rvec) (M : R).
  Hypothesis SM : bpow radix2 (-90) <= M <= bpow radix2 90.
  Notation gamma := (bpow radix2 (-22)).
  Hypotheses (Gx : near (gamma * M) (vx g) (vx G)) (Gy : near (gamma * M) (vy g) (vy G)) (Gz : near (gamma * M) (vz g) (vz G)).
  Hypothesis HG : bounded_by M G.

  Lemma M_pos : 0 < M.
  Proof using SM. pose proof (bpow_gt_0 radix2 (-90)). lra. Qed.

  Lemma M_range k : 1 <= k <= 4 -> bpow radix2 (-100) <= k * M <= bpow radix2 100.
  Proof using SM.
    intros Hk. pose proof M_pos as P. split.
    - apply Rle_trans with (bpow radix2 (-90)); [apply bpow_le; lia|]. nra.
    - apply Rle_trans with (bpow radix2 2 * bpow radix2 90).
      + change (bpow radix2 2) with 4. apply Rmult_le_compat; lra.
      + rewrite <- bpow_plus. apply bpow_le. lia.
  Qed.

  (** temp * inverse, term by term. *)
  Let iw := div64 w n2.
  Let ix_ := div64 (sub64 (b64_of_Z 0) (vx v)) n2.
  Let iy_ := div64 (sub64 (b64_of_Z 0) (vy v)) n2.
  Let iz_ := div64 (sub64 (b64_of_Z 0) (vz v)) n2.

  Lemma inverse_near : near (80 * delta) iw W /\ near (80 * delta) ix_ (- vx U) /\ near (80 * delta) iy_ (- vy U) /\
    near (80 * delta) iz_ (- vz U).
  Proof using Hd Nw Nx Ny Nz Unit_.
    destruct unit_parts as (P0 & P1 & P2 & P3). destruct delta_small as ((D1 & D2) & U0).
    assert (Ng : forall x X, near delta x X -> Rabs X <= 1 -> near (80 * delta) (div64 (sub64 (b64_of_Z 0) x) n2) (- X)).
    { intros x X H1 H2. apply div_near; [apply neg_near; assumption|rewrite Rabs_Ropp; exact H2]. }
    split; [apply div_near; [apply near_more with (2 := Nw); lra|exact P0]|].
    split; [apply Ng; assumption|]. split; apply Ng; assumption.
  Qed.

  Let E1 := 383 * (delta * M) + 4.01 * (gamma * M).

  Lemma inner s1 s2 s3 x1 x2 x3 x4 y1 y2 y3 y4 X1 X2 X3 X4 Y1 Y2 Y3 Y4 :
    near (gamma * M) x1 X1 -> near (gamma * M) x2 X2 -> near (gamma * M) x3 X3 -> near (gamma * M) x4 X4 ->
    near (80 * delta) y1 Y1 -> near (80 * delta) y2 Y2 -> near (80 * delta) y3 Y3 -> near (80 * delta) y4 Y4 ->
    Rabs X1 <= M -> Rabs X2 <= M -> Rabs X3 <= M -> Rabs X4 <= M ->
    Rabs Y1 <= 1 -> Rabs Y2 <= 1 -> Rabs Y3 <= 1 -> Rabs Y4 <= 1 ->
    near E1 (pm s3 (pm s2 (pm s1 (mul64 x1 y1) (mul64 x2 y2)) (mul64 x3 y3)) (mul64 x4 y4))
      (rpm s3 (rpm s2 (rpm s1 (X1 * Y1) (X2 * Y2)) (X3 * Y3)) (X4 * Y4)) /\
    Rabs (rpm s3 (rpm s2 (rpm s1 (X1 * Y1) (X2 * Y2)) (X3 * Y3)) (X4 * Y4)) <= 4 * M.
  Proof using Hd SM.
    intros N1 N2 N3 N4 M1 M2 M3 M4 A1 A2 A3 A4 C1 C2 C3 C4. destruct delta_small as ((D1 & D2) & U0). pose proof M_pos as P.
    assert (Gm : 0 < gamma <= / 4000000) by (change gamma with (/ 4194304); lra).
    assert (DM : 0 < delta * M) by (apply Rmult_lt_0_compat; lra).
    assert (GM : 0 < gamma * M) by (apply Rmult_lt_0_compat; lra).
    assert (UM : u * M <= delta * M) by (apply Rmult_le_compat_r; lra).
    assert (DM1 : delta * M <= M / 1000000) by (rewrite (Rmult_comm delta); apply Rmult_le_compat_l; lra).
    assert (GM1 : gamma * M <= M / 4000000) by (rewrite (Rmult_comm gamma); apply Rmult_le_compat_l; lra).
    assert (DG : delta * (gamma * M) <= / 1000000 * (gamma * M)) by (apply Rmult_le_compat_r; lra).
    split.
    - pose proof (M_range 1 ltac:(lra)) as MR. rewrite Rmult_1_l in MR.
      pose proof (four M MR s1 s2 s3
        _ _ _ _ _ _ _ _ _ _ _ _ _ _ _ _ _ _ M 1 N1 N2 N3 N4 M1 M2 M3 M4 A1 A2 A3 A4 C1 C2 C3 C4) as K.
      apply near_more with (2 := K ltac:(nra)). unfold E1. lra.
    - replace (4 * M) with (4 * (M * 1)) by ring. apply four_size; assumption.
  Qed.

  Lemma outer s1 s2 s3 x1 x2 x3 x4 y1 y2 y3 y4 X1 X2 X3 X4 Y1 Y2 Y3 Y4 :
    near delta x1 X1 -> near delta x2 X2 -> near delta x3 X3 -> near delta x4 X4 ->
    near E1 y1 Y1 -> near E1 y2 Y2 -> near E1 y3 Y3 -> near E1 y4 Y4 ->
    Rabs X1 <= 1 -> Rabs X2 <= 1 -> Rabs X3 <= 1 -> Rabs X4 <= 1 ->
    Rabs Y1 <= 4 * M -> Rabs Y2 <= 4 * M -> Rabs Y3 <= 4 * M -> Rabs Y4 <= 4 * M ->
    near ((1800 * delta + bpow radix2 (-17)) * M) (pm s3 (pm s2 (pm s1 (mul64 x1 y1) (mul64 x2 y2)) (mul64 x3 y3)) (mul64 x4 y4))
      (rpm s3 (rpm s2 (rpm s1 (X1 * Y1) (X2 * Y2)) (X3 * Y3)) (X4 * Y4)).
  Proof using Hd SM.
    intros N1 N2 N3 N4 M1 M2 M3 M4 A1 A2 A3 A4 C1 C2 C3 C4. destruct delta_small as ((D1 & D2) & U0). pose proof M_pos as P.
    assert (Gm : 0 < gamma <= / 4000000) by (change gamma with (/ 4194304); lra).
    assert (DM : 0 < delta * M) by (apply Rmult_lt_0_compat; lra).
    assert (GM : 0 < gamma * M) by (apply Rmult_lt_0_compat; lra).
    assert (UM : u * M <= delta * M) by (apply Rmult_le_compat_r; lra).
    assert (DM1 : delta * M <= M / 1000000) by (rewrite (Rmult_comm delta); apply Rmult_le_compat_l; lra).
    assert (GM1 : gamma * M <= M / 4000000) by (rewrite (Rmult_comm gamma); apply Rmult_le_compat_l; lra).
    assert (E0 : 0 < E1 <= M / 1000) by (unfold E1; lra).
    assert (DE : delta * E1 <= / 1000000 * E1) by (apply Rmult_le_compat_r; lra).
    assert (Le : (1 + delta) * (4 * M + E1) <= 1.9 * (3 * M)).
    { apply Rle_trans with (1.1 * (4.1 * M)); [|lra]. apply Rmult_le_compat; lra. }
    pose proof (four (3 * M) (M_range 3 ltac:(lra)) s1 s2 s3 _ _ _ _ _ _ _ _ _ _ _ _ _ _ _ _ _ _ 1 (4 * M)
        N1 N2 N3 N4 M1 M2 M3 M4 A1 A2 A3 A4 C1 C2 C3 C4 Le) as K.
    apply near_more with (2 := K).
    assert (G17 : bpow radix2 (-17) = 32 * gamma) by (change (bpow radix2 (-17)) with (/ 131072); change gamma with (/ 4194304); lra).
    rewrite G17.
    replace ((1800 * delta + 32 * gamma) * M) with (1800 * (delta * M) + 32 * (gamma * M)) by ring.
    replace (63 * u * (3 * M)) with (189 * (u * M)) by ring. unfold E1 in *. lra.
  Qed.

  (** The product, component by component, in any arithmetic. *)
  Definition gsum {T : Type} (ad sb ml : T -> T -> T) (s1 s2 s3 : bool) (x1 y1 x2 y2 x3 y3 x4 y4 : T) : T :=
    let m (s : bool) p q := if s then ad p q else sb p q in m s3 (m s2 (m s1 (ml x1 y1) (ml x2 y2)) (ml x3 y3)) (ml x4 y4).

  Lemma product_form (A : arith) (ad sb ml : dbl A -> dbl A -> dbl A) (w0 w1 : dbl A) (v0 v1 x : vec A) (o : dbl A) :
    dadd A = ad -> dsub A = sb -> dmul A = ml ->
    let f := gsum ad sb ml in
    let k0 := f false false false o w1 (vx x) (vx v1) (vy x) (vy v1) (vz x) (vz v1) in
    let k1 := f true true false o (vx v1) (vx x) w1 (vy x) (vz v1) (vz x) (vy v1) in
    let k2 := f true true false o (vy v1) (vy x) w1 (vz x) (vx v1) (vx x) (vz v1) in
    let k3 := f true true false o (vz v1) (vz x) w1 (vx x) (vy v1) (vy x) (vx v1) in
    qv (qmul (Q w0 v0) (qmul (Q o x) (Q w1 v1))) =
    V (f true true false w0 k1 (vx v0) k0 (vy v0) k3 (vz v0) k2)
      (f true true false w0 k2 (vy v0) k0 (vz v0) k1 (vx v0) k3)
      (f true true false w0 k3 (vz v0) k0 (vx v0) k2 (vy v0) k1).
  Proof using. intros <- <- <-. reflexivity. Qed.

  Definition sum4 s1 s2 s3 (x1 y1 x2 y2 x3 y3 x4 y4 : binary64) : binary64 :=
    pm s3 (pm s2 (pm s1 (mul64 x1 y1) (mul64 x2 y2)) (mul64 x3 y3)) (mul64 x4 y4).

  Lemma sum4_gsum s1 s2 s3 x1 y1 x2 y2 x3 y3 x4 y4 :
    gsum (T := dbl ieee) add64 sub64 mul64 s1 s2 s3 x1 y1 x2 y2 x3 y3 x4 y4 = sum4 s1 s2 s3 x1 y1 x2 y2 x3 y3 x4 y4.
  Proof using. unfold gsum, sum4, pm. destruct s1, s2, s3; reflexivity. Qed.

  Lemma product_ieee (w0 w1 : binary64) (v0 v1 x : vec ieee) (o : binary64) :
    qv (qmul (@Q ieee w0 v0) (qmul (@Q ieee o x) (@Q ieee w1 v1))) =
    let k0 := sum4 false false false o w1 (vx x) (vx v1) (vy x) (vy v1) (vz x) (vz v1) in
    let k1 := sum4 true true false o (vx v1) (vx x) w1 (vy x) (vz v1) (vz x) (vy v1) in
    let k2 := sum4 true true false o (vy v1) (vy x) w1 (vz x) (vx v1) (vx x) (vz v1) in
    let k3 := sum4 true true false o (vz v1) (vz x) w1 (vx x) (vy v1) (vy x) (vx v1) in
    @V ieee (sum4 true true false w0 k1 (vx v0) k0 (vy v0) k3 (vz v0) k2)
      (sum4 true true false w0 k2 (vy v0) k0 (vz v0) k1 (vx v0) k3)
      (sum4 true true false w0 k3 (vz v0) k0 (vx v0) k2 (vy v0) k1).
  Proof using.
    rewrite (product_form ieee add64 sub64 mul64 w0 w1 v0 v1 x o eq_refl eq_refl eq_refl). cbv zeta. rewrite !sum4_gsum. reflexivity.
  Qed.

  Lemma turn_form (X Y Z : R) : G = @V reals X Y Z ->
    turn W U G = @V reals
      (W * (0 * - vx U + X * W + Y * - vz U - Z * - vy U) + vx U * (0 * W - X * - vx U - Y * - vy U - Z * - vz U) +
       vy U * (0 * - vz U + Z * W + X * - vy U - Y * - vx U) - vz U * (0 * - vy U + Y * W + Z * - vx U - X * - vz U))
      (W * (0 * - vy U + Y * W + Z * - vx U - X * - vz U) + vy U * (0 * W - X * - vx U - Y * - vy U - Z * - vz U) +
       vz U * (0 * - vx U + X * W + Y * - vz U - Z * - vy U) - vx U * (0 * - vz U + Z * W + X * - vy U - Y * - vx U))
      (W * (0 * - vz U + Z * W + X * - vy U - Y * - vx U) + vz U * (0 * W - X * - vx U - Y * - vy U - Z * - vz U) +
       vx U * (0 * - vy U + Y * W + Z * - vx U - X * - vz U) - vy U * (0 * - vx U + X * W + Y * - vz U - Z * - vy U)).
  Proof using Unit_.
    intros E. rewrite E. clear -Unit_. revert Unit_. vunfold. destruct U as [a b c]. cbn [vx vy vz]. rsimp. intros H.
    assert (E0 : W * W + (a * a + b * b + c * c) - 1 = 0) by lra.
    f_equal; asR; symmetry; apply Rminus_diag_uniq.
    - transitivity (X * (W * W + (a * a + b * b + c * c) - 1)); [ring|rewrite E0; ring].
    - transitivity (Y * (W * W + (a * a + b * b + c * c) - 1)); [ring|rewrite E0; ring].
    - transitivity (Z * (W * W + (a * a + b * b + c * c) - 1)); [ring|rewrite E0; ring].
  Qed.

  Lemma rotate_core (o jw j1 j2 j3 : binary64) :
    near (gamma * M) o 0 -> near (80 * delta) jw W -> near (80 * delta) j1 (- vx U) -> near (80 * delta) j2 (- vy U) ->
    near (80 * delta) j3 (- vz U) ->
    let z := qv (qmul (@Q ieee w v) (qmul (@Q ieee o g) (@Q ieee jw (@V ieee j1 j2 j3)))) in
    let e := (1800 * delta + bpow radix2 (-17)) * M in
    finite_vec z /\ apart_at_most e (real_vec z) (turn W U G).
  Proof.
    intros Z0 I0 I1 I2 I3 z e. subst z. rewrite product_ieee. cbv zeta. destruct unit_parts as (P0 & P1 & P2 & P3).
    assert (Q1 : Rabs (- vx U) <= 1) by (rewrite Rabs_Ropp; exact P1). assert (Q2 : Rabs (- vy U) <= 1) by (rewrite Rabs_Ropp; exact P2).
    assert (Q3 : Rabs (- vz U) <= 1) by (rewrite Rabs_Ropp; exact P3).
    assert (A0 : Rabs 0 <= M) by (rewrite Rabs_R0; left; apply M_pos).
    destruct HG as (A1 & A2 & A3).
    destruct (inner false false false _ _ _ _ _ _ _ _ _ _ _ _ _ _ _ _ Z0 Gx Gy Gz I0 I1 I2 I3 A0 A1 A2 A3 P0 Q1 Q2 Q3) as (T0 & B0).
    destruct (inner true true false _ _ _ _ _ _ _ _ _ _ _ _ _ _ _ _ Z0 Gx Gy Gz I1 I0 I3 I2 A0 A1 A2 A3 Q1 P0 Q3 Q2) as (T1 & B1).
    destruct (inner true true false _ _ _ _ _ _ _ _ _ _ _ _ _ _ _ _ Z0 Gy Gz Gx I2 I0 I1 I3 A0 A2 A3 A1 Q2 P0 Q1 Q3) as (T2 & B2).
    destruct (inner true true false _ _ _ _ _ _ _ _ _ _ _ _ _ _ _ _ Z0 Gz Gx Gy I3 I0 I2 I1 A0 A3 A1 A2 Q3 P0 Q2 Q1) as (T3 & B3).
    cbn [vx vy vz].
    fold (sum4 false false false o jw (vx g) j1 (vy g) j2 (vz g) j3) in T0.
    fold (sum4 true true false o j1 (vx g) jw (vy g) j3 (vz g) j2) in T1.
    fold (sum4 true true false o j2 (vy g) jw (vz g) j1 (vx g) j3) in T2.
    fold (sum4 true true false o j3 (vz g) jw (vx g) j2 (vy g) j1) in T3.
    set (k0 := sum4 false false false o jw (vx g) j1 (vy g) j2 (vz g) j3) in *.
    set (k1 := sum4 true true false o j1 (vx g) jw (vy g) j3 (vz g) j2) in *.
    set (k2 := sum4 true true false o j2 (vy g) jw (vz g) j1 (vx g) j3) in *.
    set (k3 := sum4 true true false o j3 (vz g) jw (vx g) j2 (vy g) j1) in *.
    clearbody k0 k1 k2 k3.
    pose proof (outer true true false _ _ _ _ _ _ _ _ _ _ _ _ _ _ _ _ Nw Nx Ny Nz T1 T0 T3 T2 P0 P1 P2 P3 B1 B0 B3 B2) as K1.
    pose proof (outer true true false _ _ _ _ _ _ _ _ _ _ _ _ _ _ _ _ Nw Ny Nz Nx T2 T0 T1 T3 P0 P2 P3 P1 B2 B0 B1 B3) as K2.
    pose proof (outer true true false _ _ _ _ _ _ _ _ _ _ _ _ _ _ _ _ Nw Nz Nx Ny T3 T0 T2 T1 P0 P3 P1 P2 B3 B0 B2 B1) as K3.
    fold (sum4 true true false w k1 (vx v) k0 (vy v) k3 (vz v) k2) in K1.
    fold (sum4 true true false w k2 (vy v) k0 (vz v) k1 (vx v) k3) in K2.
    fold (sum4 true true false w k3 (vz v) k0 (vx v) k2 (vy v) k1) in K3.
    set (z1 := sum4 true true false w k1 (vx v) k0 (vy v) k3 (vz v) k2) in *.
    set (z2 := sum4 true true false w k2 (vy v) k0 (vz v) k1 (vx v) k3) in *.
    set (z3 := sum4 true true false w k3 (vz v) k0 (vx v) k2 (vy v) k1) in *.
    clearbody z1 z2 z3. destruct K1 as (F1 & D1), K2 as (F2 & D2), K3 as (F3 & D3).
    split; [split; [exact F1|split; [exact F2|exact F3]]|].
    rewrite (turn_form (vx G) (vy G) (vz G)) by (destruct G; reflexivity).
    split; [exact D1|split; [exact D2|exact D3]].
  Qed.

  Lemma rotate_parts (p : pose ieee) : rot_w p = w -> rot_v p = v ->
    rotate p g = qv (qmul (@Q ieee w v) (qmul (@Q ieee (b64_of_Z 0) g) (@Q ieee iw (@V ieee ix_ iy_ iz_)))).
  Proof.
    intros Ew Ev. unfold rotate. rewrite Ew, Ev.
    assert (K : qinv (@Q ieee w v) = if lt64 (b64_of_Z 0) n2 then @Q ieee iw (@V ieee ix_ iy_ iz_) else qinv (@Q ieee w v)).
    { unfold qinv. change (dlt ieee) with lt64. change (of_int ieee 0) with (b64_of_Z 0).
      match goal with |- (if lt64 _ ?x then _ else _) = _ => change x with n2 end.
      destruct (lt64 (b64_of_Z 0) n2); reflexivity. }
    rewrite n2_positive in K. rewrite K. reflexivity.
  Qed.

  Lemma rotate_near (p : pose ieee) : rot_w p = w -> rot_v p = v ->
    let z := rotate p g in let e := (1800 * delta + bpow radix2 (-17)) * M in
    finite_vec z /\ apart_at_most e (real_vec z) (turn W U G).
  Proof.
    intros Ew Ev. cbv zeta. rewrite (rotate_parts p Ew Ev). destruct inverse_near as (I0 & I1 & I2 & I3).
    assert (GM : 0 <= gamma * M) by (apply Rmult_le_pos; [apply bpow_ge_0|left; apply M_pos]).
    apply rotate_core; auto.
    destruct (of_Z_exact 0) as (F0 & E0); [lia|]. change (real64 (b64_of_Z 0) = 0) in E0. split; [exact F0|].
    rewrite E0, Rminus_0_r, Rabs_R0. exact GM.
  Qed.
End Quat.

(** ** The gradient *)
Lemma accurate_near v x M : bpow radix2 (-90) <= M -> Rabs x <= M -> accurate v x -> near (bpow radix2 (-22) * M) v x.
Proof.
  intros HM Hx (F & D). split; [exact F|]. apply Rle_trans with (1 := D).
  replace (bpow radix2 (-22)) with (bpow radix2 (-23) + bpow radix2 (-23)).
  2:{ change (bpow radix2 (-22)) with (/ 4194304). change (bpow radix2 (-23)) with (/ 8388608). lra. }
  rewrite Rmult_plus_distr_r. apply Rplus_le_compat.
  - apply Rmult_le_compat_l; [apply bpow_ge_0|exact Hx].
  - apply Rle_trans with (bpow radix2 (-23) * bpow radix2 (-90)).
    + rewrite <- bpow_plus. apply bpow_le. lia.
    + apply Rmult_le_compat_l; [apply bpow_ge_0|exact HM].
Qed.

Lemma world_gradient_doubles (f : field ieee) p P t delta M i edges g :
  finite_double (f_res f) -> bpow radix2 (-800) <= real64 (f_res f) <= bpow radix2 800 ->
  (forall j, in_bounds (f_dims f) j = true ->
     finite_float (value f j) /\ Rabs (real32 (value f j)) <= bpow radix2 126) ->
  rigid P t -> rotation_within delta p P -> bpow radix2 (-53) <= delta <= bpow radix2 (-20) ->
  bpow radix2 (-90) <= M <= bpow radix2 90 -> bounded_by M (slopes f i) ->
  gradient f p i edges = Some g ->
  finite_vec g /\
  apart_at_most ((1800 * delta + bpow radix2 (-17)) * M) (real_vec g) (turn (rot_w P) (rot_v P) (slopes f i)).
Proof.
  intros Fr Rr Vals Rg (Fw & (F1 & F2 & F3) & Dw & D1 & D2 & D3) Hd HM HS. unfold gradient.
  destruct (grid_aligned_gradient f i edges) as [g0|] eqn:E; [|discriminate]. intros K. injection K as <-.
  destruct (gradient_accurate f Fr Rr Vals i edges g0 E) as (A1 & A2 & A3).
  pose proof HS as (S1 & S2 & S3).
  apply (rotate_near delta (rot_w p) (rot_v p) (rot_w P) (rot_v P) Hd); try reflexivity.
  - split; [exact Fw|exact Dw].
  - split; [exact F1|exact D1].
  - split; [exact F2|exact D2].
  - split; [exact F3|exact D3].
  - apply Rg.
  - exact HM.
  - apply accurate_near; [apply HM|exact S1|exact A1].
  - apply accurate_near; [apply HM|exact S2|exact A2].
  - apply accurate_near; [apply HM|exact S3|exact A3].
  - exact HS.
Qed.

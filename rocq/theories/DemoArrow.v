(** How far and where to the arrows of the demonstration script point. *)
From Coq Require Import Reals Lra Lia Psatz.
From Flocq Require Import Core.Core Relative IEEE754.Binary IEEE754.Bits.
From Verif Require Import Base Floats FloatFacts FloatFacts2 Grid Arith SdfQuery Python PySpec DisplaySdf DoubleSpec DoubleQuery DoubleEstimate
  Demo DemoSpec DemoProofs DemoDraw DemoThms.
Local Open Scope R_scope.
Local Instance prec24 : Prec_gt_0 24 := eq_refl.

Lemma scale_value : real32 grad_scale = 10737418 / 536870912.
Proof. unfold real32, grad_scale. cbn -[IZR Rinv Rmult]. unfold F2R. cbn -[IZR Rinv Rmult]. lra. Qed.

Lemma scaled_small h : moderate h ->
  finite_float (mul32 h grad_scale) /\ exists e t, Rabs e <= bpow radix2 (-24) /\ Rabs t <= bpow radix2 (-150) /\
    real32 (mul32 h grad_scale) = real32 h * real32 grad_scale * (1 + e) + t.
Proof.
  intros (F & B). destruct (mult_xr 24 128 eq_refl eq_refl binop_nan_pl32 h grad_scale F eq_refl) as (N & X).
  change (Bmult 24 128 eq_refl eq_refl binop_nan_pl32 BinarySingleNaN.mode_NE h grad_scale) with (mul32 h grad_scale) in N, X.
  change (B2R 24 128 h) with (real32 h) in X. change (B2R 24 128 grad_scale) with (real32 grad_scale) in X.
  set (v := real32 h * real32 grad_scale) in *.
  assert (G : generic_format radix2 (SpecFloat.fexp 24 128) (bpow radix2 120)).
  { apply generic_format_bpow. unfold SpecFloat.fexp, SpecFloat.emin. lia. }
  assert (Bv : - bpow radix2 120 <= v <= bpow radix2 120).
  { apply Rabs_le_inv in B. unfold v. rewrite scale_value. pose proof (bpow_gt_0 radix2 120). lra. }
  assert (Bd : - bpow radix2 128 < rnd32 v < bpow radix2 128).
  { assert (L : bpow radix2 120 < bpow radix2 128) by (apply bpow_lt; lia). split.
    - apply Rlt_le_trans with (- bpow radix2 120)%R; [lra|].
      rewrite <- (rnd_id 24 128 _ G), <- rnd_opp. apply rnd_le; [reflexivity|apply Bv].
    - apply Rle_lt_trans with (bpow radix2 120); [|exact L].
      rewrite <- (rnd_id 24 128 _ G). apply rnd_le; [reflexivity|apply Bv]. }
  rewrite clamp_in in X by exact Bd.
  assert (FF : finite_float (mul32 h grad_scale) /\ real32 (mul32 h grad_scale) = xr32 (mul32 h grad_scale)).
  { unfold finite_float, real32, xr32 in *. destruct (mul32 h grad_scale) as [s|s|s p H|s m e H]; try discriminate; auto.
    exfalso. cbn [xr] in X. destruct s; lra. }
  destruct FF as (FF & E). split; [exact FF|].
  destruct (relative_error_N_FLT'_ex radix2 (-149) 24 eq_refl (fun t => negb (Z.even t)) v) as (e & t & He & Ht & _ & Ev).
  exists e, t. split; [|split].
  - eapply Rle_trans; [exact He|]. unfold u_ro. cbn -[Rinv IZR Rmult Rdiv]. lra.
  - eapply Rle_trans; [exact Ht|]. change (-149)%Z with (1 + -150)%Z. rewrite bpow_plus. change (bpow radix2 1) with 2%R. lra.
  - rewrite E. unfold xr32. rewrite X. exact Ev.
Qed.

Lemma along_axis c h : finite_double c -> Rabs (real64 c) <= bpow radix2 900 -> moderate h ->
  along c (add64 c (b64_of_b32 (mul32 h grad_scale))) h.
Proof.
  intros Fc Bc M. destruct (scaled_small h M) as (Fm & e & t & He & Ht & Em). destruct M as (Fh & Bh).
  destruct (widen_finite _ Fm) as (Fw & Ew).
  assert (Ew' : real64 (b64_of_b32 (mul32 h grad_scale)) = real32 (mul32 h grad_scale)) by exact Ew.
  set (m := real32 (mul32 h grad_scale)) in *. set (g := real32 h) in *. rewrite scale_value in Em.
  assert (P24 : bpow radix2 (-24) = / 16777216) by (cbn -[Rinv IZR]; lra).
  assert (P150 : bpow radix2 (-149) = 2 * bpow radix2 (-150)) by (change (-149)%Z with (1 + -150)%Z; rewrite bpow_plus; reflexivity).
  assert (P28 : bpow radix2 (-28) = / 268435456) by (cbn -[Rinv IZR]; lra).
  pose proof (bpow_gt_0 radix2 (-150)) as T0. pose proof (Rabs_pos g) as G0. pose proof (Rabs_pos (real64 c)) as C0.
  assert (D : Rabs (m - / 50 * g) <= / 536870912 * Rabs g + bpow radix2 (-150)).
  { rewrite Em. replace (g * (10737418 / 536870912) * (1 + e) + t - / 50 * g) with
      (g * (10737418 / 536870912 - / 50) + (g * (10737418 / 536870912)) * e + t) by ring.
    eapply Rle_trans; [apply Rabs_triang|]. apply Rplus_le_compat; [|exact Ht].
    eapply Rle_trans; [apply Rabs_triang|]. rewrite !Rabs_mult.
    rewrite (Rabs_pos_eq (10737418 / 536870912)) by lra.
    assert (Rabs (10737418 / 536870912 - / 50) <= / 2147483648) by (apply Rabs_le; lra).
    assert (Rabs g * Rabs (10737418 / 536870912 - / 50) <= Rabs g * / 2147483648) by (apply Rmult_le_compat_l; lra).
    assert (Rabs g * (10737418 / 536870912) * Rabs e <= Rabs g * (10737418 / 536870912) * / 16777216).
    { apply Rmult_le_compat_l; [|lra]. apply Rmult_le_pos; lra. }
    lra. }
  assert (Bm : Rabs m <= Rabs g + bpow radix2 (-150)).
  { replace m with ((m - / 50 * g) + / 50 * g) by ring. eapply Rle_trans; [apply Rabs_triang|].
    rewrite (Rabs_mult (/ 50)), (Rabs_pos_eq (/ 50)) by lra. lra. }
  assert (L : 4 * bpow radix2 900 <= bpow radix2 1000).
  { change 4 with (bpow radix2 2). rewrite <- bpow_plus. apply bpow_le. lia. }
  assert (L2 : bpow radix2 120 <= bpow radix2 900) by (apply bpow_le; lia).
  assert (L3 : bpow radix2 (-150) <= bpow radix2 900) by (apply bpow_le; lia).
  destruct (add64_small c (b64_of_b32 (mul32 h grad_scale)) Fc Fw) as (Fa & e' & He' & Ea).
  { rewrite Ew'. eapply Rle_trans; [apply Rabs_triang|]. lra. }
  split; [exact Fa|]. rewrite Ea, Ew'. fold g.
  replace ((real64 c + m) * (1 + e') - (real64 c + / 50 * g)) with ((m - / 50 * g) + (real64 c + m) * e') by ring.
  eapply Rle_trans; [apply Rabs_triang|]. rewrite Rabs_mult.
  assert (U : u <= / 16777216) by (unfold u; rewrite <- P24; apply bpow_le; lia).
  assert (S : Rabs (real64 c + m) <= Rabs (real64 c) + Rabs m) by apply Rabs_triang.
  pose proof u_pos as U0. change (bpow radix2 (-53)) with u. pose proof (Rabs_pos m) as M0. pose proof (Rabs_pos e') as E0.
  assert (Q : Rabs (real64 c + m) * Rabs e' <= (Rabs (real64 c) + Rabs m) * u).
  { apply Rmult_le_compat; auto; try apply Rabs_pos. }
  assert (Q2 : Rabs m * u <= (Rabs g + bpow radix2 (-150)) * (/ 16777216 * / 536870912)).
  { apply Rmult_le_compat; try lra. unfold u. replace (/ 16777216 * / 536870912) with (bpow radix2 (-24) * bpow radix2 (-29)).
    - rewrite <- bpow_plus. apply Rle_refl.
    - rewrite P24. replace (bpow radix2 (-29)) with (/ 536870912) by (cbn -[Rinv IZR]; lra). reflexivity. }
  rewrite P28, P150. lra.
Qed.

Lemma start_bounded x r o i : double_at x (corner r o i) -> real64 o = 0 -> ordinary_size r -> (0 <= i < 2 ^ 31)%Z ->
  finite_double x /\ Rabs (real64 x) <= bpow radix2 900.
Proof.
  intros (F & A) Z (_ & R0 & R1) Hi. split; [exact F|]. unfold corner in A. rewrite Z, Rplus_0_r in A.
  set (c := IZR i * real64 r) in *.
  assert (Bc : Rabs c <= bpow radix2 111).
  { unfold c. rewrite Rabs_mult. change 111%Z with (31 + 80)%Z. rewrite bpow_plus.
    pose proof (bpow_gt_0 radix2 (-80)). apply Rmult_le_compat; try apply Rabs_pos.
    - rewrite Rabs_pos_eq by (apply IZR_le; lia). change (bpow radix2 31) with (IZR (2 ^ 31)). apply IZR_le. lia.
    - rewrite Rabs_pos_eq by lra. exact R1. }
  assert (P : bpow radix2 (-50) <= 1) by (change 1 with (bpow radix2 0); apply bpow_le; lia).
  assert (P2 : bpow radix2 (-1000) <= bpow radix2 111) by (apply bpow_le; lia).
  assert (P3 : 4 * bpow radix2 111 <= bpow radix2 900) by (change 4 with (bpow radix2 2); rewrite <- bpow_plus; apply bpow_le; lia).
  pose proof (Rabs_pos c) as C0.
  assert (bpow radix2 (-50) * Rabs c <= 1 * Rabs c) by (apply Rmult_le_compat_r; assumption).
  replace (real64 x) with ((real64 x - c) + c) by ring. eapply Rle_trans; [apply Rabs_triang|]. lra.
Qed.

Lemma arrow_shows ar r o x y z gx gy gz : starts_at r o ar x y z -> a_end ar = arrow_end (a_start ar) (gx, gy, gz) ->
  at_zero o -> ordinary_size r -> (0 <= x < 2 ^ 31)%Z -> (0 <= y < 2 ^ 31)%Z -> (0 <= z < 2 ^ 31)%Z ->
  moderate gx -> moderate gy -> moderate gz -> shows ar gx gy gz.
Proof.
  intros (Sx & Sy & Sz) E (_ & Zx & Zy & Zz) OR Hx Hy Hz Mx My Mz. unfold shows. rewrite E. cbn [arrow_end vx vy vz].
  destruct (start_bounded _ _ _ _ Sx Zx OR Hx) as (Fx & Bx). destruct (start_bounded _ _ _ _ Sy Zy OR Hy) as (Fy & By).
  destruct (start_bounded _ _ _ _ Sz Zz OR Hz) as (Fz & Bz).
  split; [apply along_axis; assumption|]. split; apply along_axis; assumption.
Qed.

Local Open Scope Z_scope.
Lemma arrows_right (g : ndarray binary32) s0 s1 s2 r o i j k n : whole g -> shape g = [s0; s1; s2; 3] ->
  0 <= s0 <= 2 ^ 31 -> 0 <= s1 <= 2 ^ 31 -> 0 <= s2 <= 2 ^ 31 -> ordinary_size r -> at_zero o ->
  0 <= i < s0 -> 0 <= j < s1 -> 0 <= k < s2 -> Z.of_nat n * 8 = (i * s1 + j) * s2 + k ->
  exists l ar gx gy gz, plot_arrows g s0 s1 s2 r o = Ok l /\ nth_error l n = Some ar /\
    item g [i; j; k; 0] = Some gx /\ item g [i; j; k; 1] = Some gy /\ item g [i; j; k; 2] = Some gz /\
    (moderate gx -> moderate gy -> moderate gz -> shows ar gx gy gz) /\
    (s0 = s1 -> starts_at r o ar j i k) /\ (s0 = 1 \/ s1 = 1 -> starts_at r o ar i j k).
Proof.
  intros W S (H0 & L0) (H1 & L1) (H2 & L2) OR Zo Hi Hj Hk En.
  destruct (some_place s0 s1 H0 H1 i j Hi Hj) as (x & y & Hx & Hy & E).
  destruct (arrow_at g s0 s1 s2 r o W S H0 H1 H2 n i j k x y Hi Hj Hk Hx Hy E En) as (l & ar & gx & gy & gz & P & N & I & X & Y & Z & A & B).
  exists l, ar, gx, gy, gz. do 5 (split; [assumption|]).
  pose proof (start_zero s0 s1 s2 r o OR L0 L1 L2 ar x y k Zo Hx Hy Hk A) as Q. split; [|split].
  - intros Mx My Mz. apply (arrow_shows ar r o x y k); auto; lia.
  - intros D. assert (x = j /\ y = i) as (-> & ->) by (rewrite D in *; apply (square_place s1); assumption). exact Q.
  - intros D. assert (x = i /\ y = j) as (-> & ->) by (apply (row_place s0 s1); assumption). exact Q.
Qed.

Lemma arrows_wrong (g : ndarray binary32) s0 s1 s2 r o : whole g -> shape g = [s0; s1; s2; 3] ->
  9 <= s0 <= 2 ^ 31 -> 9 <= s1 <= 2 ^ 31 -> 1 <= s2 <= 2 ^ 31 -> ordinary_size r -> at_zero o ->
  exists l ar gx gy gz, plot_arrows g s0 s1 s2 r o = Ok l /\ nth_error l (Z.to_nat s2) = Some ar /\
    item g [0; 8; 0; 0] = Some gx /\ item g [0; 8; 0; 1] = Some gy /\ item g [0; 8; 0; 2] = Some gz /\
    (moderate gx -> moderate gy -> moderate gz -> shows ar gx gy gz) /\
    starts_at r o ar 8 0 0 /\ ~ starts_at r o ar 0 8 0.
Proof.
  intros W S B0 B1 B2 OR Zo.
  destruct (arrows_transposed g s0 s1 s2 r o W S B0 B1 B2 OR Zo) as (l & ar & gx & gy & gz & P & N & X & Y & Z & E & A & B).
  exists l, ar, gx, gy, gz. do 5 (split; [assumption|]). split; [|split; assumption].
  intros Mx My Mz. apply (arrow_shows ar r o 8 0 0); auto; lia.
Qed.

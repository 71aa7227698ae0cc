(** Facts about the concrete float operations used when a field is scaled and
    stored. *)
From Coq Require Import Reals Lra.
From Flocq Require Import Core.Core IEEE754.Binary IEEE754.Bits.
From Flocq Require IEEE754.BinarySingleNaN.
From Verif Require Import Base Floats FloatFacts.
Open Scope R_scope.

Notation rnd64 := (round radix2 (SpecFloat.fexp 53 1024) ZnearestE).
Notation rnd32 := (round radix2 (SpecFloat.fexp 24 128) ZnearestE).
Notation B2R64 := (B2R 53 1024).
Notation B2R32 := (B2R 24 128).
Notation finite64 x := (is_finite 53 1024 x = true).
Notation nan64 x := (is_nan 53 1024 x).

Definition xr64 (x : binary64) : R := xr x.
Definition xr32 (x : binary32) : R := xr x.

Lemma Hp53 : Prec_gt_0 53. Proof. reflexivity. Qed.
Lemma Hp24 : Prec_gt_0 24. Proof. reflexivity. Qed.

Lemma cmp64 x y : is_nan _ _ x = false -> is_nan _ _ y = false ->
  b64_compare x y = Some (Rcompare (xr64 x) (xr64 y)).
Proof. apply compare_xr. Qed.
Lemma cmp32 x y : is_nan _ _ x = false -> is_nan _ _ y = false ->
  b32_compare x y = Some (Rcompare (xr32 x) (xr32 y)).
Proof. apply compare_xr. Qed.

Lemma gt64_spec x y : is_nan _ _ x = false -> is_nan _ _ y = false ->
  (gt64 x y = true <-> xr64 y < xr64 x).
Proof.
  intros Hx Hy. unfold gt64. rewrite cmp64 by auto.
  destruct (Rcompare_spec (xr64 x) (xr64 y)); split; intros; auto; try discriminate; lra.
Qed.
Lemma lt64_spec x y : is_nan _ _ x = false -> is_nan _ _ y = false ->
  (lt64 x y = true <-> xr64 x < xr64 y).
Proof.
  intros Hx Hy. unfold lt64. rewrite cmp64 by auto.
  destruct (Rcompare_spec (xr64 x) (xr64 y)); split; intros; auto; try discriminate; lra.
Qed.
Lemma eq64_spec x y : is_nan _ _ x = false -> is_nan _ _ y = false ->
  (eq64 x y = true <-> xr64 x = xr64 y).
Proof.
  intros Hx Hy. unfold eq64. rewrite cmp64 by auto.
  destruct (Rcompare_spec (xr64 x) (xr64 y)); split; intros; auto; try discriminate; lra.
Qed.
Lemma ge64_spec x y : is_nan _ _ x = false -> is_nan _ _ y = false ->
  (ge64 x y = true <-> xr64 y <= xr64 x).
Proof.
  intros Hx Hy. unfold ge64. rewrite Bool.orb_true_iff, gt64_spec, eq64_spec by auto. lra.
Qed.
Lemma le64_spec x y : is_nan _ _ x = false -> is_nan _ _ y = false ->
  (le64 x y = true <-> xr64 x <= xr64 y).
Proof.
  intros Hx Hy. unfold le64. rewrite Bool.orb_true_iff, lt64_spec, eq64_spec by auto. lra.
Qed.
Lemma gt32_spec x y : is_nan _ _ x = false -> is_nan _ _ y = false ->
  (gt32 x y = true <-> xr32 y < xr32 x).
Proof.
  intros Hx Hy. unfold gt32. rewrite cmp32 by auto.
  destruct (Rcompare_spec (xr32 x) (xr32 y)); split; intros; auto; try discriminate; lra.
Qed.
Lemma lt32_spec x y : is_nan _ _ x = false -> is_nan _ _ y = false ->
  (lt32 x y = true <-> xr32 x < xr32 y).
Proof.
  intros Hx Hy. unfold lt32. rewrite cmp32 by auto.
  destruct (Rcompare_spec (xr32 x) (xr32 y)); split; intros; auto; try discriminate; lra.
Qed.
Lemma eq32_spec x y : is_nan _ _ x = false -> is_nan _ _ y = false ->
  (eq32 x y = true <-> xr32 x = xr32 y).
Proof.
  intros Hx Hy. unfold eq32. rewrite cmp32 by auto.
  destruct (Rcompare_spec (xr32 x) (xr32 y)); split; intros; auto; try discriminate; lra.
Qed.
Lemma ge32_spec x y : is_nan _ _ x = false -> is_nan _ _ y = false ->
  (ge32 x y = true <-> xr32 y <= xr32 x).
Proof.
  intros Hx Hy. unfold ge32. rewrite Bool.orb_true_iff, gt32_spec, eq32_spec by auto. lra.
Qed.
Lemma le32_spec x y : is_nan _ _ x = false -> is_nan _ _ y = false ->
  (le32 x y = true <-> xr32 x <= xr32 y).
Proof.
  intros Hx Hy. unfold le32. rewrite Bool.orb_true_iff, lt32_spec, eq32_spec by auto. lra.
Qed.

Lemma xr_zero32 : xr32 zero32 = 0. Proof. reflexivity. Qed.
Lemma xr_zero64 : xr64 zero64 = 0. Proof. reflexivity. Qed.

(** Double to float. *)
Lemma to32_xr x : is_nan _ _ x = false ->
  is_nan _ _ (b32_of_b64 x) = false /\ xr32 (b32_of_b64 x) = clamp 128 (rnd32 (xr64 x)).
Proof.
  intros Hn. destruct x as [s|s|s p H|s m e H]; try discriminate.
  - split; auto. cbn. rewrite (rnd_0 24 128), clamp_in; auto.
    pose proof (B_pos 128). lra.
  - split; auto. unfold xr32, xr64. cbn [b32_of_b64 xr].
    assert (HB : rnd32 (bpow radix2 1024) = bpow radix2 1024).
    { apply rnd_id. apply generic_format_bpow. unfold SpecFloat.fexp, SpecFloat.emin. lia. }
    assert (bpow radix2 128 <= bpow radix2 1024) by (apply bpow_le; lia).
    destruct s.
    + rewrite rnd_opp, HB, clamp_lo; auto. lra.
    + rewrite HB, clamp_hi; auto.
  - destruct (normalize_xr 24 128 eq_refl eq_refl (if s then Z.neg m else Z.pos m) e s) as (HN & HX).
    split; [exact HN|]. unfold xr32, xr64. cbn [b32_of_b64]. rewrite HX. destruct s; reflexivity.
Qed.

Lemma to32_le x y : is_nan _ _ x = false -> is_nan _ _ y = false ->
  xr64 x <= xr64 y -> xr32 (b32_of_b64 x) <= xr32 (b32_of_b64 y).
Proof.
  intros Hx Hy H. rewrite (proj2 (to32_xr x Hx)), (proj2 (to32_xr y Hy)).
  apply clamp_le. apply rnd_le; auto. reflexivity.
Qed.

Lemma to32_opp x : b32_of_b64 (opp64 x) = b32_opp (b32_of_b64 x) \/ is_nan _ _ x = true.
Proof.
  destruct x as [s|s|s p H|s m e H]; auto; left; try reflexivity.
  pose (x := B754_finite 53 1024 s m e H).
  change (b32_of_b64 (opp64 x) = b32_opp (b32_of_b64 x)).
  destruct (to32_xr x eq_refl) as (N1 & X1).
  destruct (to32_xr (opp64 x) eq_refl) as (N2 & X2).
  assert (HO : xr64 (opp64 x) = - xr64 x).
  { unfold xr64. unfold opp64, b64_opp, x. cbn [Bopp xr B2R]. rewrite <- F2R_Zopp.
    destruct s; reflexivity. }
  rewrite HO, rnd_opp, clamp_opp, <- X1 in X2.
  assert (HO32 : forall y : binary32, is_nan _ _ y = false ->
            is_nan _ _ (b32_opp y) = false /\ xr32 (b32_opp y) = - xr32 y).
  { intros y Ny. destruct y as [s'|s'|s' p' H'|s' m' e' H']; try discriminate; split; auto;
      unfold xr32; cbn [b32_opp Bopp xr B2R].
    - lra.
    - destruct s'; cbn; lra.
    - rewrite <- F2R_Zopp. destruct s'; reflexivity. }
  destruct (HO32 _ N1) as (N3 & X3).
  destruct (Req_dec (xr32 (b32_of_b64 x)) 0) as [Hz|Hz].
  - (* underflow to zero: compare signs *)
    assert (HZ : forall sg (HH : SpecFloat.bounded 53 1024 m e = true),
               xr32 (b32_of_b64 (B754_finite 53 1024 sg m e HH)) = 0 ->
               b32_of_b64 (B754_finite 53 1024 sg m e HH) = B754_zero 24 128 sg).
    { intros sg HH Hz'. cbn [b32_of_b64] in *.
      pose proof (binary_normalize_correct 24 128 eq_refl eq_refl NE (if sg then Z.neg m else Z.pos m) e sg) as HC.
      cbn [BinarySingleNaN.round_mode] in HC.
      match type of HC with (if ?cc then _ else _) => destruct cc end.
      - destruct HC as (HR & HF & HS).
        assert (E0 : B2R32 (binary_normalize 24 128 eq_refl eq_refl NE (if sg then Z.neg m else Z.pos m) e sg) = 0).
        { rewrite <- (proj1 (xr_finite _ _ _ HF)). exact Hz'. }
        assert (HSg : Bsign 24 128 (binary_normalize 24 128 eq_refl eq_refl NE (if sg then Z.neg m else Z.pos m) e sg) = sg).
        { rewrite HS. destruct sg.
          - rewrite Rcompare_Lt; auto. apply F2R_lt_0. reflexivity.
          - rewrite Rcompare_Gt; auto. apply F2R_gt_0. reflexivity. }
        apply B2R_Bsign_inj; auto.
      - apply overflow_shape in HC. unfold xr32 in Hz'. rewrite HC in Hz'.
        cbn [xr] in Hz'. pose proof (B_pos 128). exfalso.
        destruct (Rlt_bool _ 0); lra. }
    unfold x in *. rewrite (HZ s H Hz). cbn [opp64 b64_opp Bopp].
    rewrite (HZ (negb s) H); [reflexivity|].
    change (xr32 (b32_of_b64 (opp64 (B754_finite 53 1024 s m e H))) = 0).
    rewrite X2, Hz. lra.
  - apply xr_inj; auto; unfold xr32 in *; try congruence. rewrite X2. lra.
Qed.

(** double(z) is exact up to 2^53. *)
Lemma of_Z_exact z : (Z.abs z <= 2 ^ 53)%Z ->
  finite64 (b64_of_Z z) /\ B2R64 (b64_of_Z z) = IZR z.
Proof.
  intros Hz. unfold b64_of_Z.
  pose proof (binary_normalize_correct 53 1024 eq_refl eq_refl NE z 0 false) as H.
  cbn [BinarySingleNaN.round_mode] in H.
  assert (E : F2R (Float radix2 z 0) = IZR z) by (unfold F2R; cbn; lra).
  assert (G : generic_format radix2 (SpecFloat.fexp 53 1024) (F2R (Float radix2 z 0))).
  { destruct (Z.eq_dec (Z.abs z) (2 ^ 53)) as [Eq|Ne].
    - assert (GB : generic_format radix2 (SpecFloat.fexp 53 1024) (bpow radix2 53)).
      { apply generic_format_bpow. unfold SpecFloat.fexp, SpecFloat.emin. lia. }
      assert (HB : bpow radix2 53 = IZR (2 ^ 53)) by (symmetry; apply (IZR_Zpower radix2 53); lia).
      rewrite E. destruct (Z.abs_eq_or_opp z) as [A|A]; rewrite A in Eq.
      + rewrite Eq, <- HB. exact GB.
      + replace z with (- 2 ^ 53)%Z by lia. rewrite opp_IZR, <- HB. apply generic_format_opp. exact GB.
    - apply generic_format_FLT. exists (Float radix2 z 0); auto.
      + cbn [Fnum]. change (radix2 ^ 53)%Z with (2 ^ 53)%Z. lia.
      + cbn. unfold SpecFloat.emin. lia. }
  rewrite (rnd_id 53 1024) in H by exact G. rewrite E in H.
  rewrite Rlt_bool_true in H.
  - destruct H as (HR & HF & _). auto.
  - rewrite <- abs_IZR. apply Rle_lt_trans with (IZR (2 ^ 53)); [apply IZR_le; auto|].
    change (2 ^ 53)%Z with (radix2 ^ 53)%Z. rewrite IZR_Zpower by lia. apply bpow_lt. lia.
Qed.

Lemma sqrt_of_Z D : (1 <= D <= 2 ^ 53)%Z ->
  finite64 (sqrt64 (b64_of_Z D)) /\ B2R64 (sqrt64 (b64_of_Z D)) = rnd64 (sqrt (IZR D)) /\
  1 <= B2R64 (sqrt64 (b64_of_Z D)).
Proof.
  intros HD. destruct (of_Z_exact D) as (F & E); [lia|].
  pose proof (Bsqrt_correct 53 1024 eq_refl eq_refl unop_nan_pl64 NE (b64_of_Z D)) as (HR & HF & _).
  cbn [BinarySingleNaN.round_mode] in HR.
  assert (P : 0 < IZR D) by (apply IZR_lt; lia).
  assert (FS : finite64 (sqrt64 (b64_of_Z D))).
  { unfold sqrt64, b64_sqrt. rewrite HF. destruct (b64_of_Z D) as [s|s|s p H|s m e H]; auto.
    destruct s; auto. exfalso. cbn [B2R] in E.
    assert (F2R (Float radix2 (cond_Zopp true (Z.pos m)) e) < 0) by (apply F2R_lt_0; reflexivity). lra. }
  split; auto. unfold sqrt64, b64_sqrt in *. rewrite HR, E. split; auto.
  replace 1 with (rnd64 1).
  - apply rnd_le; auto; try reflexivity. rewrite <- sqrt_1. apply sqrt_le_1_alt. apply IZR_le. lia.
  - apply rnd_id. change 1 with (bpow radix2 0). apply generic_format_bpow.
    unfold SpecFloat.fexp, SpecFloat.emin. lia.
Qed.

(** Scaling by a resolution. *)
Section Scale.
  Variable r : binary64.
  Hypothesis Rf : finite64 r.
  Hypothesis Rpos : 0 < xr64 r.

  Lemma r_val : xr64 r = B2R64 r.
  Proof. apply xr_finite. exact Rf. Qed.

  Lemma r_lt_B : xr64 r < bpow radix2 1024.
  Proof. apply xr_finite. exact Rf. Qed.

  Lemma r_nonan : is_nan 53 1024 r = false.
  Proof. destruct r; auto; discriminate. Qed.

  Lemma r_shape : exists m e H, r = B754_finite 53 1024 false m e H.
  Proof.
    revert Rf Rpos. destruct r as [s|s|s p H|s m e H]; unfold xr64; cbn [xr B2R]; intros F P;
      try lra; try discriminate.
    - destruct s; eauto. exfalso.
      assert (F2R (Float radix2 (cond_Zopp true (Z.pos m)) e) < 0) by (apply F2R_lt_0; reflexivity).
      lra.
  Qed.

  Lemma scale_finite D : (1 <= D <= 2 ^ 53)%Z ->
    is_nan _ _ (mul64 (sqrt64 (b64_of_Z D)) r) = false /\
    xr64 (mul64 (sqrt64 (b64_of_Z D)) r) = clamp 1024 (rnd64 (rnd64 (sqrt (IZR D)) * B2R64 r)) /\
    xr64 r <= xr64 (mul64 (sqrt64 (b64_of_Z D)) r).
  Proof.
    intros HD. destruct (sqrt_of_Z D HD) as (F & E & G).
    destruct (mult_xr 53 1024 eq_refl eq_refl binop_nan_pl64 _ _ F Rf) as (N & X).
    split; [exact N|]. unfold xr64 in *. unfold mul64, b64_mult. rewrite X.
    split; [rewrite E; auto|].
    replace (xr r) with (clamp 1024 (rnd64 (xr r))) at 1.
    - apply clamp_le. apply rnd_le; try reflexivity. pose proof r_val as V. unfold xr64 in V.
      rewrite <- V. nra.
    - rewrite rnd_id.
      + apply clamp_in. pose proof (B_pos 1024). pose proof r_lt_B as L. unfold xr64 in L. lra.
      + pose proof r_val as V. unfold xr64 in V. rewrite V. apply generic_format_B2R.
  Qed.

  Lemma scale_zero : mul64 (sqrt64 (b64_of_Z 0)) r = zero64.
  Proof.
    destruct r_shape as (m & e & H & ->). reflexivity.
  Qed.

  Lemma scale_inf : mul64 (sqrt64 inf64) r = inf64.
  Proof.
    destruct r_shape as (m & e & H & ->). reflexivity.
  Qed.

  Lemma scale_one : mul64 (sqrt64 (b64_of_Z 1)) r = r.
  Proof.
    destruct (scale_finite 1) as (N & X & G); [lia|].
    apply xr_inj; auto.
    - apply r_nonan.
    - change (xr (mul64 (sqrt64 (b64_of_Z 1)) r)) with (xr64 (mul64 (sqrt64 (b64_of_Z 1)) r)).
      rewrite X. rewrite sqrt_1.
      assert (E1 : rnd64 1 = 1).
      { apply rnd_id. change 1 with (bpow radix2 0). apply generic_format_bpow.
        unfold SpecFloat.fexp, SpecFloat.emin. lia. }
      rewrite E1, Rmult_1_l, rnd_id by apply generic_format_B2R.
      rewrite <- r_val. apply clamp_in. pose proof r_lt_B. pose proof (B_pos 1024). unfold xr64 in *. lra.
    - change (xr64 (mul64 (sqrt64 (b64_of_Z 1)) r) <> 0). lra.
  Qed.
End Scale.

Lemma sub_zero x : is_nan 53 1024 x = false -> xr64 x <> 0 -> sub64 x zero64 = x.
Proof.
  intros N Hz. destruct (is_finite 53 1024 x) eqn:F.
  - destruct (minus_xr 53 1024 eq_refl eq_refl binop_nan_pl64 x zero64 F eq_refl) as (N2 & X).
    destruct (xr_finite _ _ x F) as (E & L).
    assert (X' : xr (sub64 x zero64) = xr x).
    { unfold sub64, b64_minus. rewrite X. change (B2R64 zero64) with 0. rewrite Rminus_0_r.
      rewrite rnd_id by apply generic_format_B2R. rewrite <- E. apply clamp_in; auto. }
    apply xr_inj; auto. rewrite X'. exact Hz.
  - destruct x as [s|s|s p H|s m e H]; try discriminate. reflexivity.
Qed.

Lemma opp64_xr x : is_nan 53 1024 x = false ->
  is_nan 53 1024 (opp64 x) = false /\ xr64 (opp64 x) = - xr64 x.
Proof.
  intros N. destruct x as [s|s|s p H|s m e H]; try discriminate; split; auto; unfold xr64;
    cbn [opp64 b64_opp Bopp xr B2R].
  - lra.
  - destruct s; cbn; lra.
  - rewrite <- F2R_Zopp. destruct s; reflexivity.
Qed.

Lemma opp32_xr x : is_nan 24 128 x = false ->
  is_nan 24 128 (b32_opp x) = false /\ xr32 (b32_opp x) = - xr32 x.
Proof.
  intros N. destruct x as [s|s|s p H|s m e H]; try discriminate; split; auto; unfold xr32;
    cbn [b32_opp Bopp xr B2R].
  - lra.
  - destruct s; cbn; lra.
  - rewrite <- F2R_Zopp. destruct s; reflexivity.
Qed.

Lemma zero_sub x : is_nan 53 1024 x = false -> xr64 x <> 0 -> sub64 zero64 x = opp64 x.
Proof.
  intros N Hz. destruct (opp64_xr x N) as (NO & XO). destruct (is_finite 53 1024 x) eqn:F.
  - destruct (minus_xr 53 1024 eq_refl eq_refl binop_nan_pl64 zero64 x eq_refl F) as (N2 & X).
    destruct (xr_finite _ _ x F) as (E & L).
    assert (X' : xr (sub64 zero64 x) = - xr x).
    { unfold sub64, b64_minus. rewrite X. change (B2R64 zero64) with 0. rewrite Rminus_0_l.
      rewrite rnd_opp, rnd_id by apply generic_format_B2R. rewrite clamp_opp, <- E.
      rewrite clamp_in; auto. }
    apply xr_inj; auto.
    + rewrite X'. symmetry. exact XO.
    + rewrite X'. unfold xr64 in Hz. lra.
  - destruct x as [s|s|s p H|s m e H]; try discriminate. reflexivity.
Qed.

(** A resolution whose float image is positive is itself positive. *)
Lemma res_pos r : finite64 r -> gt32 (b32_of_b64 r) zero32 = true -> 0 < xr64 r.
Proof.
  intros F G. assert (N : is_nan 53 1024 r = false) by (destruct r; auto; discriminate).
  destruct (to32_xr r N) as (N2 & X). apply gt32_spec in G; auto. rewrite xr_zero32, X in G.
  destruct (Rlt_le_dec 0 (xr64 r)) as [H|H]; auto. exfalso.
  assert (rnd32 (xr64 r) <= 0) by (apply rnd_sign_nonpos; auto; reflexivity).
  assert (clamp 128 (rnd32 (xr64 r)) <= clamp 128 0) by (apply clamp_le; auto).
  rewrite (clamp_in 128 0) in H1; [lra|]. pose proof (B_pos 128). lra.
Qed.

(** Facts about IEEE arithmetic used by the field theorems.  Floats other than
    NaN are placed on the real line, the infinities at the overflow threshold. *)
From Coq Require Import Reals Lra.
From Flocq Require Import Core.Core IEEE754.Binary IEEE754.Bits.
From Flocq Require IEEE754.BinarySingleNaN.
From Verif Require Import Base Floats.
Open Scope R_scope.

Notation NE := BinarySingleNaN.mode_NE.

Section Generic.
  Variables prec emax : Z.
  Context (Hp : Prec_gt_0 prec) (He : BinarySingleNaN.Prec_lt_emax prec emax).
  Notation bf := (binary_float prec emax).
  Notation B := (bpow radix2 emax).
  Notation rnd := (round radix2 (SpecFloat.fexp prec emax) ZnearestE).

  Definition xr (f : bf) : R :=
    match f with
    | B754_infinity _ _ s => if s then - B else B
    | _ => B2R prec emax f
    end.

  Definition clamp (v : R) : R := Rmax (- B) (Rmin B v).

  Lemma B_pos : 0 < B.
  Proof. apply bpow_gt_0. Qed.

  Lemma xr_finite f : is_finite prec emax f = true -> xr f = B2R prec emax f /\ - B < xr f < B.
  Proof.
    intros Hf. assert (E : xr f = B2R prec emax f) by (destruct f; auto; discriminate).
    split; auto. rewrite E. apply Rabs_lt_inv. apply abs_B2R_lt_emax.
  Qed.

  Lemma compare_xr x y :
    is_nan prec emax x = false -> is_nan prec emax y = false ->
    Bcompare prec emax x y = Some (Rcompare (xr x) (xr y)).
  Proof.
    intros Nx Ny. pose proof B_pos as HB.
    destruct (is_finite prec emax x) eqn:Fx; destruct (is_finite prec emax y) eqn:Fy.
    - rewrite Bcompare_correct by auto.
      rewrite (proj1 (xr_finite x Fx)), (proj1 (xr_finite y Fy)). auto.
    - destruct y as [|[] | |]; try discriminate; destruct (xr_finite x Fx) as (_ & Hx);
        cbn [xr] in *.
      + rewrite Rcompare_Gt by lra. destruct x as [[]|[]| |[]]; try discriminate; reflexivity.
      + rewrite Rcompare_Lt by lra. destruct x as [[]|[]| |[]]; try discriminate; reflexivity.
    - destruct x as [|[] | |]; try discriminate; destruct (xr_finite y Fy) as (_ & Hy);
        cbn [xr] in *.
      + rewrite Rcompare_Lt by lra. destruct y as [[]|[]| |[]]; try discriminate; reflexivity.
      + rewrite Rcompare_Gt by lra. destruct y as [[]|[]| |[]]; try discriminate; reflexivity.
    - destruct x as [|[] | |]; try discriminate; destruct y as [|[] | |]; try discriminate;
        cbn [xr].
      + rewrite Rcompare_Eq; auto.
      + rewrite Rcompare_Lt by lra. auto.
      + rewrite Rcompare_Gt by lra. auto.
      + rewrite Rcompare_Eq; auto.
  Qed.

  Lemma clamp_in v : - B < v < B -> clamp v = v.
  Proof. intros H. unfold clamp. rewrite Rmin_right, Rmax_right; lra. Qed.

  Lemma clamp_le u v : u <= v -> clamp u <= clamp v.
  Proof.
    intros H. unfold clamp. apply Rle_max_compat_l. unfold Rmin.
    destruct (Rle_dec B u), (Rle_dec B v); lra.
  Qed.

  Lemma clamp_hi v : B <= v -> clamp v = B.
  Proof. intros H. pose proof B_pos. unfold clamp. rewrite Rmin_left, Rmax_right; lra. Qed.

  Lemma clamp_lo v : v <= - B -> clamp v = - B.
  Proof. intros H. pose proof B_pos. unfold clamp. rewrite Rmin_right, Rmax_left; lra. Qed.

  Lemma clamp_opp v : clamp (- v) = - clamp v.
  Proof.
    pose proof B_pos. unfold clamp, Rmax, Rmin.
    repeat (destruct (Rle_dec _ _)); lra.
  Qed.

  Lemma overflow_shape (f : bf) s :
    B2FF prec emax f = binary_overflow prec emax NE s -> f = B754_infinity prec emax s.
  Proof.
    unfold binary_overflow, BinarySingleNaN.binary_overflow. cbn.
    destruct f; cbn; intros E; try discriminate. injection E as ->. reflexivity.
  Qed.

  Lemma format_xr f : generic_format radix2 (SpecFloat.fexp prec emax) (B2R prec emax f).
  Proof. apply generic_format_B2R. Qed.

  Lemma rnd_le u v : u <= v -> rnd u <= rnd v.
  Proof. apply round_le; auto with typeclass_instances. apply BinarySingleNaN.fexp_correct; auto. Qed.

  Lemma rnd_id u : generic_format radix2 (SpecFloat.fexp prec emax) u -> rnd u = u.
  Proof. apply round_generic; auto with typeclass_instances. Qed.

  Lemma rnd_0 : rnd 0 = 0.
  Proof. apply round_0; auto with typeclass_instances. Qed.

  Lemma rnd_opp u : rnd (- u) = - rnd u.
  Proof. apply round_NE_opp. Qed.

  Lemma rnd_sign_nonneg u : 0 <= u -> 0 <= rnd u.
  Proof. intros H. rewrite <- rnd_0. apply rnd_le; auto. Qed.

  Lemma rnd_sign_nonpos u : u <= 0 -> rnd u <= 0.
  Proof. intros H. rewrite <- rnd_0. apply rnd_le; auto. Qed.

  (** Sign bit of a finite float against its value. *)
  Lemma Bsign_neg f : is_finite prec emax f = true -> B2R prec emax f < 0 -> Bsign prec emax f = true.
  Proof.
    destruct f as [s|s|s p H|s m e H]; cbn; intros Hf Hv; try discriminate; try lra.
    destruct s; auto. exfalso. apply (Rlt_not_le _ _ Hv). apply F2R_ge_0. cbn. lia.
  Qed.
  Lemma Bsign_pos f : is_finite prec emax f = true -> 0 < B2R prec emax f -> Bsign prec emax f = false.
  Proof.
    destruct f as [s|s|s p H|s m e H]; cbn; intros Hf Hv; try discriminate; try lra.
    destruct s; auto. exfalso. apply (Rlt_not_le _ _ Hv). apply F2R_le_0. cbn. lia.
  Qed.

  Lemma mult_xr nan x y :
    is_finite prec emax x = true -> is_finite prec emax y = true ->
    is_nan prec emax (Bmult prec emax Hp He nan NE x y) = false /\
    xr (Bmult prec emax Hp He nan NE x y) = clamp (rnd (B2R prec emax x * B2R prec emax y)).
  Proof.
    intros Fx Fy. pose proof (Bmult_correct prec emax Hp He nan NE x y) as H.
    cbn [BinarySingleNaN.round_mode] in H.
    destruct (Rlt_bool_spec (Rabs (rnd (B2R prec emax x * B2R prec emax y))) B) as [Hlt|Hge].
    - destruct H as (HR & HF & _). rewrite Fx, Fy in HF. cbn in HF.
      split; [destruct (Bmult _ _ _ _ _ _ _ _); auto; discriminate|].
      rewrite (proj1 (xr_finite _ HF)), HR. symmetry. apply clamp_in. apply Rabs_lt_inv; auto.
    - apply overflow_shape in H. rewrite H. split; auto.
      assert (Hne : B2R prec emax x * B2R prec emax y <> 0).
      { intros E. rewrite E, rnd_0, Rabs_R0 in Hge. pose proof B_pos. lra. }
      assert (Hx : B2R prec emax x <> 0) by (intros E; apply Hne; rewrite E; ring).
      assert (Hy : B2R prec emax y <> 0) by (intros E; apply Hne; rewrite E; ring).
      cbn [xr].
      destruct (Rdichotomy _ _ Hx) as [Lx|Gx]; destruct (Rdichotomy _ _ Hy) as [Ly|Gy];
      [rewrite (Bsign_neg x Fx Lx), (Bsign_neg y Fy Ly)
      |rewrite (Bsign_neg x Fx Lx), (Bsign_pos y Fy Gy)
      |rewrite (Bsign_pos x Fx Gx), (Bsign_neg y Fy Ly)
      |rewrite (Bsign_pos x Fx Gx), (Bsign_pos y Fy Gy)]; cbn [xorb].
      + assert (0 <= rnd (B2R prec emax x * B2R prec emax y)) by (apply rnd_sign_nonneg; nra).
        rewrite Rabs_pos_eq in Hge by auto. rewrite clamp_hi; auto.
      + assert (rnd (B2R prec emax x * B2R prec emax y) <= 0) by (apply rnd_sign_nonpos; nra).
        rewrite Rabs_left1 in Hge by auto. rewrite clamp_lo; auto. lra.
      + assert (rnd (B2R prec emax x * B2R prec emax y) <= 0) by (apply rnd_sign_nonpos; nra).
        rewrite Rabs_left1 in Hge by auto. rewrite clamp_lo; auto. lra.
      + assert (0 <= rnd (B2R prec emax x * B2R prec emax y)) by (apply rnd_sign_nonneg; nra).
        rewrite Rabs_pos_eq in Hge by auto. rewrite clamp_hi; auto.
  Qed.

  Lemma minus_xr nan x y :
    is_finite prec emax x = true -> is_finite prec emax y = true ->
    is_nan prec emax (Bminus prec emax Hp He nan NE x y) = false /\
    xr (Bminus prec emax Hp He nan NE x y) = clamp (rnd (B2R prec emax x - B2R prec emax y)).
  Proof.
    intros Fx Fy. pose proof (Bminus_correct prec emax Hp He nan NE x y Fx Fy) as H.
    cbn [BinarySingleNaN.round_mode] in H.
    destruct (Rlt_bool_spec (Rabs (rnd (B2R prec emax x - B2R prec emax y))) B) as [Hlt|Hge].
    - destruct H as (HR & HF & _).
      split; [destruct (Bminus _ _ _ _ _ _ _ _); auto; discriminate|].
      rewrite (proj1 (xr_finite _ HF)), HR. symmetry. apply clamp_in. apply Rabs_lt_inv; auto.
    - destruct H as (H & Hs). apply overflow_shape in H. rewrite H. split; auto.
      cbn [xr]. destruct (Bsign prec emax x) eqn:Sx.
      + assert (Hle : B2R prec emax x - B2R prec emax y <= 0).
        { destruct (Rle_lt_dec (B2R prec emax x) 0) as [L|G].
          - destruct (Rle_lt_dec 0 (B2R prec emax y)) as [L2|G2]; [lra|].
            rewrite (Bsign_neg y Fy G2) in Hs. discriminate.
          - rewrite (Bsign_pos x Fx G) in Sx. discriminate. }
        apply rnd_sign_nonpos in Hle. rewrite Rabs_left1 in Hge by auto.
        rewrite clamp_lo; auto. lra.
      + assert (Hle : 0 <= B2R prec emax x - B2R prec emax y).
        { destruct (Rle_lt_dec 0 (B2R prec emax x)) as [L|G].
          - destruct (Rle_lt_dec (B2R prec emax y) 0) as [L2|G2]; [lra|].
            rewrite (Bsign_pos y Fy G2) in Hs. discriminate.
          - rewrite (Bsign_neg x Fx G) in Sx. discriminate. }
        apply rnd_sign_nonneg in Hle. rewrite Rabs_pos_eq in Hge by auto.
        rewrite clamp_hi; auto.
  Qed.

  Lemma plus_xr nan x y :
    is_finite prec emax x = true -> is_finite prec emax y = true ->
    is_nan prec emax (Bplus prec emax Hp He nan NE x y) = false /\
    xr (Bplus prec emax Hp He nan NE x y) = clamp (rnd (B2R prec emax x + B2R prec emax y)).
  Proof.
    intros Fx Fy. pose proof (Bplus_correct prec emax Hp He nan NE x y Fx Fy) as H.
    cbn [BinarySingleNaN.round_mode] in H.
    destruct (Rlt_bool_spec (Rabs (rnd (B2R prec emax x + B2R prec emax y))) B) as [Hlt|Hge].
    - destruct H as (HR & HF & _).
      split; [destruct (Bplus _ _ _ _ _ _ _ _); auto; discriminate|].
      rewrite (proj1 (xr_finite _ HF)), HR. symmetry. apply clamp_in. apply Rabs_lt_inv; auto.
    - destruct H as (H & Hs). apply overflow_shape in H. rewrite H. split; auto.
      cbn [xr]. destruct (Bsign prec emax x) eqn:Sx.
      + assert (Hle : B2R prec emax x + B2R prec emax y <= 0).
        { destruct (Rle_lt_dec (B2R prec emax x) 0) as [L|G].
          - destruct (Rle_lt_dec (B2R prec emax y) 0) as [L2|G2]; [lra|].
            rewrite (Bsign_pos y Fy G2) in Hs. discriminate.
          - rewrite (Bsign_pos x Fx G) in Sx. discriminate. }
        apply rnd_sign_nonpos in Hle. rewrite Rabs_left1 in Hge by auto.
        rewrite clamp_lo; auto. lra.
      + assert (Hle : 0 <= B2R prec emax x + B2R prec emax y).
        { destruct (Rle_lt_dec 0 (B2R prec emax x)) as [L|G].
          - destruct (Rle_lt_dec 0 (B2R prec emax y)) as [L2|G2]; [lra|].
            rewrite (Bsign_neg y Fy G2) in Hs. discriminate.
          - rewrite (Bsign_neg x Fx G) in Sx. discriminate. }
        apply rnd_sign_nonneg in Hle. rewrite Rabs_pos_eq in Hge by auto.
        rewrite clamp_hi; auto.
  Qed.

  Lemma normalize_xr m e s :
    is_nan prec emax (binary_normalize prec emax Hp He NE m e s) = false /\
    xr (binary_normalize prec emax Hp He NE m e s) = clamp (rnd (F2R (Float radix2 m e))).
  Proof.
    pose proof (binary_normalize_correct prec emax Hp He NE m e s) as H.
    cbn [BinarySingleNaN.round_mode] in H.
    destruct (Rlt_bool_spec (Rabs (rnd (F2R (Float radix2 m e)))) B) as [Hlt|Hge].
    - destruct H as (HR & HF & _).
      split; [destruct (binary_normalize _ _ _ _ _ _ _ _); auto; discriminate|].
      rewrite (proj1 (xr_finite _ HF)), HR. symmetry. apply clamp_in. apply Rabs_lt_inv; auto.
    - apply overflow_shape in H. rewrite H. split; auto. cbn [xr].
      destruct (Rlt_bool_spec (F2R (Float radix2 m e)) 0) as [Hn|Hn].
      + assert (Hle : F2R (Float radix2 m e) <= 0) by lra.
        apply rnd_sign_nonpos in Hle. rewrite Rabs_left1 in Hge by auto.
        rewrite clamp_lo; auto. lra.
      + apply rnd_sign_nonneg in Hn. rewrite Rabs_pos_eq in Hge by auto.
        rewrite clamp_hi; auto.
  Qed.

  (** A float other than NaN and zero is determined by its position. *)
  Lemma xr_inj x y :
    is_nan prec emax x = false -> is_nan prec emax y = false ->
    xr x = xr y -> xr x <> 0 -> x = y.
  Proof.
    intros Nx Ny E Hz. pose proof B_pos as HB.
    destruct (is_finite prec emax x) eqn:Fx; destruct (is_finite prec emax y) eqn:Fy.
    - destruct (xr_finite x Fx) as (Ex & _), (xr_finite y Fy) as (Ey & _).
      apply B2R_inj.
      + destruct x; auto; cbn in *; try discriminate; congruence.
      + destruct y; auto; cbn in *; try discriminate; congruence.
      + congruence.
    - destruct (xr_finite x Fx) as (_ & Hx).
      destruct y as [|[] | |]; try discriminate; cbn [xr] in E; lra.
    - destruct (xr_finite y Fy) as (_ & Hy).
      destruct x as [|[] | |]; try discriminate; cbn [xr] in E; lra.
    - destruct x as [|[] | |]; try discriminate; destruct y as [|[] | |]; try discriminate;
        cbn [xr] in E; auto; lra.
  Qed.
End Generic.
Arguments xr {prec emax} f.

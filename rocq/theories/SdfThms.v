(** Theorems about extraction, derived from SdfGenProofs.extract_facts. *)
From Coq Require Import Reals Lra.
From Flocq Require Import Core.Core IEEE754.Binary IEEE754.Bits.
From Flocq Require Import Relative.
From Verif Require Import Base BaseFacts Floats FloatFacts FloatFacts2 Grid GridFacts
  DistSpec DistModel DistProofs DistThms CollisionMap SdfGen SdfSpec SdfGenProofs.
Open Scope Z_scope.

Lemma usable_pos r : usable_resolution r -> (0 < xr64 r)%R.
Proof. intros (A & B). apply res_pos; auto. Qed.

(** Sign of a stored value. *)
Lemma signed_value_sign b o r :
  usable_resolution r -> (forall m, o = Some m -> 1 <= m <= 2147483647) ->
  is_nan _ _ (signed_value b o r) = false /\
  (if b then xr32 (signed_value b o r) < 0 else 0 < xr32 (signed_value b o r))%R.
Proof.
  intros Hr Ho. destruct (scaled_ok r Hr o Ho) as (N & G & E).
  destruct Hr as (Rf & Rg). pose proof (res_pos r Rf Rg) as Rp.
  assert (Nr : is_nan _ _ r = false) by (destruct r; auto; discriminate).
  destruct (to32_xr _ N) as (N2 & _).
  pose proof (to32_le _ _ Nr N G) as L.
  apply gt32_spec in Rg; [|apply (to32_xr r Nr)|reflexivity]. rewrite xr_zero32 in Rg.
  rewrite E in *. unfold signed_value. destruct b.
  - destruct (opp32_xr _ N2) as (A & B). split; auto. rewrite B. lra.
  - split; auto. lra.
Qed.

Lemma signed_value_pos o r : usable_resolution r -> (forall m, o = Some m -> 1 <= m <= 2147483647) ->
  gt32 (signed_value false o r) zero32 = true.
Proof.
  intros Hr Ho. destruct (signed_value_sign false o r Hr Ho) as (N & S).
  apply gt32_spec; auto.
Qed.
Lemma signed_value_neg o r : usable_resolution r -> (forall m, o = Some m -> 1 <= m <= 2147483647) ->
  lt32 (signed_value true o r) zero32 = true.
Proof.
  intros Hr Ho. destruct (signed_value_sign true o r Hr Ho) as (N & S).
  apply lt32_spec; auto.
Qed.

Section NoBorder.
  Variables (d : dims) (r : binary64) (oob : binary32) (frame : string).
  Variables (is_filled : idx -> res bool) (filled : idx -> bool).
  Hypothesis Hs : size_ok d.
  Hypothesis Hr : usable_resolution r.
  Hypothesis HP : answers d is_filled filled.

  Lemma extract_sign :
    exists s x, extract_sdf d r is_filled oob frame = Ok (s, x) /\
      sdf_dims s = d /\ s_res s = r /\ s_frame s = frame /\ s_locked s = false /\
      goob (s_grid s) = oob /\
      forall c, in_bounds d c = true -> exists v, sdf_get s c = (v, true) /\
        is_nan 24 128 v = false /\
        (filled c = false -> gt32 v zero32 = true) /\
        (filled c = true -> lt32 v zero32 = true).
  Proof.
    destruct (extract_facts d r oob frame is_filled filled Hs Hr HP)
      as (s & mx & mn & E & A1 & A2 & A3 & A4 & A5 & A6 & A7 & A8 & o & A9 & A10 & A11).
    exists s, (mx, mn). repeat (split; [solve [auto]|]).
    intros c Hc. destruct (A9 c Hc) as (B1 & B2 & B3 & B4 & B5).
    assert (Ho : forall m, o c = Some m -> 1 <= m <= 2147483647) by (intros m Hm; apply B1; auto).
    exists (signed_value (filled c) (o c) r). split; auto.
    split; [apply signed_value_sign; auto|].
    split; intros ->; [apply signed_value_pos|apply signed_value_neg]; auto.
  Qed.

  Variables (s : sdf) (mx mn : binary64).
  Hypothesis HE : extract_sdf d r is_filled oob frame = Ok (s, (mx, mn)).

  Lemma extract_magnitude c : in_bounds d c = true ->
    exists m, sdf_get s c = (signed_value (filled c) m r, true) /\
      (forall z, m = Some z -> 1 <= z <= 2147483647 /\
         exists p, other_class d filled c p /\ distsq c p = z) /\
      (forall z, nearest_other d filled c z -> z <= 6 -> m = Some z).
  Proof.
    intros Hc.
    destruct (extract_facts d r oob frame is_filled filled Hs Hr HP)
      as (s' & mx' & mn' & E & A1 & A2 & A3 & A4 & A5 & A6 & A7 & A8 & o & A9 & A10 & A11).
    rewrite HE in E. injection E as <- <- <-.
    destruct (A9 c Hc) as (B1 & B2 & B3 & _). exists (o c). auto.
  Qed.

  (** On a planar grid the magnitude exists as soon as both classes do, and is at
      most the city-block distance to any cell of the other class. *)
  Lemma extract_flat c p : flat d -> in_bounds d c = true -> other_class d filled c p ->
    exists z, sdf_get s c = (signed_value (filled c) (Some z) r, true) /\
      1 <= z <= manhattan c p * manhattan c p /\
      exists q, other_class d filled c q /\ distsq c q = z.
  Proof.
    intros Hfl Hc Hp.
    destruct (extract_facts d r oob frame is_filled filled Hs Hr HP)
      as (s' & mx' & mn' & E & A1 & A2 & A3 & A4 & A5 & A6 & A7 & A8 & o & A9 & A10 & A11).
    rewrite HE in E. injection E as <- <- <-.
    destruct (A9 c Hc) as (B1 & B2 & B3 & _). destruct (A11 Hfl c p Hc Hp) as (z & Ez & Hz).
    destruct (B1 z Ez) as (R & q & Hq & Hd). exists z. rewrite <- Ez. split; auto.
    split; [lia|eauto].
  Qed.

  Lemma extract_boundary c p : in_bounds d c = true ->
    other_class d filled c p -> distsq c p = 1 ->
    sdf_get s c = ((if filled c then b32_opp (b32_of_b64 r) else b32_of_b64 r), true).
  Proof.
    intros Hc Hp Hd. destruct (extract_magnitude c Hc) as (m & G & _ & X).
    rewrite (X 1) in G; [|split; [eauto|]|lia].
    - rewrite G. unfold signed_value, rounded_distance.
      destruct Hr as (Rf & Rg). rewrite scale_one; auto. apply res_pos; auto.
    - intros q (Hq & Hne). pose proof (distsq_bound d Hs c q Hc Hq).
      assert (distsq c q <> 0); [|lia]. intros Z0. apply distsq_zero in Z0. congruence.
  Qed.

  Lemma extract_one_class b : (forall c, in_bounds d c = true -> filled c = b) ->
    forall c, in_bounds d c = true -> sdf_get s c = ((if b then ninf32 else inf32), true).
  Proof.
    intros Hall c Hc. destruct (extract_magnitude c Hc) as (m & G & X & _).
    destruct m as [z|].
    - destruct (X z eq_refl) as (_ & p & (Hp & Hne) & _). rewrite !Hall in Hne by auto. congruence.
    - rewrite G, (Hall c Hc). unfold signed_value. destruct b; reflexivity.
  Qed.

  Lemma extract_extrema : 0 < ncells d ->
    upper_extremum d (fun c => fst (sdf_get s c)) mx /\
    lower_extremum d (fun c => fst (sdf_get s c)) mn.
  Proof.
    intros Hn.
    destruct (extract_facts d r oob frame is_filled filled Hs Hr HP)
      as (s' & mx' & mn' & E & A1 & A2 & A3 & A4 & A5 & A6 & A7 & A8 & o & A9 & A10 & A11).
    rewrite HE in E. injection E as <- <- <-.
    destruct (A10 Hn) as ((cx & Hcx & Ex) & (cn & Hcn & En)).
    assert (V : forall c, in_bounds d c = true ->
      fst (sdf_get s c) = b32_of_b64 (signed_double r filled c (o c))).
    { intros c Hc. destruct (A9 c Hc) as (B1 & _ & B3 & _). rewrite B3. cbn [fst]. symmetry.
      eapply signed_double_ok; eauto. intros m Hm. apply B1; auto. }
    split; split.
    - intros c Hc. rewrite (V c Hc). destruct (A9 c Hc) as (_ & _ & _ & N & L & U).
      apply le32_spec; [apply to32_xr; auto|apply to32_xr; auto|].
      apply to32_le; auto.
    - exists cx. split; auto. rewrite (V cx Hcx), Ex. reflexivity.
    - intros c Hc. rewrite (V c Hc). destruct (A9 c Hc) as (_ & _ & _ & N & L & U).
      apply ge32_spec; [apply to32_xr; auto|apply to32_xr; auto|].
      apply to32_le; auto.
    - exists cn. split; auto. rewrite (V cn Hcn), En. reflexivity.
  Qed.
End NoBorder.


(** Accuracy of a stored magnitude, for resolutions and distances in the normal
    float range. *)
Lemma rel64 x : (bpow radix2 (-1022) <= Rabs x)%R ->
  (Rabs (rnd64 x - x) <= bpow radix2 (-53) * Rabs x)%R.
Proof.
  intros H. pose proof (relative_error_N_FLT radix2 (-1074) 53 eq_refl (fun n => negb (Z.even n)) x H) as K.
  replace (bpow radix2 (-53)) with (/ 2 * bpow radix2 (-53 + 1))%R; auto.
  rewrite bpow_plus. replace (bpow radix2 1) with 2%R by reflexivity. field.
Qed.
Lemma rel32 x : (bpow radix2 (-126) <= Rabs x)%R ->
  (Rabs (rnd32 x - x) <= bpow radix2 (-24) * Rabs x)%R.
Proof.
  intros H. pose proof (relative_error_N_FLT radix2 (-149) 24 eq_refl (fun n => negb (Z.even n)) x H) as K.
  replace (bpow radix2 (-24)) with (/ 2 * bpow radix2 (-24 + 1))%R; auto.
  rewrite bpow_plus. replace (bpow radix2 1) with 2%R by reflexivity. field.
Qed.

Lemma rounded_accuracy m r :
  1 <= m <= 2147483647 -> is_finite 53 1024 r = true ->
  (bpow radix2 (-125) <= B2R 53 1024 r)%R ->
  (sqrt (IZR m) * B2R 53 1024 r <= bpow radix2 127)%R ->
  is_finite 24 128 (rounded_distance (Some m) r) = true /\
  (Rabs (B2R 24 128 (rounded_distance (Some m) r) - sqrt (IZR m) * B2R 53 1024 r)
   <= bpow radix2 (-23) * (sqrt (IZR m) * B2R 53 1024 r))%R.
Proof.
  intros Hm Rf Rl Ru. set (R := B2R 53 1024 r) in *. set (S := sqrt (IZR m)) in *.
  assert (B125 : (0 < bpow radix2 (-125))%R) by apply bpow_gt_0.
  assert (B126 : (bpow radix2 (-125) = 2 * bpow radix2 (-126))%R).
  { change (-125) with (1 + -126). rewrite bpow_plus. reflexivity. }
  assert (B1022 : (bpow radix2 (-1022) <= bpow radix2 (-126))%R) by (apply bpow_le; lia).
  assert (B1022' : (bpow radix2 (-1022) <= 1)%R) by (change 1%R with (bpow radix2 0); apply bpow_le; lia).
  assert (B128 : (bpow radix2 128 = 2 * bpow radix2 127)%R).
  { change 128 with (1 + 127). rewrite bpow_plus. reflexivity. }
  assert (B127p : (0 < bpow radix2 127)%R) by apply bpow_gt_0.
  assert (BBig : (bpow radix2 128 <= bpow radix2 1024)%R) by (apply bpow_le; lia).
  assert (HS : (1 <= S)%R).
  { unfold S. rewrite <- sqrt_1. apply sqrt_le_1_alt. apply IZR_le. lia. }
  assert (E53 : (bpow radix2 (-53) = / 9007199254740992)%R) by reflexivity.
  assert (E24 : (bpow radix2 (-24) = / 16777216)%R) by reflexivity.
  assert (E23 : (bpow radix2 (-23) = / 8388608)%R) by reflexivity.
  set (s1 := rnd64 S). set (p := (s1 * R)%R). set (p1 := rnd64 p). set (q := rnd32 p1).
  assert (K1 : (Rabs (s1 - S) <= / 9007199254740992 * S)%R).
  { rewrite <- E53. rewrite <- (Rabs_pos_eq S) at 2 by lra. apply rel64.
    rewrite Rabs_pos_eq by lra. lra. }
  apply Rabs_le_inv in K1.
  assert (P0 : (0 < S * R)%R) by nra.
  assert (K2 : (S * R * (1 - / 9007199254740992) <= p <= S * R * (1 + / 9007199254740992))%R).
  { unfold p. split; nra. }
  assert (PL : (bpow radix2 (-126) <= p)%R).
  { assert (R <= S * R)%R by nra. nra. }
  assert (K3 : (Rabs (p1 - p) <= / 9007199254740992 * p)%R).
  { rewrite <- E53. rewrite <- (Rabs_pos_eq p) at 2 by lra. apply rel64.
    rewrite Rabs_pos_eq by lra. lra. }
  apply Rabs_le_inv in K3.
  assert (P1L : (bpow radix2 (-126) <= p1)%R).
  { replace (bpow radix2 (-126)) with (rnd64 (bpow radix2 (-126))).
    - unfold p1. apply rnd_le; try reflexivity. exact PL.
    - apply rnd_id. apply generic_format_bpow. unfold SpecFloat.fexp, SpecFloat.emin. lia. }
  assert (K4 : (Rabs (q - p1) <= / 16777216 * p1)%R).
  { rewrite <- E24. rewrite <- (Rabs_pos_eq p1) at 2 by lra. apply rel32.
    rewrite Rabs_pos_eq by lra. lra. }
  apply Rabs_le_inv in K4.
  assert (Rp : (0 < xr64 r)%R).
  { rewrite (r_val r Rf). fold R. lra. }
  destruct (scale_finite r Rf Rp m) as (N & X & _); [lia|].
  fold S in X. fold s1 in X. fold R in X. fold p in X. fold p1 in X.
  assert (PU : (0 < p1 < bpow radix2 128)%R) by nra.
  rewrite clamp_in in X by lra.
  destruct (to32_xr _ N) as (N2 & X2). rewrite X in X2. fold q in X2.
  assert (QU : (0 < q < bpow radix2 128)%R) by nra.
  rewrite clamp_in in X2 by lra.
  change (b32_of_b64 (mul64 (sqrt64 (b64_of_Z m)) r)) with (rounded_distance (Some m) r) in *.
  assert (F : is_finite 24 128 (rounded_distance (Some m) r) = true).
  { destruct (rounded_distance (Some m) r) as [b|b|b pl H|b mm ee H]; auto; try discriminate.
    exfalso. unfold xr32 in X2. cbn [xr] in X2. destruct b; lra. }
  split; auto. destruct (xr_finite _ _ _ F) as (E & _). unfold xr32 in X2. rewrite <- E, X2.
  rewrite E23. apply Rabs_le. split; nra.
Qed.

Lemma extract_extrema_double d r oob frame is_filled filled s mx mn :
  size_ok d -> usable_resolution r -> answers d is_filled filled ->
  extract_sdf d r is_filled oob frame = Ok (s, (mx, mn)) -> 0 < ncells d ->
  exists dist : idx -> binary64,
    (forall c, in_bounds d c = true ->
       fst (sdf_get s c) = b32_of_b64 (dist c) /\
       le64 (dist c) mx = true /\ ge64 (dist c) mn = true) /\
    (exists c, in_bounds d c = true /\ dist c = mx) /\
    (exists c, in_bounds d c = true /\ dist c = mn).
Proof.
  intros Hs Hr HP HE Hn.
  destruct (extract_facts d r oob frame is_filled filled Hs Hr HP)
    as (s' & mx' & mn' & E & A1 & A2 & A3 & A4 & A5 & A6 & A7 & A8 & o & A9 & A10 & A11).
  rewrite HE in E. injection E as <- <- <-.
  destruct (A10 Hn) as ((cx & Hcx & Ex) & (cn & Hcn & En)).
  exists (fun c => signed_double r filled c (o c)). split; [|split; eauto].
  intros c Hc. destruct (A9 c Hc) as (B1 & _ & B3 & N & L & U). rewrite B3. cbn [fst].
  split.
  - symmetry. eapply signed_double_ok; eauto. intros m Hm. apply B1; auto.
  - split; [apply le64_spec|apply ge64_spec]; auto.
Qed.

(** A concrete grid: 3x2x2 cells, the layer x = 0 filled, resolution 0.25. *)
Definition quarter64 : binary64 := B754_finite 53 1024 false 4503599627370496 (-54) eq_refl.
Lemma quarter_usable : usable_resolution quarter64.
Proof. split; reflexivity. Qed.

(** Colours of a drawn signed distance field. *)
From Coq Require Import Lia Reals Lra.
From Flocq Require Import Core.Core IEEE754.Binary IEEE754.Bits.
From Verif Require Import Base BaseFacts Floats FloatFacts FloatFacts2 Grid GridFacts DistSpec DistModel SdfGen SdfSpec
  SdfGenProofs SdfThms Arith Display DisplaySpec ResampleSpec ResampleProofs DisplayProofs.
Local Open Scope Z_scope.

(** ** Float to double *)
Lemma widen_finite x : is_finite 24 128 x = true ->
  is_finite 53 1024 (b64_of_b32 x) = true /\ B2R 53 1024 (b64_of_b32 x) = B2R 24 128 x.
Proof.
  destruct x as [s|s|s p H|s m e H]; intros F; try discriminate; [split; reflexivity|].
  set (x := B754_finite 24 128 s m e H).
  pose proof (binary_normalize_correct 53 1024 eq_refl eq_refl BinarySingleNaN.mode_NE
                (if s then Z.neg m else Z.pos m) e s) as K.
  assert (E : F2R (Float radix2 (if s then Z.neg m else Z.pos m) e) = B2R 24 128 x) by (destruct s; reflexivity).
  rewrite E in K.
  assert (G : generic_format radix2 (SpecFloat.fexp 53 1024) (B2R 24 128 x)).
  { pose proof (generic_format_B2R 24 128 x) as Gx.
    change (SpecFloat.fexp 24 128) with (FLT_exp (-149) 24) in Gx.
    apply FLT_format_generic in Gx; [|reflexivity]. destruct Gx as [f F1 F2 F3].
    change (SpecFloat.fexp 53 1024) with (FLT_exp (-1074) 53).
    apply generic_format_FLT. exists f; auto.
    - eapply Z.lt_trans; [exact F2|reflexivity].
    - lia. }
  cbn [BinarySingleNaN.round_mode] in K.
  rewrite round_generic in K; [|apply valid_rnd_N|exact G].
  assert (L : (Rabs (B2R 24 128 x) < bpow radix2 1024)%R).
  { eapply Rlt_trans; [apply abs_B2R_lt_emax|]. apply bpow_lt. lia. }
  rewrite Rlt_bool_true in K by exact L. destruct K as (K1 & K2 & _). split; auto.
Qed.

Lemma widen_sign v : gt64 (b64_of_b32 v) zero64 = gt32 v zero32 /\ lt64 (b64_of_b32 v) zero64 = lt32 v zero32 /\
  le64 (b64_of_b32 v) zero64 = le32 v zero32.
Proof.
  destruct (is_finite 24 128 v) eqn:F.
  - destruct (widen_finite v F) as (F2 & E).
    assert (N : is_nan 24 128 v = false) by (destruct v; auto; discriminate).
    assert (N2 : is_nan 53 1024 (b64_of_b32 v) = false) by (destruct (b64_of_b32 v); auto; discriminate).
    destruct (xr_finite _ _ _ F) as (X & _). destruct (xr_finite _ _ _ F2) as (X2 & _).
    unfold gt64, lt64, le64, gt32, lt32, le32, eq64, eq32.
    unfold lt64, lt32. rewrite cmp64, cmp32 by auto.
    replace (xr64 (b64_of_b32 v)) with (xr32 v) by (unfold xr64, xr32; congruence).
    replace (xr64 zero64) with (xr32 zero32) by reflexivity. auto.
  - destruct v as [s|s|s p H|s m e H]; try discriminate; destruct s; vm_compute; auto.
Qed.

(** ** The range *)
Section Range.
  Variable s : sdf.
  Let d := sdf_dims s.
  Let val i := fst (sdf_get s i).
  Hypothesis Fin : forall i, in_bounds d i = true -> is_finite 24 128 (val i) = true.

  Lemma range_spec : let (lo, hi) := distance_range s in
    is_finite 53 1024 lo = true /\ is_finite 53 1024 hi = true /\
    (B2R 53 1024 lo <= 0 <= B2R 53 1024 hi)%R /\
    forall i, in_bounds d i = true -> (B2R 53 1024 lo <= B2R 24 128 (val i) <= B2R 53 1024 hi)%R.
  Proof.
    unfold distance_range. fold d.
    pose (J := fun (pre : list idx) (mm : binary64 * binary64) =>
      is_finite 53 1024 (fst mm) = true /\ is_finite 53 1024 (snd mm) = true /\
      (B2R 53 1024 (fst mm) <= 0 <= B2R 53 1024 (snd mm))%R /\
      forall i, In i pre -> (B2R 53 1024 (fst mm) <= B2R 24 128 (val i) <= B2R 53 1024 (snd mm))%R).
    assert (G : forall l pre mm, J pre mm -> (forall i, In i l -> in_bounds d i = true) ->
      J (pre ++ l) (fold_left (fun mm i => let (lo, hi) := mm : binary64 * binary64 in
        let d := b64_of_b32 (fst (sdf_get s i)) in
        (if lt64 d lo then d else lo, if gt64 d hi then d else hi)) l mm)).
    { induction l as [|a l IH]; intros pre mm Jm Hin; cbn [fold_left]; [rewrite app_nil_r; auto|].
      replace (pre ++ a :: l) with ((pre ++ [a]) ++ l) by (rewrite <- app_assoc; reflexivity).
      apply IH; [|intros; apply Hin; cbn; auto]. destruct mm as [lo hi].
      destruct Jm as (Fl & Fh & Z0 & All). cbn [fst snd] in *.
      assert (Fa : is_finite 24 128 (val a) = true) by (apply Fin, Hin; cbn; auto).
      fold (val a). destruct (widen_finite _ Fa) as (F2 & E). set (w := b64_of_b32 (val a)) in *.
      assert (Nw : is_nan 53 1024 w = false) by (destruct w; auto; discriminate).
      assert (Nl : is_nan 53 1024 lo = false) by (destruct lo; auto; discriminate).
      assert (Nh : is_nan 53 1024 hi = false) by (destruct hi; auto; discriminate).
      destruct (xr_finite _ _ _ F2) as (Xw & _). destruct (xr_finite _ _ _ Fl) as (Xl & _).
      destruct (xr_finite _ _ _ Fh) as (Xh & _).
      assert (L : (B2R 53 1024 (if lt64 w lo then w else lo) <= B2R 53 1024 lo /\
                   B2R 53 1024 (if lt64 w lo then w else lo) <= B2R 53 1024 w)%R).
      { destruct (lt64 w lo) eqn:Q.
        - apply lt64_spec in Q; auto. unfold xr64 in Q. lra.
        - destruct (Rlt_le_dec (B2R 53 1024 w) (B2R 53 1024 lo)) as [K|K]; [|lra].
          exfalso. assert (lt64 w lo = true) by (apply lt64_spec; auto; unfold xr64; lra). congruence. }
      assert (H : (B2R 53 1024 hi <= B2R 53 1024 (if gt64 w hi then w else hi) /\
                   B2R 53 1024 w <= B2R 53 1024 (if gt64 w hi then w else hi))%R).
      { destruct (gt64 w hi) eqn:Q.
        - apply gt64_spec in Q; auto. unfold xr64 in Q. lra.
        - destruct (Rlt_le_dec (B2R 53 1024 hi) (B2R 53 1024 w)) as [K|K]; [|lra].
          exfalso. assert (gt64 w hi = true) by (apply gt64_spec; auto; unfold xr64; lra). congruence. }
      split; [|split; [|split]]; cbn [fst snd].
      - destruct (lt64 w lo); auto.
      - destruct (gt64 w hi); auto.
      - split; [eapply Rle_trans; [apply (proj1 L)|apply Z0]|eapply Rle_trans; [apply Z0|apply (proj1 H)]].
      - intros i Hi. apply in_app_or in Hi. destruct Hi as [Hi|[<-|[]]].
        + apply All in Hi. split; [eapply Rle_trans; [apply (proj1 L)|apply Hi]|eapply Rle_trans; [apply Hi|apply (proj1 H)]].
        + rewrite <- E. split; [apply L|apply H]. }
    specialize (G (sweep d) [] (zero64, zero64)).
    destruct (fold_left _ (sweep d) (zero64, zero64)) as [lo hi].
    destruct G as (A & B & C & E).
    - split; [reflexivity|]. split; [reflexivity|]. split; [cbn; lra|]. intros i [].
    - intros i Hi. apply sweep_in; auto.
    - cbn [fst snd] in *. do 3 (split; auto). intros i Hi. apply E. cbn. apply sweep_in; auto.
  Qed.
End Range.

(** ** The shade *)
Definition c8 := div64 (b64_of_Z 8) (b64_of_Z 10).
Definition c2 := div64 (b64_of_Z 2) (b64_of_Z 10).
Lemma c8_val : is_finite 53 1024 c8 = true /\ B2R 53 1024 c8 = (7205759403792794 / 9007199254740992)%R.
Proof.
  split; [vm_compute; reflexivity|].
  assert (E : B2FF 53 1024 c8 = F754_finite false 7205759403792794 (-53)) by (vm_compute; reflexivity).
  rewrite <- FF2R_B2FF, E. cbn. unfold F2R. cbn. lra.
Qed.
Lemma c2_val : is_finite 53 1024 c2 = true /\ B2R 53 1024 c2 = (7205759403792794 / 36028797018963968)%R.
Proof.
  split; [vm_compute; reflexivity|].
  assert (E : B2FF 53 1024 c2 = F754_finite false 7205759403792794 (-55)) by (vm_compute; reflexivity).
  rewrite <- FF2R_B2FF, E. cbn. unfold F2R. cbn. lra.
Qed.

Lemma rnd64_one : rnd64 1 = 1%R.
Proof.
  apply rnd_id. change 1%R with (bpow radix2 0). apply generic_format_bpow.
  unfold SpecFloat.fexp, SpecFloat.emin. lia.
Qed.
Lemma rnd32_one : rnd32 1 = 1%R.
Proof.
  apply rnd_id. change 1%R with (bpow radix2 0). apply generic_format_bpow.
  unfold SpecFloat.fexp, SpecFloat.emin. lia.
Qed.

(** The real number the shade is. *)
Definition shade_real (q : R) : R :=
  rnd32 (rnd64 (rnd64 (q * B2R 53 1024 c8) + B2R 53 1024 c2)).

Lemma shade_real_le u v : (u <= v)%R -> (shade_real u <= shade_real v)%R.
Proof.
  intros H. unfold shade_real. apply rnd_le; try reflexivity. apply rnd_le; try reflexivity.
  apply Rplus_le_compat_r. apply rnd_le; try reflexivity.
  apply Rmult_le_compat_r; auto. rewrite (proj2 c8_val). lra.
Qed.

Lemma shade_real_1 : shade_real 1 = 1%R.
Proof.
  unfold shade_real. rewrite Rmult_1_l.
  assert (E8 : rnd64 (B2R 53 1024 c8) = B2R 53 1024 c8) by (apply rnd_id, generic_format_B2R).
  rewrite E8.
  destruct (plus_xr 53 1024 eq_refl eq_refl binop_nan_pl64 c8 c2 (proj1 c8_val) (proj1 c2_val)) as (N & X).
  assert (E : Bplus 53 1024 eq_refl eq_refl binop_nan_pl64 BinarySingleNaN.mode_NE c8 c2 = (b64_of_Z 1)).
  { apply B2FF_inj. vm_compute. reflexivity. }
  rewrite E in X. 
  destruct (of_Z_exact 1) as (F1 & V1); [lia|]. destruct (xr_finite 53 1024 _ F1) as (X1 & _).
  rewrite V1 in X1. rewrite X1 in X.
  assert (B : (1 < bpow radix2 1024)%R) by (change 1%R with (bpow radix2 0); apply bpow_lt; lia).
  change (round radix2 (SpecFloat.fexp 53 1024) ZnearestE (B2R 53 1024 c8 + B2R 53 1024 c2))
    with (rnd64 (B2R 53 1024 c8 + B2R 53 1024 c2)) in X.
  unfold clamp in X. unfold Rmax, Rmin in X.
  repeat match type of X with context [Rle_dec ?a ?b] => destruct (Rle_dec a b) end; try lra.
  all: rewrite <- X; apply rnd32_one.
Qed.

Lemma shade_real_0 : (/ 10 < shade_real 0)%R.
Proof.
  unfold shade_real. rewrite Rmult_0_l.
  replace (rnd64 0) with 0%R by (symmetry; apply rnd_0). rewrite Rplus_0_l.
  replace (rnd64 (B2R 53 1024 c2)) with (B2R 53 1024 c2) by (symmetry; apply rnd_id, generic_format_B2R).
  apply Rlt_le_trans with (bpow radix2 (-3)).
  - replace (bpow radix2 (-3)) with (/ 8)%R by reflexivity. lra.
  - replace (bpow radix2 (-3)) with (rnd32 (bpow radix2 (-3))).
    + apply rnd_le; try reflexivity. rewrite (proj2 c2_val).
      replace (bpow radix2 (-3)) with (/ 8)%R by reflexivity. lra.
    + apply rnd_id. apply generic_format_bpow. unfold SpecFloat.fexp, SpecFloat.emin. lia.
Qed.

Lemma shade_spec d limit :
  is_finite 53 1024 d = true -> is_finite 53 1024 limit = true ->
  B2R 53 1024 limit <> 0%R -> (Rabs (B2R 53 1024 d) <= Rabs (B2R 53 1024 limit))%R ->
  is_finite 24 128 (shade d limit) = true /\
  B2R 24 128 (shade d limit) = shade_real (Rabs (rnd64 (B2R 53 1024 d / B2R 53 1024 limit))) /\
  (/ 10 < B2R 24 128 (shade d limit) <= 1)%R.
Proof.
  intros Fd Fl Nz Le.
  set (u := B2R 53 1024 d) in *. set (v := B2R 53 1024 limit) in *.
  assert (Q : (Rabs (u / v) <= 1)%R).
  { unfold Rdiv. rewrite Rabs_mult, Rabs_inv. apply Rabs_pos_lt in Nz.
    apply Rmult_le_reg_r with (Rabs v); auto. rewrite Rmult_assoc, Rinv_l by lra. lra. }
  assert (Q1 : (Rabs (rnd64 (u / v)) <= 1)%R).
  { apply Rabs_le_inv in Q. apply Rabs_le. split.
    - replace (- (1))%R with (rnd64 (- (1))).
      + apply rnd_le; try reflexivity. lra.
      + rewrite (rnd_opp 53 1024), rnd64_one. reflexivity.
    - rewrite <- rnd64_one. apply rnd_le; try reflexivity. lra. }
  assert (Big : (1 < bpow radix2 1024)%R) by (change 1%R with (bpow radix2 0); apply bpow_lt; lia).
  assert (Big2 : (2 < bpow radix2 1024)%R) by (change 2%R with (bpow radix2 1); apply bpow_lt; lia).
  assert (Big32 : (2 < bpow radix2 128)%R) by (change 2%R with (bpow radix2 1); apply bpow_lt; lia).
  pose proof (Bdiv_correct 53 1024 eq_refl eq_refl binop_nan_pl64 BinarySingleNaN.mode_NE d limit Nz) as K.
  cbn [BinarySingleNaN.round_mode] in K. fold u v in K.
  change (round radix2 (SpecFloat.fexp 53 1024) ZnearestE (u / v)) with (rnd64 (u / v)) in K.
  rewrite Rlt_bool_true in K by lra. destruct K as (K1 & K2 & _).
  change (Bdiv 53 1024 _ _ binop_nan_pl64 _ d limit) with (div64 d limit) in *.
  rewrite Fd in K2. unfold shade. set (q := b64_abs (div64 d limit)).
  assert (Fq : is_finite 53 1024 q = true).
  { unfold q, b64_abs. rewrite is_finite_Babs. exact K2. }
  assert (Vq : B2R 53 1024 q = Rabs (rnd64 (u / v))).
  { unfold q, b64_abs. rewrite B2R_Babs. f_equal. exact K1. }
  destruct c8_val as (F8 & V8). destruct c2_val as (F2 & V2).
  fold c8 c2.
  assert (P0 : (0 <= rnd64 (Rabs (rnd64 (u / v)) * B2R 53 1024 c8) <= 1)%R).
  { pose proof (Rabs_pos (rnd64 (u / v))). split.
    - apply rnd_sign_nonneg. reflexivity. rewrite V8. nra.
    - rewrite <- rnd64_one. apply rnd_le; try reflexivity. rewrite V8. nra. }
  destruct (mult_xr 53 1024 eq_refl eq_refl binop_nan_pl64 q c8 Fq F8) as (N1 & X1).
  change (Bmult 53 1024 _ _ binop_nan_pl64 _ q c8) with (mul64 q c8) in *. rewrite Vq in X1.
  change (round radix2 (SpecFloat.fexp 53 1024) ZnearestE (Rabs (rnd64 (u / v)) * B2R 53 1024 c8))
    with (rnd64 (Rabs (rnd64 (u / v)) * B2R 53 1024 c8)) in X1.
  rewrite clamp_in in X1 by lra.
  assert (FM : is_finite 53 1024 (mul64 q c8) = true).
  { destruct (mul64 q c8) as [b|b|b pl H|b mm ee H]; auto; try discriminate. cbn [xr] in X1. exfalso.
    destruct b; lra. }
  destruct (xr_finite _ _ _ FM) as (EM & _). rewrite X1 in EM.
  destruct (plus_xr 53 1024 eq_refl eq_refl binop_nan_pl64 (mul64 q c8) c2 FM F2) as (N3 & X3).
  change (Bplus 53 1024 _ _ binop_nan_pl64 _ (mul64 q c8) c2) with (add64 (mul64 q c8) c2) in *.
  rewrite <- EM in X3.
  set (p := rnd64 (Rabs (rnd64 (u / v)) * B2R 53 1024 c8)) in *.
  change (round radix2 (SpecFloat.fexp 53 1024) ZnearestE (p + B2R 53 1024 c2)) with (rnd64 (p + B2R 53 1024 c2)) in X3.
  assert (P1 : (0 <= rnd64 (p + B2R 53 1024 c2) <= 2)%R).
  { split.
    - apply rnd_sign_nonneg. reflexivity. rewrite V2. lra.
    - replace 2%R with (rnd64 2).
      + apply rnd_le; try reflexivity. rewrite V2. lra.
      + apply rnd_id. change 2%R with (bpow radix2 1). apply generic_format_bpow.
        unfold SpecFloat.fexp, SpecFloat.emin. lia. }
  rewrite clamp_in in X3 by lra.
  destruct (to32_xr _ N3) as (N4 & X4). unfold xr64 in X4. rewrite X3 in X4.
  assert (S0 : (/ 10 < rnd32 (rnd64 (p + B2R 53 1024 c2)) <= 1)%R).
  { split.
    - eapply Rlt_le_trans; [apply shade_real_0|]. apply (shade_real_le 0). apply Rabs_pos.
    - rewrite <- shade_real_1. apply (shade_real_le _ 1). exact Q1. }
  rewrite clamp_in in X4 by lra.
  assert (FS : is_finite 24 128 (b32_of_b64 (add64 (mul64 q c8) c2)) = true).
  { destruct (b32_of_b64 (add64 (mul64 q c8) c2)) as [b|b|b pl H|b mm ee H]; auto; try discriminate.
    unfold xr32 in X4. cbn [xr] in X4. exfalso. destruct b; lra. }
  destruct (xr_finite _ _ _ FS) as (ES & _). unfold xr32 in X4. rewrite X4 in ES.
  split; auto. split; [symmetry; exact ES|]. rewrite <- ES. exact S0.
Qed.

Lemma push_all {A B} (f : A -> B) (vis : A -> bool) l acc :
  fold_left (fun l i => if vis i then l ++ [f i] else l) l acc = acc ++ map f (filter vis l).
Proof.
  revert acc; induction l as [|a l IH]; intros acc; cbn [fold_left filter map]; [rewrite app_nil_r; auto|].
  rewrite IH. destruct (vis a); cbn [map]; auto. rewrite <- app_assoc. reflexivity.
Qed.
Lemma push_each {A B} (f : A -> B) l acc : fold_left (fun l i => l ++ [f i]) l acc = acc ++ map f l.
Proof.
  revert acc; induction l as [|a l IH]; intros acc; cbn [fold_left map]; [rewrite app_nil_r; auto|].
  rewrite IH, <- app_assoc. reflexivity.
Qed.

Section Export.
  Context {point : Type}.
  Variable center : idx -> point.

  Lemma sdf_export_draws clamp01 s alpha :
    let k := sdf_export center clamp01 s alpha in
    mk_frame k = s_frame s /\ mk_ns k = Text "sdf_display" /\
    draws center k (sdf_dims s) (fun _ => True)
      (fun i => distance_color (clamp01 alpha) (fst (distance_range s)) (snd (distance_range s)) (fst (sdf_get s i))).
  Proof.
    unfold sdf_export. destruct (distance_range s) as [lo hi]. cbn [fst snd mk_frame mk_ns].
    split; auto. split; auto. exists (sweep (sdf_dims s)). split.
    - split; [apply sweep_ordered|]. intros i. rewrite sweep_in. tauto.
    - cbn [mk_points mk_colors]. rewrite !push_each. auto.
  Qed.

  Lemma collision_export_draws s : exists l,
    exactly (sdf_dims s) (fun i => le32 (fst (sdf_get s i)) zero32 = true) l /\
    sdf_export_collision center s = map center l.
  Proof.
    unfold sdf_export_collision. rewrite push_all. eexists. split; [|reflexivity].
    apply exactly_filter. intros i _. rewrite (proj2 (proj2 (widen_sign (fst (sdf_get s i))))). reflexivity.
  Qed.
End Export.

Section Shaded.
  Variable s : sdf.
  Let d := sdf_dims s.
  Let val i := fst (sdf_get s i).
  Hypothesis Fin : forall i, in_bounds d i = true -> is_finite 24 128 (val i) = true.
  Let lo := fst (distance_range s).
  Let hi := snd (distance_range s).

  Lemma finite_sign x : is_finite 24 128 x = true ->
    (gt32 x zero32 = true <-> (0 < B2R 24 128 x)%R) /\ (lt32 x zero32 = true <-> (B2R 24 128 x < 0)%R).
  Proof.
    intros F. assert (N : is_nan 24 128 x = false) by (destruct x; auto; discriminate).
    destruct (xr_finite _ _ _ F) as (X & _).
    rewrite gt32_spec, lt32_spec by auto. unfold xr32. rewrite X. cbn [xr zero32 B2R]. tauto.
  Qed.

  Lemma shade_hi i : in_bounds d i = true -> (0 < B2R 24 128 (val i))%R ->
    is_finite 24 128 (shade (b64_of_b32 (val i)) hi) = true /\
    B2R 24 128 (shade (b64_of_b32 (val i)) hi) = shade_real (rnd64 (B2R 24 128 (val i) / B2R 53 1024 hi)) /\
    bright (shade (b64_of_b32 (val i)) hi).
  Proof.
    intros Hi P. pose proof (range_spec s Fin) as Rg. unfold lo, hi in *. destruct (distance_range s) as [l h].
    cbn [fst snd] in *. destruct Rg as (Fl & Fh & Z0 & All). specialize (All i Hi). fold (val i) in All.
    destruct (widen_finite _ (Fin i Hi)) as (F2 & E).
    destruct (shade_spec (b64_of_b32 (val i)) h F2 Fh) as (A & B & C).
    - lra.
    - rewrite E, !Rabs_pos_eq by lra. lra.
    - split; auto. split; [|split; auto]. rewrite B, E. f_equal. apply Rabs_pos_eq.
      apply rnd_sign_nonneg; [reflexivity|]. apply Rlt_le. apply Rdiv_lt_0_compat; lra.
  Qed.

  Lemma shade_lo i : in_bounds d i = true -> (B2R 24 128 (val i) < 0)%R ->
    is_finite 24 128 (shade (b64_of_b32 (val i)) lo) = true /\
    B2R 24 128 (shade (b64_of_b32 (val i)) lo) = shade_real (rnd64 (B2R 24 128 (val i) / B2R 53 1024 lo)) /\
    bright (shade (b64_of_b32 (val i)) lo).
  Proof.
    intros Hi P. pose proof (range_spec s Fin) as Rg. unfold lo, hi in *. destruct (distance_range s) as [l h].
    cbn [fst snd] in *. destruct Rg as (Fl & Fh & Z0 & All). specialize (All i Hi). fold (val i) in All.
    destruct (widen_finite _ (Fin i Hi)) as (F2 & E).
    destruct (shade_spec (b64_of_b32 (val i)) l F2 Fl) as (A & B & C).
    - lra.
    - rewrite E, !Rabs_left by lra. lra.
    - split; auto. split; [|split; auto]. rewrite B, E. f_equal. apply Rabs_pos_eq.
      apply rnd_sign_nonneg; [reflexivity|].
      replace (B2R 24 128 (val i) / B2R 53 1024 l)%R with ((- B2R 24 128 (val i)) / (- B2R 53 1024 l))%R by (field; lra).
      apply Rlt_le. apply Rdiv_lt_0_compat; lra.
  Qed.

  Lemma colors_shaded alpha i : in_bounds d i = true ->
    c_a (distance_color alpha lo hi (val i)) = alpha /\ shaded (val i) (distance_color alpha lo hi (val i)).
  Proof.
    intros Hi. destruct (finite_sign _ (Fin i Hi)) as (Sg & Sl).
    unfold distance_color. destruct (widen_sign (val i)) as (W1 & W2 & _). rewrite W1, W2.
    destruct (gt32 (val i) zero32) eqn:G; [|destruct (lt32 (val i) zero32) eqn:L].
    - split; auto. unfold shaded. rewrite G. cbn [c_r c_g c_b c_a]. split; [|split]; [| |discriminate].
      + intros _. split; auto. split; auto. apply shade_hi; auto. apply Sg; auto.
      + intros L. exfalso. apply Sl in L. assert (0 < B2R 24 128 (val i))%R by (apply Sg; auto). lra.
    - split; auto. unfold shaded. rewrite G, L. cbn [c_r c_g c_b c_a]. split; [|split]; [discriminate| |discriminate].
      intros _. split; auto. split; auto. apply shade_lo; auto. apply Sl; auto.
    - split; auto. unfold shaded. rewrite G, L. cbn [c_r c_g c_b c_a]. split; [discriminate|split; [discriminate|auto]].
  Qed.

  Lemma colors_monotone alpha i j : in_bounds d i = true -> in_bounds d j = true ->
    (gt32 (val i) zero32 = true -> le32 (val i) (val j) = true ->
     (B2R 24 128 (c_g (distance_color alpha lo hi (val i))) <= B2R 24 128 (c_g (distance_color alpha lo hi (val j))))%R) /\
    (lt32 (val i) zero32 = true -> le32 (val j) (val i) = true ->
     (B2R 24 128 (c_r (distance_color alpha lo hi (val i))) <= B2R 24 128 (c_r (distance_color alpha lo hi (val j))))%R).
  Proof.
    intros Hi Hj. pose proof (Fin i Hi) as Fi. pose proof (Fin j Hj) as Fj.
    destruct (finite_sign _ Fi) as (Sg & Sl). destruct (finite_sign _ Fj) as (Tg & Tl).
    assert (Ni : is_nan 24 128 (val i) = false) by (destruct (val i); auto; discriminate).
    assert (Nj : is_nan 24 128 (val j) = false) by (destruct (val j); auto; discriminate).
    destruct (xr_finite _ _ _ Fi) as (Xi & _). destruct (xr_finite _ _ _ Fj) as (Xj & _).
    pose proof (range_spec s Fin) as Rg.
    destruct (widen_sign (val i)) as (W1 & W2 & _). destruct (widen_sign (val j)) as (V1 & V2 & _).
    unfold distance_color. rewrite W1, W2, V1, V2. split.
    - intros G L. apply le32_spec in L; auto. unfold xr32 in L. rewrite Xi, Xj in L.
      assert (P : (0 < B2R 24 128 (val i))%R) by (apply Sg; auto).
      assert (Gj : gt32 (val j) zero32 = true) by (apply Tg; lra).
      rewrite G, Gj. cbn [c_g].
      destruct (shade_hi i Hi P) as (_ & E1 & _). destruct (shade_hi j Hj) as (_ & E2 & _); [lra|].
      rewrite E1, E2. apply shade_real_le. apply rnd_le; try reflexivity.
      unfold hi in *. destruct (distance_range s) as [l h]. cbn [snd] in *.
      destruct Rg as (_ & _ & Z0 & All). specialize (All i Hi). fold (val i) in All.
      unfold Rdiv. apply Rmult_le_compat_r; [|lra]. apply Rlt_le, Rinv_0_lt_compat. lra.
    - intros G L. apply le32_spec in L; auto. unfold xr32 in L. rewrite Xi, Xj in L.
      assert (P : (B2R 24 128 (val i) < 0)%R) by (apply Sl; auto).
      assert (Gj : lt32 (val j) zero32 = true) by (apply Tl; lra).
      assert (Gi' : gt32 (val i) zero32 = false).
      { apply Bool.not_true_is_false. intros Q. apply Sg in Q. lra. }
      assert (Gj' : gt32 (val j) zero32 = false).
      { apply Bool.not_true_is_false. intros Q. apply Tg in Q. lra. }
      rewrite G, Gj, Gi', Gj'. cbn [c_r].
      destruct (shade_lo i Hi P) as (_ & E1 & _). destruct (shade_lo j Hj) as (_ & E2 & _); [lra|].
      rewrite E1, E2. apply shade_real_le. apply rnd_le; try reflexivity.
      unfold lo in *. destruct (distance_range s) as [l h]. cbn [fst] in *.
      destruct Rg as (_ & _ & Z0 & All). specialize (All i Hi). fold (val i) in All.
      unfold Rdiv. assert (I0 : (/ B2R 53 1024 l <= 0)%R) by (apply Rlt_le, Rinv_lt_0_compat; lra).
      nra.
  Qed.
End Shaded.

Lemma collision_cells {point} (center : idx -> point) d r oob frame is_filled filled s x :
  size_ok d -> usable_resolution r -> answers d is_filled filled ->
  extract_sdf d r is_filled oob frame = Ok (s, x) ->
  exists l, exactly d (fun i => filled i = true) l /\ sdf_export_collision center s = map center l.
Proof.
  intros Hs Hr Ha E. destruct (extract_sign d r oob frame is_filled filled Hs Hr Ha) as (s' & x' & E' & D & _ & _ & _ & _ & V).
  rewrite E in E'. injection E' as <- _.
  destruct (collision_export_draws center s) as (l & (S & El) & P). exists l. split; auto. split; auto.
  intros i. rewrite El, D. split; intros (B & K); split; auto; destruct (V i B) as (v & G & N & H1 & H2);
    rewrite G in *; cbn [fst] in *.
  - destruct (filled i); auto. specialize (H1 eq_refl). apply gt32_spec in H1; auto. apply le32_spec in K; auto. lra.
  - apply le32_spec; auto. apply H2 in K. apply lt32_spec in K; auto. lra.
Qed.

(** The quaternion of a rotation matrix, in doubles. *)
From Coq Require Import Reals Lra Lia Psatz.
From Flocq Require Import Core.Core IEEE754.Binary IEEE754.Bits.
From Verif Require Import Base BaseFacts Floats FloatFacts FloatFacts2 Grid GridFacts Arith SdfQuery SdfField QuerySpec
  QueryProofs QueryReal QueryThms QueryTurn DoubleSpec DoubleQuery DoubleEstimate DoubleGrid IdealSpec WallSpec WallProject Frame FrameSpec
  FrameTurn Origin OriginSpec OriginTurn.
Open Scope R_scope.

(** ** The conversion, with its operations as parameters *)
Section Form.
  Variables (D : Type) (ad sb ml : D -> D -> D) (lt : D -> D -> bool) (hr hor : D -> D) (o e : D).
  Variables m00 m01 m02 m10 m11 m12 m20 m21 m22 : D.
  Definition qform : D * (D * D * D) :=
    let trace := ad (ad m00 m11) m22 in
    if lt o trace then
      let s := ad trace e in
      (hr s, (ml (sb m21 m12) (hor s), ml (sb m02 m20) (hor s), ml (sb m10 m01) (hor s)))
    else
      if lt (if lt m00 m11 then m11 else m00) m22 then
        let s := ad (sb (sb m22 m00) m11) e in
        (ml (sb m10 m01) (hor s), (ml (ad m02 m20) (hor s), ml (ad m12 m21) (hor s), hr s))
      else if lt m00 m11 then
        let s := ad (sb (sb m11 m22) m00) e in
        (ml (sb m02 m20) (hor s), (ml (ad m01 m10) (hor s), hr s, ml (ad m21 m12) (hor s)))
      else
        let s := ad (sb (sb m00 m11) m22) e in
        (ml (sb m21 m12) (hor s), (hr s, ml (ad m10 m01) (hor s), ml (ad m20 m02) (hor s))).
End Form.

Lemma quat_form (A : arith) (ad sb ml : dbl A -> dbl A -> dbl A) lt hr hor o e (T : transform A) :
  dadd A = ad -> dsub A = sb -> dmul A = ml -> dlt A = lt -> @half_root A = hr -> @half_over_root A = hor -> of_int A 0 = o -> of_int A 1 = e ->
  let q := qform (dbl A) ad sb ml lt hr hor o e (vx (row_x T)) (vy (row_x T)) (vz (row_x T)) (vx (row_y T)) (vy (row_y T)) (vz (row_y T))
             (vx (row_z T)) (vy (row_z T)) (vz (row_z T)) in
  qw (quat_of T) = fst q /\ vx (qv (quat_of T)) = fst (fst (snd q)) /\ vy (qv (quat_of T)) = snd (fst (snd q)) /\ vz (qv (quat_of T)) = snd (snd q).
Proof.
  intros <- <- <- <- <- <- <- <-. cbv zeta. unfold quat_of, qform. cbv zeta.
  destruct (dlt A (of_int A 0) _); [repeat split|]. destruct (dlt A (vx (row_x T)) (vy (row_y T))); destruct (dlt A _ (vz (row_z T))); repeat split.
Qed.

(** ** Sums and differences *)
Section Quat.
  Variable delta : R.
  Hypothesis Hd : bpow radix2 (-53) <= delta <= bpow radix2 (-27).

  Lemma quat_delta : 0 < u /\ u <= delta /\ delta <= / 100000000 /\ 0 < delta.
  Proof using Hd.
    assert (0 < u) by apply bpow_gt_0. change (bpow radix2 (-53)) with u in Hd. change (bpow radix2 (-27)) with (/ 134217728) in Hd. lra.
  Qed.

  Lemma quat_one : bpow radix2 (-100) <= 1 <= bpow radix2 100.
  Proof. change 1 with (bpow radix2 0). split; apply bpow_le; lia. Qed.

  Lemma pm_near s x X y Y ex ey : near ex x X -> near ey y Y -> ex + ey <= 1 -> Rabs X + Rabs Y <= 7 ->
    near (ex + ey + 9 * delta) (pm s x y) (rpm s X Y).
  Proof using Hd.
    intros (Fx & Dx) (Fy & Dy) E H. destruct quat_delta as (U0 & U1 & _).
    assert (Sx : Rabs (real64 x) <= Rabs X + ex).
    { replace (real64 x) with (X + (real64 x - X)) by ring. eapply Rle_trans; [apply Rabs_triang|lra]. }
    assert (Sy : Rabs (real64 y) <= Rabs Y + ey).
    { replace (real64 y) with (Y + (real64 y - Y)) by ring. eapply Rle_trans; [apply Rabs_triang|lra]. }
    destruct (pm_abs 1 quat_one s x y Fx Fy) as (F & K); [lra|]. split; [exact F|].
    apply Rabs_le_inv in Dx. apply Rabs_le_inv in Dy. apply Rabs_le_inv in K. apply Rabs_le. destruct s; cbn [rpm] in *; lra.
  Qed.

  Lemma add_near x X y Y ex ey : near ex x X -> near ey y Y -> ex + ey <= 1 -> Rabs X + Rabs Y <= 7 ->
    near (ex + ey + 9 * delta) (add64 x y) (X + Y).
  Proof using Hd. exact (pm_near true x X y Y ex ey). Qed.
  Lemma sub_near x X y Y ex ey : near ex x X -> near ey y Y -> ex + ey <= 1 -> Rabs X + Rabs Y <= 7 ->
    near (ex + ey + 9 * delta) (sub64 x y) (X - Y).
  Proof using Hd. exact (pm_near false x X y Y ex ey). Qed.

  (** ** Roots *)
  Definition half64 : binary64 := div64 (b64_of_Z 1) (b64_of_Z 2).
  Lemma half64_real : finite_double half64 /\ real64 half64 = 1 / 2.
  Proof.
    assert (E : B2FF 53 1024 half64 = F754_finite false 4503599627370496 (-53)) by (vm_compute; reflexivity).
    split; [vm_compute; reflexivity|]. unfold real64. rewrite <- FF2R_B2FF, E. unfold FF2R, F2R. cbn. lra.
  Qed.

  Definition hr64 (s : binary64) : binary64 := mul64 half64 (sqrt64 s).
  Definition hor64 (s : binary64) : binary64 := div64 half64 (sqrt64 s).

  Lemma sign_abs k : sign_of k * k = Rabs k.
  Proof. unfold sign_of. destruct (Rlt_dec k 0); [rewrite Rabs_left|rewrite Rabs_right]; lra. Qed.

  Section Pivot.
    Variables (k : R) (s : binary64).
    Hypothesis Ns : near (30 * delta) s (4 * (k * k)).
    Hypothesis Hk : 0.99 <= 4 * (k * k).
    Hypothesis K1 : Rabs k <= 1.

    Lemma pivot_size : 0.99 <= 2 * Rabs k /\ 4 * (k * k) = (2 * Rabs k) * (2 * Rabs k).
    Proof using Hk K1.
      assert (E : 4 * (k * k) = (2 * Rabs k) * (2 * Rabs k)).
      { unfold Rabs. destruct (Rcase_abs k); ring. }
      split; [|exact E]. rewrite E in Hk. pose proof (Rabs_pos k). apply Rnot_lt_le. intros L.
      assert ((2 * Rabs k) * (2 * Rabs k) <= 0.99 * 0.99) by (apply Rmult_le_compat; lra). lra.
    Qed.

    Lemma root_near : near (19 * delta) (sqrt64 s) (2 * Rabs k).
    Proof using Hd Ns Hk K1.
      destruct pivot_size as (P & E). destruct quat_delta as (U0 & U1 & D1 & D0). destruct Ns as (Fs & Ds). rewrite E in Ds, Hk.
      apply Rabs_le_inv in Ds.
      assert (B : bpow radix2 (-900) <= real64 s).
      { apply Rle_trans with (bpow radix2 (-1)); [apply bpow_le; lia|]. change (bpow radix2 (-1)) with (/ 2). lra. }
      destruct (sqrt64_small s Fs B) as (F & e & He & V). split; [exact F|]. rewrite V.
      set (a := 2 * Rabs k) in *. assert (A2 : a <= 2) by (unfold a; lra). clearbody a.
      set (r := sqrt (real64 s)) in *. assert (R2 : r * r = real64 s) by (apply sqrt_sqrt; lra).
      assert (R0 : 0 <= r) by apply sqrt_pos. clearbody r. apply Rabs_le_inv in He.
      assert (Q : Rabs (r - a) <= 16 * delta).
      { apply Rabs_le. split; apply Rnot_lt_le; intros L.
        - assert ((a + r) * (a - r) >= 0.99 * (16 * delta)).
          { apply Rle_ge. apply Rmult_le_compat; lra. }
          assert (0.99 <= a + r) by lra.
          destruct (Rle_dec 0.98 r) as [R3|R3].
          + assert (1.97 * (16 * delta) <= (a + r) * (a - r)) by (apply Rmult_le_compat; lra). lra.
          + assert (r * r <= 0.98 * 0.98) by (apply Rmult_le_compat; lra). lra.
        - assert (1.97 * (16 * delta) <= (a + r) * (r - a)) by (apply Rmult_le_compat; lra). lra. }
      apply Rabs_le_inv in Q.
      assert (W : Rabs (r * e) <= 2.1 * delta).
      { rewrite Rabs_mult. apply Rmult_le_compat; try apply Rabs_pos; apply Rabs_le; lra. }
      apply Rabs_le_inv in W. apply Rabs_le. lra.
    Qed.

    Lemma half_near : near (80 * delta) (hr64 s) (sign_of k * k).
    Proof using Hd Ns Hk K1.
      rewrite sign_abs. destruct root_near as (F & Dr). destruct quat_delta as (U0 & U1 & D1 & D0). destruct half64_real as (Fh & Eh).
      apply Rabs_le_inv in Dr. pose proof (Rabs_pos k). unfold hr64.
      destruct (mul_abs 1 quat_one half64 (sqrt64 s) Fh F) as (G & K). { rewrite Eh. apply Rabs_le. lra. }
      rewrite Eh in K. apply Rabs_le_inv in K. split; [exact G|]. apply Rabs_le. lra.
    Qed.

    Lemma factor_near : near (12 * delta) (hor64 s) (/ (4 * Rabs k)).
    Proof using Hd Ns Hk K1.
      destruct pivot_size as (P & _). destruct root_near as (F & Dr). destruct quat_delta as (U0 & U1 & D1 & D0). destruct half64_real as (Fh & Eh).
      pose proof u_tiny as (_ & T1).
      apply Rabs_le_inv in Dr. unfold hor64. set (R0 := real64 (sqrt64 s)) in *.
      assert (R1 : 0.98 <= R0) by lra.
      assert (Q0 : 0 < / R0 <= 1.03).
      { split; [apply Rinv_0_lt_compat; lra|]. rewrite <- (Rinv_inv 1.03). apply Rinv_le_contravar; lra. }
      destruct (div64_small half64 (sqrt64 s) Fh F) as (G & e & t & He & Ht & V); [fold R0; lra| |].
      { rewrite Eh. fold R0. apply Rle_trans with 1; [unfold Rdiv; apply Rabs_le; lra|]. change 1 with (bpow radix2 0). apply bpow_le. lia. }
      split; [exact G|]. rewrite V, Eh. fold R0. clear V G F Eh Fh. clearbody R0.
      set (a := Rabs k) in *. clearbody a.
      assert (Q1 : 0 < / (4 * a) <= 0.51).
      { split; [apply Rinv_0_lt_compat; lra|]. rewrite <- (Rinv_inv 0.51). apply Rinv_le_contravar; lra. }
      assert (Df : Rabs (1 / 2 / R0 - / (4 * a)) <= 10 * delta).
      { replace (1 / 2 / R0 - / (4 * a)) with ((2 * a - R0) * (/ R0 * / (4 * a))) by (field; lra).
        rewrite Rabs_mult. apply Rle_trans with ((19 * delta) * (1.03 * 0.51)); [|lra].
        apply Rmult_le_compat; try apply Rabs_pos; [apply Rabs_le; lra|]. rewrite Rabs_mult. rewrite !Rabs_pos_eq by lra.
        apply Rmult_le_compat; lra. }
      assert (W : Rabs (1 / 2 / R0 * e) <= 0.52 * delta).
      { rewrite Rabs_mult. apply Rmult_le_compat; try apply Rabs_pos; [|lra]. unfold Rdiv. apply Rabs_le. lra. }
      apply Rabs_le_inv in Df. apply Rabs_le_inv in W. apply Rabs_le_inv in Ht. apply Rabs_le. lra.
    Qed.

    Lemma two_range : bpow radix2 (-100) <= 2 <= bpow radix2 100.
    Proof. change 2 with (bpow radix2 1). split; apply bpow_le; lia. Qed.

    Lemma other_near x y : near (11 * delta) x (4 * (k * y)) -> Rabs y <= 1 -> near (80 * delta) (mul64 x (hor64 s)) (sign_of k * y).
    Proof using Hd Ns Hk K1.
      intros Nx Hy. destruct pivot_size as (P & _). destruct quat_delta as (U0 & U1 & D1 & D0). pose proof (Rabs_pos k).
      assert (Q1 : 0 < / (4 * Rabs k) <= 0.51).
      { split; [apply Rinv_0_lt_compat; lra|]. rewrite <- (Rinv_inv 0.51). apply Rinv_le_contravar; lra. }
      assert (Sx : Rabs (4 * (k * y)) <= 4).
      { rewrite !Rabs_mult, (Rabs_pos_eq 4) by lra. assert (Rabs k * Rabs y <= 1 * 1) by (apply Rmult_le_compat; auto using Rabs_pos). lra. }
      assert (D2 : delta * delta <= delta * / 100000000) by (apply Rmult_le_compat_l; lra).
      assert (Nf : k <> 0) by (intros ->; rewrite Rabs_R0 in P; lra).
      destruct (near_mul 2 two_range _ _ _ _ _ _ 4 0.51 Nx factor_near Sx) as (N & _).
      - rewrite Rabs_pos_eq; lra.
      - lra.
      - replace (sign_of k * y) with (4 * (k * y) * / (4 * Rabs k)).
        + apply near_more with (2 := N). lra.
        + unfold sign_of, Rabs. destruct (Rlt_dec k 0), (Rcase_abs k); try lra; field; lra.
    Qed.
  End Pivot.

  (** ** The branches *)
  Section Branches.
    Variables w a b c : R.
    Hypothesis Un : w * w + (a * a + b * b + c * c) = 1.
    Variables m00 m01 m02 m10 m11 m12 m20 m21 m22 : binary64.
    Hypothesis N00 : near delta m00 (1 - 2 * (b * b + c * c)).
    Hypothesis N01 : near delta m01 (2 * (a * b - w * c)).
    Hypothesis N02 : near delta m02 (2 * (a * c + w * b)).
    Hypothesis N10 : near delta m10 (2 * (a * b + w * c)).
    Hypothesis N11 : near delta m11 (1 - 2 * (a * a + c * c)).
    Hypothesis N12 : near delta m12 (2 * (b * c - w * a)).
    Hypothesis N20 : near delta m20 (2 * (a * c - w * b)).
    Hypothesis N21 : near delta m21 (2 * (b * c + w * a)).
    Hypothesis N22 : near delta m22 (1 - 2 * (a * a + b * b)).

    Lemma squares : 0 <= w * w /\ 0 <= a * a /\ 0 <= b * b /\ 0 <= c * c.
    Proof. repeat split; apply Rle_0_sqr. Qed.

    Lemma square_one x : x * x <= 1 -> Rabs x <= 1.
    Proof.
      intros H. apply Rabs_le. split; apply Rnot_lt_le; intros L.
      - assert (1 * 1 < (- x) * (- x)) by (apply Rmult_gt_0_lt_compat; lra). lra.
      - assert (1 * 1 < x * x) by (apply Rmult_gt_0_lt_compat; lra). lra.
    Qed.

    Lemma parts_one : Rabs w <= 1 /\ Rabs a <= 1 /\ Rabs b <= 1 /\ Rabs c <= 1.
    Proof using Un. destruct squares as (Sw & Sa & Sb & Sc). repeat split; apply square_one; lra. Qed.

    Lemma twice x y : Rabs (2 * (x * y)) <= x * x + y * y.
    Proof.
      assert (0 <= (x + y) * (x + y)) by apply Rle_0_sqr. assert (0 <= (x - y) * (x - y)) by apply Rle_0_sqr. apply Rabs_le. lra.
    Qed.

    Lemma entry_sizes : Rabs (1 - 2 * (b * b + c * c)) <= 1 /\ Rabs (1 - 2 * (a * a + c * c)) <= 1 /\ Rabs (1 - 2 * (a * a + b * b)) <= 1 /\
      Rabs (2 * (a * b - w * c)) <= 1 /\ Rabs (2 * (a * c + w * b)) <= 1 /\ Rabs (2 * (a * b + w * c)) <= 1 /\
      Rabs (2 * (b * c - w * a)) <= 1 /\ Rabs (2 * (a * c - w * b)) <= 1 /\ Rabs (2 * (b * c + w * a)) <= 1.
    Proof using Un.
      destruct squares as (Sw & Sa & Sb & Sc).
      pose proof (twice a b) as T1. pose proof (twice w c) as T2. pose proof (twice a c) as T3. pose proof (twice w b) as T4.
      pose proof (twice b c) as T5. pose proof (twice w a) as T6.
      apply Rabs_le_inv in T1, T2, T3, T4, T5, T6. repeat split; apply Rabs_le; lra.
    Qed.

    Lemma entry_sum s x X y Y Z : near delta x X -> near delta y Y -> Rabs X <= 1 -> Rabs Y <= 1 -> Z = rpm s X Y -> near (11 * delta) (pm s x y) Z.
    Proof using Hd.
      intros Nx Ny Hx Hy ->. destruct quat_delta as (_ & _ & D1 & D0).
      apply near_more with (2 := pm_near s x X y Y _ _ Nx Ny ltac:(lra) ltac:(lra)). lra.
    Qed.

    Lemma size_sum X Y a1 b1 : Rabs X <= a1 -> Rabs Y <= b1 -> Rabs (X + Y) <= a1 + b1 /\ Rabs (X - Y) <= a1 + b1.
    Proof. intros Hx Hy. apply Rabs_le_inv in Hx, Hy. split; apply Rabs_le; lra. Qed.

    Lemma pivot_sum s1 s2 x X y Y z Z K : near delta x X -> near delta y Y -> near delta z Z ->
      Rabs X <= 1 -> Rabs Y <= 1 -> Rabs Z <= 1 -> K = rpm s2 (rpm s1 X Y) Z + 1 ->
      near (21 * delta) (pm s2 (pm s1 x y) z) (K - 1) /\ near (30 * delta) (add64 (pm s2 (pm s1 x y) z) (b64_of_Z 1)) K.
    Proof using Hd.
      intros Nx Ny Nz Hx Hy Hz ->. destruct quat_delta as (_ & _ & D1 & D0).
      assert (S1 : Rabs (rpm s1 X Y) <= 2) by (destruct (size_sum _ _ _ _ Hx Hy); destruct s1; cbn [rpm]; lra).
      assert (S2 : Rabs (rpm s2 (rpm s1 X Y) Z) <= 3) by (destruct (size_sum _ _ _ _ S1 Hz); destruct s2; cbn [rpm]; lra).
      pose proof (pm_near s1 x X y Y _ _ Nx Ny ltac:(lra) ltac:(lra)) as N1.
      pose proof (pm_near s2 _ _ z Z _ _ N1 Nz ltac:(lra) ltac:(lra)) as N2.
      destruct (of_Z_exact 1) as (F1 & E1); [lia|]. change (real64 (b64_of_Z 1) = 1) in E1.
      assert (O : near 0 (b64_of_Z 1) 1).
      { split; [exact F1|]. rewrite E1. unfold Rminus. rewrite Rplus_opp_r, Rabs_R0. lra. }
      assert (R1 : Rabs 1 <= 1) by (rewrite Rabs_R1; lra).
      pose proof (add_near _ _ _ _ _ _ N2 O ltac:(lra) ltac:(lra)) as N3. split.
      - replace (rpm s2 (rpm s1 X Y) Z + 1 - 1) with (rpm s2 (rpm s1 X Y) Z) by ring. apply near_more with (2 := N2). lra.
      - apply near_more with (2 := N3). lra.
    Qed.

    Let q := qform binary64 add64 sub64 mul64 lt64 hr64 hor64 (b64_of_Z 0) (b64_of_Z 1) m00 m01 m02 m10 m11 m12 m20 m21 m22.

    Lemma quat_branches : exists k, (k = 1 \/ k = - (1)) /\ near (80 * delta) (fst q) (k * w) /\
      near (80 * delta) (fst (fst (snd q))) (k * a) /\ near (80 * delta) (snd (fst (snd q))) (k * b) /\ near (80 * delta) (snd (snd q)) (k * c).
    Proof using Hd Un N00 N01 N02 N10 N11 N12 N20 N21 N22.
      unfold q. clear q. destruct squares as (Sw & Sa & Sb & Sc). destruct parts_one as (Pw & Pa & Pb & Pc).
      destruct entry_sizes as (Z00 & Z11 & Z22 & Z01 & Z02 & Z10 & Z12 & Z20 & Z21). destruct quat_delta as (_ & _ & D1 & D0).
      destruct (of_Z_exact 0) as (F0 & E0); [lia|]. change (real64 (b64_of_Z 0) = 0) in E0.
      destruct (pivot_sum true true m00 _ m11 _ m22 _ (4 * (w * w)) N00 N11 N22 Z00 Z11 Z22) as ((Ft & Dt) & Nt); [cbn [rpm]; lra|].
      destruct (pivot_sum false false m22 _ m00 _ m11 _ (4 * (c * c)) N22 N00 N11 Z22 Z00 Z11) as (_ & Nc); [cbn [rpm]; lra|].
      destruct (pivot_sum false false m11 _ m22 _ m00 _ (4 * (b * b)) N11 N22 N00 Z11 Z22 Z00) as (_ & Nb); [cbn [rpm]; lra|].
      destruct (pivot_sum false false m00 _ m11 _ m22 _ (4 * (a * a)) N00 N11 N22 Z00 Z11 Z22) as (_ & Na); [cbn [rpm]; lra|].
      unfold qform. cbv zeta. cbn [pm] in Nt, Nc, Nb, Na, Ft, Dt.
      rewrite (lt_finite _ _ F0 Ft), E0, (lt_finite _ _ (proj1 N00) (proj1 N11)).
      set (tr := add64 (add64 m00 m11) m22) in *. clearbody tr. apply Rabs_le_inv in Dt.
      assert (V00 := proj2 N00). assert (V11 := proj2 N11). assert (V22 := proj2 N22). apply Rabs_le_inv in V00, V11, V22.
      set (sw := add64 tr (b64_of_Z 1)) in *. set (sc := add64 (sub64 (sub64 m22 m00) m11) (b64_of_Z 1)) in *.
      set (sb := add64 (sub64 (sub64 m11 m22) m00) (b64_of_Z 1)) in *. set (sa := add64 (sub64 (sub64 m00 m11) m22) (b64_of_Z 1)) in *.
      clearbody sw sc sb sa.
      pose proof (fun s x X y Y Z Nx Ny Hx Hy => entry_sum s x X y Y Z Nx Ny Hx Hy) as Es.
      destruct (Rlt_dec 0 (real64 tr)) as [L|L]; cbv iota.
      - assert (K : 0.99 <= 4 * (w * w)) by lra. exists (sign_of w). split; [apply sign_two|]. cbn [fst snd].
        split; [exact (half_near w sw Nt K Pw)|].
        split; [|split]; apply (other_near w sw Nt K Pw); auto;
          [apply (Es false _ _ _ _ _ N21 N12)|apply (Es false _ _ _ _ _ N02 N20)|apply (Es false _ _ _ _ _ N10 N01)]; auto; cbn [rpm]; lra.
      - set (y_first := if Rlt_dec (real64 m00) (real64 m11) then true else false).
        assert (Fm : finite_double (if y_first then m11 else m00)) by (destruct y_first; [apply N11|apply N00]).
        rewrite (lt_finite _ _ Fm (proj1 N22)). unfold y_first. clear Fm y_first.
        destruct (Rlt_dec (real64 m00) (real64 m11)) as [L1|L1]; cbv iota; next_test L2.
        + assert (K : 0.99 <= 4 * (c * c)) by lra. exists (sign_of c). split; [apply sign_two|]. cbn [fst snd].
          split; [|split; [|split; [|exact (half_near c sc Nc K Pc)]]]; apply (other_near c sc Nc K Pc); auto;
          [apply (Es false _ _ _ _ _ N10 N01)|apply (Es true _ _ _ _ _ N02 N20)|apply (Es true _ _ _ _ _ N12 N21)]; auto; cbn [rpm]; lra.
        + assert (K : 0.99 <= 4 * (b * b)) by lra. exists (sign_of b). split; [apply sign_two|]. cbn [fst snd].
          split; [|split; [|split; [exact (half_near b sb Nb K Pb)|]]]; apply (other_near b sb Nb K Pb); auto;
          [apply (Es false _ _ _ _ _ N02 N20)|apply (Es true _ _ _ _ _ N01 N10)|apply (Es true _ _ _ _ _ N21 N12)]; auto; cbn [rpm]; lra.
        + assert (K : 0.99 <= 4 * (c * c)) by lra. exists (sign_of c). split; [apply sign_two|]. cbn [fst snd].
          split; [|split; [|split; [|exact (half_near c sc Nc K Pc)]]]; apply (other_near c sc Nc K Pc); auto;
          [apply (Es false _ _ _ _ _ N10 N01)|apply (Es true _ _ _ _ _ N02 N20)|apply (Es true _ _ _ _ _ N12 N21)]; auto; cbn [rpm]; lra.
        + assert (K : 0.99 <= 4 * (a * a)) by lra. exists (sign_of a). split; [apply sign_two|]. cbn [fst snd].
          split; [|split; [exact (half_near a sa Na K Pa)|split]]; apply (other_near a sa Na K Pa); auto;
          [apply (Es false _ _ _ _ _ N21 N12)|apply (Es true _ _ _ _ _ N10 N01)|apply (Es true _ _ _ _ _ N20 N02)]; auto; cbn [rpm]; lra.
    Qed.
  End Branches.
End Quat.

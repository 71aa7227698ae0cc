(** Contour drawings: which cells pass the distance test. *)
From Coq Require Import Sorted Lia Reals Lra.
From Flocq Require Import Core.Core IEEE754.Binary IEEE754.Bits.
From Verif Require Import Base BaseFacts Floats FloatFacts FloatFacts2 Grid GridFacts DistSpec SdfGen SdfSpec
  SdfGenProofs SdfThms SdfBorderThms CollisionMap TaggedMap TaggedSpec TaggedProofs
  Surfaces Arith Display DisplaySpec ResampleSpec ResampleProofs DisplayProofs DisplayUnique.
Local Open Scope Z_scope.

Section Limit.
  Variable r : binary64.
  Hypothesis Hr : plain_resolution r.
  Let Rf := proj1 Hr.
  Let R := B2R 53 1024 r.

  Lemma R_low : (bpow radix2 (-125) <= R)%R.
  Proof. apply Hr. Qed.
  Lemma R_high : (R <= bpow radix2 126)%R.
  Proof. apply Hr. Qed.

  Lemma limit_bounds : is_nan 24 128 (contour_limit r) = false /\
    (- (191 / 100) * R <= xr32 (contour_limit r) <= - (189 / 100) * R)%R.
  Proof.
    unfold contour_limit. set (c := opp64 (div64 (b64_of_Z 19) (b64_of_Z 10))).
    assert (C : is_finite 53 1024 c = true /\ B2R 53 1024 c = (- (8556839292003942 / 4503599627370496))%R).
    { split; [vm_compute; reflexivity|].
      assert (E : B2FF 53 1024 c = F754_finite true 8556839292003942 (-52)) by (vm_compute; reflexivity).
      rewrite <- FF2R_B2FF, E. cbn. unfold F2R. cbn. lra. }
    destruct C as (Cf & Cv).
    pose proof R_low as RL. pose proof R_high as RH.
    assert (B125 : (0 < bpow radix2 (-125))%R) by apply bpow_gt_0.
    assert (B1022 : (bpow radix2 (-1022) <= bpow radix2 (-125))%R) by (apply bpow_le; lia).
    assert (B126 : (bpow radix2 (-126) <= bpow radix2 (-125))%R) by (apply bpow_le; lia).
    assert (B128 : (bpow radix2 128 = 4 * bpow radix2 126)%R).
    { change 128 with (2 + 126). rewrite bpow_plus. reflexivity. }
    assert (B126p : (0 < bpow radix2 126)%R) by apply bpow_gt_0.
    assert (BBig : (bpow radix2 128 <= bpow radix2 1024)%R) by (apply bpow_le; lia).
    destruct (mult_xr 53 1024 eq_refl eq_refl binop_nan_pl64 c r Cf Rf) as (N & X).
    change (Bmult 53 1024 _ _ binop_nan_pl64 _ c r) with (mul64 c r) in *.
    set (p := (B2R 53 1024 c * B2R 53 1024 r)%R) in *.
    assert (P : (p = - (8556839292003942 / 4503599627370496) * R)%R) by (unfold p; rewrite Cv; reflexivity).
    assert (A : (Rabs p = (8556839292003942 / 4503599627370496) * R)%R).
    { rewrite P, Rabs_mult, (Rabs_pos_eq R) by lra. f_equal. rewrite Rabs_left by lra. lra. }
    pose proof (rel64 p) as K. rewrite A in K.
    assert (K1 : (Rabs (rnd64 p - p) <= / 1000000 * R)%R).
    { eapply Rle_trans; [apply K; lra|]. replace (bpow radix2 (-53)) with (/ 9007199254740992)%R by reflexivity. lra. }
    clear K. apply Rabs_le_inv in K1. unfold xr64 in X.
    change (round radix2 (SpecFloat.fexp 53 1024) ZnearestE p) with (rnd64 p) in X.
    set (p1 := rnd64 p) in *.
    rewrite clamp_in in X by lra.
    destruct (to32_xr _ N) as (N2 & X2). split; auto.
    rewrite X2. unfold xr64. rewrite X.
    assert (A1 : (Rabs p1 <= 2 * R)%R) by (apply Rabs_le; lra).
    assert (A2 : (bpow radix2 (-126) <= Rabs p1)%R) by (rewrite Rabs_left by lra; lra).
    pose proof (rel32 p1 A2) as K. 
    assert (K2 : (Rabs (rnd32 p1 - p1) <= / 1000000 * R)%R).
    { eapply Rle_trans; [apply K|]. replace (bpow radix2 (-24)) with (/ 16777216)%R by reflexivity. lra. }
    apply Rabs_le_inv in K2. rewrite clamp_in by lra. lra.
  Qed.

  Lemma usable_plain : usable_resolution r.
  Proof.
    split; [exact Rf|].
    assert (N : is_nan 53 1024 r = false) by (pose proof Rf; destruct r; auto; discriminate).
    destruct (to32_xr _ N) as (N2 & X). apply gt32_spec; auto.
    rewrite xr_zero32, X, (r_val r Rf). fold R.
    pose proof R_low as RL. pose proof R_high as RH.
    assert (B126 : (bpow radix2 (-126) <= bpow radix2 (-125))%R) by (apply bpow_le; lia).
    assert (B128 : (bpow radix2 128 = 4 * bpow radix2 126)%R).
    { change 128 with (2 + 126). rewrite bpow_plus. reflexivity. }
    assert (B125 : (0 < bpow radix2 (-126))%R) by apply bpow_gt_0.
    assert (K : (Rabs (rnd32 R - R) <= bpow radix2 (-24) * Rabs R)%R).
    { apply rel32. rewrite Rabs_pos_eq; lra. }
    rewrite (Rabs_pos_eq R) in K by lra.
    replace (bpow radix2 (-24)) with (/ 16777216)%R in K by reflexivity.
    apply Rabs_le_inv in K. rewrite clamp_in; lra.
  Qed.

  Lemma rounded_xr z : 1 <= z <= 4 ->
    is_nan 24 128 (rounded_distance (Some z) r) = false /\
    (Rabs (xr32 (rounded_distance (Some z) r) - sqrt (IZR z) * R) <= / 4000000 * R)%R.
  Proof.
    intros Hz. pose proof R_low as RL. pose proof R_high as RH.
    assert (B125 : (0 < bpow radix2 (-125))%R) by apply bpow_gt_0.
    assert (B127 : (bpow radix2 127 = 2 * bpow radix2 126)%R).
    { change 127 with (1 + 126). rewrite bpow_plus. reflexivity. }
    assert (S2 : (0 <= sqrt (IZR z) <= 2)%R).
    { split; [apply sqrt_pos|]. replace 2%R with (sqrt (IZR 4)).
      - apply sqrt_le_1_alt. apply IZR_le. lia.
      - replace (IZR 4) with (2 * 2)%R by (cbn; lra). apply sqrt_square. lra. }
    destruct (rounded_accuracy z r) as (F & K); auto; [lia| |].
    - fold R. nra.
    - destruct (xr_finite 24 128 _ F) as (E & _). split.
      + destruct (rounded_distance (Some z) r); auto; discriminate.
      + unfold xr32. rewrite E. fold R in K. eapply Rle_trans; [exact K|].
        replace (bpow radix2 (-23)) with (/ 8388608)%R by reflexivity. nra.
  Qed.

  Lemma sqrt_bound z : 1 <= z <= 3 -> (sqrt (IZR z) <= 18 / 10)%R.
  Proof.
    intros Hz. apply Rle_trans with (sqrt (324 / 100)).
    - apply sqrt_le_1_alt. apply Rle_trans with (IZR 3); [apply IZR_le; lia|]. lra.
    - replace (324 / 100)%R with ((18 / 10) * (18 / 10))%R by lra. rewrite sqrt_square; lra.
  Qed.

  Lemma within_limit z : 1 <= z <= 3 ->
    lt32 (b32_opp (rounded_distance (Some z) r)) zero32 = true /\
    gt32 (b32_opp (rounded_distance (Some z) r)) (contour_limit r) = true.
  Proof.
    intros Hz. destruct (rounded_xr z) as (N & K); [lia|]. pose proof (sqrt_bound z Hz) as S.
    assert (S1 : (1 <= sqrt (IZR z))%R).
    { rewrite <- sqrt_1. apply sqrt_le_1_alt. apply IZR_le. lia. }
    pose proof R_low as RL. assert (B125 : (0 < bpow radix2 (-125))%R) by apply bpow_gt_0.
    apply Rabs_le_inv in K. destruct (opp32_xr _ N) as (N2 & X). destruct limit_bounds as (NL & L).
    split; [apply lt32_spec|apply gt32_spec]; auto; rewrite ?xr_zero32, X; nra.
  Qed.

  Lemma beyond_limit z : 4 <= z <= 2147483647 ->
    gt32 (b32_opp (rounded_distance (Some z) r)) (contour_limit r) = false.
  Proof.
    intros Hz. destruct (rounded_xr 4) as (N & K); [lia|].
    pose proof R_low as RL. assert (B125 : (0 < bpow radix2 (-125))%R) by apply bpow_gt_0.
    replace (sqrt (IZR 4)) with 2%R in K.
    2:{ symmetry. replace (IZR 4) with (2 * 2)%R by (cbn; lra). apply sqrt_square. lra. }
    apply Rabs_le_inv in K. destruct limit_bounds as (NL & L).
    pose proof (rounded_monotone r usable_plain 4 z) as M.
    assert (Nz : is_nan 24 128 (rounded_distance (Some z) r) = false).
    { pose proof (res_pos r Rf (proj2 usable_plain)) as Rp. destruct (scale_finite r Rf Rp z) as (Na & _); [lia|].
      apply to32_xr; auto. }
    assert (M' : (xr32 (rounded_distance (Some 4%Z) r) <= xr32 (rounded_distance (Some z) r))%R).
    { apply le32_spec; auto. apply M; lia. }
    destruct (opp32_xr _ Nz) as (N2 & X).
    destruct (gt32 _ _) eqn:G; auto. exfalso. apply gt32_spec in G; auto. rewrite X in G. lra.
  Qed.

  Lemma rounded_positive z : 1 <= z <= 2147483647 -> lt32 (rounded_distance (Some z) r) zero32 = false.
  Proof.
    intros Hz. pose proof usable_plain as (_ & G). pose proof (res_pos r Rf G) as Rp.
    destruct (scale_finite r Rf Rp z) as (Na & _ & L); [lia|].
    pose proof (to32_le _ _ (r_nonan r Rf Rp) Na L) as K. cbn [rounded_distance].
    destruct (to32_xr _ Na) as (N2 & _). destruct (to32_xr _ (r_nonan r Rf Rp)) as (N3 & _).
    apply gt32_spec in G; auto.
    destruct (lt32 _ _) eqn:H; auto. apply lt32_spec in H; auto. lra.
  Qed.

  Lemma none_beyond : gt32 (b32_opp (rounded_distance None r)) (contour_limit r) = false.
  Proof.
    destruct limit_bounds as (NL & L). cbn [rounded_distance].
    destruct (opp32_xr inf32 eq_refl) as (N2 & X).
    destruct (gt32 _ _) eqn:G; auto. exfalso. apply gt32_spec in G; auto. rewrite X in G.
    unfold xr32 at 2 in G. cbn [inf32 xr] in G.
    pose proof R_low as RL. pose proof R_high as RH.
    assert (B128 : (bpow radix2 128 = 4 * bpow radix2 126)%R).
    { change 128 with (2 + 126). rewrite bpow_plus. reflexivity. }
    assert (B125 : (0 < bpow radix2 (-125))%R) by apply bpow_gt_0.
    lra.
  Qed.
End Limit.

Lemma near_distsq i j : near_cell i j <-> distsq i j <= 3.
Proof.
  unfold near_cell, distsq.
  generalize (ix i - ix j) (iy i - iy j) (iz i - iz j). intros u v w. split.
  - intros (A & B & C). assert (Q : forall z, Z.abs z <= 1 -> z * z <= 1) by (intros; nia).
    pose proof (Q _ A). pose proof (Q _ B). pose proof (Q _ C). lia.
  - intros H. pose proof (Z.square_nonneg u). pose proof (Z.square_nonneg v). pose proof (Z.square_nonneg w).
    assert (Q : forall z, z * z <= 3 -> Z.abs z <= 1) by (intros z Hz; destruct (Z_le_gt_dec (Z.abs z) 1); auto; exfalso; nia).
    split; [|split]; apply Q; lia.
Qed.

Lemma nearest_exists d P c p : other_class d P c p -> exists z, nearest_other d P c z /\ z <= distsq c p.
Proof.
  intros H. assert (N : forall q, 0 <= distsq c q) by (intros q; unfold distsq; pose proof (Z.square_nonneg (ix c - ix q)); pose proof (Z.square_nonneg (iy c - iy q)); pose proof (Z.square_nonneg (iz c - iz q)); lia).
  remember (Z.to_nat (distsq c p)) as n eqn:En. revert p H En.
  induction n as [n IH] using lt_wf_ind. intros p H En.
  destruct (existsb (fun q => negb (Bool.eqb (P q) (P c)) && (distsq c q <? distsq c p)) (sweep d)) eqn:E.
  - apply existsb_exists in E. destruct E as (q & Hq & E). apply andb_true_iff in E. destruct E as (E1 & E2).
    apply Z.ltb_lt in E2. rewrite sweep_in in Hq.
    destruct (IH (Z.to_nat (distsq c q))) with (p := q) as (z & A & B); auto.
    + subst n. pose proof (N q). pose proof (N p). lia.
    + split; auto. intros F. rewrite F, Bool.eqb_reflx in E1. discriminate.
    + exists z. split; auto. lia.
  - exists (distsq c p). split; [|lia]. split; [eauto|]. intros q (Hq & Dq).
    destruct (Z_le_gt_dec (distsq c p) (distsq c q)); auto. exfalso.
    assert (F : existsb (fun q => negb (Bool.eqb (P q) (P c)) && (distsq c q <? distsq c p)) (sweep d) = true).
    { apply existsb_exists. exists q. rewrite sweep_in. split; auto. apply andb_true_iff. split.
      - destruct (P q), (P c); auto.
      - apply Z.ltb_lt. lia. }
    congruence.
Qed.

Definition fill_test (m : tmap) (id : Z) (i : idx) : bool :=
  occupied true (t_occ (fst (tm_get m i))) && (tobj m i =? id).
Lemma fill_test_spec m id i : fill_test m id i = true <-> object_filled m [id] true i.
Proof.
  unfold fill_test, object_filled, counts_as_filled, occupied, tocc. rewrite andb_true_iff, orb_true_iff, Z.eqb_eq. cbn.
  split.
  - intros (A & B). subst. split; auto. tauto.
  - intros (A & [B|[B|[]]]); [discriminate|]. split; auto. tauto.
Qed.

(** A cell of an object with a field passes the test exactly when it is filled and
    a near cell of the grid is not filled by this object. *)
Lemma field_contour g m s x i :
  tmap_ok m -> size_ok (tm_dims m) -> plain_resolution (g_cx g) ->
  g_cy g = g_cx g -> g_cz g = g_cx g -> in_bounds (tm_dims m) i = true ->
  tm_extract_sdf g m inf32 [tobj m i] true false = Ok (s, x) ->
  (lt32 (fst (sdf_get s i)) zero32 && gt32 (fst (sdf_get s i)) (contour_limit (g_cx g)) = true <->
   contour_cell m i).
Proof.
  intros Hm Hs Hr Hy Hz Hi E. destruct x as [mx mn]. set (id := tobj m i) in *.
  pose proof (usable_plain _ Hr) as Hu.
  destruct (object_distance g m inf32 [id] true s mx mn (fill_test m id) Hm Hs Hu Hy Hz
              (fill_test_spec m id) E i Hi) as (v & G & V1 & V2).
  rewrite G. cbn [fst]. unfold contour_cell. fold id. unfold signed_value.
  assert (Self : object_filled m [id] true i <-> counts_as_filled true (tocc m i)).
  { unfold object_filled. cbn. tauto. }
  assert (NF : forall j, (tobj m j = id /\ counts_as_filled true (tocc m j)) <-> fill_test m id j = true).
  { intros j. rewrite fill_test_spec. unfold object_filled. cbn. split; [intros (->&?); auto|].
    intros (A & [B|[B|[]]]); [discriminate|]. auto. }
  destruct (fill_test m id i) eqn:Fi.
  - assert (Ci : counts_as_filled true (tocc m i)) by (apply (proj1 Self); apply (proj1 (fill_test_spec m id i)); auto).
    rewrite andb_true_iff. split.
    + intros (A & B). split; auto.
      destruct v as [z|]; [|rewrite none_beyond in B by auto; discriminate].
      destruct (V1 z eq_refl) as (Rz & p & (Hp & Dp) & Ez).
      destruct (Z_le_gt_dec z 3) as [L|L]; [|rewrite beyond_limit in B by (auto; lia); discriminate].
      exists p. split; auto. split; [apply near_distsq; lia|]. rewrite NF. rewrite Fi in Dp. auto.
    + intros (_ & j & Hj & Nj & Fj). rewrite NF in Fj. apply near_distsq in Nj.
      assert (O : other_class (tm_dims m) (fill_test m id) i j).
      { split; auto. rewrite Fi. auto. }
      destruct (nearest_exists _ _ _ _ O) as (z & Nz & Lz).
      assert (Vz : v = Some z) by (apply V2; auto; lia).
      destruct (V1 z Vz) as (Rz & _). subst v. apply within_limit; auto. lia.
  - assert (Ci : ~ counts_as_filled true (tocc m i)).
    { intros C. apply (proj2 Self) in C. apply (proj2 (fill_test_spec m id i)) in C. congruence. }
    rewrite andb_true_iff. split; [|tauto]. intros (A & B). exfalso.
    assert (Np : lt32 (rounded_distance v (g_cx g)) zero32 = false).
    { destruct v as [z|]; [|reflexivity]. apply rounded_positive; auto. apply V1; auto. }
    congruence.
Qed.

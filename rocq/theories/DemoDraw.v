(** Where the demonstration script draws its results. *)
From Coq Require Import Reals Lra Lia Psatz.
From Flocq Require Import Core.Core Relative IEEE754.Binary IEEE754.Bits.
From Verif Require Import Base BaseFacts Floats FloatFacts FloatFacts2 Grid GridFacts Arith SdfQuery Python PySpec PyProofs
  Node NodeProofs DoubleSpec DoubleQuery DoubleEstimate DoubleGrid Demo DemoSpec DemoProofs.
Local Open Scope Z_scope.
Local Instance prec24 : Prec_gt_0 24 := eq_refl.

(** ** Coordinates *)
Lemma to32_small v : finite_double v -> (Rabs (real64 v) <= bpow radix2 120)%R ->
  finite_float (b32_of_b64 v) /\ exists e t, (Rabs e <= bpow radix2 (-24))%R /\ (Rabs t <= bpow radix2 (-150))%R /\
    (real32 (b32_of_b64 v) = real64 v * (1 + e) + t)%R.
Proof.
  intros F B. destruct (to32_xr v (finite_not_nan v F)) as (N & X). rewrite (proj1 (finite_xr v F)) in X.
  assert (G : generic_format radix2 (SpecFloat.fexp 24 128) (bpow radix2 120)).
  { apply generic_format_bpow. unfold SpecFloat.fexp, SpecFloat.emin. lia. }
  apply Rabs_le_inv in B.
  assert (Bd : (- bpow radix2 128 < rnd32 (real64 v) < bpow radix2 128)%R).
  { assert (L : (bpow radix2 120 < bpow radix2 128)%R) by (apply bpow_lt; lia). split.
    - apply Rlt_le_trans with (- bpow radix2 120)%R; [lra|].
      rewrite <- (rnd_id 24 128 _ G), <- rnd_opp. apply rnd_le; [reflexivity|apply B].
    - apply Rle_lt_trans with (bpow radix2 120); [|exact L].
      rewrite <- (rnd_id 24 128 _ G). apply rnd_le; [reflexivity|apply B]. }
  rewrite clamp_in in X by exact Bd.
  assert (FF : finite_float (b32_of_b64 v) /\ real32 (b32_of_b64 v) = xr32 (b32_of_b64 v)).
  { unfold finite_float, real32, xr32 in *. destruct (b32_of_b64 v) as [s|s|s p H|s m e H]; try discriminate; auto.
    exfalso. cbn [xr] in X. destruct s; lra. }
  destruct FF as (FF & E). split; [exact FF|].
  destruct (relative_error_N_FLT'_ex radix2 (-149) 24 eq_refl (fun t => negb (Z.even t)) (real64 v)) as (e & t & He & Ht & _ & Ev).
  exists e, t. split; [|split].
  - eapply Rle_trans; [exact He|]. unfold u_ro. cbn -[Rinv IZR Rmult Rdiv]. lra.
  - eapply Rle_trans; [exact Ht|]. change (-149)%Z with (1 + -150)%Z. rewrite bpow_plus. change (bpow radix2 1) with 2%R. lra.
  - rewrite E, X. exact Ev.
Qed.

(** A coordinate of a grid at the origin. *)
Lemma coordinate_zero r o i : ordinary_size r -> finite_double o -> real64 o = 0%R -> 0 <= i <= 2 ^ 31 ->
  double_at (grid_coordinate r o i) (corner r o i) /\ float_at (b32_of_b64 (grid_coordinate r o i)) (corner r o i).
Proof.
  intros (Fr & Rr) Fo Zo Hi. unfold grid_coordinate, corner. rewrite Zo, Rplus_0_r.
  pose proof u_pos as U0. pose proof u_le as U1.
  destruct (of_Z_exact i) as (Fi & Ei); [lia|]. change (real64 (b64_of_Z i) = IZR i) in Ei.
  set (q := (IZR i * real64 r)%R) in *.
  assert (Ri : (0 <= IZR i <= bpow radix2 31)%R) by (split; [apply IZR_le; lia|change (bpow radix2 31) with (IZR (2 ^ 31)); apply IZR_le; lia]).
  assert (Pr : (0 < real64 r)%R) by (pose proof (bpow_gt_0 radix2 (-80)); lra).
  assert (Q0 : (0 <= q)%R) by (apply Rmult_le_pos; lra).
  assert (Q1 : (q <= bpow radix2 111)%R).
  { change 111 with (31 + 80). rewrite bpow_plus. apply Rmult_le_compat; lra. }
  assert (L1 : (bpow radix2 111 <= bpow radix2 1000)%R) by (apply bpow_le; lia).
  destruct (mul64_small (b64_of_Z i) r Fi Fr) as (Fm & e1 & t1 & He1 & Ht1 & Em).
  { rewrite Ei. fold q. rewrite Rabs_pos_eq by exact Q0. lra. }
  rewrite Ei in Em. fold q in Em. change (bpow radix2 (-53)) with u in He1.
  apply Rabs_le_inv in He1. apply Rabs_le_inv in Ht1.
  assert (T1 : (bpow radix2 (-1075) <= / 1000)%R).
  { apply Rle_trans with (bpow radix2 (-10)); [apply bpow_le; lia|cbn -[Rinv IZR]; lra]. }
  assert (L2 : (bpow radix2 112 <= bpow radix2 1000)%R) by (apply bpow_le; lia).
  assert (Big : (1 <= bpow radix2 111)%R) by (change 1%R with (bpow radix2 0); apply bpow_le; lia).
  assert (L112 : (bpow radix2 112 = 2 * bpow radix2 111)%R) by (change 112 with (1 + 111); rewrite bpow_plus; reflexivity).
  assert (Bm : (Rabs (real64 (mul64 (b64_of_Z i) r)) <= 2 * bpow radix2 111)%R).
  { rewrite Em. apply Rabs_le. assert (0 <= q * (1 + e1) <= q * (1 + / 1000))%R by (split; [apply Rmult_le_pos; lra|apply Rmult_le_compat_l; lra]). lra. }
  destruct (sub64_small (mul64 (b64_of_Z i) r) o Fm Fo) as (Fs & e2 & He2 & Es).
  { rewrite Zo, Rminus_0_r. lra. }
  rewrite Zo, Rminus_0_r in Es. change (bpow radix2 (-53)) with u in He2. apply Rabs_le_inv in He2.
  set (v := sub64 (mul64 (b64_of_Z i) r) o) in *.
  set (B1 := bpow radix2 (-1075)) in *. assert (PB1 : (0 < B1)%R) by apply bpow_gt_0.
  assert (Ev : (exists e t, Rabs e <= 3 * u /\ Rabs t <= 2 * B1 /\ real64 v = q * (1 + e) + t)%R).
  { exists (e1 + e2 + e1 * e2)%R, (t1 * (1 + e2))%R. split; [|split].
    - apply Rabs_le. assert (- u <= e1 * e2 <= u)%R by nra. lra.
    - rewrite Rabs_mult. rewrite Rmult_comm. apply Rmult_le_compat; try apply Rabs_pos; apply Rabs_le; lra.
    - rewrite Es, Em. ring. }
  destruct Ev as (e & t & He & Ht & Ev). apply Rabs_le_inv in He. apply Rabs_le_inv in Ht.
  assert (Uv : (4 * u <= bpow radix2 (-50))%R) by (unfold u; cbn -[Rinv IZR]; lra).
  assert (Dv : (Rabs (real64 v - q) <= 3 * u * q + 2 * B1)%R).
  { rewrite Ev. replace (q * (1 + e) + t - q)%R with (q * e + t)%R by ring.
    assert (- (3 * u * q) <= q * e <= 3 * u * q)%R by nra. apply Rabs_le. lra. }
  assert (B1' : (2 * B1 <= bpow radix2 (-1000))%R).
  { unfold B1. change 2%R with (bpow radix2 1). rewrite <- bpow_plus. apply bpow_le. lia. }
  split.
  - split; [exact Fs|]. rewrite (Rabs_pos_eq q) by exact Q0. assert (3 * u * q <= bpow radix2 (-50) * q)%R by (apply Rmult_le_compat_r; lra). lra.
  - destruct (to32_small v Fs) as (Ff & e3 & t3 & He3 & Ht3 & E3).
    { assert (2 * bpow radix2 111 + 1 <= bpow radix2 120)%R.
      { apply Rle_trans with (4 * bpow radix2 111)%R; [lra|]. change 4%R with (bpow radix2 2). rewrite <- bpow_plus. apply bpow_le. lia. }
      apply Rabs_le_inv in Bm. rewrite Es. apply Rabs_le.
      set (w := real64 (mul64 (b64_of_Z i) r)) in *.
      assert (- (2 * bpow radix2 111) * (1 + 2 * u) <= w * (1 + e2) <= 2 * bpow radix2 111 * (1 + 2 * u))%R by nra.
      assert (2 * bpow radix2 111 * (1 + 2 * u) <= 4 * bpow radix2 111)%R by nra.
      assert (4 * bpow radix2 111 <= bpow radix2 120)%R by (change 4%R with (bpow radix2 2); rewrite <- bpow_plus; apply bpow_le; lia).
      lra. }
    split; [exact Ff|]. rewrite (Rabs_pos_eq q) by exact Q0. rewrite E3. apply Rabs_le_inv in Dv. apply Rabs_le_inv in He3. apply Rabs_le_inv in Ht3.
    assert (S24 : (bpow radix2 (-22) = 4 * bpow radix2 (-24))%R) by (change (-22) with (2 + -24); rewrite bpow_plus; reflexivity).
    assert (S149 : (bpow radix2 (-149) = 2 * bpow radix2 (-150))%R) by (change (-149) with (1 + -150); rewrite bpow_plus; reflexivity).
    assert (P24 : (0 < bpow radix2 (-24) <= / 1000)%R) by (split; [apply bpow_gt_0|cbn -[Rinv IZR]; lra]).
    assert (U24 : (8 * u <= bpow radix2 (-24))%R) by (unfold u; cbn -[Rinv IZR]; lra).
    assert (B150 : (4 * B1 <= bpow radix2 (-150))%R).
    { unfold B1. change 4%R with (bpow radix2 2). rewrite <- bpow_plus. apply bpow_le. lia. }
    rewrite S24, S149. set (w := bpow radix2 (-24)) in *. set (x := real64 v) in *. clear Bm Em Es E3 Ev L112 L1 L2 Big.
    assert (Bx : (- (2 * B1) <= x <= 2 * q + 2 * B1)%R) by nra.
    assert (X3 : (- (w * (2 * q + 2 * B1)) <= x * e3 <= w * (2 * q + 2 * B1))%R) by nra.
    assert (3 * u * q <= w * q)%R by (apply Rmult_le_compat_r; lra).
    assert (w * (2 * B1) <= B1)%R by nra.
    apply Rabs_le. replace (x * (1 + e3) + t3 - q)%R with ((x - q) + x * e3 + t3)%R by ring. lra.
Qed.

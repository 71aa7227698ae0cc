(** Points found inside a grid at the origin in doubles are inside. *)
From Coq Require Import Bool Reals Lra Lia.
From Flocq Require Import Core.Core IEEE754.Binary IEEE754.Bits.
From Verif Require Import Base BaseFacts Floats FloatFacts FloatFacts2 Grid GridFacts Arith SdfQuery SdfField QuerySpec QueryReal QueryProofs QueryThms
  DoubleSpec DoubleGrid IdealSpec Frame FrameSpec FrameThms PlaceSpec Origin OriginSpec OriginThms PointThms VolumeSpec VolumeThms Location SdfGen InsideSpec.
Open Scope R_scope.

Local Instance prec53 : Prec_gt_0 53 := eq_refl.
Local Notation rounded := (round radix2 (SpecFloat.fexp 53 1024) ZnearestE).

Lemma div64_round x y : finite_double x -> finite_double y -> real64 y <> 0 -> Rabs (real64 x / real64 y) <= bpow radix2 1000 ->
  finite_double (div64 x y) /\ real64 (div64 x y) = rounded (real64 x / real64 y).
Proof.
  intros Fx Fy Ny B. pose proof (div64_small x y Fx Fy Ny B) as (F & _). split; [exact F|].
  pose proof (Bdiv_correct 53 1024 eq_refl eq_refl binop_nan_pl64 BinarySingleNaN.mode_NE x y Ny) as K.
  cbn [BinarySingleNaN.round_mode] in K. rewrite Rlt_bool_true in K.
  - destruct K as (K1 & _). exact K1.
  - assert (G : generic_format radix2 (SpecFloat.fexp 53 1024) (bpow radix2 1000)).
    { apply generic_format_bpow. unfold SpecFloat.fexp, SpecFloat.emin. lia. }
    apply Rabs_le_inv in B. apply Rle_lt_trans with (bpow radix2 1000); [|apply bpow_lt; lia]. apply Rabs_le. split.
    + rewrite <- (rnd_id 53 1024 _ G), <- rnd_opp. apply rnd_le; [reflexivity|apply B].
    + rewrite <- (rnd_id 53 1024 _ G). apply rnd_le; [reflexivity|apply B].
Qed.

Section Axis.
  Variables (r v : binary64).
  Hypotheses (Fr : finite_double r) (Rr : bpow radix2 (-100) <= real64 r <= bpow radix2 100)
    (Fv : finite_double v) (Bv : Rabs (real64 v) <= bpow radix2 800).

  Lemma r_above : 0 < real64 r.
  Proof using Rr. pose proof (bpow_gt_0 radix2 (-100)). lra. Qed.

  Lemma quotient_round : finite_double (div64 v r) /\ real64 (div64 v r) = rounded (real64 v / real64 r).
  Proof using All.
    pose proof r_above as P. apply div64_round; auto; [lra|]. unfold Rdiv. rewrite Rabs_mult, (Rabs_inv (real64 r)), (Rabs_pos_eq (real64 r)) by lra.
    apply Rle_trans with (bpow radix2 800 * bpow radix2 100).
    - apply Rmult_le_compat; auto using Rabs_pos; [left; apply Rinv_0_lt_compat; auto|].
      rewrite <- (Rinv_inv (bpow radix2 100)). apply Rinv_le; [apply Rinv_0_lt_compat, bpow_gt_0|]. rewrite <- bpow_opp. apply Rr.
    - rewrite <- bpow_plus. apply bpow_le. lia.
  Qed.

  Lemma floor_beyond n : (0 <= n <= 2147483647)%Z -> real64 r * IZR n <= real64 v -> (n <= floor64 (div64 v r))%Z.
  Proof using All.
    intros Hn H. pose proof r_above as P. destruct quotient_round as (F & E). destruct (floor_spec _ F) as (_ & L). rewrite E in L.
    assert (G : generic_format radix2 (SpecFloat.fexp 53 1024) (IZR n)).
    { destruct (of_Z_exact n) as (_ & En); [lia|]. rewrite <- En. apply (generic_format_B2R 53 1024). }
    assert (IZR n <= rounded (real64 v / real64 r)).
    { rewrite <- (rnd_id 53 1024 _ G) at 1. apply rnd_le; [reflexivity|]. apply Rmult_le_reg_r with (1 := P).
      unfold Rdiv. rewrite Rmult_assoc, Rinv_l by lra. lra. }
    apply Z.lt_succ_r. apply lt_IZR. rewrite succ_IZR. lra.
  Qed.

  Lemma floor_below : real64 v <= - (real64 r * bpow radix2 (-1074)) -> (floor64 (div64 v r) < 0)%Z.
  Proof using All.
    intros H. pose proof r_above as P. destruct quotient_round as (F & E). destruct (floor_spec _ F) as (L & _). rewrite E in L.
    assert (G : generic_format radix2 (SpecFloat.fexp 53 1024) (bpow radix2 (-1074))).
    { apply generic_format_bpow. unfold SpecFloat.fexp, SpecFloat.emin. lia. }
    assert (rounded (real64 v / real64 r) <= - bpow radix2 (-1074)).
    { rewrite <- (rnd_id 53 1024 _ G), <- rnd_opp. apply rnd_le; [reflexivity|]. apply Rmult_le_reg_r with (1 := P).
      unfold Rdiv. rewrite Rmult_assoc, Rinv_l by lra. lra. }
    pose proof (bpow_gt_0 radix2 (-1074)). apply lt_IZR. lra.
  Qed.

  (** No double lies strictly between 0 and 2^-1074. *)
  Lemma negative_gap : real64 v < 0 -> real64 v <= - bpow radix2 (-1074).
  Proof using Fv.
    clear Bv. intros H. destruct v as [s|s|s p Hp|s m e Hm]; try discriminate Fv; [unfold real64 in H; cbn [B2R] in H; lra|].
    unfold real64 in *. cbn [B2R] in *.
    assert (He : (-1074 <= e)%Z).
    { pose proof (proj1 (andb_prop _ _ Hm)) as K. unfold SpecFloat.canonical_mantissa in K.
      apply Zeq_bool_eq in K. unfold SpecFloat.fexp, SpecFloat.emin in K. lia. }
    destruct s; [|pose proof (F2R_gt_0 radix2 (Float radix2 (Z.pos m) e) eq_refl); cbn [SpecFloat.cond_Zopp] in H; lra].
    cbn [SpecFloat.cond_Zopp]. rewrite F2R_Zopp. apply Ropp_le_contravar. apply Rle_trans with (bpow radix2 e); [apply bpow_le; exact He|].
    unfold F2R. cbn [Fnum Fexp]. rewrite <- (Rmult_1_l (bpow radix2 e)) at 1. apply Rmult_le_compat_r; [apply bpow_ge_0|]. apply IZR_le. lia.
  Qed.

  Lemma axis_inside n : real64 r <= 1 -> (0 <= n <= 2147483647)%Z -> (0 <= floor64 (div64 v r) < n)%Z -> 0 <= real64 v < real64 r * IZR n.
  Proof using All.
    intros R1 Hn H. split; apply Rnot_lt_le || apply Rnot_le_lt; intros C.
    - pose proof (negative_gap C) as K. assert ((floor64 (div64 v r) < 0)%Z); [|lia]. apply floor_below.
      pose proof (bpow_gt_0 radix2 (-1074)). apply Rle_trans with (1 := K). apply Ropp_le_contravar.
      rewrite <- (Rmult_1_l (bpow radix2 (-1074))) at 2. apply Rmult_le_compat_r; lra.
    - pose proof (floor_beyond n Hn C). lia.
  Qed.
End Axis.

Lemma exact_axis (r v : R) i n : 0 < r -> r * IZR i <= v < r * (IZR i + 1) -> 0 <= v < r * IZR n -> (0 <= i < n)%Z.
Proof.
  intros P (A & B) (C & D).
  assert (0 < IZR i + 1) by (apply Rmult_lt_reg_l with (1 := P); lra). assert (IZR i < IZR n) by (apply Rmult_lt_reg_l with (1 := P); lra).
  rewrite <- plus_IZR in H. apply lt_IZR in H. apply lt_IZR in H0. lia.
Qed.

Lemma found_inside d r c : finite_double r -> bpow radix2 (-100) <= real64 r <= 1 -> (nx d <= 2147483647 /\ ny d <= 2147483647 /\ nz d <= 2147483647)%Z ->
  usable_point c -> in_bounds d (index_of (ieee_pose r) c) = true ->
  (0 <= real64 (vx c) < real64 r * IZR (nx d) /\ 0 <= real64 (vy c) < real64 r * IZR (ny d) /\ 0 <= real64 (vz c) < real64 r * IZR (nz d)) /\
  in_bounds d (index_of (plain_pose (real64 r)) (real_vec c)) = true.
Proof.
  intros Fr (R0 & R1) (Dx & Dy & Dz) ((Fx & Fy & Fz) & Bx & By & Bz) H. apply in_bounds_spec in H. destruct H as (Hx & Hy & Hz).
  assert (Rr : bpow radix2 (-100) <= real64 r <= bpow radix2 100).
  { split; [exact R0|]. apply Rle_trans with (1 := R1). change 1 with (bpow radix2 0). apply bpow_le. lia. }
  assert (Rp : 0 < real64 r) by exact (r_above r Rr).
  assert (Kx := axis_inside r (vx c) Fr Rr Fx Bx (nx d) R1 ltac:(lia) Hx).
  assert (Ky := axis_inside r (vy c) Fr Rr Fy By (ny d) R1 ltac:(lia) Hy).
  assert (Kz := axis_inside r (vz c) Fr Rr Fz Bz (nz d) R1 ltac:(lia) Hz).
  split; [auto|]. pose proof (plain_geometry _ Rp) as G. apply in_bounds_spec. split; [|split].
  - exact (exact_axis _ _ _ _ Rp (g_index_x _ _ G (real_vec c)) Kx).
  - exact (exact_axis _ _ _ _ Rp (g_index_y _ _ G (real_vec c)) Ky).
  - exact (exact_axis _ _ _ _ Rp (g_index_z _ _ G (real_vec c)) Kz).
Qed.

Lemma flag_true f (p : pose ieee) loc e : estimate_distance f p loc = Ok (e, true) -> in_bounds (f_dims f) (cell_at p loc) = true.
Proof. unfold estimate_distance. cbv zeta. unfold cell_at. destruct (in_bounds _ _) eqn:B; [auto|]. intros H. discriminate H. Qed.

Lemma flag_found f (p : pose ieee) loc : in_bounds (f_dims f) (cell_at p loc) = true -> exists e, estimate_distance f p loc = Ok (e, true).
Proof.
  intros B. unfold estimate_distance. cbv zeta. unfold cell_at in B. rewrite B.
  destruct (estimate_ok (A := ieee) f p (to_grid p loc) _ B) as (e & E). exists e. rewrite E. reflexivity.
Qed.

Section Placed.
  Variables (s : sdf) (N : R) (T : transform ieee) (P : pose reals) (t : rvec) (delta eta S : R).
  Let d := sdf_dims s.
  Let r := s_res s.
  Let p := placed_by r T.
  Hypothesis Fr : finite_double r.
  Hypothesis Lr : bpow radix2 (-100) <= real64 r.
  Hypothesis HN : N <= bpow radix2 30.
  Hypothesis Pd : (0 < nx d /\ 0 < ny d /\ 0 < nz d)%Z.
  Hypothesis St : stands d r N T P t delta eta S.
  Variable loc : vec ieee.
  Hypothesis Hl : point_within S loc.

  Lemma small_axis (n : Z) : IZR n <= N -> (n <= 2147483647)%Z.
  Proof using HN. clear - HN. intros H. apply le_IZR. apply Rle_trans with (bpow radix2 30); [lra|cbn; lra]. Qed.

  Lemma seen_bounded : bounded_by (bpow radix2 800) (real_vec (to_grid p loc)).
  Proof using Lr Pd St Hl.
    pose proof St as (_ & _ & SB & G & RP & D & Ho & _).
    destruct (inverse_follows (real64 r) P t delta eta S T SB G RP D Ho) as (Us & Fo).
    destruct (placed_point r (inverse_of T) T (qw (quat_of T)) (qv (quat_of T)) P S _ SB Us Fo loc Hl) as (_ & (Bx & By & Bz) & _).
    assert (8 * S <= bpow radix2 800).
    { apply Rle_trans with (bpow radix2 3 * bpow radix2 100); [change (bpow radix2 3) with 8; lra|]. rewrite <- bpow_plus. apply bpow_le. lia. }
    split; [|split]; (eapply Rle_trans; [eassumption|assumption]).
  Qed.

  Lemma placed_axis (v : binary64) (x : R) (n : Z) : finite_double v -> Rabs (real64 v) <= bpow radix2 800 -> (0 < n)%Z -> IZR n <= N ->
    Rabs (real64 v - x) <= real64 r / 1000000 -> (0 <= floor64 (div64 v r) < n)%Z ->
    - (real64 r / 500000) <= x < real64 r * IZR n + real64 r / 500000.
  Proof using Fr Lr HN St.
    clear Hl loc. intros Fv Bv N0 Hn A H. pose proof (small_axis n Hn) as Sn. pose proof (r_pos r Lr) as P0. apply Rabs_le_inv in A.
    assert (Rr : bpow radix2 (-100) <= real64 r <= bpow radix2 100).
    { split; [exact Lr|]. destruct St as (Hr & _). apply Rle_trans with (1 := Hr). apply bpow_le. lia. }
    assert (Tn : real64 r * bpow radix2 (-1074) <= real64 r / 1000000).
    { apply Rmult_le_compat_l; [lra|]. apply Rle_trans with (bpow radix2 (-20)); [apply bpow_le; lia|cbn; lra]. }
    split.
    - apply Rnot_lt_le. intros C. assert ((floor64 (div64 v r) < 0)%Z); [|lia]. apply floor_below; auto. lra.
    - apply Rnot_le_lt. intros C. assert ((n <= floor64 (div64 v r))%Z); [|lia]. apply floor_beyond; auto; [lia|lra].
  Qed.

  Lemma placed_inside : in_bounds d (cell_at p loc) = true ->
    in_the_box (real64 r / 500000) (far_corner d (real64 r)) (to_grid P (real_vec loc)).
  Proof using All.
    intros H. destruct (seen_point s N T P t delta eta S Lr Pd St loc Hl) as ((Fx & Fy & Fz) & Ax & Ay & Az).
    fold r p in Fx, Fy, Fz, Ax, Ay, Az. destruct seen_bounded as (Bx & By & Bz). pose proof St as (_ & (Nx & Ny & Nz) & _).
    apply in_bounds_spec in H. destruct H as (Hx & Hy & Hz). destruct Pd as (X & Y & Z).
    split; [|split].
    - exact (placed_axis _ _ _ Fx Bx X Nx Ax Hx).
    - exact (placed_axis _ _ _ Fy By Y Ny Ay Hy).
    - exact (placed_axis _ _ _ Fz Bz Z Nz Az Hz).
  Qed.

  Lemma placed_found : in_the_box (- (real64 r / 50000)) (far_corner d (real64 r)) (to_grid P (real_vec loc)) ->
    in_bounds d (cell_at p loc) = true.
  Proof using All.
    intros (Kx & Ky & Kz). destruct (seen_point s N T P t delta eta S Lr Pd St loc Hl) as ((Fx & Fy & Fz) & Ax & Ay & Az).
    fold r p in Fx, Fy, Fz, Ax, Ay, Az. pose proof St as (_ & (Nx & Ny & Nz) & _). destruct Pd as (X & Y & Z). pose proof (r_pos r Lr) as P0.
    unfold far_corner in Kx, Ky, Kz. cbn [vx vy vz] in Kx, Ky, Kz.
    apply Rabs_le_inv in Ax. apply Rabs_le_inv in Ay. apply Rabs_le_inv in Az. cbn [real_vec vx vy vz] in Ax, Ay, Az.
    apply in_bounds_spec. split; [|split].
    - apply (axis_in_range r (vx (to_grid p loc)) (nx d) Fr P0 Fx); [lia|lra|lra].
    - apply (axis_in_range r (vy (to_grid p loc)) (ny d) Fr P0 Fy); [lia|lra|lra].
    - apply (axis_in_range r (vz (to_grid p loc)) (nz d) Fr P0 Fz); [lia|lra|lra].
  Qed.
End Placed.

(** Smoothed gradients in doubles. *)
From Coq Require Import Reals Lra Lia Psatz.
From Flocq Require Import Core.Core Relative Plus_error Mult_error IEEE754.Binary IEEE754.Bits.
From Verif Require Import Base Floats FloatFacts FloatFacts2 Grid GridFacts Arith SdfQuery SdfField QuerySpec QueryProofs
  QueryWitness DisplaySdf DoubleSpec DoubleQuery DoubleCase DoubleEstimate DoubleGrid SmoothSpec.
Open Scope R_scope.

Local Instance prec53 : Prec_gt_0 53 := eq_refl.

(** ** The ends of the window *)
Lemma window_ends x w : finite_double x -> finite_double w -> bpow radix2 (-200) <= real64 w <= bpow radix2 700 ->
  Rabs (real64 x) <= bpow radix2 50 * real64 w ->
  finite_double (sub64 x w) /\ finite_double (add64 x w) /\
  Rabs (real64 (sub64 x w) - (real64 x - real64 w)) <= real64 w / 4 /\
  Rabs (real64 (add64 x w) - (real64 x + real64 w)) <= real64 w / 4.
Proof.
  intros Fx Fw Hw Hx. pose proof (bpow_gt_0 radix2 (-200)) as P0.
  assert (B : bpow radix2 50 * real64 w + real64 w <= bpow radix2 1000).
  { apply Rle_trans with (bpow radix2 51 * bpow radix2 700).
    - replace (bpow radix2 51) with (bpow radix2 50 * 2) by (change 51%Z with (50 + 1)%Z; rewrite bpow_plus; reflexivity).
      assert (1 <= bpow radix2 50) by (change 1 with (bpow radix2 0); apply bpow_le; lia). nra.
    - rewrite <- bpow_plus. apply bpow_le. lia. }
  assert (U : u * (bpow radix2 50 * real64 w + real64 w) <= real64 w / 4).
  { assert (E : u * bpow radix2 50 = / 8) by (unfold u; rewrite <- bpow_plus; reflexivity).
    pose proof u_le as U1. replace (u * (bpow radix2 50 * real64 w + real64 w)) with (u * bpow radix2 50 * real64 w + u * real64 w) by ring.
    rewrite E. nra. }
  assert (A1 : Rabs (real64 x - real64 w) <= bpow radix2 50 * real64 w + real64 w).
  { unfold Rminus. eapply Rle_trans; [apply Rabs_triang|]. rewrite Rabs_Ropp, (Rabs_pos_eq (real64 w)); lra. }
  assert (A2 : Rabs (real64 x + real64 w) <= bpow radix2 50 * real64 w + real64 w).
  { eapply Rle_trans; [apply Rabs_triang|]. rewrite (Rabs_pos_eq (real64 w)); lra. }
  destruct (sub64_small x w Fx Fw) as (F1 & e1 & He1 & E1); [lra|].
  destruct (add64_small x w Fx Fw) as (F2 & e2 & He2 & E2); [lra|].
  change (bpow radix2 (-53)) with u in He1.
  split; [exact F1|]. split; [exact F2|]. rewrite E1, E2. split.
  - replace ((real64 x - real64 w) * (1 + e1) - (real64 x - real64 w)) with (e1 * (real64 x - real64 w)) by ring.
    rewrite Rabs_mult. eapply Rle_trans; [|exact U]. apply Rmult_le_compat; auto using Rabs_pos.
  - replace ((real64 x + real64 w) * (1 + e2) - (real64 x + real64 w)) with (e2 * (real64 x + real64 w)) by ring.
    rewrite Rabs_mult. eapply Rle_trans; [|exact U]. apply Rmult_le_compat; auto using Rabs_pos.
Qed.

(** ** The quotient of two differences *)
Lemma quotient_of_differences ea eb a b Ea Eb W d :
  finite_double ea -> finite_double eb -> finite_double a -> finite_double b ->
  bpow radix2 (-100) <= W <= bpow radix2 100 -> bpow radix2 (-42) * W <= d <= 16 * W ->
  Rabs Ea <= 27 * W -> Rabs Eb <= 27 * W -> Rabs (real64 ea - Ea) <= d -> Rabs (real64 eb - Eb) <= d ->
  bpow radix2 (-202) <= real64 b - real64 a <= bpow radix2 702 ->
  let g := div64 (sub64 eb ea) (sub64 b a) in
  finite_double g /\ Rabs (real64 g - (Eb - Ea) / (real64 b - real64 a)) <= 3 * d / (real64 b - real64 a).
Proof.
  intros Fea Feb Fa Fb HW Hd Ba Bb Ha Hb Hr. cbv zeta. pose proof u_pos as U0. pose proof u_le as U1.
  pose proof (bpow_gt_0 radix2 (-202)) as P0. pose proof (bpow_gt_0 radix2 (-100)) as P1.
  set (run := real64 b - real64 a) in *. set (num := real64 eb - real64 ea).
  apply Rabs_le_inv in Ba. apply Rabs_le_inv in Bb. apply Rabs_le_inv in Ha. apply Rabs_le_inv in Hb.
  assert (Bn : Rabs num <= 86 * W) by (apply Rabs_le; unfold num; lra).
  assert (W1000 : 86 * W <= bpow radix2 107).
  { apply Rle_trans with (bpow radix2 7 * bpow radix2 100).
    - change (bpow radix2 7) with 128. lra.
    - rewrite <- bpow_plus. apply bpow_le. lia. }
  destruct (sub64_small eb ea Feb Fea) as (F1 & e1 & He1 & E1).
  { fold num. eapply Rle_trans; [exact Bn|]. eapply Rle_trans; [exact W1000|]. apply bpow_le. lia. }
  destruct (sub64_small b a Fb Fa) as (F2 & e2 & He2 & E2).
  { fold run. rewrite Rabs_pos_eq by lra. eapply Rle_trans; [exact (proj2 Hr)|]. apply bpow_le. lia. }
  change (bpow radix2 (-53)) with u in He1, He2. fold num in E1. fold run in E2.
  pose proof He1 as He1'. pose proof He2 as He2'. apply Rabs_le_inv in He1'. apply Rabs_le_inv in He2'.
  assert (N2 : 0 < 1 + e2) by lra.
  assert (Q : real64 (sub64 eb ea) / real64 (sub64 b a) = num / run * ((1 + e1) / (1 + e2))).
  { rewrite E1, E2. field. split; lra. }
  set (k := (1 + e1) / (1 + e2)) in *.
  assert (Ek : k * (1 + e2) = 1 + e1) by (unfold k; field; lra).
  assert (Bk : Rabs (k - 1) <= 3 * u).
  { apply Rabs_le. assert (Kd : (k - 1) * (1 + e2) = e1 - e2) by lra. split.
    - apply Rmult_le_reg_r with (1 + e2); [lra|]. rewrite Kd. nra.
    - apply Rmult_le_reg_r with (1 + e2); [lra|]. rewrite Kd. nra. }
  assert (Ir : 0 < / run) by (apply Rinv_0_lt_compat; lra).
  assert (Ir2 : / run <= bpow radix2 202).
  { rewrite <- (Rinv_inv (bpow radix2 202)). apply Rinv_le; [apply Rinv_0_lt_compat, bpow_gt_0|].
    rewrite <- bpow_opp. apply Hr. }
  assert (Bq : Rabs (num / run) <= bpow radix2 107 * bpow radix2 202).
  { unfold Rdiv. rewrite Rabs_mult, (Rabs_pos_eq (/ run)) by lra. apply Rmult_le_compat; auto using Rabs_pos; lra. }
  destruct (div64_small (sub64 eb ea) (sub64 b a) F1 F2) as (F & e & t & He & Ht & E).
  { rewrite E2. assert (0 < run * (1 + e2)) by (apply Rmult_lt_0_compat; lra). lra. }
  { rewrite Q, Rabs_mult. apply Rle_trans with (bpow radix2 107 * bpow radix2 202 * bpow radix2 1).
    - apply Rmult_le_compat; auto using Rabs_pos. apply Rabs_le_inv in Bk. change (bpow radix2 1) with 2. apply Rabs_le. lra.
    - rewrite <- !bpow_plus. apply bpow_le. lia. }
  split; [exact F|]. rewrite E, Q.
  replace (num / run * k * (1 + e) + t - (Eb - Ea) / run)
    with ((num * (k * (1 + e) - 1) + (num - (Eb - Ea)) + t * run) / run) by (field; lra).
  unfold Rdiv. rewrite Rabs_mult, (Rabs_pos_eq (/ run)) by lra. apply Rmult_le_compat_r; [lra|].
  assert (Bke : Rabs (k * (1 + e) - 1) <= 5 * u).
  { replace k with (1 + (k - 1)) by ring. eapply Rle_trans; [exact (factor_product _ _ _ _ Bk He)|]. nra. }
  assert (T1 : Rabs (num * (k * (1 + e) - 1)) <= 86 * W * (5 * u)).
  { rewrite Rabs_mult. apply Rmult_le_compat; auto using Rabs_pos. }
  assert (T2 : Rabs (num - (Eb - Ea)) <= 2 * d) by (apply Rabs_le; unfold num; lra).
  assert (T3 : Rabs (t * run) <= u * W).
  { rewrite Rabs_mult, (Rabs_pos_eq run) by lra. apply Rle_trans with (bpow radix2 (-1075) * bpow radix2 702).
    - apply Rmult_le_compat; auto using Rabs_pos; lra.
    - apply Rle_trans with (bpow radix2 (-53) * bpow radix2 (-100)).
      + rewrite <- !bpow_plus. apply bpow_le. lia.
      + change (bpow radix2 (-53)) with u. apply Rmult_le_compat_l; lra. }
  assert (Us : bpow radix2 (-42) = 2048 * u).
  { unfold u. change (-42)%Z with (11 + -53)%Z. rewrite bpow_plus. reflexivity. }
  rewrite Us in Hd. assert (0 <= u * W) by (apply Rmult_le_pos; lra).
  eapply Rle_trans; [apply Rabs_triang|]. eapply Rle_trans; [apply Rplus_le_compat_r, Rabs_triang|]. lra.
Qed.

Lemma interpolated_bound (f : field ieee) p a W E :
  bpow radix2 (-100) <= real64 (f_res f) <= bpow radix2 100 ->
  (forall j, in_bounds (f_dims f) j = true -> Rabs (real32 (value f j)) + real64 (f_res f) <= W) ->
  lies_in (real64 (f_res f)) (real_vec (to_grid p a)) (index_of p (to_grid p a)) ->
  interpolated f p a E -> inside f p a -> Rabs E <= 27 * W.
Proof.
  intros Rr Vals (Qx & Qy & Qz) (xl & xu & yl & yu & zl & zu & Ax & Ay & Az & ->) In.
  cbn [real_vec vx vy vz] in Qx, Qy, Qz.
  destruct Ax as (Xr & Xi & Xu & _). destruct Ay as (Yr & Yi & Yu & _). destruct Az as (Zr & Zi & Zu & _).
  pose proof (bpow_gt_0 radix2 (-100)) as P.
  assert (C : forall x y z, (x = xl \/ x = xu) -> (y = yl \/ y = yu) -> (z = zl \/ z = zu) ->
              Rabs (centered_real f (I x y z)) <= W).
  { intros x y z Hx Hy Hz. assert (In8 : in_bounds (f_dims f) (I x y z) = true).
    { apply in_bounds_spec. cbn [ix iy iz]. lia. }
    pose proof (Vals _ In8) as V. unfold centered_real. set (v := real32 _) in *.
    destruct (Rle_dec 0 v); [unfold Rminus|]; (eapply Rle_trans; [apply Rabs_triang|]);
      rewrite ?Rabs_Ropp, (Rabs_pos_eq (real64 (f_res f) / 2)); lra. }
  assert (W0 : 0 <= W).
  { eapply Rle_trans; [apply Rabs_pos|]. apply (C xl yl zl); auto. }
  pose proof (t_range (f_res f) _ _ _ xl xu Rr Xi Xu Qx) as Tx.
  pose proof (t_range (f_res f) _ _ _ yl yu Rr Yi Yu Qy) as Ty.
  pose proof (t_range (f_res f) _ _ _ zl zu Rr Zi Zu Qz) as Tz.
  unfold interpolation. cbn [real_vec vx vy vz].
  replace (27 * W) with (3 * (3 * (3 * W))) by ring.
  repeat first [apply between_bound; [lra|lra| |] | apply C; auto].
Qed.

(** ** One axis *)
Section Axis.
  Variables (f : field ieee) (p : pose ieee) (W d : R).
  Hypotheses (HW : bpow radix2 (-100) <= W <= bpow radix2 100) (Hd : bpow radix2 (-42) * W <= d <= 16 * W).

  (** What the estimate at a point comes to. *)
  Definition good (a : vec ieee) (e : binary64 * bool) : Prop :=
    (snd e = true <-> inside f p a) /\
    (snd e = true -> finite_double (fst e) /\
       exists E, interpolated f p a E /\ Rabs E <= 27 * W /\ Rabs (real64 (fst e) - E) <= d).

  Lemma slope_of (c : vec ieee -> binary64) a b ea eb : finite_double (c a) -> finite_double (c b) ->
    bpow radix2 (-202) <= real64 (c b) - real64 (c a) <= bpow radix2 702 ->
    good a ea -> good b eb -> snd ea = true -> snd eb = true ->
    slope_between f p c a b (3 * d) (div64 (sub64 (fst eb) (fst ea)) (sub64 (c b) (c a))).
  Proof using HW Hd.
    intros Fa Fb Hr (_ & Ga) (_ & Gb) Sa Sb. destruct (Ga Sa) as (Fea & Ea & Ia & Ba & Da).
    destruct (Gb Sb) as (Feb & Eb & Ib & Bb & Db).
    destruct (quotient_of_differences _ _ _ _ Ea Eb W d Fea Feb Fa Fb HW Hd Ba Bb Da Db Hr) as (F & Err).
    pose proof (bpow_gt_0 radix2 (-202)).
    split; [exact F|]. split; [lra|]. exists Ea, Eb. auto.
  Qed.

  Lemma smooth_axis (c : vec ieee -> binary64) a m b ea em eb : finite_double (c a) -> finite_double (c m) -> finite_double (c b) ->
    bpow radix2 (-202) <= real64 (c m) - real64 (c a) -> bpow radix2 (-202) <= real64 (c b) - real64 (c m) ->
    real64 (c b) - real64 (c a) <= bpow radix2 702 ->
    good a ea -> good m em -> good b eb -> inside f p m ->
    (inside f p a \/ inside f p b ->
     exists g a' b', @axis_smooth_gradient ieee em ea eb (c m) (c a) (c b) = Ok g /\
       window_points f p a m b a' b' /\ slope_between f p c a' b' (3 * d) g) /\
    (~ inside f p a -> ~ inside f p b ->
     @axis_smooth_gradient ieee em ea eb (c m) (c a) (c b) =
       Throw "Window size for GetSmoothGradient is too large for SDF").
  Proof using HW Hd.
    intros Fa Fm Fb R1 R2 R3 Ga Gm Gb Im. pose proof (bpow_gt_0 radix2 (-202)) as P0.
    pose proof (proj1 Ga) as Sa. pose proof (proj1 Gb) as Sb. pose proof (proj1 Gm) as Sm.
    assert (Tm : snd em = true) by (apply Sm; exact Im).
    destruct ea as [xa ta], em as [xm tm], eb as [xb tb]. cbn [snd] in Sa, Sb, Sm, Tm. subst tm.
    unfold axis_smooth_gradient. cbn [fst snd andb dsub ddiv ieee].
    destruct ta; destruct tb; cbn [andb].
    - assert (Ia : inside f p a) by (apply Sa; reflexivity). assert (Ib : inside f p b) by (apply Sb; reflexivity).
      split; [intros _|intros K; contradiction]. eexists _, a, b. split; [reflexivity|]. split; [split; auto|].
      apply (slope_of c a b (xa, true) (xb, true)); auto. lra.
    - assert (Ia : inside f p a) by (apply Sa; reflexivity).
      assert (Ib : ~ inside f p b) by (intros K; apply Sb in K; discriminate).
      split; [intros _|intros K; contradiction]. eexists _, a, m. split; [reflexivity|]. split; [split; auto|].
      apply (slope_of c a m (xa, true) (xm, true)); auto. lra.
    - assert (Ia : ~ inside f p a) by (intros K; apply Sa in K; discriminate).
      assert (Ib : inside f p b) by (apply Sb; reflexivity).
      split; [intros _|intros _ K; contradiction]. eexists _, m, b. split; [reflexivity|]. split; [split; auto|].
      apply (slope_of c m b (xm, true) (xb, true)); auto. lra.
    - assert (Ia : ~ inside f p a) by (intros K; apply Sa in K; discriminate).
      assert (Ib : ~ inside f p b) by (intros K; apply Sb in K; discriminate).
      split; [intros [K|K]; contradiction|intros _ _; reflexivity].
  Qed.
End Axis.

(** ** The gradient of a field at the origin *)
Section Gradient.
  Variables (f : field ieee) (x y z window : binary64) (N W : R).
  Notation r := (f_res f).
  Notation p := (ieee_pose r).
  Notation w := (b64_abs window).
  Notation loc := (@V ieee x y z).
  Notation d := ((bpow radix2 (-42) + 128 * (4 * (N + 1) * u)) * W).
  Hypotheses (Fr : finite_double r) (Rr : bpow radix2 (-100) <= real64 r <= bpow radix2 100)
    (HW : W <= bpow radix2 100)
    (Vals : forall j, in_bounds (f_dims f) j = true ->
       finite_float (value f j) /\ Rabs (real32 (value f j)) + real64 r <= W)
    (SN : 4 * (N + 1) * u <= 1 / 16)
    (Hnx : IZR (nx (f_dims f)) <= N) (Hny : IZR (ny (f_dims f)) <= N) (Hnz : IZR (nz (f_dims f)) <= N)
    (Fx : finite_double x) (Fy : finite_double y) (Fz : finite_double z) (Fw : finite_double window)
    (Bw : bpow radix2 (-200) <= Rabs (real64 window) <= bpow radix2 700)
    (Bx : Rabs (real64 x) <= bpow radix2 50 * Rabs (real64 window))
    (By : Rabs (real64 y) <= bpow radix2 50 * Rabs (real64 window))
    (Bz : Rabs (real64 z) <= bpow radix2 50 * Rabs (real64 window))
    (Hi : inside f p loc).

  Lemma abs_window : finite_double w /\ real64 w = Rabs (real64 window).
  Proof using Fw. unfold finite_double, real64, b64_abs in *. rewrite B2R_Babs, is_finite_Babs. auto. Qed.

  Lemma small_coordinate c : Rabs (real64 c) <= bpow radix2 50 * Rabs (real64 window) ->
    Rabs (real64 c) <= bpow radix2 750.
  Proof using Bw.
    intros H. eapply Rle_trans; [exact H|]. apply Rle_trans with (bpow radix2 50 * bpow radix2 700).
    - apply Rmult_le_compat_l; [apply bpow_ge_0|apply Bw].
    - rewrite <- bpow_plus. apply bpow_le. lia.
  Qed.

  Lemma end_size c e : Rabs (real64 c) <= bpow radix2 750 ->
    Rabs (real64 e - (real64 c - real64 w)) <= real64 w / 4 \/ Rabs (real64 e - (real64 c + real64 w)) <= real64 w / 4 ->
    Rabs (real64 e) <= bpow radix2 800.
  Proof using Bw Fw.
    intros Hc He. pose proof abs_window as (_ & Ew).
    assert (K : bpow radix2 750 + 2 * bpow radix2 700 <= bpow radix2 800).
    { apply Rle_trans with (bpow radix2 750 * 4).
      - assert (bpow radix2 700 <= bpow radix2 750) by (apply bpow_le; lia). pose proof (bpow_gt_0 radix2 750). lra.
      - change 4 with (bpow radix2 2). rewrite <- bpow_plus. apply bpow_le. lia. }
    rewrite Ew in He. pose proof (Rabs_pos (real64 window)).
    apply Rabs_le_inv in Hc. destruct He as [He|He]; apply Rabs_le_inv in He; apply Rabs_le; lra.
  Qed.

  Lemma N_at_least : 1 <= N.
  Proof using Hi Hnx.
    pose proof Hi as Hb. apply in_bounds_spec in Hb. destruct Hb as (B & _).
    apply Rle_trans with (2 := Hnx). apply IZR_le. lia.
  Qed.

  Lemma W_range : bpow radix2 (-100) <= W.
  Proof using Rr Vals Hi.
    destruct (Vals _ Hi) as (_ & B). match type of B with Rabs ?t + _ <= _ => pose proof (Rabs_pos t) end. lra.
  Qed.

  Lemma d_range : bpow radix2 (-42) * W <= d <= 16 * W.
  Proof using Rr Vals Hi SN Hnx.
    pose proof W_range as W0. pose proof (bpow_gt_0 radix2 (-100)) as P. pose proof N_at_least. pose proof u_pos.
    assert (0 <= 4 * (N + 1) * u) by (apply Rmult_le_pos; lra).
    assert (bpow radix2 (-42) <= 1) by (change 1 with (bpow radix2 0); apply bpow_le; lia).
    split; [apply Rmult_le_compat_r; lra|]. apply Rmult_le_compat_r; lra.
  Qed.

  Lemma estimate_good a : finite_vec a -> Rabs (real64 (vx a)) <= bpow radix2 800 ->
    Rabs (real64 (vy a)) <= bpow radix2 800 -> Rabs (real64 (vz a)) <= bpow radix2 800 ->
    exists e, estimate_distance f p a = Ok e /\ good f p W d a e.
  Proof using Fr Rr HW Vals SN Hnx Hny Hnz.
    intros Fv X Y Z. destruct (in_bounds (f_dims f) (index_of p a)) eqn:In.
    - destruct (identity_estimate f a N W Fr Rr HW Vals SN Hnx Hny Hnz Fv X Y Z In)
        as (e & xl & xu & yl & yu & zl & zu & E & Fe & Ax & Ay & Az & Err).
      exists (e, true). split; [exact E|]. split; [cbn [snd]; split; auto|]. intros _. cbn [fst]. split; [exact Fe|].
      exists (interpolation f (real_vec a) xl xu yl yu zl zu).
      assert (In' : interpolated f p a (interpolation f (real_vec a) xl xu yl yu zl zu)).
      { exists xl, xu, yl, yu, zl, zu. auto. }
      split; [exact In'|]. split; [|exact Err].
      apply (interpolated_bound f p a W _ Rr (fun j Hj => proj2 (Vals j Hj))); auto.
      exact (identity_lies f a N Fr Rr SN Hnx Hny Hnz Fv X Y Z In).
    - unfold estimate_distance. change (to_grid p a) with a. rewrite In. eexists. split; [reflexivity|].
      split; cbn [snd]; [|discriminate]. split; [discriminate|]. intros K. unfold inside in K.
      change (to_grid p a) with a in K. rewrite In in K. discriminate.
  Qed.

  Notation west := (@V ieee (sub64 x w) y z). Notation east := (@V ieee (add64 x w) y z).
  Notation south := (@V ieee x (sub64 y w) z). Notation north := (@V ieee x (add64 y w) z).
  Notation down := (@V ieee x y (sub64 z w)). Notation up := (@V ieee x y (add64 z w)).

  Lemma run_lengths c : finite_double c -> Rabs (real64 c) <= bpow radix2 50 * Rabs (real64 window) ->
    finite_double (sub64 c w) /\ finite_double (add64 c w) /\
    Rabs (real64 (sub64 c w)) <= bpow radix2 800 /\ Rabs (real64 (add64 c w)) <= bpow radix2 800 /\
    bpow radix2 (-202) <= real64 c - real64 (sub64 c w) /\ bpow radix2 (-202) <= real64 (add64 c w) - real64 c /\
    real64 (add64 c w) - real64 (sub64 c w) <= bpow radix2 702.
  Proof using Fw Bw.
    intros Fc Bc. destruct abs_window as (Faw & Ew).
    destruct (window_ends c w Fc Faw) as (F1 & F2 & D1 & D2); [rewrite Ew; exact Bw|rewrite Ew; exact Bc|].
    split; [exact F1|]. split; [exact F2|].
    split; [apply (end_size c); auto using small_coordinate|]. split; [apply (end_size c); auto using small_coordinate|].
    rewrite Ew in D1, D2. set (a := Rabs (real64 window)) in *.
    assert (L : bpow radix2 (-202) = bpow radix2 (-200) * / 4).
    { change (-202)%Z with (-200 + -2)%Z. rewrite bpow_plus. reflexivity. }
    assert (M : bpow radix2 702 = bpow radix2 700 * 4).
    { change 702%Z with (700 + 2)%Z. rewrite bpow_plus. reflexivity. }
    pose proof (bpow_gt_0 radix2 (-200)). apply Rabs_le_inv in D1. apply Rabs_le_inv in D2. lra.
  Qed.

  Lemma smooth_double :
    ((inside f p west \/ inside f p east) -> (inside f p south \/ inside f p north) -> (inside f p down \/ inside f p up) ->
     exists g, smooth_gradient f p loc window = Ok (Some g) /\
       (exists a b, window_points f p west loc east a b /\ slope_between f p vx a b (3 * d) (vx g)) /\
       (exists a b, window_points f p south loc north a b /\ slope_between f p vy a b (3 * d) (vy g)) /\
       (exists a b, window_points f p down loc up a b /\ slope_between f p vz a b (3 * d) (vz g))) /\
    ((~ inside f p west /\ ~ inside f p east \/ ~ inside f p south /\ ~ inside f p north \/
      ~ inside f p down /\ ~ inside f p up) ->
     smooth_gradient f p loc window = Throw "Window size for GetSmoothGradient is too large for SDF").
  Proof.
    destruct (run_lengths x Fx Bx) as (Fx1 & Fx2 & Sx1 & Sx2 & Rx1 & Rx2 & Rx3).
    destruct (run_lengths y Fy By) as (Fy1 & Fy2 & Sy1 & Sy2 & Ry1 & Ry2 & Ry3).
    destruct (run_lengths z Fz Bz) as (Fz1 & Fz2 & Sz1 & Sz2 & Rz1 & Rz2 & Rz3).
    assert (K8 : bpow radix2 750 <= bpow radix2 800) by (apply bpow_le; lia).
    assert (Lx : Rabs (real64 x) <= bpow radix2 800) by (eapply Rle_trans; [apply small_coordinate, Bx|exact K8]).
    assert (Ly : Rabs (real64 y) <= bpow radix2 800) by (eapply Rle_trans; [apply small_coordinate, By|exact K8]).
    assert (Lz : Rabs (real64 z) <= bpow radix2 800) by (eapply Rle_trans; [apply small_coordinate, Bz|exact K8]).
    destruct (estimate_good loc) as (e0 & E0 & G0); [repeat split; auto|auto|auto|auto|].
    destruct (estimate_good west) as (e1 & E1 & G1); [repeat split; auto|auto|auto|auto|].
    destruct (estimate_good east) as (e2 & E2 & G2); [repeat split; auto|auto|auto|auto|].
    destruct (estimate_good south) as (e3 & E3 & G3); [repeat split; auto|auto|auto|auto|].
    destruct (estimate_good north) as (e4 & E4 & G4); [repeat split; auto|auto|auto|auto|].
    destruct (estimate_good down) as (e5 & E5 & G5); [repeat split; auto|auto|auto|auto|].
    destruct (estimate_good up) as (e6 & E6 & G6); [repeat split; auto|auto|auto|auto|].
    pose proof (smooth_axis f p W d (conj W_range HW) d_range vx west loc east e1 e0 e2 Fx1 Fx Fx2 Rx1 Rx2 Rx3 G1 G0 G2 Hi) as (X1 & X2).
    pose proof (smooth_axis f p W d (conj W_range HW) d_range vy south loc north e3 e0 e4 Fy1 Fy Fy2 Ry1 Ry2 Ry3 G3 G0 G4 Hi) as (Y1 & Y2).
    pose proof (smooth_axis f p W d (conj W_range HW) d_range vz down loc up e5 e0 e6 Fz1 Fz Fz2 Rz1 Rz2 Rz3 G5 G0 G6 Hi) as (Z1 & Z2).
    assert (Dec : forall a, inside f p a \/ ~ inside f p a).
    { intros a. unfold inside. destruct (in_bounds _ _); [left; reflexivity|right; discriminate]. }
    unfold smooth_gradient. unfold inside in Hi. rewrite Hi. cbn [dabs dsub dadd ieee].
    rewrite E0, E1, E2, E3, E4, E5, E6. cbn [bind].
    cbn [vx vy vz] in X1, X2, Y1, Y2, Z1, Z2. clear E0 E1 E2 E3 E4 E5 E6.
    split.
    - intros Hx Hy Hz. destruct (X1 Hx) as (gx & ax & bx & -> & Wx & Slx). destruct (Y1 Hy) as (gy & ay & by_ & -> & Wy & Sly).
      destruct (Z1 Hz) as (gz & az & bz & -> & Wz & Slz). cbn [bind].
      exists (@V ieee gx gy gz). split; [reflexivity|]. cbn [vx vy vz]. split; [|split]; eauto.
    - intros Hno.
      destruct (Dec west) as [Dw|Dw]; [|destruct (Dec east) as [De|De]; [|rewrite (X2 Dw De); reflexivity]].
      all: (assert (Hx : inside f p west \/ inside f p east) by auto);
        destruct (X1 Hx) as (gx & ax & bx & -> & _); cbn [bind].
      all: destruct (Dec south) as [Ds|Ds]; [|destruct (Dec north) as [Dn|Dn]; [|rewrite (Y2 Ds Dn); reflexivity]].
      all: (assert (Hy : inside f p south \/ inside f p north) by auto);
        destruct (Y1 Hy) as (gy & ay & by_ & -> & _); cbn [bind].
      all: assert (Hz : ~ inside f p down /\ ~ inside f p up) by tauto; rewrite (Z2 (proj1 Hz) (proj2 Hz)); reflexivity.
  Qed.
End Gradient.

(** Smoothed gradients in doubles, in any grid. *)
From Coq Require Import Reals Lra Lia Psatz.
From Flocq Require Import Core.Core Relative Plus_error Mult_error IEEE754.Binary IEEE754.Bits.
From Verif Require Import Base Floats FloatFacts FloatFacts2 Grid GridFacts Arith SdfQuery SdfField QuerySpec QueryProofs
  DoubleSpec DoubleQuery DoubleEstimate DoubleGrid WallSpec SmoothSpec DoubleSmooth WindowSpec.
Open Scope R_scope.

(** ** The quotient of two differences *)
Lemma quotient_near ea eb a b Ea Eb tol :
  finite_double ea -> finite_double eb -> finite_double a -> finite_double b ->
  bpow radix2 (-300) <= tol <= bpow radix2 200 -> Rabs (Eb - Ea) <= bpow radix2 200 ->
  Rabs (real64 ea - Ea) <= tol -> Rabs (real64 eb - Eb) <= tol ->
  bpow radix2 (-202) <= real64 b - real64 a <= bpow radix2 702 ->
  let g := div64 (sub64 eb ea) (sub64 b a) in
  finite_double g /\ Rabs (real64 g - (Eb - Ea) / (real64 b - real64 a)) <=
    (3 * tol + bpow radix2 (-50) * Rabs (Eb - Ea)) / (real64 b - real64 a).
Proof.
  intros Fea Feb Fa Fb Ht HE Ha Hb Hr. cbv zeta. pose proof u_pos as U0. pose proof u_le as U1.
  pose proof (bpow_gt_0 radix2 (-202)) as P0. pose proof (bpow_gt_0 radix2 (-300)) as P1.
  set (run := real64 b - real64 a) in *. set (num := real64 eb - real64 ea).
  apply Rabs_le_inv in Ha. apply Rabs_le_inv in Hb.
  assert (Dn : Rabs (num - (Eb - Ea)) <= 2 * tol) by (apply Rabs_le; unfold num; lra).
  assert (Bn : Rabs num <= 2 * tol + Rabs (Eb - Ea)).
  { replace num with ((num - (Eb - Ea)) + (Eb - Ea)) by ring. eapply Rle_trans; [apply Rabs_triang|]. lra. }
  assert (B4 : Rabs num <= bpow radix2 202).
  { replace (bpow radix2 202) with (4 * bpow radix2 200) by (change 202%Z with (2 + 200)%Z; rewrite bpow_plus; reflexivity). lra. }
  destruct (sub64_small eb ea Feb Fea) as (F1 & e1 & He1 & E1).
  { fold num. eapply Rle_trans; [exact B4|]. apply bpow_le. lia. }
  destruct (sub64_small b a Fb Fa) as (F2 & e2 & He2 & E2).
  { fold run. rewrite Rabs_pos_eq by lra. eapply Rle_trans; [exact (proj2 Hr)|]. apply bpow_le. lia. }
  change (bpow radix2 (-53)) with u in He1, He2. fold num in E1. fold run in E2.
  pose proof He1 as He1'. pose proof He2 as He2'. apply Rabs_le_inv in He1'. apply Rabs_le_inv in He2'.
  assert (N2 : 0 < 1 + e2) by lra.
  assert (Q : real64 (sub64 eb ea) / real64 (sub64 b a) = num / run * ((1 + e1) / (1 + e2))).
  { rewrite E1, E2. field. split; lra. }
  set (k := (1 + e1) / (1 + e2)) in *.
  assert (Ek : k * (1 + e2) = 1 + e1) by (unfold k; field; lra).
  assert (Bk : Rabs (k - 1) <= 3 * u).
  { apply Rabs_le. assert (Kd : (k - 1) * (1 + e2) = e1 - e2) by lra. split.
    - apply Rmult_le_reg_r with (1 + e2); [lra|]. rewrite Kd. nra.
    - apply Rmult_le_reg_r with (1 + e2); [lra|]. rewrite Kd. nra. }
  assert (Ir : 0 < / run) by (apply Rinv_0_lt_compat; lra).
  assert (Ir2 : / run <= bpow radix2 202).
  { rewrite <- (Rinv_inv (bpow radix2 202)). apply Rinv_le; [apply Rinv_0_lt_compat, bpow_gt_0|].
    rewrite <- bpow_opp. apply Hr. }
  assert (Bq : Rabs (num / run) <= bpow radix2 202 * bpow radix2 202).
  { unfold Rdiv. rewrite Rabs_mult, (Rabs_pos_eq (/ run)) by lra. apply Rmult_le_compat; auto using Rabs_pos; lra. }
  destruct (div64_small (sub64 eb ea) (sub64 b a) F1 F2) as (F & e & t & He & Htt & E).
  { rewrite E2. assert (0 < run * (1 + e2)) by (apply Rmult_lt_0_compat; lra). lra. }
  { rewrite Q, Rabs_mult. apply Rle_trans with (bpow radix2 202 * bpow radix2 202 * bpow radix2 1).
    - apply Rmult_le_compat; auto using Rabs_pos. apply Rabs_le_inv in Bk. change (bpow radix2 1) with 2. apply Rabs_le. lra.
    - rewrite <- !bpow_plus. apply bpow_le. lia. }
  split; [exact F|]. rewrite E, Q.
  replace (num / run * k * (1 + e) + t - (Eb - Ea) / run)
    with ((num * (k * (1 + e) - 1) + (num - (Eb - Ea)) + t * run) / run) by (field; lra).
  unfold Rdiv. rewrite Rabs_mult, (Rabs_pos_eq (/ run)) by lra. apply Rmult_le_compat_r; [lra|].
  assert (Bke : Rabs (k * (1 + e) - 1) <= 5 * u).
  { replace k with (1 + (k - 1)) by ring. eapply Rle_trans; [exact (factor_product _ _ _ _ Bk He)|]. nra. }
  assert (T1 : Rabs (num * (k * (1 + e) - 1)) <= (2 * tol + Rabs (Eb - Ea)) * (5 * u)).
  { rewrite Rabs_mult. apply Rmult_le_compat; auto using Rabs_pos. }
  assert (T3 : Rabs (t * run) <= tol / 8).
  { rewrite Rabs_mult, (Rabs_pos_eq run) by lra. apply Rle_trans with (bpow radix2 (-1075) * bpow radix2 702).
    - apply Rmult_le_compat; auto using Rabs_pos; lra.
    - rewrite <- bpow_plus. apply Rle_trans with (bpow radix2 (-303)); [apply bpow_le; lia|].
      change (-303)%Z with (-300 + -3)%Z. rewrite bpow_plus. change (bpow radix2 (-3)) with (/ 8). lra. }
  assert (Us : bpow radix2 (-50) = 8 * u).
  { unfold u. change (-50)%Z with (3 + -53)%Z. rewrite bpow_plus. reflexivity. }
  rewrite Us. pose proof (Rabs_pos (Eb - Ea)). set (x := Rabs (Eb - Ea)) in *.
  assert (0 <= u * x) by (apply Rmult_le_pos; lra). assert (u * tol <= tol / 100) by nra.
  eapply Rle_trans; [apply Rabs_triang|]. eapply Rle_trans; [apply Rplus_le_compat_r, Rabs_triang|]. lra.
Qed.

Section Window.
Variables (f : field ieee) (p : pose ieee) (loc : vec ieee) (window : binary64) (E : vec ieee -> R) (tol : R).
Hypotheses (Fl : finite_vec loc) (Uw : usable_window loc window) (Ht : bpow radix2 (-300) <= tol <= bpow radix2 200).
Hypothesis Hi : inside f p loc.
Hypothesis Known : forall a, reached loc window a -> inside f p a ->
  exists e, estimate_distance f p a = Ok (e, true) /\ finite_double e /\ Rabs (real64 e - E a) <= tol.
Hypothesis Near : forall a b, reached loc window a -> inside f p a -> reached loc window b -> inside f p b ->
  Rabs (E b - E a) <= bpow radix2 200.

Definition known (a : vec ieee) (e : binary64 * bool) : Prop :=
  (snd e = true <-> inside f p a) /\ (snd e = true -> finite_double (fst e) /\ Rabs (real64 (fst e) - E a) <= tol).

Lemma estimate_known a : reached loc window a -> exists e, estimate_distance f p a = Ok e /\ known a e.
Proof using Known.
  intros Ra. destruct (in_bounds (f_dims f) (index_of p (to_grid p a))) eqn:In.
  - destruct (Known a Ra In) as (e & Ee & Fe & De). exists (e, true). split; [exact Ee|].
    split; cbn [fst snd]; [split; [intros _; exact In|reflexivity]|auto].
  - unfold estimate_distance. rewrite In. eexists. split; [reflexivity|].
    split; cbn [snd]; [|discriminate]. split; [discriminate|]. intros K. unfold inside in K. rewrite In in K. discriminate.
Qed.

Lemma slope_known x a b ea eb : finite_double (component x a) -> finite_double (component x b) ->
  bpow radix2 (-202) <= run_of x a b <= bpow radix2 702 -> reached loc window a -> reached loc window b ->
  known a ea -> known b eb -> snd ea = true -> snd eb = true ->
  slope_near E tol x a b (div64 (sub64 (fst eb) (fst ea)) (sub64 (component x b) (component x a))).
Proof using Ht Near.
  intros Fa Fb Hr Ra Rb (Ia & Ga) (Ib & Gb) Sa Sb. destruct (Ga Sa) as (Fea & Da). destruct (Gb Sb) as (Feb & Db).
  destruct (quotient_near (fst ea) (fst eb) _ _ (E a) (E b) tol Fea Feb Fa Fb Ht) as (F & Err); auto.
  { apply Near; [exact Ra|apply Ia; exact Sa|exact Rb|apply Ib; exact Sb]. }
  pose proof (bpow_gt_0 radix2 (-202)). split; [exact F|]. split; [lra|exact Err].
Qed.

Lemma window_axis x ea em eb : let a := before x loc window in let b := beyond x loc window in
  finite_double (component x a) -> finite_double (component x loc) -> finite_double (component x b) ->
  bpow radix2 (-202) <= run_of x a loc -> bpow radix2 (-202) <= run_of x loc b -> run_of x a b <= bpow radix2 702 ->
  known a ea -> known loc em -> known b eb ->
  (inside f p a \/ inside f p b ->
   exists g a' b', @axis_smooth_gradient ieee em ea eb (component x loc) (component x a) (component x b) = Ok g /\
     window_points f p a loc b a' b' /\ slope_near E tol x a' b' g) /\
  (~ inside f p a -> ~ inside f p b ->
   @axis_smooth_gradient ieee em ea eb (component x loc) (component x a) (component x b) =
     Throw "Window size for GetSmoothGradient is too large for SDF").
Proof using Ht Near Hi.
  intros a b Fa Fm Fb R1 R2 R3 Ga Gm Gb. pose proof (bpow_gt_0 radix2 (-202)) as P0.
  assert (Ra : reached loc window a) by (right; exists x; left; reflexivity).
  assert (Rb : reached loc window b) by (right; exists x; right; reflexivity).
  assert (Rm : reached loc window loc) by (left; reflexivity). clearbody a b.
  pose proof (proj1 Ga) as Sa. pose proof (proj1 Gb) as Sb. pose proof (proj1 Gm) as Sm.
  assert (Tm : snd em = true) by (apply Sm; exact Hi).
  destruct ea as [xa ta], em as [xm tm], eb as [xb tb]. cbn [snd] in Sa, Sb, Sm, Tm. subst tm.
  unfold axis_smooth_gradient. cbn [fst snd andb dsub ddiv ieee].
  assert (Rab : run_of x a b = run_of x a loc + run_of x loc b) by (unfold run_of; ring).
  destruct ta; destruct tb; cbn [andb].
  - assert (Ia : inside f p a) by (apply Sa; reflexivity). assert (Ib : inside f p b) by (apply Sb; reflexivity).
    split; [intros _|intros K; contradiction]. eexists _, a, b. split; [reflexivity|]. split; [split; auto|].
    apply (slope_known x a b (xa, true) (xb, true)); auto. lra.
  - assert (Ia : inside f p a) by (apply Sa; reflexivity).
    assert (Ib : ~ inside f p b) by (intros K; apply Sb in K; discriminate).
    split; [intros _|intros K; contradiction]. eexists _, a, loc. split; [reflexivity|]. split; [split; auto|].
    apply (slope_known x a loc (xa, true) (xm, true)); auto. lra.
  - assert (Ia : ~ inside f p a) by (intros K; apply Sa in K; discriminate).
    assert (Ib : inside f p b) by (apply Sb; reflexivity).
    split; [intros _|intros _ K; contradiction]. eexists _, loc, b. split; [reflexivity|]. split; [split; auto|].
    apply (slope_known x loc b (xm, true) (xb, true)); auto. lra.
  - assert (Ia : ~ inside f p a) by (intros K; apply Sa in K; discriminate).
    assert (Ib : ~ inside f p b) by (intros K; apply Sb in K; discriminate).
    split; [intros [K|K]; contradiction|intros _ _; reflexivity].
Qed.

Lemma window_lengths x : let a := before x loc window in let b := beyond x loc window in
  finite_double (component x a) /\ finite_double (component x loc) /\ finite_double (component x b) /\
  bpow radix2 (-202) <= run_of x a loc /\ bpow radix2 (-202) <= run_of x loc b /\ run_of x a b <= bpow radix2 702.
Proof using Fl Uw.
  destruct Uw as (Fw & Bw & Bx & By & Bz). destruct Fl as (Fx & Fy & Fz). unfold run_of, before, beyond, shifted.
  destruct x; cbn [component vx vy vz].
  - destruct (run_lengths window Fw Bw _ Fx Bx) as (A & B & _ & _ & C). auto.
  - destruct (run_lengths window Fw Bw _ Fy By) as (A & B & _ & _ & C). auto.
  - destruct (run_lengths window Fw Bw _ Fz Bz) as (A & B & _ & _ & C). auto.
Qed.

Lemma smooth_window :
  (window_fits f p loc window ->
   exists g, smooth_gradient f p loc window = Ok (Some g) /\
     forall x, exists from to, window_points f p (before x loc window) loc (beyond x loc window) from to /\
       slope_near E tol x from to (component x g)) /\
  (~ window_fits f p loc window ->
   smooth_gradient f p loc window = Throw "Window size for GetSmoothGradient is too large for SDF").
Proof.
  destruct (estimate_known loc (or_introl eq_refl)) as (e0 & E0 & G0).
  assert (Ends : forall x, exists ea eb, estimate_distance f p (before x loc window) = Ok ea /\
    estimate_distance f p (beyond x loc window) = Ok eb /\
    (inside f p (before x loc window) \/ inside f p (beyond x loc window) ->
     exists g a' b', @axis_smooth_gradient ieee e0 ea eb (component x loc) (component x (before x loc window)) (component x (beyond x loc window)) = Ok g /\
       window_points f p (before x loc window) loc (beyond x loc window) a' b' /\ slope_near E tol x a' b' g) /\
    (~ inside f p (before x loc window) -> ~ inside f p (beyond x loc window) ->
     @axis_smooth_gradient ieee e0 ea eb (component x loc) (component x (before x loc window)) (component x (beyond x loc window)) =
       Throw "Window size for GetSmoothGradient is too large for SDF")).
  { intros x. destruct (estimate_known (before x loc window)) as (ea & Ea & Ga); [right; exists x; left; reflexivity|].
    destruct (estimate_known (beyond x loc window)) as (eb & Eb & Gb); [right; exists x; right; reflexivity|].
    exists ea, eb. split; [exact Ea|]. split; [exact Eb|].
    destruct (window_lengths x) as (A & B & C & D1 & D2 & D3). exact (window_axis x ea e0 eb A B C D1 D2 D3 Ga G0 Gb). }
  assert (Dec : forall a, inside f p a \/ ~ inside f p a).
  { intros a. unfold inside. destruct (in_bounds _ _); [left; reflexivity|right; discriminate]. }
  destruct (Ends AlongX) as (ax & bx & Ax & Bx & X1 & X2). destruct (Ends AlongY) as (ay & by_ & Ay & By & Y1 & Y2).
  destruct (Ends AlongZ) as (az & bz & Az & Bz & Z1 & Z2). unfold window_fits. clear Ends Known Near Fl Uw.
  unfold smooth_gradient. unfold inside in Hi. rewrite Hi. destruct loc as [lx ly lz].
  unfold before, beyond, shifted in *. cbn [component vx vy vz] in *. cbn [dabs dsub dadd ieee].
  rewrite E0, Ax, Bx, Ay, By, Az, Bz. cbn [bind]. clear E0 Ax Bx Ay By Az Bz.
  split.
  - intros Fit. destruct (X1 (Fit AlongX)) as (gx & a1 & b1 & -> & Wx & Sx). destruct (Y1 (Fit AlongY)) as (gy & a2 & b2 & -> & Wy & Sy).
    destruct (Z1 (Fit AlongZ)) as (gz & a3 & b3 & -> & Wz & Sz). cbn [bind].
    exists (@V ieee gx gy gz). split; [reflexivity|]. intros [| |]; cbn [component vx vy vz]; eauto.
  - intros Not.
    match type of X2 with ~ inside f p ?w -> ~ inside f p ?e -> _ => set (west := w) in *; set (east := e) in * end.
    match type of Y2 with ~ inside f p ?w -> ~ inside f p ?e -> _ => set (south := w) in *; set (north := e) in * end.
    match type of Z2 with ~ inside f p ?w -> ~ inside f p ?e -> _ => set (down := w) in *; set (up := e) in * end.
    assert (Not' : ~ ((inside f p west \/ inside f p east) /\ (inside f p south \/ inside f p north) /\ (inside f p down \/ inside f p up))).
    { intros (A & B & C). apply Not. intros [| |]; assumption. }
    destruct (Dec west) as [Dw|Dw]; [|destruct (Dec east) as [De|De]; [|rewrite (X2 Dw De); reflexivity]].
    all: (assert (Hx : inside f p west \/ inside f p east) by auto);
      destruct (X1 Hx) as (gx & a1 & b1 & -> & _); cbn [bind].
    all: destruct (Dec south) as [Ds|Ds]; [|destruct (Dec north) as [Dn|Dn]; [|rewrite (Y2 Ds Dn); reflexivity]].
    all: (assert (Hy : inside f p south \/ inside f p north) by auto);
      destruct (Y1 Hy) as (gy & a2 & b2 & -> & _); cbn [bind].
    all: assert (Hz : ~ inside f p down /\ ~ inside f p up) by tauto; rewrite (Z2 (proj1 Hz) (proj2 Hz)); reflexivity.
Qed.
End Window.

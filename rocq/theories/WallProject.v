(** The projection out of collision in the field of a flat wall, in doubles. *)
From Coq Require Import Bool Reals Lra Lia.
From Flocq Require Import Core.Core Relative IEEE754.Binary IEEE754.Bits.
From Verif Require Import Base BaseFacts Floats FloatFacts FloatFacts2 Grid GridFacts DistSpec CollisionMap SdfGen SdfSpec SdfThms Arith SdfQuery SdfField
  QuerySpec QueryProofs QueryReal DoubleSpec DoubleQuery DoubleEstimate DoubleGrid WallSpec WallThms SmoothSpec WallDouble WallQuery IdealSpec IdealThms.
Open Scope R_scope.

(** ** Single operations *)

Lemma real_zero_or x : finite_double x -> Rabs (real64 x) <= bpow radix2 (-1075) -> real64 x = 0.
Proof.
  intros F B. pose proof (real_format x) as G.
  destruct (Req_EM_T (real64 x) 0) as [E|E]; [exact E|exfalso].
  assert (L : bpow radix2 (-1074) <= Rabs (real64 x)).
  { rewrite <- (Rabs_pos_eq (bpow radix2 (-1074))) by apply bpow_ge_0.
    unfold real64 in *. destruct x as [s|s|s pl H|s m e H]; try discriminate F; [exfalso; apply E; reflexivity|].
    cbn [B2R]. rewrite <- F2R_Zabs. cbn [Fnum Fexp].
    assert (e >= -1074)%Z.
    { pose proof H as H'. unfold SpecFloat.bounded, SpecFloat.canonical_mantissa in H'. apply andb_prop in H' as (H1 & _).
      apply Zeq_bool_eq in H1. unfold SpecFloat.fexp, SpecFloat.emin in H1. lia. }
    rewrite Rabs_pos_eq by apply bpow_ge_0. apply Rle_trans with (bpow radix2 e); [apply bpow_le; lia|].
    unfold F2R. cbn [Fnum Fexp]. rewrite <- (Rmult_1_l (bpow radix2 e)) at 1. apply Rmult_le_compat_r; [apply bpow_ge_0|].
    apply IZR_le. destruct s; cbn; lia. }
  assert (bpow radix2 (-1075) < bpow radix2 (-1074)) by (apply bpow_lt; lia). lra.
Qed.

Lemma add_exact_r x y : finite_double x -> finite_double y -> real64 y = 0 ->
  finite_double (add64 x y) /\ real64 (add64 x y) = real64 x.
Proof.
  intros Fx Fy Y. destruct (plus_xr 53 1024 eq_refl eq_refl binop_nan_pl64 x y Fx Fy) as (N & X).
  change (B2R 53 1024 x) with (real64 x) in X. change (B2R 53 1024 y) with (real64 y) in X. rewrite Y, Rplus_0_r in X.
  destruct (finite_xr x Fx) as (_ & B).
  rewrite (rnd_id 53 1024 _ (real_format x)) in X. rewrite clamp_small in X by exact B.
  assert (X' : xr64 (add64 x y) = real64 x) by exact X.
  assert (F : finite_double (add64 x y)).
  { apply xr_in_finite; [exact N|]. rewrite X'. exact B. }
  split; [exact F|]. rewrite <- (proj1 (finite_xr _ F)). exact X'.
Qed.

Lemma add_exact_l x y : finite_double x -> finite_double y -> real64 x = 0 ->
  finite_double (add64 x y) /\ real64 (add64 x y) = real64 y.
Proof.
  intros Fx Fy Y. destruct (plus_xr 53 1024 eq_refl eq_refl binop_nan_pl64 x y Fx Fy) as (N & X).
  change (B2R 53 1024 x) with (real64 x) in X. change (B2R 53 1024 y) with (real64 y) in X. rewrite Y, Rplus_0_l in X.
  destruct (finite_xr y Fy) as (_ & B).
  rewrite (rnd_id 53 1024 _ (real_format y)) in X. rewrite clamp_small in X by exact B.
  assert (X' : xr64 (add64 x y) = real64 y) by exact X.
  assert (F : finite_double (add64 x y)).
  { apply xr_in_finite; [exact N|]. rewrite X'. exact B. }
  split; [exact F|]. rewrite <- (proj1 (finite_xr _ F)). exact X'.
Qed.

Lemma big_bpow : 1 <= bpow radix2 1000.
Proof. change 1 with (bpow radix2 0). apply bpow_le. lia. Qed.

Lemma mul_zero x y : finite_double x -> finite_double y -> real64 x = 0 \/ real64 y = 0 ->
  finite_double (mul64 x y) /\ real64 (mul64 x y) = 0.
Proof.
  intros Fx Fy Z. assert (E : real64 x * real64 y = 0) by (destruct Z as [-> | ->]; ring).
  destruct (mul64_small x y Fx Fy) as (F & e & t & He & Ht & V); [rewrite E, Rabs_R0; pose proof big_bpow; lra|].
  split; [exact F|]. apply real_zero_or; [exact F|]. rewrite V, E. replace (0 * (1 + e) + t) with t by ring. exact Ht.
Qed.

Lemma div_zero x y : finite_double x -> finite_double y -> real64 x = 0 -> real64 y <> 0 ->
  finite_double (div64 x y) /\ real64 (div64 x y) = 0.
Proof.
  intros Fx Fy Z NZ. assert (E : real64 x / real64 y = 0) by (rewrite Z; unfold Rdiv; ring).
  destruct (div64_small x y Fx Fy NZ) as (F & e & t & He & Ht & V); [rewrite E, Rabs_R0; pose proof big_bpow; lra|].
  split; [exact F|]. apply real_zero_or; [exact F|]. rewrite V, E. replace (0 * (1 + e) + t) with t by ring. exact Ht.
Qed.

Lemma sqrt64_small x : finite_double x -> bpow radix2 (-900) <= real64 x ->
  finite_double (sqrt64 x) /\ exists e, Rabs e <= u /\ real64 (sqrt64 x) = sqrt (real64 x) * (1 + e).
Proof.
  intros Fx B. pose proof (bpow_gt_0 radix2 (-900)) as P0.
  pose proof (Bsqrt_correct 53 1024 eq_refl eq_refl unop_nan_pl64 BinarySingleNaN.mode_NE x) as (HR & HF & _).
  cbn [BinarySingleNaN.round_mode] in HR. change (B2R 53 1024 x) with (real64 x) in HR.
  assert (F : finite_double (sqrt64 x)).
  { unfold finite_double, sqrt64, b64_sqrt. rewrite HF. unfold real64 in B. destruct x as [s|s|s pl H|s m e H]; auto.
    destruct s; auto. exfalso. cbn [B2R] in B.
    assert (F2R (Float radix2 (cond_Zopp true (Z.pos m)) e) < 0) by (apply F2R_lt_0; reflexivity). lra. }
  split; [exact F|]. unfold real64 at 1, sqrt64, b64_sqrt. rewrite HR.
  destruct (relative_error_N_FLT_ex radix2 (-1074) 53 eq_refl (fun t => negb (Z.even t)) (sqrt (real64 x))) as (e & He & Ee).
  - rewrite Rabs_pos_eq by apply sqrt_pos. apply Rle_trans with (sqrt (bpow radix2 (-900))).
    + replace (bpow radix2 (-900)) with (bpow radix2 (-450) * bpow radix2 (-450)) by (rewrite <- bpow_plus; reflexivity).
      rewrite sqrt_square by apply bpow_ge_0. apply bpow_le. lia.
    + apply sqrt_le_1_alt. exact B.
  - exists e. split.
    + eapply Rle_trans; [exact He|]. change (bpow radix2 (Z.opp 53 + 1)) with (bpow radix2 (1 + -53)). rewrite bpow_plus. right.
      change (bpow radix2 1) with 2. unfold u. lra.
    + exact Ee.
Qed.

(** Rounding errors of operations on numbers of size at most [8 B]. *)
Section Errors.
  Variable B : R.
  Hypothesis SB : bpow radix2 (-100) <= B <= bpow radix2 100.

  Lemma B_ok : 0 < B /\ 8 * B <= bpow radix2 1000 /\ bpow radix2 (-1075) <= u * B.
  Proof using SB.
    pose proof (bpow_gt_0 radix2 (-100)) as P. split; [lra|]. split.
    - apply Rle_trans with (bpow radix2 3 * bpow radix2 100); [change (bpow radix2 3) with 8; lra|].
      rewrite <- bpow_plus. apply bpow_le. lia.
    - apply Rle_trans with (u * bpow radix2 (-100)).
      + unfold u. rewrite <- bpow_plus. apply bpow_le. lia.
      + apply Rmult_le_compat_l; [left; apply u_pos|lra].
  Qed.

  Lemma rel_abs z e t : Rabs z <= 8 * B -> Rabs e <= u -> Rabs t <= bpow radix2 (-1075) -> Rabs (z * (1 + e) + t - z) <= 9 * u * B.
  Proof using SB.
    intros Hz He Ht. destruct B_ok as (P & _ & T). pose proof u_pos.
    replace (z * (1 + e) + t - z) with (z * e + t) by ring. eapply Rle_trans; [apply Rabs_triang|]. rewrite Rabs_mult.
    assert (Rabs z * Rabs e <= 8 * B * u) by (apply Rmult_le_compat; auto using Rabs_pos). lra.
  Qed.

  Lemma mul_abs x y : finite_double x -> finite_double y -> Rabs (real64 x * real64 y) <= 8 * B ->
    finite_double (mul64 x y) /\ Rabs (real64 (mul64 x y) - real64 x * real64 y) <= 9 * u * B.
  Proof using SB.
    intros Fx Fy Hz. destruct B_ok as (P & K & _).
    destruct (mul64_small x y Fx Fy) as (F & e & t & He & Ht & V); [lra|].
    split; [exact F|]. rewrite V. apply rel_abs; auto.
  Qed.

  Lemma add_abs x y : finite_double x -> finite_double y -> Rabs (real64 x + real64 y) <= 8 * B ->
    finite_double (add64 x y) /\ Rabs (real64 (add64 x y) - (real64 x + real64 y)) <= 9 * u * B.
  Proof using SB.
    intros Fx Fy Hz. destruct B_ok as (P & K & _).
    destruct (add64_small x y Fx Fy) as (F & e & He & V); [lra|].
    split; [exact F|]. rewrite V, <- (Rplus_0_r ((real64 x + real64 y) * (1 + e))). apply rel_abs; auto.
    rewrite Rabs_R0. apply bpow_ge_0.
  Qed.

  Lemma sub_abs x y : finite_double x -> finite_double y -> Rabs (real64 x - real64 y) <= 8 * B ->
    finite_double (sub64 x y) /\ Rabs (real64 (sub64 x y) - (real64 x - real64 y)) <= 9 * u * B.
  Proof using SB.
    intros Fx Fy Hz. destruct B_ok as (P & K & _).
    destruct (sub64_small x y Fx Fy) as (F & e & He & V); [lra|].
    split; [exact F|]. rewrite V, <- (Rplus_0_r ((real64 x - real64 y) * (1 + e))). apply rel_abs; auto.
    rewrite Rabs_R0. apply bpow_ge_0.
  Qed.
End Errors.

(** ** Normalizing a vector along one axis *)

Lemma square_close e : Rabs e <= 1 / 2 -> Rabs (sqrt (1 + e) - 1) <= Rabs e.
Proof.
  intros He. apply Rabs_le_inv in He. set (s := sqrt (1 + e)).
  assert (S0 : 0 <= s) by apply sqrt_pos. assert (S2 : s * s = 1 + e) by (apply sqrt_sqrt; lra).
  assert (E : (s - 1) * (s + 1) = e) by (ring_simplify; rewrite <- Rsqr_pow2; unfold Rsqr; lra).
  rewrite <- E, Rabs_mult, (Rabs_pos_eq (s + 1)) by lra. pose proof (Rabs_pos (s - 1)). nra.
Qed.

Lemma u_tiny : 0 < u <= / 1000000000 /\ bpow radix2 (-1075) <= u / 1000.
Proof.
  split; [split; [apply u_pos|apply u_le]|]. pose proof (tiny_ok 1) as T. rewrite Rmult_1_r in T. apply T.
  change 1 with (bpow radix2 0). apply bpow_le. lia.
Qed.

Section Normal.
  Variables (a : axis_name) (g : vec ieee) (sg G : R).
  Hypotheses (Sg : sg = 1 \/ sg = -1) (HG : 1 / 2 <= G <= 3)
    (Ha : finite_double (component a g) /\ real64 (component a g) = sg * G)
    (Hb : forall b, b <> a -> finite_double (component b g) /\ real64 (component b g) = 0).

  Lemma norm_square : finite_double (@squared_norm ieee g) /\
    exists e, Rabs e <= 2 * u /\ real64 (@squared_norm ieee g) = G * G * (1 + e).
  Proof using Sg HG Ha Hb.
    destruct u_tiny as ((U0 & U1) & T). destruct Ha as (Fa & Va).
    destruct (mul64_small _ _ Fa Fa) as (F & e & t & He & Ht & V).
    { rewrite Va. replace (sg * G * (sg * G)) with (G * G) by (destruct Sg as [-> | ->]; ring). rewrite Rabs_pos_eq by nra.
      apply Rle_trans with (bpow radix2 4); [change (bpow radix2 4) with 16; nra|apply bpow_le; lia]. }
    assert (S : real64 (mul64 (component a g) (component a g)) = G * G * (1 + (e + t / (G * G)))).
    { rewrite V, Va. destruct Sg as [-> | ->]; field; nra. }
    assert (Se : Rabs (e + t / (G * G)) <= 2 * u).
    { eapply Rle_trans; [apply Rabs_triang|]. assert (Rabs (t / (G * G)) <= 4 * Rabs t).
      { unfold Rdiv. rewrite Rabs_mult, Rmult_comm. apply Rmult_le_compat_r; [apply Rabs_pos|].
        rewrite Rabs_pos_eq by (left; apply Rinv_0_lt_compat; nra). apply Rle_trans with (/ (1 / 4)); [apply Rinv_le; nra|lra]. }
      lra. }
    unfold squared_norm. cbn [dadd dmul ieee].
    assert (Q : forall b, b <> a -> finite_double (mul64 (component b g) (component b g)) /\ real64 (mul64 (component b g) (component b g)) = 0).
    { intros b N. destruct (Hb b N) as (Fb & Vb). apply mul_zero; auto. }
    destruct a; cbn [component] in *.
    - destruct (Q AlongY ltac:(discriminate)) as (F2 & V2). destruct (Q AlongZ ltac:(discriminate)) as (F3 & V3).
      destruct (add_exact_r _ _ F2 F3 V3) as (F4 & V4). rewrite V2 in V4. destruct (add_exact_r _ _ F F4 V4) as (F5 & V5).
      split; [exact F5|]. exists (e + t / (G * G)). split; [exact Se|]. etransitivity; [exact V5|exact S].
    - destruct (Q AlongX ltac:(discriminate)) as (F2 & V2). destruct (Q AlongZ ltac:(discriminate)) as (F3 & V3).
      destruct (add_exact_r _ _ F F3 V3) as (F4 & V4). destruct (add_exact_l _ _ F2 F4 V2) as (F5 & V5).
      split; [exact F5|]. exists (e + t / (G * G)). split; [exact Se|]. etransitivity; [exact V5|]. rewrite V4. exact S.
    - destruct (Q AlongX ltac:(discriminate)) as (F2 & V2). destruct (Q AlongY ltac:(discriminate)) as (F3 & V3).
      destruct (add_exact_l _ _ F3 F V3) as (F4 & V4). destruct (add_exact_l _ _ F2 F4 V2) as (F5 & V5).
      split; [exact F5|]. exists (e + t / (G * G)). split; [exact Se|]. etransitivity; [exact V5|]. rewrite V4. exact S.
  Qed.

  Lemma norm_near : finite_double (@norm ieee g) /\ exists e, Rabs e <= 4 * u /\ real64 (@norm ieee g) = G * (1 + e).
  Proof using Sg HG Ha Hb.
    destruct u_tiny as ((U0 & U1) & T). destruct norm_square as (F & e & He & V).
    assert (He' : Rabs e <= 1 / 2) by lra. pose proof (square_close e He') as Sq. apply Rabs_le_inv in He'.
    destruct (sqrt64_small _ F) as (F1 & e1 & He1 & V1).
    { rewrite V. apply Rle_trans with (bpow radix2 (-4)); [apply bpow_le; lia|]. cbn -[IZR Rinv]. nra. }
    unfold norm. cbn [dsqrt ieee]. split; [exact F1|].
    assert (E : sqrt (real64 (@squared_norm ieee g)) = G * sqrt (1 + e)).
    { rewrite V, sqrt_mult, sqrt_square by nra. reflexivity. }
    rewrite E in V1. set (s := sqrt (1 + e)) in *. exists (s * (1 + e1) - 1). split; [|rewrite V1; ring].
    replace (s * (1 + e1) - 1) with ((s - 1) + (s - 1) * e1 + e1) by ring.
    apply Rabs_le_inv in Sq. apply Rabs_le_inv in He1. assert (Rabs e <= 2 * u) by exact He.
    apply Rabs_le. nra.
  Qed.

  Lemma normal_near : let n := @normalized ieee g in
    finite_double (component a n) /\ Rabs (real64 (component a n) - sg) <= 10 * u /\
    forall b, b <> a -> finite_double (component b n) /\ real64 (component b n) = 0.
  Proof using Sg HG Ha Hb.
    destruct u_tiny as ((U0 & U1) & T). destruct norm_square as (F & e & He & Vq). destruct norm_near as (Fn & e1 & He1 & Vn).
    cbv zeta. unfold normalized. cbn [dlt ieee of_int dsqrt ddiv]. destruct zero_real as (F0 & V0).
    rewrite lt_finite by auto. rewrite V0, Vq. destruct (Rlt_dec 0 (G * G * (1 + e))) as [_|N].
    2:{ exfalso. apply N. apply Rabs_le_inv in He. assert (0 < G * G) by nra. assert (0 < 1 + e) by lra. nra. }
    change (sqrt64 (@squared_norm ieee g)) with (@norm ieee g). set (s := @norm ieee g) in *.
    apply Rabs_le_inv in He1. assert (Ps : 0 < real64 s) by (rewrite Vn; nra).
    assert (C : forall b, component b (@V ieee (div64 (vx g) s) (div64 (vy g) s) (div64 (vz g) s)) = div64 (component b g) s) by (intros []; reflexivity).
    rewrite C. destruct Ha as (Fa & Va).
    assert (Qt : real64 (component a g) / real64 s = sg / (1 + e1)).
    { rewrite Va, Vn. field. split; nra. }
    assert (Iv : Rabs (/ (1 + e1) - 1) <= 5 * u).
    { replace (/ (1 + e1) - 1) with (- e1 / (1 + e1)) by (field; lra). unfold Rdiv. rewrite Rabs_mult, Rabs_Ropp.
      assert (I1 : 0 < / (1 + e1) <= 5 / 4).
      { split; [apply Rinv_0_lt_compat; lra|]. replace (5 / 4) with (/ (4 / 5)) by lra. apply Rinv_le; lra. }
      rewrite (Rabs_pos_eq (/ (1 + e1))) by lra. assert (Rabs e1 <= 4 * u) by (apply Rabs_le; lra). pose proof (Rabs_pos e1). nra. }
    destruct (div64_small (component a g) s Fa Fn) as (Fd & e2 & t & He2 & Ht & Vd); [lra| |].
    { rewrite Qt. apply Rle_trans with 2; [|apply Rle_trans with (bpow radix2 1); [change (bpow radix2 1) with 2; lra|apply bpow_le; lia]].
      unfold Rdiv. apply Rabs_le_inv in Iv. apply Rabs_le. destruct Sg as [-> | ->]; lra. }
    split; [exact Fd|]. split.
    - rewrite Vd, Qt. apply Rabs_le_inv in Iv. apply Rabs_le_inv in He2. apply Rabs_le_inv in Ht. unfold Rdiv.
      set (w := / (1 + e1)) in *. apply Rabs_le. destruct Sg as [-> | ->]; split; nra.
    - intros b N. rewrite C. destruct (Hb b N) as (Fb & Vb). apply div_zero; auto. lra.
  Qed.
End Normal.

(** ** Cells of points *)

Lemma u_tight : u <= / 1000000000000000.
Proof. unfold u. cbn -[Rinv IZR]. apply Rinv_le; lra. Qed.

Lemma index_same r v w : finite_double v -> finite_double w -> finite_double r -> 0 < real64 r -> real64 v = real64 w ->
  floor64 (div64 v r) = floor64 (div64 w r).
Proof.
  intros Fv Fw Fr P E.
  assert (NZ : forall x, finite_double x -> real64 x <> 0 -> is_finite_strict 53 1024 x = true).
  { intros x F Z. destruct x; try discriminate F; [exfalso; apply Z; reflexivity|reflexivity]. }
  assert (Rs : is_finite_strict 53 1024 r = true) by (apply NZ; auto; lra).
  destruct (Req_EM_T (real64 v) 0) as [Z|Z].
  - assert (K : forall x, finite_double x -> real64 x = 0 -> floor64 (div64 x r) = 0%Z).
    { intros x F X. destruct x as [s|s|s pl H|s m e H]; try discriminate F.
      - destruct r; try discriminate Rs. reflexivity.
      - exfalso. unfold real64 in X. cbn [B2R] in X. apply eq_0_F2R in X. destruct s; discriminate X. }
    rewrite (K v), (K w); auto. congruence.
  - assert (v = w); [|subst; reflexivity]. apply B2R_inj; [apply NZ; auto|apply NZ; auto; congruence|exact E].
Qed.

Lemma bounds_axes d i : in_bounds d i = true <-> forall b, (0 <= coordinate b i < cells_along b d)%Z.
Proof.
  rewrite in_bounds_spec. split.
  - intros (X & Y & Z) []; auto.
  - intros H. exact (conj (H AlongX) (conj (H AlongY) (H AlongZ))).
Qed.

Lemma index_component r q b : coordinate b (index_of (ieee_pose r) q) = floor64 (div64 (component b q) r).
Proof. destruct b; reflexivity. Qed.

Section Axis.
  Variables (r : binary64) (n N : Z).
  Hypotheses (Fr : finite_double r) (Rr : bpow radix2 (-100) <= real64 r <= bpow radix2 100) (Hn : (1 <= n <= N)%Z) (HN : (N <= 46340)%Z).
  Notation B := (real64 r * IZR N).

  Lemma axis_facts : 0 < real64 r /\ 1 <= IZR n <= IZR N /\ IZR N <= 46340 /\ 0 < u <= / 1000000000000000 /\ bpow radix2 (-1075) <= u / 1000.
  Proof using Rr Hn HN.
    pose proof (bpow_gt_0 radix2 (-100)). repeat split; try lra; try (apply IZR_le; lia).
    - apply u_pos.
    - apply u_tight.
    - exact (proj2 u_tiny).
  Qed.

  Lemma quotient_size v : Rabs (real64 v) <= bpow radix2 800 -> Rabs (real64 v / real64 r) <= bpow radix2 1000.
  Proof using Rr Hn HN.
    intros Bv. destruct axis_facts as (P & _). unfold Rdiv. rewrite Rabs_mult, (Rabs_pos_eq (/ real64 r)) by (left; apply Rinv_0_lt_compat; auto).
    apply Rle_trans with (bpow radix2 800 * bpow radix2 100).
    - apply Rmult_le_compat; auto using Rabs_pos; [left; apply Rinv_0_lt_compat; auto|].
      rewrite <- (Rinv_inv (bpow radix2 100)). apply Rinv_le; [apply Rinv_0_lt_compat, bpow_gt_0|].
      rewrite <- bpow_opp. apply Rr.
    - rewrite <- bpow_plus. apply bpow_le. lia.
  Qed.

  Lemma index_range v : finite_double v -> Rabs (real64 v) <= bpow radix2 800 -> (0 <= floor64 (div64 v r) < n)%Z ->
    - (4 * u * B) <= real64 v <= real64 r * IZR n + 4 * u * B.
  Proof using Fr Rr Hn HN.
    intros Fv Bv (K0 & K1). destruct axis_facts as (P & Nn & NN & (U0 & U1) & T).
    destruct (div64_small v r Fv Fr) as (F & e & t & He & Ht & E); [lra|apply quotient_size; auto|].
    pose proof (floor_spec _ F) as Fl. set (k := floor64 (div64 v r)) in *. rewrite E in Fl.
    set (w := real64 v / real64 r) in *. assert (Ew : real64 v = real64 r * w) by (unfold w; field; lra).
    apply IZR_le in K0. assert (K2 : IZR k + 1 <= IZR n) by (rewrite <- plus_IZR; apply IZR_le; lia).
    apply Rabs_le_inv in He. apply Rabs_le_inv in Ht. rewrite Ew.
    assert (W0 : - (4 * u * IZR N) <= w <= IZR n + 4 * u * IZR N).
    { assert (Wn : w * (1 + e) <= IZR n + u) by lra. assert (Wl : - u <= w * (1 + e)) by lra.
      split; apply Rnot_lt_le; intros L.
      - assert (w * (1 + e) <= - (4 * u * IZR N) * (1 + e)) by (apply Rmult_le_compat_r; lra).
        assert (4 * u * 1 <= 4 * u * IZR N) by (apply Rmult_le_compat_l; lra).
        assert (4 * u * (1 / 2) <= 4 * u * IZR N * (1 + e)) by (apply Rmult_le_compat; lra). lra.
      - assert (IZR n + u < w * (1 + e)); [|lra].
        apply Rle_lt_trans with ((IZR n + 4 * u * IZR N) * (1 + e)); [|apply Rmult_lt_compat_r; lra].
        assert (E1 : - (u * IZR N) <= IZR n * e) by nra.
        assert (E2 : 4 * u * IZR N * (1 / 2) <= 4 * u * IZR N * (1 + e)) by (apply Rmult_le_compat_l; nra).
        assert (u * 1 <= u * IZR N) by (apply Rmult_le_compat_l; lra). lra. }
    split; nra.
  Qed.

  Lemma index_inside v : finite_double v -> 4 * u * B <= real64 v <= real64 r * IZR n - 4 * u * B ->
    (0 <= floor64 (div64 v r) < n)%Z.
  Proof using Fr Rr Hn HN.
    intros Fv Bv. destruct axis_facts as (P & Nn & NN & (U0 & U1) & T).
    assert (PB : 0 < u * B) by (assert (0 < B) by nra; nra).
    assert (Bw : Rabs (real64 v) <= bpow radix2 800).
    { rewrite Rabs_pos_eq by lra. apply Rle_trans with (bpow radix2 100 * bpow radix2 20).
      - apply Rle_trans with (real64 r * IZR n); [lra|]. apply Rmult_le_compat; try lra. change (bpow radix2 20) with 1048576. lra.
      - rewrite <- bpow_plus. apply bpow_le. lia. }
    destruct (div64_small v r Fv Fr) as (F & e & t & He & Ht & E); [lra|apply quotient_size; auto|].
    pose proof (floor_spec _ F) as Fl. set (k := floor64 (div64 v r)) in *. rewrite E in Fl.
    set (w := real64 v / real64 r) in *. assert (Ew : real64 v = real64 r * w) by (unfold w; field; lra).
    rewrite Ew in Bv. apply Rabs_le_inv in He. apply Rabs_le_inv in Ht.
    assert (W0 : 4 * u * IZR N <= w <= IZR n - 4 * u * IZR N).
    { split; apply Rmult_le_reg_l with (real64 r); auto; lra. }
    split.
    - apply le_IZR. assert (-1 < IZR k); [|apply lt_IZR in H; apply IZR_le; lia]. nra.
    - apply lt_IZR. nra.
  Qed.
End Axis.

(** ** A wall *)
Section Wall.
  Variables (f : field ieee) (a : axis_name) (low : bool) (k N : Z).
  Notation r := (real64 (f_res f)).
  Notation p := (ieee_pose (f_res f)).
  Notation d := (f_dims f).
  Notation n := (cells_along a (f_dims f)).
  Notation B := (r * IZR N).
  Notation tol := (wall_tolerance r N).
  Notation sg := (sgn low).
  Hypotheses (Fr : finite_double (f_res f)) (Rr : bpow radix2 (-100) <= r <= bpow radix2 80) (Small : r <= 3.99)
    (Wl : double_wall f a low k) (HN : (N <= 46340)%Z)
    (Hnx : (nx (f_dims f) <= N)%Z) (Hny : (ny (f_dims f) <= N)%Z) (Hnz : (nz (f_dims f) <= N)%Z).

  Lemma sides b : in_bounds d (I 0 0 0) = true -> (1 <= cells_along b d <= N)%Z.
  Proof using Hnx Hny Hnz. intros H. apply in_bounds_spec in H. cbn [ix iy iz] in H. destruct b; cbn [cells_along]; lia. Qed.

  Lemma tol_facts : 0 < r /\ 0 < B /\ bpow radix2 (-100) <= B <= bpow radix2 100 /\ 2048 * u * B <= tol <= B / 1000.
  Proof using Rr Wl HN Hnx Hny Hnz.
    pose proof (N_real f a low k N Wl HN Hnx Hny Hnz) as NR. pose proof (r_pos f Rr) as P.
    pose proof (W_small f a low k N Rr Wl HN Hnx Hny Hnz) as WS. pose proof u_pos as U0. pose proof u_tight as U1.
    assert (PB : 0 < B) by nra. split; [exact P|]. split; [exact PB|]. split; [split; [|exact WS]|].
    - apply Rle_trans with (r * 1); [lra|apply Rmult_le_compat_l; lra].
    - unfold wall_tolerance. change (bpow radix2 (-53)) with u.
      assert (E : bpow radix2 (-42) = 2048 * u).
      { unfold u. change (-42)%Z with (11 + -53)%Z. rewrite bpow_plus. reflexivity. }
      rewrite E. split; [apply Rmult_le_compat_r; nra|].
      unfold Rdiv. rewrite Rmult_comm. apply Rmult_le_compat_l; [lra|]. nra.
  Qed.

  Lemma view_wall : wall_field (real_view f) a low k.
  Proof using Wl.
    destruct Wl as (Hk & Hv). split; [exact Hk|]. intros i Hi. rewrite view_value. apply (Hv i Hi).
  Qed.

  Definition slope_on (b : axis_name) (i : idx) : R :=
    match b with
    | AlongX => DoubleSpec.slope f (nx d) (ix i) (fun t => I t (iy i) (iz i))
    | AlongY => DoubleSpec.slope f (ny d) (iy i) (fun t => I (ix i) t (iz i))
    | AlongZ => DoubleSpec.slope f (nz d) (iz i) (fun t => I (ix i) (iy i) t)
    end.

  Lemma slope_wall i : in_bounds d i = true ->
    (exists g, 1 <= g <= 2 /\ slope_on a i = sg * g) /\ forall b, b <> a -> slope_on b i = 0.
  Proof using Rr Wl HN Hnx Hny Hnz.
    intros Hi. destruct tol_facts as (P & _). pose proof view_wall as V. pose proof (proj1 Wl) as Hk.
    destruct i as [x y z]. apply in_bounds_spec in Hi. cbn [ix iy iz] in Hi.
    assert (In_ : forall s t w, (0 <= s < nx d -> 0 <= t < ny d -> 0 <= w < nz d -> in_bounds d (I s t w) = true)%Z).
    { intros. apply in_bounds_spec. cbn. auto. }
    assert (Pr : forall g' v w m, 1 <= g' -> v = g' * (IZR m * r) -> (0 < m)%Z -> w = g' -> v / (IZR m * r) = w).
    { intros g' v w m _ -> Hm ->. assert (0 < IZR m) by (apply IZR_lt; lia). field. split; lra. }
    split.
    - destruct a; cbn [slope_on ix iy iz cells_along] in *; unfold DoubleSpec.slope; cbv zeta.
      + destruct (Z.eqb_spec (nx d) 1); [lia|].
        destruct (wall_pair (real_view f) AlongX low k (I (Z.min (nx d - 1) (x + 1)) y z) (I (Z.max 0 (x - 1)) y z) P V) as (g & Hg & E);
          try (apply In_; lia); [cbn; lia|].
        exists g. split; [exact Hg|]. rewrite !view_value in E. cbn [coordinate ix] in E. change (f_res (real_view f)) with r in E.
        rewrite E. assert (0 < IZR (Z.min (nx d - 1) (x + 1) - Z.max 0 (x - 1))) by (apply IZR_lt; lia).
        unfold sgn. destruct low; field; lra.
      + destruct (Z.eqb_spec (ny d) 1); [lia|].
        destruct (wall_pair (real_view f) AlongY low k (I x (Z.min (ny d - 1) (y + 1)) z) (I x (Z.max 0 (y - 1)) z) P V) as (g & Hg & E);
          try (apply In_; lia); [cbn; lia|].
        exists g. split; [exact Hg|]. rewrite !view_value in E. cbn [coordinate iy] in E. change (f_res (real_view f)) with r in E.
        rewrite E. assert (0 < IZR (Z.min (ny d - 1) (y + 1) - Z.max 0 (y - 1))) by (apply IZR_lt; lia).
        unfold sgn. destruct low; field; lra.
      + destruct (Z.eqb_spec (nz d) 1); [lia|].
        destruct (wall_pair (real_view f) AlongZ low k (I x y (Z.min (nz d - 1) (z + 1))) (I x y (Z.max 0 (z - 1))) P V) as (g & Hg & E);
          try (apply In_; lia); [cbn; lia|].
        exists g. split; [exact Hg|]. rewrite !view_value in E. cbn [coordinate iz] in E. change (f_res (real_view f)) with r in E.
        rewrite E. assert (0 < IZR (Z.min (nz d - 1) (z + 1) - Z.max 0 (z - 1))) by (apply IZR_lt; lia).
        unfold sgn. destruct low; field; lra.
    - assert (Fl : forall v w, in_bounds d v = true -> in_bounds d w = true -> coordinate a w = coordinate a v ->
                   real32 (value f v) - real32 (value f w) = 0).
      { intros v w Hv Hw E. pose proof (wall_flat (real_view f) a low k v w V Hv Hw E) as K. rewrite !view_value in K. rewrite K. ring. }
      intros b Nb. destruct b; cbn [slope_on ix iy iz]; unfold DoubleSpec.slope; cbv zeta.
      + destruct (Z.eqb_spec (nx d) 1); [reflexivity|]. rewrite Fl; [unfold Rdiv; ring|apply In_; lia|apply In_; lia|].
        destruct a; try reflexivity; exfalso; apply Nb; reflexivity.
      + destruct (Z.eqb_spec (ny d) 1); [reflexivity|]. rewrite Fl; [unfold Rdiv; ring|apply In_; lia|apply In_; lia|].
        destruct a; try reflexivity; exfalso; apply Nb; reflexivity.
      + destruct (Z.eqb_spec (nz d) 1); [reflexivity|]. rewrite Fl; [unfold Rdiv; ring|apply In_; lia|apply In_; lia|].
        destruct a; try reflexivity; exfalso; apply Nb; reflexivity.
  Qed.

  Lemma gradient_wall i : in_bounds d i = true -> exists g G, grid_aligned_gradient f i true = Some g /\ 0.9999 <= G <= 2.001 /\
    (finite_double (component a g) /\ real64 (component a g) = sg * G) /\
    forall b, b <> a -> finite_double (component b g) /\ real64 (component b g) = 0.
  Proof using Fr Rr Wl HN Hnx Hny Hnz.
    clear Small. intros Hi. destruct (grid_aligned_gradient f i true) as [g|] eqn:E.
    2:{ apply aligned_none in E. destruct E as [E|(E & _)]; congruence. }
    destruct tol_facts as (P & PB & SB & Tl).
    assert (Acc : forall b, accurate (component b g) (slope_on b i)).
    { assert (Rw : bpow radix2 (-800) <= r <= bpow radix2 800).
      { split; [apply Rle_trans with (bpow radix2 (-100)); [apply bpow_le; lia|lra]|].
        apply Rle_trans with (bpow radix2 80); [lra|apply bpow_le; lia]. }
      assert (Vs : forall j, in_bounds d j = true -> finite_float (value f j) /\ Rabs (real32 (value f j)) <= bpow radix2 126).
      { intros j Hj. destruct (wall_vals f a low k N Rr Wl Hnx Hny Hnz j Hj) as (F1 & F2). split; [exact F1|].
        apply Rle_trans with (bpow radix2 100); [lra|apply bpow_le; lia]. }
      destruct (gradient_accurate f Fr Rw Vs i true g E) as (X & Y & Z). intros []; assumption. }
    destruct (slope_wall i Hi) as ((g0 & Hg & S) & Z).
    exists g, (real64 (component a g) * sg). split; [reflexivity|].
    assert (S2 : sg * sg = 1) by (unfold sgn; destruct low; lra).
    destruct (Acc a) as (Fa & Ea). rewrite S in Ea.
    assert (T : bpow radix2 (-23) * Rabs (sg * g0) + bpow radix2 (-1075) <= 0.00001).
    { assert (Rabs (sg * g0) <= 2) by (apply Rabs_le; unfold sgn; destruct low; lra).
      assert (bpow radix2 (-1075) <= bpow radix2 (-23)) by (apply bpow_le; lia).
      assert (bpow radix2 (-23) <= 0.000002) by (cbn -[IZR Rinv]; lra). pose proof (bpow_gt_0 radix2 (-23)). nra. }
    apply Rle_trans with (2 := T) in Ea. apply Rabs_le_inv in Ea. split; [|split; [split; [exact Fa|]|]].
    - unfold sgn in *. destruct low; lra.
    - replace (sg * (real64 (component a g) * sg)) with (real64 (component a g) * (sg * sg)) by ring. rewrite S2. ring.
    - intros b Nb. destruct (Acc b) as (Fb & Eb). split; [exact Fb|]. apply real_zero_or; [exact Fb|].
      rewrite (Z b Nb), Rabs_R0, Rmult_0_r, Rplus_0_l, Rminus_0_r in Eb. exact Eb.
  Qed.

  Lemma height q : above_wall r n a low k (real_vec q) = sg * real64 (component a q) + off f a low k.
  Proof. clear. unfold above_wall, sgn, off. destruct a, low; cbn [component real_vec vx vy vz]; asR; ring. Qed.

  Lemma height_component q : real64 (component a q) = sg * (above_wall r n a low k (real_vec q) - off f a low k).
  Proof. clear. rewrite height. unfold sgn. destruct low; ring. Qed.

  Lemma off_range : (low = true -> off f a low k = - (r * IZR k)) /\ (low = false -> off f a low k = r * IZR n - r * IZR k).
  Proof. clear. unfold off. split; intros ->; [reflexivity|]. rewrite minus_IZR. ring. Qed.

  Lemma quarter_lit : finite_double (@lit ieee 1 4) /\ real64 (@lit ieee 1 4) = / 4.
  Proof.
    clear. set (hf := @lit ieee 1 4). assert (Fh : finite_double hf) by (vm_compute; reflexivity). split; [exact Fh|].
    assert (E : eq64 hf (B754_finite 53 1024 false 4503599627370496 (-54) eq_refl) = true) by (vm_compute; reflexivity).
    rewrite eq_finite in E by (auto; vm_compute; reflexivity).
    destruct (Req_EM_T _ _) as [K|]; [|discriminate]. rewrite K. unfold real64. cbn [B2R]. unfold F2R. cbn -[IZR]. lra.
  Qed.

  Lemma margin_lit : finite_double (@lit ieee 1 10000) /\ Rabs (real64 (@lit ieee 1 10000) - / 10000) <= u.
  Proof.
    clear. destruct u_tiny as ((U0 & U1) & T).
    assert (F1 : finite_double (@of_int ieee 1) /\ real64 (@of_int ieee 1) = 1) by (cbn [of_int ieee]; apply of_Z_exact; cbn; lia).
    assert (F2 : finite_double (@of_int ieee 10000) /\ real64 (@of_int ieee 10000) = 10000) by (cbn [of_int ieee]; apply of_Z_exact; cbn; lia).
    destruct F1 as (F1 & R1), F2 as (F2 & R2).
    destruct (div64_small _ _ F1 F2) as (F & e & t & He & Ht & E); [lra| |].
    - rewrite R1, R2. rewrite Rabs_pos_eq by lra. pose proof big_bpow. lra.
    - split; [exact F|]. unfold lit. cbn [ddiv ieee]. rewrite E, R1, R2.
      replace (1 / 10000 * (1 + e) + t - / 10000) with (e / 10000 + t) by field.
      apply Rabs_le_inv in He. apply Rabs_le_inv in Ht. apply Rabs_le. lra.
  Qed.

  Lemma axis_eq (b c : axis_name) : {b = c} + {b <> c}.
  Proof. clear. decide equality. Qed.

  Lemma xr_real x : finite_double x -> xr64 x = real64 x.
  Proof. clear. intros F. apply (finite_xr x F). Qed.

  Lemma Rmin_near x y x' y' e : Rabs (x - x') <= e -> Rabs (y - y') <= e -> Rabs (Rmin x y - Rmin x' y') <= e.
  Proof.
    clear. intros X Y. apply Rabs_le_inv in X. apply Rabs_le_inv in Y. apply Rabs_le.
    unfold Rmin. destruct (Rle_dec x y), (Rle_dec x' y'); lra.
  Qed.

  Variables (md mult : binary64).
  Notation M := (real64 md).
  Notation rm := (r * real64 mult).
  Hypotheses (Fmd : finite_double md) (Bmd : Rabs M <= B) (Fm : finite_double mult) (Bm : 0 < real64 mult <= IZR N)
    (Hm : 16 * tol <= rm / 10000).

  Definition good (q : vec ieee) : Prop := finite_vec q /\ (forall b, Rabs (real64 (component b q)) <= bpow radix2 800) /\
    in_bounds d (index_of p q) = true.

  Lemma sides_all b : (1 <= cells_along b d <= N)%Z \/ forall q, ~ good q.
  Proof using Hnx Hny Hnz.
    destruct (in_bounds d (I 0 0 0)) eqn:E; [left; apply sides; exact E|right].
    intros q (_ & _ & Q). assert (in_bounds d (I 0 0 0) = true); [|congruence]. apply in_bounds_spec. apply in_bounds_spec in Q. cbn. lia.
  Qed.

  Lemma r_wide : bpow radix2 (-100) <= r <= bpow radix2 100.
  Proof using Rr. split; [apply Rr|]. apply Rle_trans with (bpow radix2 80); [apply Rr|apply bpow_le; lia]. Qed.

  Lemma good_range q : good q -> - (tol / 400) <= real64 (component a q) <= r * IZR n + tol / 400.
  Proof using Fr Rr Wl HN Hnx Hny Hnz.
    clear Small Hm. intros H. destruct tol_facts as (P & PB & SB & Tl).
    destruct (sides_all a) as [Hn|Hn]; [|exfalso; exact (Hn q H)]. destruct H as (Fq & Bq & Iq).
    rewrite bounds_axes in Iq. specialize (Iq a). rewrite index_component in Iq.
    assert (Fa : finite_double (component a q)) by (destruct Fq as (? & ? & ?); destruct a; assumption).
    assert (0 < u * B) by (apply Rmult_lt_0_compat; [apply u_pos|lra]).
    pose proof (index_range (f_res f) n N Fr r_wide Hn HN (component a q) Fa (Bq a) Iq). lra.
  Qed.

  Lemma good_height q : good q -> Rabs (real64 (component a q)) <= 1.01 * B /\
    Rabs (above_wall r n a low k (real_vec q)) <= 1.01 * B /\ above_wall r n a low k (real_vec q) <= r * IZR (n - k) + tol / 400 /\
    - (r * IZR k) - tol / 400 <= above_wall r n a low k (real_vec q).
  Proof using Fr Rr Wl HN Hnx Hny Hnz.
    clear Small Hm. intros H. pose proof (good_range q H) as K. destruct tol_facts as (P & PB & SB & Tl).
    destruct (sides_all a) as [Hn|Hn]; [|exfalso; exact (Hn q H)].
    assert (0 < u * B) by (apply Rmult_lt_0_compat; [apply u_pos|lra]).
    assert (Nn : IZR n <= IZR N) by (apply IZR_le; lia). pose proof (proj1 Wl) as Hk.
    assert (1 <= IZR k) by (apply IZR_le; lia). assert (IZR k <= IZR n - 1) by (rewrite <- minus_IZR; apply IZR_le; lia).
    assert (r * IZR n <= B) by nra. assert (0 < r * IZR k) by nra. assert (r * IZR k <= r * IZR n) by nra.
    split; [apply Rabs_le; lra|]. rewrite height, minus_IZR. destruct off_range as (O1 & O2).
    unfold sgn. destruct low; [rewrite O1 by reflexivity|rewrite O2 by reflexivity];
      (split; [apply Rabs_le; lra|]); split; lra.
  Qed.

  Lemma estimate_good q : good q -> exists e, estimate_from_neighbors f p q (index_of p q) = Ok e /\ finite_double e /\
    Rabs (real64 e - above_wall r n a low k (real_vec q)) <= tol.
  Proof using Fr Rr Wl HN Hnx Hny Hnz.
    clear Small Hm. intros (Fq & Bq & Iq).
    destruct (wall_estimate_double f a low k N Fr Rr Wl HN Hnx Hny Hnz q Fq (Bq AlongX) (Bq AlongY) (Bq AlongZ) Iq) as (e & E & Fe & X).
    exists e. rewrite tolerance_eq in X. split; [|auto].
    unfold estimate_distance in E. change (to_grid p q) with q in E. rewrite Iq in E.
    destruct (estimate_from_neighbors f p q (index_of p q)); cbn in E; congruence.
  Qed.

  (** What one pass does to the point. *)
  Lemma step_wall q dist : good q -> finite_double dist -> Rabs (real64 dist - above_wall r n a low k (real_vec q)) <= tol ->
    real64 dist <= M ->
    exists q', project_step f p md mult q (index_of p q) dist =
        match estimate_from_neighbors f p q' (index_of p q') with
        | Ok d' => Running q' (index_of p q') d' | Throw e => Failed e | UB e => Failed e end /\
      finite_vec q' /\ (forall b, b <> a -> real64 (component b q') = real64 (component b q)) /\
      Rabs (above_wall r n a low k (real_vec q') -
            (above_wall r n a low k (real_vec q) + Rmin rm (M + rm / 10000 - real64 dist))) <= tol / 16.
  Proof using Fr Rr Small Wl HN Hnx Hny Hnz Fmd Bmd Fm Bm.
    clear Hm. intros Hq Fd Dd Le. destruct tol_facts as (P & PB & SB & Tl). destruct u_tiny as ((U0 & U1) & T).
    destruct (good_height q Hq) as (Cq & Hh & _). pose proof Hq as (Fq & Bq & Iq).
    destruct (gradient_wall _ Iq) as (g & G & Eg & HG & Ga & Gb).
    assert (Sg : sg = 1 \/ sg = -1) by (unfold sgn; destruct low; lra).
    assert (HG' : 1 / 2 <= G <= 3) by lra.
    destruct (norm_near a g sg G Sg HG' Ga Gb) as (Fn & en & Hen & Vn).
    destruct (normal_near a g sg G Sg HG' Ga Gb) as (Fnn & Nn & Nb).
    assert (RB : 0 < rm <= B) by (split; [apply Rmult_lt_0_compat; lra|apply Rmult_le_compat_l; lra]).
    assert (Bd : Rabs (real64 dist) <= 1.02 * B) by (apply Rabs_le_inv in Dd; apply Rabs_le_inv in Hh; apply Rabs_le; lra).
    (* the tests *)
    unfold project_step. cbn [dle dlt dmul dadd dsub ieee].
    assert (T1 : le64 dist md = true) by (apply (le64_spec dist md (finite_not_nan _ Fd) (finite_not_nan _ Fmd)); rewrite !xr_real by auto; exact Le).
    rewrite T1, Eg. destruct quarter_lit as (F4 & V4). destruct margin_lit as (Fl & Vl).
    assert (T2 : lt64 (mul64 (f_res f) (@lit ieee 1 4)) (@norm ieee g) = true).
    { destruct (mul64_small (f_res f) (@lit ieee 1 4) Fr F4) as (F & e & t & He & Ht & E).
      { rewrite V4. rewrite Rabs_pos_eq by lra. pose proof big_bpow. lra. }
      apply (lt64_spec _ _ (finite_not_nan _ F) (finite_not_nan _ Fn)). rewrite !xr_real by auto. rewrite E, V4, Vn.
      apply Rabs_le_inv in He. apply Rabs_le_inv in Ht. apply Rabs_le_inv in Hen. nra. }
    rewrite T2. cbv zeta.
    (* the step *)
    destruct (mul_abs B SB (f_res f) mult Fr Fm) as (F1 & E1); [rewrite Rabs_pos_eq; lra|].
    set (m1 := mul64 (f_res f) mult) in *.
    assert (UB_ : 0 < u * B <= B / 1000000000) by (split; [apply Rmult_lt_0_compat; lra|]; unfold Rdiv; rewrite Rmult_comm; apply Rmult_le_compat_l; lra).
    assert (B1 : Rabs (real64 m1) <= 1.01 * B) by (apply Rabs_le_inv in E1; apply Rabs_le; lra).
    assert (E2' : Rabs (real64 m1 * real64 (@lit ieee 1 10000) - rm / 10000) <= 3 * (u * B)).
    { replace (real64 m1 * real64 (@lit ieee 1 10000) - rm / 10000)
        with (real64 m1 * (real64 (@lit ieee 1 10000) - / 10000) + (real64 m1 - rm) / 10000) by field.
      eapply Rle_trans; [apply Rabs_triang|].
      assert (Rabs (real64 m1 * (real64 (@lit ieee 1 10000) - / 10000)) <= 1.01 * B * u).
      { rewrite Rabs_mult. apply Rmult_le_compat; auto using Rabs_pos. }
      assert (Rabs ((real64 m1 - rm) / 10000) <= u * B) by (apply Rabs_le_inv in E1; apply Rabs_le; lra). lra. }
    destruct (mul_abs B SB m1 (@lit ieee 1 10000) F1 Fl) as (F2 & E2); [apply Rabs_le_inv in E2'; apply Rabs_le; lra|].
    set (m2 := mul64 m1 (@lit ieee 1 10000)) in *.
    assert (B2 : Rabs (real64 m2 - rm / 10000) <= 12 * (u * B)) by (apply Rabs_le_inv in E2'; apply Rabs_le_inv in E2; apply Rabs_le; lra).
    destruct (add_abs B SB md m2 Fmd F2) as (F3 & E3); [apply Rabs_le_inv in B2; apply Rabs_le_inv in Bmd; apply Rabs_le; lra|].
    set (m3 := add64 md m2) in *.
    assert (B3 : Rabs (real64 m3 - (M + rm / 10000)) <= 21 * (u * B)) by (apply Rabs_le_inv in E3; apply Rabs_le_inv in B2; apply Rabs_le; lra).
    destruct (sub_abs B SB m3 dist F3 Fd) as (F5 & E5);
      [apply Rabs_le_inv in B3; apply Rabs_le_inv in Bmd; apply Rabs_le_inv in Bd; apply Rabs_le; lra|].
    set (m5 := sub64 m3 dist) in *.
    assert (B5 : Rabs (real64 m5 - (M + rm / 10000 - real64 dist)) <= 30 * (u * B)) by (apply Rabs_le_inv in E5; apply Rabs_le_inv in B3; apply Rabs_le; lra).
    destruct (dmin_ieee m1 m5 (finite_not_nan _ F1) (finite_not_nan _ F5)) as (N6 & X6).
    set (st := @dmin ieee m1 m5) in *.
    assert (F6 : finite_double st) by (unfold st, dmin; destruct (dlt ieee m5 m1); assumption).
    rewrite !xr_real in X6 by auto.
    assert (B6 : Rabs (real64 st - Rmin rm (M + rm / 10000 - real64 dist)) <= 30 * (u * B)).
    { rewrite X6. apply Rmin_near; [|exact B5]. eapply Rle_trans; [exact E1|]. lra. }
    set (S := Rmin rm (M + rm / 10000 - real64 dist)) in *.
    assert (BS : Rabs S <= B).
    { unfold S. apply Rabs_le_inv in Bmd. apply Rabs_le_inv in Bd. unfold Rmin. destruct (Rle_dec _ _); apply Rabs_le; lra. }
    assert (Bst : Rabs (real64 st) <= 1.01 * B) by (apply Rabs_le_inv in B6; apply Rabs_le_inv in BS; apply Rabs_le; lra).
    set (nn := @normalized ieee g) in *.
    assert (E7' : Rabs (real64 (component a nn) * real64 st - sg * real64 st) <= 11 * (u * B)).
    { replace (real64 (component a nn) * real64 st - sg * real64 st) with ((real64 (component a nn) - sg) * real64 st) by ring.
      rewrite Rabs_mult. apply Rle_trans with (10 * u * (1.01 * B)); [apply Rmult_le_compat; auto using Rabs_pos|]. lra. }
    assert (E7s : Rabs (sg * real64 st - sg * S) <= 30 * (u * B)).
    { apply Rabs_le_inv in B6. apply Rabs_le. destruct Sg as [-> | ->]; lra. }
    assert (Bs : Rabs (sg * real64 st) <= 1.01 * B).
    { apply Rabs_le_inv in Bst. apply Rabs_le. destruct Sg as [-> | ->]; lra. }
    destruct (mul_abs B SB (component a nn) st Fnn F6) as (F7 & E7);
      [apply Rabs_le_inv in E7'; apply Rabs_le_inv in Bs; apply Rabs_le; lra|].
    assert (Fa : finite_double (component a q)) by (destruct Fq as (? & ? & ?); destruct a; assumption).
    destruct (add_abs B SB (component a q) (mul64 (component a nn) st) Fa F7) as (F8 & E8).
    { apply Rabs_le_inv in E7. apply Rabs_le_inv in E7'. apply Rabs_le_inv in Bs. apply Rabs_le_inv in Cq. apply Rabs_le; lra. }
    set (q' := vadd q (vscale nn st)).
    assert (Cm : forall b, component b q' = add64 (component b q) (mul64 (component b nn) st)) by (intros []; reflexivity).
    assert (Lat : forall b, b <> a -> finite_double (component b q') /\ real64 (component b q') = real64 (component b q)).
    { intros b Hb. destruct (Nb b Hb) as (Fb & Vb). destruct (mul_zero (component b nn) st Fb F6 (or_introl Vb)) as (Fz & Vz).
      rewrite Cm. apply add_exact_r; [|exact Fz|exact Vz]. destruct Fq as (? & ? & ?); destruct b; assumption. }
    exists q'. split; [reflexivity|]. split; [|split; [intros b Hb; apply (Lat b Hb)|]].
    - assert (K : forall b, finite_double (component b q')).
      { intros b. destruct (axis_eq b a) as [-> |Nb']; [rewrite Cm; exact F8|apply (Lat b Nb')]. }
      exact (conj (K AlongX) (conj (K AlongY) (K AlongZ))).
    - rewrite !height, (Cm a).
      assert (K : Rabs (real64 (add64 (component a q) (mul64 (component a nn) st)) - (real64 (component a q) + sg * S)) <= 59 * (u * B)).
      { apply Rabs_le_inv in E8. apply Rabs_le_inv in E7. apply Rabs_le_inv in E7'. apply Rabs_le_inv in E7s. apply Rabs_le. lra. }
      apply Rabs_le_inv in K. apply Rabs_le. destruct Sg as [Es|Es]; rewrite Es in K |- *; lra.
  Qed.

  Notation H q := (above_wall r n a low k (real_vec q)).
  Notation limit := (M + rm / 10000 + 2 * tol).

  (** One pass ends outside, or at a point that is higher. *)
  Lemma next_wall q dist : good q -> finite_double dist -> Rabs (real64 dist - H q) <= tol -> real64 dist <= M ->
    (project_step f p md mult q (index_of p q) dist = Failed "Index out of bounds"%string /\ r * IZR (n - k) < limit) \/
    exists q' d', project_step f p md mult q (index_of p q) dist = Running q' (index_of p q') d' /\ good q' /\
      finite_double d' /\ Rabs (real64 d' - H q') <= tol /\
      (forall b, b <> a -> real64 (component b q') = real64 (component b q)) /\ H q' <= limit /\
      (H q + rm - tol <= H q' \/ M + tol < H q').
  Proof using Fr Rr Small Wl HN Hnx Hny Hnz Fmd Bmd Fm Bm Hm.
    intros Hq Fd Dd Le. destruct tol_facts as (P & PB & SB & Tl).
    assert (UB_ : 0 < u * B) by (apply Rmult_lt_0_compat; [apply u_pos|lra]).
    destruct (step_wall q dist Hq Fd Dd Le) as (q' & E & Fq' & Lat & Hh).
    destruct (good_height q Hq) as (_ & _ & Up & Lo).
    assert (RB : 0 < rm) by (apply Rmult_lt_0_compat; lra).
    apply Rabs_le_inv in Hh. apply Rabs_le_inv in Dd.
    assert (S0 : rm / 10000 <= Rmin rm (M + rm / 10000 - real64 dist) <= M + rm / 10000 - real64 dist).
    { split; [apply Rmin_glb; lra|apply Rmin_r]. }
    assert (Hl : H q' <= limit) by lra.
    assert (Hg : H q + rm - tol <= H q' \/ M + tol < H q').
    { unfold Rmin in Hh. destruct (Rle_dec _ _); [left|right]; lra. }
    assert (Sizes : forall b, (1 <= cells_along b d <= N)%Z) by (intros b; destruct (sides_all b) as [X|X]; [exact X|exfalso; exact (X q Hq)]).
    pose proof (Sizes a) as Hn. pose proof (proj1 Wl) as Hk.
    assert (Fa : finite_double (component a q')) by (destruct Fq' as (? & ? & ?); destruct a; assumption).
    assert (Ca : 4 * u * B <= real64 (component a q') /\ (H q' <= r * IZR (n - k) - 4 * u * B -> real64 (component a q') <= r * IZR n - 4 * u * B) \/
                 real64 (component a q') <= r * IZR n - 4 * u * B /\ (H q' <= r * IZR (n - k) - 4 * u * B -> 4 * u * B <= real64 (component a q'))).
    { rewrite (height_component q'). destruct off_range as (O1 & O2). rewrite minus_IZR in *.
      unfold sgn. destruct low; [left; rewrite O1 by reflexivity|right; rewrite O2 by reflexivity]; split; intros; lra. }
    rewrite E. destruct (in_bounds d (index_of p q')) eqn:Ib.
    - right. pose proof Hq as (_ & Bq & _).
      assert (G : good q').
      { split; [exact Fq'|]. split; [|exact Ib]. intros b. destruct (axis_eq b a) as [-> |Nb]; [|rewrite (Lat b Nb); apply Bq].
        apply Rle_trans with (8 * B).
        - rewrite height_component. destruct (good_height q Hq) as (Cq & Hq2 & _).
          rewrite height_component in Cq. apply Rabs_le_inv in Cq. apply Rabs_le_inv in Hq2.
          assert (rm <= B) by (apply Rmult_le_compat_l; lra).
          pose proof (Rmin_l rm (M + rm / 10000 - real64 dist)).
          apply Rabs_le. unfold sgn in *. destruct low; lra.
        - apply Rle_trans with (bpow radix2 3 * bpow radix2 100); [change (bpow radix2 3) with 8; lra|].
          rewrite <- bpow_plus. apply bpow_le. lia. }
      destruct (estimate_good q' G) as (d' & Ed & Fd' & Dd'). exists q', d'. rewrite Ed. auto 10.
    - left. rewrite (estimate_inb f p q' _ Ib). split; [reflexivity|]. apply Rnot_le_lt. intros Lim.
      assert (in_bounds d (index_of p q') = true); [|congruence]. apply bounds_axes. intros b. rewrite index_component.
      destruct (axis_eq b a) as [-> |Nb].
      + apply (index_inside (f_res f) n N Fr r_wide Hn HN _ Fa). destruct Ca as [(C1 & C2)|(C1 & C2)]; split; try assumption; apply C2; lra.
      + destruct Hq as (Fq & _ & Iq). rewrite bounds_axes in Iq. specialize (Iq b). rewrite index_component in Iq.
        rewrite (index_same (f_res f) (component b q') (component b q)); auto; [destruct Fq' as (? & ? & ?); destruct b; assumption|].
        destruct Fq as (? & ? & ?); destruct b; assumption.
  Qed.

  Lemma loop_wall : forall passes fuel q dist top, good q -> finite_double dist -> Rabs (real64 dist - H q) <= tol ->
    H q <= top -> limit <= top -> M + tol - H q <= INR passes * (rm - tol) -> (passes + 2 <= fuel)%nat ->
    (project_loop fuel f p md mult q (index_of p q) dist = Failed "Index out of bounds"%string /\ r * IZR (n - k) < limit) \/
    exists w, project_loop fuel f p md mult q (index_of p q) dist = Finished w /\ finite_vec w /\
      (forall b, b <> a -> real64 (component b w) = real64 (component b q)) /\ M - tol < H w <= top.
  Proof using Fr Rr Small Wl HN Hnx Hny Hnz Fmd Bmd Fm Bm Hm.
    destruct tol_facts as (P & PB & SB & Tl).
    assert (UB_ : 0 < u * B) by (apply Rmult_lt_0_compat; [apply u_pos|lra]).
    assert (Test : forall dist, finite_double dist -> le64 dist md = true <-> real64 dist <= M).
    { intros dist Fd. rewrite (le64_spec dist md (finite_not_nan _ Fd) (finite_not_nan _ Fmd)). rewrite !xr_real by auto. reflexivity. }
    assert (Stop : forall fuel q dist top, good q -> finite_double dist -> Rabs (real64 dist - H q) <= tol -> H q <= top ->
      M < real64 dist -> project_loop (S fuel) f p md mult q (index_of p q) dist = Finished q /\ M - tol < H q <= top).
    { intros fuel q dist top _ Fd Dd Ht L. cbn [project_loop]. unfold project_step. cbn [dle ieee].
      destruct (le64 dist md) eqn:T; [apply (Test dist Fd) in T; lra|]. split; [reflexivity|]. apply Rabs_le_inv in Dd. lra. }
    induction passes as [|m IH]; intros fuel q dist top Hq Fd Dd Ht Hlim Far Fu.
    all: destruct fuel as [|fuel]; [lia|].
    all: destruct (Rlt_le_dec M (real64 dist)) as [L|L];
      [right; exists q; destruct (Stop fuel q dist top Hq Fd Dd Ht L) as (S1 & S2); split; [exact S1|split; [apply Hq|split; [auto|exact S2]]]|].
    all: destruct (next_wall q dist Hq Fd Dd L) as [(E & Lt)|(q' & d' & E & Hq' & Fd' & Dd' & Lat & Up & Gain)];
      [left; cbn [project_loop]; rewrite E; auto|].
    all: cbn [project_loop]; rewrite E.
    all: assert (Dn : M + tol < H q' -> exists w, project_loop fuel f p md mult q' (index_of p q') d' = Finished w /\ finite_vec w /\
         (forall b, b <> a -> real64 (component b w) = real64 (component b q)) /\ M - tol < H w <= top)
      by (intros K; exists q'; destruct fuel as [|fuel]; [lia|]; destruct (Stop fuel q' d' top Hq' Fd' Dd') as (S1 & S2);
          [lra|apply Rabs_le_inv in Dd'; lra|]; split; [exact S1|split; [apply Hq'|split; [exact Lat|exact S2]]]).
    - right. apply Dn. destruct Gain as [Gain|Gain]; [|exact Gain]. cbn [INR] in Far. lra.
    - destruct Gain as [Gain|Gain]; [|right; apply Dn; exact Gain]. rewrite S_INR in Far.
      destruct (IH fuel q' d' top Hq' Fd' Dd') as [K|(w & K & Fw & Lw & Hw)]; [lra|lra|lra|lia|left; exact K|].
      right. exists w. split; [exact K|]. split; [exact Fw|]. split; [|exact Hw]. intros b Nb. rewrite (Lw b Nb). apply Lat. exact Nb.
  Qed.

  Lemma project_wall passes fuel loc : good loc -> M + tol - H loc <= INR passes * (rm - tol) -> (passes + 2 <= fuel)%nat ->
    (project_out fuel f p loc md mult = Failed "Index out of bounds"%string /\ r * IZR (n - k) < limit) \/
    exists w, project_out fuel f p loc md mult = Finished w /\ finite_vec w /\
      (forall b, b <> a -> real64 (component b w) = real64 (component b loc)) /\ M - tol < H w <= Rmax (H loc) limit.
  Proof using Fr Rr Small Wl HN Hnx Hny Hnz Fmd Bmd Fm Bm Hm.
    intros Hq Far Fu. destruct (estimate_good loc Hq) as (e & E & Fe & De).
    unfold project_out. change (to_grid p loc) with loc. rewrite (proj2 (proj2 Hq)). change (to_grid p loc) with loc.
    unfold project_out_grid_frame. cbv zeta. rewrite E.
    destruct (loop_wall passes fuel loc e (Rmax (H loc) limit) Hq Fe De (Rmax_l _ _) (Rmax_r _ _) Far Fu) as [(K & Lt)|(w & K & W)];
      rewrite K; [left; auto|right]. exists w. split; [reflexivity|exact W].
  Qed.
End Wall.

(** ** The field extracted from a map *)
Section Extracted.
  Variables (a : axis_name) (low : bool) (d : dims) (r : binary64) (oob : binary32) (frame : String.string).
  Variables (is_filled : idx -> res bool) (k N : Z) (s : sdf) (x : binary64 * binary64) (md mult : binary64) (loc : vec ieee).
  Notation tol := (wall_tolerance (real64 r) N).
  Notation height_of q := (above_wall (real64 r) (cells_along a d) a low k (real_vec q)).
  Notation limit := (real64 md + real64 r * real64 mult / 10000 + 2 * tol).

  Lemma extracted_projection_doubles : extracted_wall a low d r oob frame is_filled k N s x -> real64 r <= 3.99 ->
    finite_double md -> Rabs (real64 md) <= real64 r * IZR N ->
    finite_double mult -> 0 < real64 mult <= IZR N -> 16 * tol <= real64 r * real64 mult / 10000 ->
    usable_point loc -> in_bounds d (index_of (ieee_pose r) loc) = true ->
    forall passes fuel, real64 md + tol - height_of loc <= INR passes * (real64 r * real64 mult - tol) -> (passes + 2 <= fuel)%nat ->
    (exists w, project_out fuel (sdf_field s) (ieee_pose r) loc md mult = Finished w /\ finite_vec w /\
       (forall b, b <> a -> real64 (component b w) = real64 (component b loc)) /\
       real64 md - tol < height_of w <= Rmax (height_of loc) limit) \/
    (project_out fuel (sdf_field s) (ieee_pose r) loc md mult = Failed "Index out of bounds"%string /\
     real64 r * IZR (cells_along a d - k) < limit).
  Proof.
    intros (Hs & Hr & Rr & HP & Hk & Ex & He & X & Y & Z & HN) Sm Fmd Bmd Fm Bm Hm (Fv & Bx & By & Bz) Hi passes fuel Far Fu.
    destruct (extracted_double_wall a low d r oob frame is_filled k s x Hs Hr HP Hk Ex He) as (Wl & FD & FR).
    rewrite <- FR in *. rewrite <- FD in *.
    destruct (project_wall (sdf_field s) a low k N (proj1 Hr) Rr Sm Wl HN X Y Z md mult Fmd Bmd Fm Bm Hm passes fuel loc) as [K|K]; auto.
    split; [exact Fv|]. split; [intros []; assumption|exact Hi].
  Qed.
End Extracted.

(** The margin hypothesis for the default step and up to 3000 cells on an axis. *)
Lemma default_margin r mult N : 0 < r -> (1 <= N <= 3000)%Z -> mult = 1 / 8 -> 16 * wall_tolerance r N <= r * mult / 10000.
Proof.
  intros P HN ->. unfold wall_tolerance. change (bpow radix2 (-53)) with u.
  assert (E : bpow radix2 (-42) = 2048 * u).
  { unfold u. change (-42)%Z with (11 + -53)%Z. rewrite bpow_plus. reflexivity. }
  rewrite E. assert (U : u <= 1.2 / 10000000000000000) by (unfold u; cbn -[Rinv IZR]; apply Rle_trans with (/ 9007199254740992); lra).
  pose proof u_pos as U0. assert (N1 : 1 <= IZR N <= 3000) by (split; apply IZR_le; lia).
  assert (K : (2048 * u + 512 * (IZR N + 1) * u) * IZR N <= 1.2 / 10000000000000000 * (2048 + 512 * 3001) * 3000).
  { replace (2048 * u + 512 * (IZR N + 1) * u) with (u * (2048 + 512 * (IZR N + 1))) by ring.
    apply Rmult_le_compat; try lra; [apply Rmult_le_pos; lra|]. apply Rmult_le_compat; lra. }
  apply Rle_trans with (r * (16 * (1.2 / 10000000000000000 * (2048 + 512 * 3001) * 3000))); [|nra].
  replace (16 * ((2048 * u + 512 * (IZR N + 1) * u) * (r * IZR N))) with (r * (16 * ((2048 * u + 512 * (IZR N + 1) * u) * IZR N))) by ring.
  apply Rmult_le_compat_l; lra.
Qed.

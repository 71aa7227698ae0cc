(** The search of the projection out of collision stays among finite points. *)
From Coq Require Import Bool Reals Lra Lia.
From Flocq Require Import Core.Core IEEE754.Binary IEEE754.Bits.
From Verif Require Import Base BaseFacts Floats FloatFacts FloatFacts2 Grid GridFacts DistSpec CollisionMap SdfGen Arith SdfQuery SdfField QuerySpec QueryProofs
  QueryReal QueryThms DoubleSpec DoubleQuery DoubleEstimate DoubleGrid WallProject EstimateSpec EstimateMap IdealSpec IdealMap InsideThms.
Open Scope R_scope.

Local Instance prec53 : Prec_gt_0 53 := eq_refl.

Lemma two_bpow k : 2 * bpow radix2 k = bpow radix2 (k + 1).
Proof. rewrite bpow_plus. change (bpow radix2 1) with 2. ring. Qed.

Lemma bounded_product a b i j : Rabs a <= bpow radix2 i -> Rabs b <= bpow radix2 j -> Rabs (a * b) <= bpow radix2 (i + j).
Proof. intros A B. rewrite Rabs_mult, bpow_plus. apply Rmult_le_compat; auto using Rabs_pos. Qed.

Lemma relative_bound x e t k : (0 <= k)%Z -> Rabs x <= bpow radix2 k -> Rabs e <= u -> Rabs t <= bpow radix2 (-1075) ->
  Rabs (x * (1 + e) + t) <= bpow radix2 (k + 1).
Proof.
  intros K X E T. destruct u_tiny as ((U0 & U1) & _). rewrite <- two_bpow.
  assert (1 <= bpow radix2 k) by (change 1 with (bpow radix2 0); apply bpow_le; exact K).
  assert (bpow radix2 (-1075) <= 1 / 4) by (apply Rle_trans with (bpow radix2 (-2)); [apply bpow_le; lia|cbn; lra]).
  assert (Rabs (x * e) <= bpow radix2 k * (1 / 4)) by (rewrite Rabs_mult; apply Rmult_le_compat; try apply Rabs_pos; lra).
  replace (x * (1 + e) + t) with (x + x * e + t) by ring.
  eapply Rle_trans; [apply Rabs_triang|]. pose proof (Rabs_triang x (x * e)). lra.
Qed.

Lemma mul_bound x y i j : finite_double x -> finite_double y -> Rabs (real64 x) <= bpow radix2 i -> Rabs (real64 y) <= bpow radix2 j ->
  (0 <= i + j <= 1000)%Z -> finite_double (mul64 x y) /\ Rabs (real64 (mul64 x y)) <= bpow radix2 (i + j + 1).
Proof.
  intros Fx Fy X Y K. pose proof (bounded_product _ _ _ _ X Y) as B.
  destruct (mul64_small x y Fx Fy) as (F & e & t & He & Ht & V). { apply Rle_trans with (1 := B). apply bpow_le. lia. }
  split; [exact F|]. rewrite V. apply relative_bound; auto; lia.
Qed.

Lemma add_bound x y k : finite_double x -> finite_double y -> Rabs (real64 x) <= bpow radix2 k -> Rabs (real64 y) <= bpow radix2 k ->
  (0 <= k < 1000)%Z -> finite_double (add64 x y) /\ Rabs (real64 (add64 x y)) <= bpow radix2 (k + 2).
Proof.
  intros Fx Fy X Y K. assert (B : Rabs (real64 x + real64 y) <= bpow radix2 (k + 1)).
  { rewrite <- two_bpow. eapply Rle_trans; [apply Rabs_triang|]. lra. }
  destruct (add64_small x y Fx Fy) as (F & e & He & V). { apply Rle_trans with (1 := B). apply bpow_le. lia. }
  split; [exact F|]. rewrite V. rewrite <- (Rplus_0_r (_ * _)). replace (k + 2)%Z with (k + 1 + 1)%Z by ring.
  apply relative_bound; auto; [lia|]. rewrite Rabs_R0. apply bpow_ge_0.
Qed.

(** A product of nonnegative doubles is not negative, and adding one to a double does not
    make it smaller. *)
Lemma mul_nonneg x y : finite_double x -> finite_double y -> 0 <= real64 x -> 0 <= real64 y -> Rabs (real64 x * real64 y) <= bpow radix2 1000 ->
  0 <= real64 (mul64 x y).
Proof.
  intros Fx Fy X Y B. destruct (mult_xr 53 1024 eq_refl eq_refl binop_nan_pl64 x y Fx Fy) as (N & E).
  destruct (finite_of_round (mul64 x y) (real64 x * real64 y) N E B) as (_ & V). rewrite V. rewrite nearest_rnd.
  apply rnd_sign_nonneg; [reflexivity|]. apply Rmult_le_pos; assumption.
Qed.

Lemma add_above x y : finite_double x -> finite_double y -> 0 <= real64 y -> Rabs (real64 x + real64 y) <= bpow radix2 1000 ->
  real64 x <= real64 (add64 x y).
Proof.
  intros Fx Fy Y B. destruct (plus_xr 53 1024 eq_refl eq_refl binop_nan_pl64 x y Fx Fy) as (N & E).
  destruct (finite_of_round (add64 x y) (real64 x + real64 y) N E B) as (_ & V). rewrite V, nearest_rnd.
  apply Rle_trans with (rnd64 (real64 x)); [right; symmetry; apply rnd_id, generic_format_B2R|]. apply rnd_le; [reflexivity|lra].
Qed.

(** The length of a step: never negative, at most the largest one. *)
Lemma step_bound a w md dist : finite_double a -> 0 <= real64 a -> finite_double w -> finite_double md -> real64 md <= real64 w -> le64 dist md = true ->
  let step := @dmin ieee a (sub64 w dist) in finite_double step /\ 0 <= real64 step <= real64 a.
Proof.
  intros Fa A0 Fw Fm W L. cbv zeta. unfold dmin. cbn [dlt ieee]. destruct (lt64 (sub64 w dist) a) eqn:Lt; [|split; [exact Fa|lra]].
  destruct (is_finite 53 1024 dist) eqn:Fd.
  - destruct (sub_xr w dist Fw Fd) as (N & X). apply le64_spec in L; [|apply finite_not_nan; exact Fd|apply finite_not_nan; exact Fm].
    rewrite (proj1 (finite_xr dist Fd)), (proj1 (finite_xr md Fm)) in L.
    apply lt64_spec in Lt; [|exact N|apply finite_not_nan; exact Fa]. rewrite (proj1 (finite_xr a Fa)) in Lt.
    assert (G0 : 0 <= nearest_double (real64 w - real64 dist)) by (rewrite nearest_rnd; apply rnd_sign_nonneg; [reflexivity|lra]).
    assert (B0 : 0 <= xr64 (sub64 w dist)).
    { rewrite X. unfold FloatFacts.clamp. pose proof (bpow_gt_0 radix2 1024) as Bp. apply Rle_trans with (2 := Rmax_r _ _).
      apply Rmin_glb; lra. }
    pose proof (proj2 (finite_xr a Fa)) as Ba.
    destruct (xr_in_finite _ N) as (F & R). { pose proof (bpow_gt_0 radix2 1024). lra. }
    split; [exact F|]. rewrite R. lra.
  - exfalso. destruct dist as [s|s|s pl H|s m e H]; try discriminate Fd; destruct s; destruct md as [s1|s1|s1 pl1 H1|s1 m1 e1 H1]; try discriminate Fm; try discriminate L;
      destruct w as [s2|s2|s2 pl2 H2|s2 m2 e2 H2]; try discriminate Fw; destruct a as [s3|s3|s3 pl3 H3|s3 m3 e3 H3]; try discriminate Fa; discriminate Lt.
Qed.

(** A direction: the components of a normalized vector that is not too short. *)
Lemma direction_bound (g : vec ieee) c : finite_vec g ->
  Rabs (real64 (vx g)) <= bpow radix2 20 /\ Rabs (real64 (vy g)) <= bpow radix2 20 /\ Rabs (real64 (vz g)) <= bpow radix2 20 ->
  finite_double c -> bpow radix2 (-110) <= real64 c -> lt64 c (@norm ieee g) = true ->
  let n := @normalized ieee g in finite_vec n /\
  Rabs (real64 (vx n)) <= bpow radix2 131 /\ Rabs (real64 (vy n)) <= bpow radix2 131 /\ Rabs (real64 (vz n)) <= bpow radix2 131.
Proof.
  intros (Fx & Fy & Fz) (Bx & By & Bz) Fc Hc L. cbv zeta. unfold normalized. cbn [dlt ieee of_int dsqrt ddiv].
  assert (Fq : finite_double (@squared_norm ieee g)).
  { unfold squared_norm. cbn [dadd dmul ieee].
    destruct (mul_bound _ _ 20 20 Fx Fx Bx Bx ltac:(lia)) as (F1 & B1). destruct (mul_bound _ _ 20 20 Fy Fy By By ltac:(lia)) as (F2 & B2).
    destruct (mul_bound _ _ 20 20 Fz Fz Bz Bz ltac:(lia)) as (F3 & B3). destruct (add_bound _ _ 41 F2 F3 B2 B3 ltac:(lia)) as (F4 & B4).
    apply (add_bound _ _ 43 F1 F4); [|exact B4|lia]. apply Rle_trans with (1 := B1). apply bpow_le. lia. }
  unfold norm in L. cbn [dsqrt ieee] in L. set (z := @squared_norm ieee g) in *. clearbody z.
  destruct zero_real as (F0 & V0). rewrite lt_finite by auto. rewrite V0. destruct (Rlt_dec 0 (real64 z)) as [Pz|_].
  2:{ assert (bpow radix2 20 <= bpow radix2 131) by (apply bpow_le; lia). split; [exact (conj Fx (conj Fy Fz))|]. lra. }
  pose proof (Bsqrt_correct 53 1024 eq_refl eq_refl unop_nan_pl64 BinarySingleNaN.mode_NE z) as (_ & HF & _).
  assert (Fs : finite_double (sqrt64 z)).
  { unfold finite_double, sqrt64, b64_sqrt. rewrite HF. unfold real64 in Pz. destruct z as [s|s|s pl H|s m e H]; auto.
    destruct s; auto. exfalso. cbn [B2R] in Pz.
    assert (F2R (Float radix2 (cond_Zopp true (Z.pos m)) e) < 0) by (apply F2R_lt_0; reflexivity). lra. }
  set (s := sqrt64 z) in *. clearbody s. rewrite lt_finite in L by auto. destruct (Rlt_dec (real64 c) (real64 s)) as [Ls|]; [|discriminate L].
  pose proof (bpow_gt_0 radix2 (-110)) as P.
  assert (Q : forall v, finite_double v -> Rabs (real64 v) <= bpow radix2 20 -> finite_double (div64 v s) /\ Rabs (real64 (div64 v s)) <= bpow radix2 131).
  { intros v Fv Bv. assert (B : Rabs (real64 v / real64 s) <= bpow radix2 130).
    { unfold Rdiv. apply (bounded_product _ _ 20 110 Bv). rewrite Rabs_pos_eq by (left; apply Rinv_0_lt_compat; lra).
      rewrite <- (Rinv_inv (bpow radix2 110)), <- bpow_opp. apply Rinv_le; [exact P|]. change (- (110))%Z with (-110)%Z. lra. }
    destruct (div64_small v s Fv Fs) as (F & e & t & He & Ht & V); [lra|apply Rle_trans with (1 := B); apply bpow_le; lia|].
    split; [exact F|]. rewrite V. apply (relative_bound _ _ _ 130); auto. lia. }
  cbn [vx vy vz]. destruct (Q _ Fx Bx). destruct (Q _ Fy By). destruct (Q _ Fz Bz).
  split; [split; [assumption|split; assumption]|]. split; [assumption|split; assumption].
Qed.

(** ** The search *)
Section Search.
  Variables (d : dims) (r : binary64) (filled : idx -> bool) (s : sdf) (p : pose ieee).
  Hypothesis HM : field_of_map d r filled s.
  Hypothesis Hp : forall q, index_of p q = index_of (ieee_pose r) q.
  Variables (md mult : binary64).
  Hypotheses (Fm : finite_double md) (Bm : Rabs (real64 md) <= bpow radix2 900).
  Hypotheses (Fk : finite_double mult) (Bk : 0 <= real64 mult <= bpow radix2 100).

  Lemma inside_bounded q : usable_point q -> in_bounds d (index_of p q) = true ->
    Rabs (real64 (vx q)) <= bpow radix2 131 /\ Rabs (real64 (vy q)) <= bpow radix2 131 /\ Rabs (real64 (vz q)) <= bpow radix2 131.
  Proof using HM Hp.
    clear Fm Bm Fk Bk md mult. intros ((Fx & Fy & Fz) & Bx & By & Bz) H. rewrite Hp in H. apply in_bounds_spec in H. destruct H as (Hx & Hy & Hz).
    pose proof HM as (Hs & (Fr & _) & Rr & _). unfold size_ok in Hs. pose proof (r_above r Rr) as P.
    assert (K : forall v n, finite_double v -> Rabs (real64 v) <= bpow radix2 800 -> (0 <= n <= 2147483647)%Z -> (0 <= floor64 (div64 v r) < n)%Z ->
      Rabs (real64 v) <= bpow radix2 131).
    { intros v n Fv Bv Hn Hv.
      assert (U : real64 v < real64 r * IZR n).
      { apply Rnot_le_lt. intros C. pose proof (floor_beyond r v Fr Rr Fv Bv n Hn C). lia. }
      assert (L : - (real64 r * bpow radix2 (-1074)) < real64 v).
      { apply Rnot_le_lt. intros C. pose proof (floor_below r v Fr Rr Fv Bv C). lia. }
      assert (real64 r * IZR n <= bpow radix2 100 * bpow radix2 31).
      { apply Rmult_le_compat; try lra; [apply IZR_le; lia|]. change (bpow radix2 31) with 2147483648. apply IZR_le. lia. }
      assert (real64 r * bpow radix2 (-1074) <= bpow radix2 100 * bpow radix2 31).
      { apply Rmult_le_compat; try lra; [apply bpow_ge_0|apply bpow_le; lia]. }
      change 131%Z with (100 + 31)%Z. rewrite bpow_plus. apply Rabs_le. lra. }
    split; [|split].
    - apply (K _ (nx d)); auto; nia.
    - apply (K _ (ny d)); auto; nia.
    - apply (K _ (nz d)); auto; nia.
  Qed.

  Lemma slope_bounded n x at_ : (0 <= x < n)%Z -> (forall t, (0 <= t < n)%Z -> in_bounds d (at_ t) = true) ->
    Rabs (slope (sdf_field s) n x at_) <= 92686.
  Proof using HM.
    clear Fm Bm Fk Bk md mult Hp p. intros Hx Hin. destruct (map_dims _ _ _ _ HM) as (_ & _ & P). destruct (field_parts d r filled s HM) as (_ & Er).
    unfold slope. destruct (Z.eqb_spec n 1) as [E|E]; [rewrite Rabs_R0; lra|]. rewrite Er.
    set (hi := Z.min (n - 1) (x + 1)). set (lo := Z.max 0 (x - 1)).
    destruct (value_bound d r filled s HM (at_ hi)) as (_ & B1); [apply Hin; unfold hi; lia|].
    destruct (value_bound d r filled s HM (at_ lo)) as (_ & B2); [apply Hin; unfold lo; lia|].
    assert (K : 1 <= IZR (hi - lo)) by (apply IZR_le; unfold hi, lo; lia). set (k := IZR (hi - lo)) in *. clearbody k.
    assert (Pk : real64 r <= k * real64 r) by nra.
    unfold Rdiv. rewrite Rabs_mult, (Rabs_pos_eq (/ _)) by (left; apply Rinv_0_lt_compat; lra).
    apply Rmult_le_reg_r with (k * real64 r); [lra|]. rewrite Rmult_assoc, Rinv_l, Rmult_1_r by lra.
    eapply Rle_trans; [apply Rabs_triang|]. rewrite Rabs_Ropp. lra.
  Qed.

  Lemma gradient_bounded i edges g : grid_aligned_gradient (sdf_field s) i edges = Some g -> finite_vec g /\
    Rabs (real64 (vx g)) <= bpow radix2 20 /\ Rabs (real64 (vy g)) <= bpow radix2 20 /\ Rabs (real64 (vz g)) <= bpow radix2 20.
  Proof using HM.
    clear Fm Bm Fk Bk md mult Hp p. intros E. destruct (field_parts d r filled s HM) as (Ed & Er). pose proof HM as (Hs & (Fr & _) & (L & U) & _).
    assert (B : in_bounds d i = true).
    { rewrite <- Ed. destruct (in_bounds (f_dims (sdf_field s)) i) eqn:N; [reflexivity|].
      rewrite (proj2 (aligned_none (sdf_field s) i edges) (or_introl N)) in E. discriminate E. }
    pose proof (gradient_accurate (sdf_field s)) as K. rewrite Ed, Er in K.
    destruct (K Fr) with (i := i) (edges := edges) (g := g) as (Ax & Ay & Az); auto.
    { split; [apply Rle_trans with (2 := L)|apply Rle_trans with (1 := U)]; apply bpow_le; lia. }
    { intros j Hj. destruct (value_bound d r filled s HM j Hj) as (F & V). split; [exact F|]. pose proof (bpow_gt_0 radix2 (-100)).
      apply Rle_trans with (bpow radix2 16 * bpow radix2 100).
      - apply Rle_trans with (46343 * real64 r); [lra|]. apply Rmult_le_compat; try lra. change (bpow radix2 16) with 65536. lra.
      - rewrite <- bpow_plus. apply bpow_le. lia. }
    clear K E. apply in_bounds_spec in B. destruct i as [x y z]. cbn [ix iy iz] in *.
    assert (Q : forall v t, accurate v t -> Rabs t <= 92686 -> Rabs (real64 v) <= bpow radix2 20).
    { intros v t (_ & A) Ht. pose proof (Rabs_triang (real64 v - t) t) as T. replace (real64 v - t + t) with (real64 v) in T by ring.
      assert (bpow radix2 (-23) * Rabs t <= 1 * 92686) by (apply Rmult_le_compat; [apply bpow_ge_0|apply Rabs_pos|cbn; lra|exact Ht]).
      assert (bpow radix2 (-1075) <= 1) by (change 1 with (bpow radix2 0); apply bpow_le; lia).
      change (bpow radix2 20) with 1048576. lra. }
    split; [split; [apply Ax|split; [apply Ay|apply Az]]|]. split; [|split].
    - apply (Q _ _ Ax). apply slope_bounded; [lia|]. intros t Ht. apply in_bounds_spec. cbn [ix iy iz]. lia.
    - apply (Q _ _ Ay). apply slope_bounded; [lia|]. intros t Ht. apply in_bounds_spec. cbn [ix iy iz]. lia.
    - apply (Q _ _ Az). apply slope_bounded; [lia|]. intros t Ht. apply in_bounds_spec. cbn [ix iy iz]. lia.
  Qed.

  Lemma step_usable q dist q' i' dist' : usable_point q -> in_bounds d (index_of p q) = true ->
    project_step (sdf_field s) p md mult q (index_of p q) dist = Running q' i' dist' ->
    usable_point q' /\ i' = index_of p q' /\ in_bounds d i' = true.
  Proof using All.
    intros Hq Hb H. unfold project_step in H. destruct (dle ieee dist md) eqn:L; [|discriminate H].
    destruct (grid_aligned_gradient (sdf_field s) (index_of p q) true) as [g|] eqn:G; [|discriminate H].
    destruct (dlt ieee _ (norm g)) eqn:Ln; [|discriminate H]. cbv zeta in H.
    destruct (field_parts d r filled s HM) as (Ed & Er). rewrite Er in H, Ln.
    pose proof HM as (_ & (Fr & _) & Rr & _). pose proof (r_above r Rr) as P.
    assert (Br : Rabs (real64 r) <= bpow radix2 100) by (rewrite Rabs_pos_eq; lra).
    assert (Bk' : Rabs (real64 mult) <= bpow radix2 100) by (rewrite Rabs_pos_eq; lra).
    (* the longest step and the distance to reach *)
    destruct (mul_bound r mult 100 100 Fr Fk Br Bk' ltac:(lia)) as (Fa & Ba).
    assert (A0 : 0 <= real64 (mul64 r mult)).
    { apply mul_nonneg; auto; [lra|lra|]. apply Rle_trans with (1 := bounded_product _ _ _ _ Br Bk'). apply bpow_le. lia. }
    cbn [dadd dsub dmul ddiv of_int ieee lit] in H. unfold lit in H, Ln. cbn [dadd dsub dmul ddiv of_int ieee dlt] in H, Ln.
    destruct (of_Z_exact 1) as (F1 & E1); [lia|]. destruct (of_Z_exact 10000) as (F2 & E2); [lia|]. destruct (of_Z_exact 4) as (F4 & E4); [lia|].
    change (B2R64 (b64_of_Z 1)) with (real64 (b64_of_Z 1)) in E1. change (B2R64 (b64_of_Z 10000)) with (real64 (b64_of_Z 10000)) in E2.
    change (B2R64 (b64_of_Z 4)) with (real64 (b64_of_Z 4)) in E4.
    assert (U : u <= 1 / 1000000) by (destruct u_tiny as ((_ & X) & _); lra).
    assert (T0 : bpow radix2 (-1075) <= 1 / 1000000) by (apply Rle_trans with (bpow radix2 (-20)); [apply bpow_le; lia|cbn; lra]).
    assert (O1 : 1 <= bpow radix2 1000) by (change 1 with (bpow radix2 0); apply bpow_le; lia).
    destruct (div64_small _ _ F1 F2) as (F3 & e & x & He & Hx & E3); [rewrite E2; lra|rewrite E1, E2, Rabs_pos_eq; lra|].
    destruct (div64_small _ _ F1 F4) as (F5 & e1 & x1 & He1 & Hx1 & E5); [rewrite E4; lra|rewrite E1, E4, Rabs_pos_eq; lra|].
    rewrite E1, E2 in E3. rewrite E1, E4 in E5. set (l := div64 (b64_of_Z 1) (b64_of_Z 10000)) in *. set (h := div64 (b64_of_Z 1) (b64_of_Z 4)) in *.
    clearbody l h. apply Rabs_le_inv in He. apply Rabs_le_inv in Hx. apply Rabs_le_inv in He1. apply Rabs_le_inv in Hx1.
    assert (Bl : 0 <= real64 l <= 1) by (rewrite E3; lra). assert (Bh : 1 / 8 <= real64 h <= 1) by (rewrite E5; lra).
    assert (Bl' : Rabs (real64 l) <= bpow radix2 0) by (rewrite Rabs_pos_eq; [change (bpow radix2 0) with 1|]; lra).
    set (a := mul64 r mult) in *. clearbody a.
    destruct (mul_bound a l 201 0 Fa F3 Ba Bl' ltac:(lia)) as (Fo & Bo).
    assert (M0 : 0 <= real64 (mul64 a l)).
    { apply mul_nonneg; auto; [lra|]. apply Rle_trans with (1 := bounded_product _ _ _ _ Ba Bl'). apply bpow_le. lia. }
    set (m := mul64 a l) in *. clearbody m.
    assert (Bo' : Rabs (real64 m) <= bpow radix2 900) by (apply Rle_trans with (1 := Bo); apply bpow_le; lia).
    destruct (add_bound md m 900 Fm Fo Bm Bo' ltac:(lia)) as (Fw & _).
    assert (W : real64 md <= real64 (add64 md m)).
    { apply add_above; auto. eapply Rle_trans; [apply Rabs_triang|]. apply Rle_trans with (bpow radix2 901); [|apply bpow_le; lia].
      change 901%Z with (900 + 1)%Z. rewrite <- two_bpow. lra. }
    set (w := add64 md m) in *. clearbody w.
    destruct (step_bound a w md dist Fa A0 Fw Fm W L) as (Fst & Bst).
    set (st := @dmin ieee a (sub64 w dist)) in *. clearbody st.
    assert (Bs : Rabs (real64 st) <= bpow radix2 201).
    { rewrite Rabs_pos_eq by lra. apply Rabs_le_inv in Ba. change (100 + 100 + 1)%Z with 201%Z in Ba. lra. }
    (* the direction *)
    destruct (gradient_bounded _ _ g G) as (Fg & Gx & Gy & Gz).
    assert (Fc : finite_double (mul64 r h) /\ bpow radix2 (-110) <= real64 (mul64 r h)).
    { assert (Bh' : Rabs (real64 h) <= bpow radix2 0) by (rewrite Rabs_pos_eq; [change (bpow radix2 0) with 1|]; lra).
      pose proof (bounded_product _ _ _ _ Br Bh') as Bp.
      destruct (mul64_small r h Fr F5) as (F & e2 & x2 & He2 & Hx2 & E); [apply Rle_trans with (1 := Bp); apply bpow_le; lia|].
      split; [exact F|]. rewrite E. apply Rabs_le_inv in He2. apply Rabs_le_inv in Hx2.
      assert (H8 : real64 r * (1 / 8) <= real64 r * real64 h) by (apply Rmult_le_compat_l; lra).
      assert (H9 : real64 r * (1 / 8) * (1 / 2) <= real64 r * real64 h * (1 + e2)) by (apply Rmult_le_compat; lra).
      assert (X1 : bpow radix2 (-1075) <= bpow radix2 (-110)) by (apply bpow_le; lia).
      assert (X2 : bpow radix2 (-100) = 1024 * bpow radix2 (-110)).
      { change (-100)%Z with (10 + -110)%Z. rewrite bpow_plus. change (bpow radix2 10) with 1024. reflexivity. }
      pose proof (bpow_gt_0 radix2 (-110)). lra. }
    destruct Fc as (Fc & Bc). set (c := mul64 r h) in *. clearbody c.
    destruct (direction_bound g c Fg (conj Gx (conj Gy Gz)) Fc Bc Ln) as ((Nx & Ny & Nz) & Bnx & Bny & Bnz).
    set (n := @normalized ieee g) in *. clearbody n.
    destruct (inside_bounded q Hq Hb) as (Qx & Qy & Qz). destruct Hq as ((Fx & Fy & Fz) & _).
    assert (K : forall v k, finite_double v -> Rabs (real64 v) <= bpow radix2 131 -> finite_double k -> Rabs (real64 k) <= bpow radix2 131 ->
      finite_double (add64 v (mul64 k st)) /\ Rabs (real64 (add64 v (mul64 k st))) <= bpow radix2 800).
    { intros v k Fv Bv Fk' Bk0. destruct (mul_bound k st 131 201 Fk' Fst Bk0 Bs ltac:(lia)) as (Fp & Bp).
      destruct (add_bound v (mul64 k st) 333 Fv Fp) as (F & B); [apply Rle_trans with (1 := Bv); apply bpow_le; lia|exact Bp|lia|].
      split; [exact F|]. apply Rle_trans with (1 := B). apply bpow_le. lia. }
    destruct (K _ _ Fx Qx Nx Bnx) as (X1 & X2). destruct (K _ _ Fy Qy Ny Bny) as (Y1 & Y2). destruct (K _ _ Fz Qz Nz Bnz) as (Z1 & Z2). clear K.
    assert (Us : usable_point (@vadd ieee q (@vscale ieee n st))).
    { split; [exact (conj X1 (conj Y1 Z1))|exact (conj X2 (conj Y2 Z2))]. }
    set (q1 := @vadd ieee q (@vscale ieee n st)) in *. clearbody q1.
    destruct (estimate_from_neighbors (sdf_field s) p q1 (index_of p q1)) as [v| |] eqn:E; try discriminate H.
    injection H as <- <- <-. split; [exact Us|]. split; [reflexivity|]. apply estimate_ok_inb in E. rewrite Ed in E. exact E.
  Qed.

  Lemma loop_usable fuel : forall q dist c, usable_point q -> in_bounds d (index_of p q) = true ->
    project_loop fuel (sdf_field s) p md mult q (index_of p q) dist = Finished c -> usable_point c.
  Proof using All.
    induction fuel as [|fuel IH]; intros q dist c Hq Hb H; cbn [project_loop] in H; [discriminate H|].
    destruct (project_step (sdf_field s) p md mult q (index_of p q) dist) as [q' i' dist'|c'|why] eqn:E; try discriminate H.
    - destruct (step_usable _ _ _ _ _ Hq Hb E) as (Hq' & -> & Hb'). exact (IH _ _ _ Hq' Hb' H).
    - injection H as <-. unfold project_step in E. destruct (dle ieee dist md); [|injection E as <-; exact Hq].
      destruct (grid_aligned_gradient _ _ _); [|discriminate E]. destruct (dlt ieee _ _); [|discriminate E]. cbv zeta in E.
      destruct (estimate_from_neighbors _ _ _ _); discriminate E.
  Qed.

  Lemma search_usable fuel q c : usable_point q -> project_out_grid_frame fuel (sdf_field s) p q md mult = Finished c -> usable_point c.
  Proof using All.
    intros Hq H. unfold project_out_grid_frame in H. cbv zeta in H.
    destruct (estimate_from_neighbors (sdf_field s) p q (index_of p q)) as [v| |] eqn:E; try discriminate H.
    apply estimate_ok_inb in E. rewrite (proj1 (field_parts d r filled s HM)) in E. exact (loop_usable _ _ _ _ Hq E H).
  Qed.
End Search.

(** Queries on a placed grid, in doubles. *)
From Coq Require Import Reals Lra Lia Psatz.
From Flocq Require Import Core.Core IEEE754.Binary IEEE754.Bits.
From Verif Require Import Base BaseFacts Floats Grid GridFacts DistSpec CollisionMap SdfGen SdfSpec Arith SdfQuery SdfField QuerySpec
  QueryProofs QueryReal QueryThms QueryTurn AutoDiffSpec AutoDiffThms DoubleSpec DoubleQuery DoubleEstimate DoubleGrid WallSpec WallExtract SmoothSpec WallQuery
  EstimateSpec EstimateMap EstimateCase SlopeThms IdealSpec IdealThms IdealMap WallProject Frame FrameSpec.
Open Scope R_scope.

(** ** The product of a transform and a point *)
Section Row.
  Variable S : R.
  Hypothesis SB : bpow radix2 (-100) <= S <= bpow radix2 100.

  Lemma S_pos : 0 < S.
  Proof using SB. pose proof (bpow_gt_0 radix2 (-100)). lra. Qed.

  Lemma prod_small a b : Rabs a <= 2 -> Rabs b <= S -> Rabs (a * b) <= 2 * S.
  Proof using SB. intros A B. rewrite Rabs_mult. apply Rmult_le_compat; auto using Rabs_pos. Qed.

  Lemma row_close m t q : point_within 2 m -> finite_double t -> Rabs (real64 t) <= S -> point_within S q ->
    let exact := @apply_row reals (real_vec m) (real64 t) (real_vec q) in
    finite_double (apply_row m t q) /\ Rabs (real64 (apply_row m t q) - exact) <= 64 * u * S /\ Rabs exact <= 7 * S.
  Proof using SB.
    intros ((Fx & Fy & Fz) & Mx & My & Mz) Ft Bt ((Gx & Gy & Gz) & Qx & Qy & Qz). cbn [real_vec vx vy vz] in *.
    pose proof S_pos as P. pose proof u_tiny as Ut. assert (U0 : 0 < u) by apply bpow_gt_0.
    assert (K : u * S <= S / 1000) by (rewrite (Rmult_comm u); apply Rmult_le_compat_l; lra).
    assert (US : 0 < u * S) by (apply Rmult_lt_0_compat; lra).
    pose proof (prod_small _ _ Mx Qx) as A1. pose proof (prod_small _ _ My Qy) as A2. pose proof (prod_small _ _ Mz Qz) as A3.
    destruct (mul_abs S SB _ _ Fx Gx ltac:(lra)) as (F1 & D1).
    destruct (mul_abs S SB _ _ Fy Gy ltac:(lra)) as (F2 & D2).
    destruct (mul_abs S SB _ _ Fz Gz ltac:(lra)) as (F3 & D3).
    unfold apply_row. cbn [real_vec vx vy vz]. rsimp.
    change (dmul ieee) with mul64. change (dadd ieee) with add64.
    set (a1 := mul64 (vx m) (vx q)) in *. set (a2 := mul64 (vy m) (vy q)) in *. set (a3 := mul64 (vz m) (vz q)) in *.
    set (e1 := real64 (vx m) * real64 (vx q)) in *. set (e2 := real64 (vy m) * real64 (vy q)) in *.
    set (e3 := real64 (vz m) * real64 (vz q)) in *. clearbody a1 a2 a3 e1 e2 e3.
    apply Rabs_le_inv in A1. apply Rabs_le_inv in A2. apply Rabs_le_inv in A3. apply Rabs_le_inv in Bt.
    apply Rabs_le_inv in D1. apply Rabs_le_inv in D2. apply Rabs_le_inv in D3.
    destruct (add_abs S SB _ _ F1 F2) as (F4 & D4); [apply Rabs_le; lra|]. apply Rabs_le_inv in D4.
    set (a4 := add64 a1 a2) in *. clearbody a4.
    destruct (add_abs S SB _ _ F4 F3) as (F5 & D5); [apply Rabs_le; lra|]. apply Rabs_le_inv in D5.
    set (a5 := add64 a4 a3) in *. clearbody a5.
    destruct (add_abs S SB _ _ F5 Ft) as (F6 & D6); [apply Rabs_le; lra|]. apply Rabs_le_inv in D6.
    split; [exact F6|]. split; apply Rabs_le; lra.
  Qed.

  Lemma apply_close T q : usable_transform S T -> point_within S q ->
    finite_vec (apply T q) /\ apart_at_most (64 * u * S) (real_vec (apply T q)) (apply (real_transform T) (real_vec q)) /\
    bounded_by (8 * S) (real_vec (apply T q)).
  Proof using SB.
    intros (Rx & Ry & Rz & (Fx & Fy & Fz) & Sx & Sy & Sz) Hq.
    destruct (row_close _ _ _ Rx Fx Sx Hq) as (F1 & D1 & B1).
    destruct (row_close _ _ _ Ry Fy Sy Hq) as (F2 & D2 & B2).
    destruct (row_close _ _ _ Rz Fz Sz Hq) as (F3 & D3 & B3).
    pose proof S_pos as P. pose proof u_tiny as Ut. assert (U0 : 0 < u) by apply bpow_gt_0.
    assert (K : u * S <= S / 1000) by (rewrite (Rmult_comm u); apply Rmult_le_compat_l; lra).
    split; [split; [exact F1|split; [exact F2|exact F3]]|].
    split; [split; [exact D1|split; [exact D2|exact D3]]|].
    assert (Q : forall x y, Rabs (x - y) <= 64 * u * S -> Rabs y <= 7 * S -> Rabs x <= 8 * S).
    { intros x y A B. apply Rabs_le_inv in A. apply Rabs_le_inv in B. apply Rabs_le. lra. }
    unfold bounded_by. cbn [real_vec apply vx vy vz]. split; [|split]; eapply Q; eassumption.
  Qed.
End Row.

(** ** Estimates in the extracted field *)
Lemma apart_trans e1 e2 (a b c : rvec) : apart_at_most e1 a b -> apart_at_most e2 b c -> apart_at_most (e1 + e2) a c.
Proof.
  assert (K : forall x y z, Rabs (x - y) <= e1 -> Rabs (y - z) <= e2 -> Rabs (x - z) <= e1 + e2).
  { intros x y z A B. apply Rabs_le_inv in A. apply Rabs_le_inv in B. apply Rabs_le. lra. }
  intros (A1 & A2 & A3) (B1 & B2 & B3). split; [|split]; eapply K; eassumption.
Qed.

Lemma apart_more e1 e2 (a b : rvec) : e1 <= e2 -> apart_at_most e1 a b -> apart_at_most e2 a b.
Proof. intros H (A & B & C). unfold apart_at_most. lra. Qed.

Section Map.
Variables (d : dims) (r : binary64) (filled : idx -> bool) (s : sdf) (N : R).
Hypothesis HM : field_of_map d r filled s.
Hypotheses (Hx : IZR (nx d) <= N) (Hy : IZR (ny d) <= N) (Hz : IZR (nz d) <= N).

Lemma near_bound j : in_bounds d j = true -> 1 <= N /\
  finite_float (value (sdf_field s) j) /\ Rabs (real32 (value (sdf_field s) j)) + real64 r <= (2 * N + 1) * real64 r.
Proof using HM Hx Hy Hz.
  intros Hj. destruct (map_dims _ _ _ _ HM) as (_ & _ & Rp).
  assert (N1 : 1 <= N).
  { apply in_bounds_spec in Hj. apply Rle_trans with (2 := Hx). apply IZR_le. lia. }
  split; [exact N1|]. split; [apply HM; exact Hj|].
  change (value (sdf_field s) j) with (fst (sdf_get s j)). rewrite <- real_field_value.
  destruct (map_stored _ _ _ _ HM j Hj) as (z & Ez & Bz & (p & (Bp & _) & Dp) & _).
  destruct (map_square _ _ _ _ HM j z Hj Ez Bz) as (v & _ & Bv & Ev & _). rewrite Ev.
  pose proof eps_small as Es. set (eps := bpow radix2 (-23)) in *.
  assert (Q : forall a b n, (0 <= a < n)%Z -> (0 <= b < n)%Z -> IZR n <= N -> IZR ((a - b) * (a - b)) <= N * N).
  { intros a b n A B C. rewrite mult_IZR. rewrite <- (Rabs_pos_eq (IZR (a - b) * IZR (a - b))) by apply Rle_0_sqr.
    assert (Rabs (IZR (a - b)) <= N).
    { rewrite <- abs_IZR. apply Rle_trans with (2 := C). apply IZR_le. lia. }
    rewrite Rabs_mult. apply Rmult_le_compat; auto using Rabs_pos. }
  assert (Z3 : IZR z <= 3 * (N * N)).
  { apply in_bounds_spec in Hj. apply in_bounds_spec in Bp. rewrite <- Dp. unfold distsq. rewrite !plus_IZR.
    pose proof (Q (ix j) (ix p) (nx d) ltac:(lia) ltac:(lia) Hx). pose proof (Q (iy j) (iy p) (ny d) ltac:(lia) ltac:(lia) Hy).
    pose proof (Q (iz j) (iz p) (nz d) ltac:(lia) ltac:(lia) Hz). lra. }
  assert (Rb : sqrt (IZR z) <= 1.75 * N).
  { rewrite <- (sqrt_square (1.75 * N)) by lra. apply sqrt_le_1_alt. nra. }
  assert (R0 : 0 <= sqrt (IZR z)) by apply sqrt_pos.
  assert (H1 : real64 r * sqrt (IZR z) <= real64 r * (1.75 * N)) by (apply Rmult_le_compat_l; lra).
  assert (H2 : 0 <= real64 r * sqrt (IZR z)) by (apply Rmult_le_pos; lra).
  assert (Hv : Rabs (if filled j then - v else v) = v).
  { assert (0 <= v).
    { apply Rle_trans with (2 := proj1 Bv). apply Rmult_le_pos; lra. }
    destruct (filled j); [rewrite Rabs_Ropp|]; apply Rabs_pos_eq; lra. }
  apply Rle_trans with (v + real64 r); [right; f_equal; exact Hv|].
  assert (eps * (real64 r * sqrt (IZR z)) <= 1 / 8000000 * (real64 r * (1.75 * N))) by (apply Rmult_le_compat; lra).
  assert (0 < real64 r * N) by (apply Rmult_lt_0_compat; lra). lra.
Qed.

End Map.

Section Placed.
Variables (d : dims) (r : binary64) (filled : idx -> bool) (s : sdf) (N : R).
Hypothesis HM : field_of_map d r filled s.
Hypothesis Small : real64 r <= bpow radix2 80.
Hypotheses (Hx : IZR (nx d) <= N) (Hy : IZR (ny d) <= N) (Hz : IZR (nz d) <= N).
Variables (inverse forward : transform ieee) (w : dbl ieee) (v : vec ieee) (P : pose reals) (S far : R).
Let p := placed_pose r inverse forward w v.
Hypothesis SB : bpow radix2 (-100) <= S <= bpow radix2 100.
Hypothesis UT : usable_transform S inverse.
Hypothesis GP : geometry (real64 r) P.
Hypothesis FW : follows far S inverse (to_grid P).
Hypothesis Fine : N * misplaced S far <= real64 r / 1000000.

Lemma placed_point loc : point_within S loc ->
  finite_vec (to_grid p loc) /\ bounded_by (8 * S) (real_vec (to_grid p loc)) /\
  apart_at_most (misplaced S far) (real_vec (to_grid p loc)) (to_grid P (real_vec loc)).
Proof using SB UT FW.
  intros Hl. destruct (apply_close S SB inverse loc UT Hl) as (F & A & B).
  split; [exact F|]. split; [exact B|]. apply (apart_trans _ _ _ _ _ A). apply FW. apply Hl.
Qed.

Lemma placed_doubles loc : point_within S loc ->
  in_bounds d (index_of p (to_grid p loc)) = true -> in_bounds d (index_of P (to_grid P (real_vec loc))) = true ->
  exists e, estimate_distance (sdf_field s) p loc = Ok (e, true) /\ finite_double e /\
    Rabs (real64 e - estimated (real_field s) P (real_vec loc)) <= 0.002 * real64 r.
Proof.
  intros Hl Hi HI. destruct (field_parts _ _ _ _ HM) as (Ed & Er). destruct (map_dims _ _ _ _ HM) as (_ & _ & Rp).
  pose proof HM as (Hs & Hr & (L & _) & _). destruct Hr as (Fr & _).
  destruct (side_bound d Hs) as (Sx & Sy & Sz). apply IZR_le in Sx, Sy, Sz.
  destruct (placed_point loc Hl) as (Fq & Bq & Ap).
  set (M := Rmin N 46340).
  assert (N1 : 1 <= N) by (apply (near_bound d r filled s N HM Hx Hy Hz _ Hi)).
  assert (M1 : 1 <= M) by (unfold M; apply Rmin_glb; lra).
  assert (M2 : M <= 46340) by apply Rmin_r. assert (M3 : M <= N) by apply Rmin_l.
  assert (M4 : IZR (nx d) <= M) by (apply Rmin_glb; lra). assert (M5 : IZR (ny d) <= M) by (apply Rmin_glb; lra).
  assert (M6 : IZR (nz d) <= M) by (apply Rmin_glb; lra).
  set (err := misplaced S far) in *.
  assert (E0 : 0 <= err). { destruct Ap as (A & _). apply Rle_trans with (2 := A). apply Rabs_pos. }
  clearbody M err.
  assert (U0 : 0 < u) by apply bpow_gt_0.
  assert (Uv : u = / 9007199254740992) by reflexivity.
  assert (ME : M * err <= real64 r / 1000000) by (apply Rle_trans with (2 := Fine); apply Rmult_le_compat_r; lra).
  assert (E1 : err <= real64 r / 1000000) by (apply Rle_trans with (2 := ME); rewrite <- (Rmult_1_l err) at 1; apply Rmult_le_compat_r; lra).
  set (delta := 4 * (M + 1) * u + err / real64 r).
  assert (Dr : delta * real64 r = 4 * (M + 1) * u * real64 r + err) by (unfold delta; field; lra).
  assert (Er0 : 0 <= err / real64 r <= 1 / 1000000).
  { split; [apply Rmult_le_pos; [lra|apply Rlt_le, Rinv_0_lt_compat; lra]|].
    apply Rmult_le_reg_r with (real64 r); [lra|]. unfold Rdiv at 1. rewrite Rmult_assoc, Rinv_l by lra. lra. }
  assert (MU : 4 * (M + 1) * u <= 1 / 1000000) by (rewrite Uv; lra).
  assert (MU0 : 0 <= 4 * (M + 1) * u) by (rewrite Uv; lra).
  pose proof (ideal_estimate (sdf_field s) p loc P (real_vec loc) delta ((2 * M + 1) * real64 r)) as K. cbv zeta in K.
  rewrite Ed, Er, view_extracted in K.
  destruct K as (e & E & Fe & Err); auto.
  - split; [exact L|]. apply Rle_trans with (1 := Small). apply bpow_le. lia.
  - apply Rle_trans with (bpow radix2 17 * bpow radix2 80).
    + apply Rmult_le_compat; try lra. change (bpow radix2 17) with 131072. lra.
    + rewrite <- bpow_plus. apply bpow_le. lia.
  - intros j Hj. apply (near_bound d r filled s M HM M4 M5 M6 j Hj).
  - pose proof (identity_centers (sdf_field s) (to_grid p loc) M ((2 * M + 1) * real64 r)) as C. rewrite Ed, Er in C.
    assert (Cn : centers_within (sdf_field s) (ieee_pose r) (4 * (M + 1) * u)).
    { apply C; auto; try lra.
      - split; [exact L|]. apply Rle_trans with (1 := Small). apply bpow_le. lia.
      - intros j Hj. apply (near_bound d r filled s M HM M4 M5 M6 j Hj). }
    intros j Hj. destruct (Cn j Hj) as (F & A & B & D). rewrite Er in A, B, D |- *.
    assert (Q : 4 * (M + 1) * u * real64 r <= delta * real64 r) by (rewrite Dr; lra).
    split; [exact F|]. split; [exact (Rle_trans _ _ _ A Q)|]. split; [exact (Rle_trans _ _ _ B Q)|exact (Rle_trans _ _ _ D Q)].
  - unfold delta. lra.
  - change (bpow radix2 (-53)) with u. unfold delta. assert ((IZR (nx d) + 1) * u <= 4 * (M + 1) * u) by (apply Rmult_le_compat_r; lra). lra.
  - change (bpow radix2 (-53)) with u. unfold delta. assert ((IZR (ny d) + 1) * u <= 4 * (M + 1) * u) by (apply Rmult_le_compat_r; lra). lra.
  - pose proof (identity_lies (sdf_field s) (to_grid p loc) M) as C. rewrite Ed, Er in C.
    assert (B8 : 8 * S <= bpow radix2 800).
    { apply Rle_trans with (bpow radix2 3 * bpow radix2 100).
      - change (bpow radix2 3) with 8. lra.
      - rewrite <- bpow_plus. apply bpow_le. lia. }
    destruct Bq as (Q1 & Q2 & Q3).
    apply C; auto; try lra; try (eapply Rle_trans; [eassumption|exact B8]).
    split; [exact L|]. apply Rle_trans with (1 := Small). apply bpow_le. lia.
  - rewrite Dr. apply apart_more with (2 := Ap). assert (0 <= 4 * (M + 1) * u * real64 r) by (apply Rmult_le_pos; lra). lra.
  - exists e. split; [exact E|]. split; [exact Fe|]. apply Rle_trans with (1 := Err).
    change (bpow radix2 (-42)) with (/ 4398046511104).
    replace ((/ 4398046511104 + 205 * delta) * ((2 * M + 1) * real64 r))
      with (/ 4398046511104 * (2 * M + 1) * real64 r + 205 * ((2 * M + 1) * (delta * real64 r))) by ring.
    rewrite Dr. clear delta Dr E Fe Err.
    assert (A1 : / 4398046511104 * (2 * M + 1) * real64 r <= 0.0001 * real64 r) by (apply Rmult_le_compat_r; lra).
    assert (A2 : (2 * M + 1) * (4 * (M + 1) * u * real64 r) <= 92681 * (185364 * u * real64 r)).
    { apply Rmult_le_compat; try lra; [apply Rmult_le_pos; lra|]. apply Rmult_le_compat_r; [lra|]. apply Rmult_le_compat_r; lra. }
    assert (A3 : (2 * M + 1) * err <= 3 * (real64 r / 1000000)).
    { apply Rle_trans with (3 * (M * err)); [|lra]. rewrite <- Rmult_assoc. apply Rmult_le_compat_r; lra. }
    rewrite (Rmult_plus_distr_l (2 * M + 1)). rewrite Uv in A2 |- *. lra.
Qed.

(** From a bound in exact arithmetic. *)
Lemma placed_transfer loc (C : R -> Prop) : let q := to_grid P (real_vec loc) in point_within S loc ->
  in_bounds d (index_of p (to_grid p loc)) = true -> in_bounds d (index_of P q) = true ->
  (exists e, estimate_distance (real_field s) P (to_world P q) = Ok (e, true) /\ C e) ->
  exists e, estimate_distance (sdf_field s) p loc = Ok (e, true) /\ finite_double e /\
    exists e', C e' /\ Rabs (real64 e - e') <= 0.002 * real64 r.
Proof.
  intros q Hl Hi HI (e' & E' & Pe). destruct (placed_doubles loc Hl Hi HI) as (e & E & Fe & Err).
  exists e. split; [exact E|]. split; [exact Fe|]. exists e'. split; [exact Pe|].
  unfold q in E'. rewrite (g_back_and_there _ _ GP) in E'. unfold estimated in Err. rewrite E' in Err. exact Err.
Qed.

Variable loc : vec ieee.
Let q := to_grid P (real_vec loc).
Hypotheses (Hl : point_within S loc) (Hi : in_bounds d (index_of p (to_grid p loc)) = true)
  (HI : in_bounds d (index_of P q) = true).

Lemma placed_class : between_centers (real_field s) q ->
  exists e, estimate_distance (sdf_field s) p loc = Ok (e, true) /\ finite_double e /\
  (0.627 * real64 r < real64 e -> filled (index_of P q) = false) /\
  (real64 e < - (0.627 * real64 r) -> filled (index_of P q) = true).
Proof.
  intros Bc. destruct (map_dims _ _ _ _ HM) as (_ & _ & Rp).
  destruct (placed_transfer loc _ Hl Hi HI (class_from_estimate d r filled s P q HM GP HI Bc)) as (e & E & Fe & e' & (P1 & P2) & Err).
  exists e. split; [exact E|]. split; [exact Fe|]. apply Rabs_le_inv in Err.
  split; intros Q; [apply P1|apply P2]; lra.
Qed.

Lemma placed_below D : between_centers (real_field s) q -> 0 <= D -> filled (index_of P q) = false ->
  (forall b, in_bounds d b = true -> filled b = true -> D <= gap q (center_of P b)) ->
  exists e, estimate_distance (sdf_field s) p loc = Ok (e, true) /\ finite_double e /\
    (1 - bpow radix2 (-23)) * D - 2.102 * real64 r <= real64 e.
Proof.
  intros Bc D0 Fr HD.
  destruct (placed_transfer loc _ Hl Hi HI (clearance_below d r filled s HM P GP q HI Bc D D0 Fr HD)) as (e & E & Fe & e' & P1 & Err).
  exists e. split; [exact E|]. split; [exact Fe|]. apply Rabs_le_inv in Err. lra.
Qed.

Lemma placed_planar b : between_centers (real_field s) q -> flat d -> in_bounds d b = true -> filled b = true ->
  exists e, estimate_distance (sdf_field s) p loc = Ok (e, true) /\ finite_double e /\
    real64 e <= 1.42 * gap q (center_of P b) + 0.752 * real64 r.
Proof.
  intros Bc Fl Hb Fb.
  destruct (placed_transfer loc _ Hl Hi HI (clearance_planar d r filled s HM P GP q HI Bc b Fl Hb Fb)) as (e & E & Fe & e' & P1 & Err).
  exists e. split; [exact E|]. split; [exact Fe|]. apply Rabs_le_inv in Err. lra.
Qed.

Lemma placed_exact b : between_centers (real_field s) q -> in_bounds d b = true -> filled b = true ->
  (forall j, in_bounds d j = true -> within_one (index_of P q) j -> exact_at d r filled s j) ->
  exists e, estimate_distance (sdf_field s) p loc = Ok (e, true) /\ finite_double e /\
    real64 e <= (1 + bpow radix2 (-23)) * gap q (center_of P b) + 0.377 * real64 r.
Proof.
  intros Bc Hb Fb HX.
  destruct (placed_transfer loc _ Hl Hi HI (clearance_exact d r filled s HM P GP q HI Bc b Hb Fb HX)) as (e & E & Fe & e' & P1 & Err).
  exists e. split; [exact E|]. split; [exact Fe|]. apply Rabs_le_inv in Err. lra.
Qed.
End Placed.

(** ** Lengths are kept *)
Lemma grid_frame_close (P : pose reals) r t far (a b : rvec) : geometry r P -> rigid P t ->
  apart_at_most far a b -> apart_at_most (2 * far) (to_grid P a) (to_grid P b).
Proof.
  intros G Rg (A1 & A2 & A3). assert (F0 : 0 <= far) by (apply Rle_trans with (2 := A1); apply Rabs_pos).
  pose proof (grid_step P r t b (@V reals (vx a - vx b) (vy a - vy b) (vz a - vz b)) G Rg) as K.
  assert (Ea : vadd b (@V reals (vx a - vx b) (vy a - vy b) (vz a - vz b)) = a).
  { destruct a as [a1 a2 a3], b as [b1 b2 b3]. unfold vadd. cbn [vx vy vz]. rsimp. f_equal; asR; ring. }
  rewrite Ea in K. rewrite K. set (h := @V reals (vx a - vx b) (vy a - vy b) (vz a - vz b)) in *.
  pose proof (along_length P h (rigid_unit _ _ Rg)) as Le.
  destruct (along P h) as [h1 h2 h3]. destruct (to_grid P b) as [b1 b2 b3].
  unfold length_squared in Le. unfold h in Le. cbn [vx vy vz] in Le. revert Le. rsimp. intros Le.
  assert (Sq : forall x, Rabs x <= far -> x * x <= far * far).
  { intros x Hx. rewrite <- (Rabs_pos_eq (x * x)) by apply Rle_0_sqr. rewrite Rabs_mult. apply Rmult_le_compat; auto using Rabs_pos. }
  pose proof (Sq _ A1) as S1. pose proof (Sq _ A2) as S2. pose proof (Sq _ A3) as S3.
  pose proof (Rle_0_sqr h1) as N1. pose proof (Rle_0_sqr h2) as N2. pose proof (Rle_0_sqr h3) as N3. unfold Rsqr in *.
  assert (Ab : forall x, x * x <= 4 * (far * far) -> Rabs x <= 2 * far).
  { intros x Hx. apply Rabs_le. split; nra. }
  unfold apart_at_most, vadd. cbn [vx vy vz]. rsimp.
  replace (b1 + h1 - b1) with h1 by ring. replace (b2 + h2 - b2) with h2 by ring. replace (b3 + h3 - b3) with h3 by ring.
  split; [|split]; apply Ab; lra.
Qed.

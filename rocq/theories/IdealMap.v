(** Estimates in extracted fields, in doubles. *)
From Coq Require Import Reals Lra Lia Psatz.
From Flocq Require Import Core.Core IEEE754.Binary IEEE754.Bits.
From Verif Require Import Base BaseFacts Floats Grid GridFacts DistSpec CollisionMap SdfGen SdfSpec Arith SdfQuery SdfField QuerySpec
  QueryProofs QueryReal QueryThms QueryWitness AutoDiffSpec DoubleSpec DoubleQuery WallSpec WallExtract EstimateSpec EstimateMap EstimateCase SlopeThms
  IdealSpec IdealThms.
Open Scope R_scope.

Lemma view_extracted s : real_view (sdf_field s) = real_field s.
Proof. reflexivity. Qed.

Lemma side_bound d : size_ok d -> (nx d <= 46340 /\ ny d <= 46340 /\ nz d <= 46340)%Z.
Proof.
  intros (H1 & H2 & H3 & H4).
  pose proof (Z.square_nonneg (nx d)). pose proof (Z.square_nonneg (ny d)). pose proof (Z.square_nonneg (nz d)).
  assert (K : forall a, (0 <= a -> a * a <= 2147483647 -> a <= 46340)%Z) by (intros a A B; nia).
  repeat split; apply K; lia.
Qed.

Section Map.
Variables (d : dims) (r : binary64) (filled : idx -> bool) (s : sdf).
Hypothesis HM : field_of_map d r filled s.
Hypothesis Small : real64 r <= bpow radix2 80.

Lemma field_parts : f_dims (sdf_field s) = d /\ f_res (sdf_field s) = r.
Proof using HM.
  destruct HM as (Hs & Hr & _ & (isf & oob & frame & x & HP & E) & _).
  destruct (SdfThms.extract_sign d r oob frame isf filled Hs Hr HP) as (s' & x' & E' & A1 & A2 & _).
  rewrite E in E'. injection E' as <- <-. split; [exact A1|exact A2].
Qed.

Lemma value_bound j : in_bounds d j = true ->
  finite_float (value (sdf_field s) j) /\ Rabs (real32 (value (sdf_field s) j)) + real64 r <= 46343 * real64 r.
Proof using HM.
  intros Hj. destruct (map_dims _ _ _ _ HM) as (_ & _ & Rp).
  split; [apply HM; exact Hj|].
  change (value (sdf_field s) j) with (fst (sdf_get s j)). rewrite <- real_field_value.
  destruct (map_stored _ _ _ _ HM j Hj) as (z & Ez & Bz & _).
  destruct (map_square _ _ _ _ HM j z Hj Ez Bz) as (v & _ & Bv & Ev & _). rewrite Ev.
  pose proof (root_bound z Bz) as Rb. pose proof eps_small as Es. set (eps := bpow radix2 (-23)) in *.
  assert (Hv : Rabs (if filled j then - v else v) = v).
  { assert (0 <= v).
    { apply Rle_trans with (2 := proj1 Bv). apply Rmult_le_pos; [lra|]. apply Rmult_le_pos; lra. }
    destruct (filled j); [rewrite Rabs_Ropp|]; apply Rabs_pos_eq; lra. }
  apply Rle_trans with (v + real64 r); [right; f_equal; exact Hv|].
  assert (real64 r * sqrt (IZR z) <= real64 r * 46341) by (apply Rmult_le_compat_l; lra).
  assert (0 <= real64 r * sqrt (IZR z)) by (apply Rmult_le_pos; lra).
  assert (eps * (real64 r * sqrt (IZR z)) <= 1 / 8000000 * (real64 r * 46341)) by (apply Rmult_le_compat; lra).
  lra.
Qed.

Lemma map_doubles loc : let q := real_vec loc in
  usable_point loc -> in_bounds d (index_of (ieee_pose r) loc) = true ->
  in_bounds d (index_of (plain_pose (real64 r)) q) = true ->
  exists e, estimate_distance (sdf_field s) (ieee_pose r) loc = Ok (e, true) /\ finite_double e /\
    Rabs (real64 e - estimated (real_field s) (plain_pose (real64 r)) q) <= 0.001 * real64 r.
Proof.
  intros q Up Hi HI. destruct field_parts as (Ed & Er). destruct (map_dims _ _ _ _ HM) as (_ & _ & Rp).
  pose proof HM as (Hs & Hr & (L & _) & _). destruct Hr as (Fr & _).
  destruct (side_bound d Hs) as (Sx & Sy & Sz). apply IZR_le in Sx, Sy, Sz.
  pose proof (ideal_at_origin (sdf_field s) loc 46340 (46343 * real64 r)) as K. cbv zeta in K.
  rewrite Ed, Er, view_extracted in K. fold q in K.
  destruct K as (e & E & Fe & Err); auto.
  - split; [exact L|]. apply Rle_trans with (1 := Small). apply bpow_le. lia.
  - apply Rle_trans with (bpow radix2 16 * bpow radix2 80).
    + apply Rmult_le_compat; try lra. change (bpow radix2 16) with 65536. lra.
    + rewrite <- bpow_plus. apply bpow_le. lia.
  - exact value_bound.
  - change (bpow radix2 (-53)) with (/ 9007199254740992). lra.
  - exists e. split; [exact E|]. split; [exact Fe|]. apply Rle_trans with (1 := Err).
    change (bpow radix2 (-53)) with (/ 9007199254740992). change (bpow radix2 (-42)) with (/ 4398046511104). lra.
Qed.

(** From a bound in exact arithmetic. *)
Lemma transfer loc (P : R -> Prop) : let q := real_vec loc in
  usable_point loc -> in_bounds d (index_of (ieee_pose r) loc) = true ->
  in_bounds d (index_of (plain_pose (real64 r)) q) = true ->
  (exists e, estimate_distance (real_field s) (plain_pose (real64 r)) (to_world (plain_pose (real64 r)) q) = Ok (e, true) /\ P e) ->
  exists e, estimate_distance (sdf_field s) (ieee_pose r) loc = Ok (e, true) /\ finite_double e /\
    exists e', P e' /\ Rabs (real64 e - e') <= 0.001 * real64 r.
Proof.
  intros q Up Hi HI (e' & E' & Pe). destruct (map_doubles loc Up Hi HI) as (e & E & Fe & Err).
  exists e. split; [exact E|]. split; [exact Fe|]. exists e'. split; [exact Pe|].
  fold q in Err. unfold estimated in Err. change (to_world (plain_pose (real64 r)) q) with q in E'. rewrite E' in Err. exact Err.
Qed.

Variable loc : vec ieee.
Let q := real_vec loc.
Let p := plain_pose (real64 r).
Hypotheses (Up : usable_point loc) (Hi : in_bounds d (index_of (ieee_pose r) loc) = true)
  (HI : in_bounds d (index_of p q) = true) (Bc : between_centers (real_field s) q).

Lemma plain_ok : geometry (real64 r) p.
Proof using HM. apply plain_geometry. apply (map_dims _ _ _ _ HM). Qed.

Lemma doubles_class : exists e, estimate_distance (sdf_field s) (ieee_pose r) loc = Ok (e, true) /\ finite_double e /\
  (0.626 * real64 r < real64 e -> filled (index_of p q) = false) /\
  (real64 e < - (0.626 * real64 r) -> filled (index_of p q) = true).
Proof.
  destruct (map_dims _ _ _ _ HM) as (_ & _ & Rp).
  destruct (transfer loc _ Up Hi HI (class_from_estimate d r filled s p q HM plain_ok HI Bc)) as (e & E & Fe & e' & (P1 & P2) & Err).
  exists e. split; [exact E|]. split; [exact Fe|]. apply Rabs_le_inv in Err.
  split; intros Q; [apply P1|apply P2]; lra.
Qed.

Lemma doubles_below D : 0 <= D -> filled (index_of p q) = false ->
  (forall b, in_bounds d b = true -> filled b = true -> D <= gap q (center_of p b)) ->
  exists e, estimate_distance (sdf_field s) (ieee_pose r) loc = Ok (e, true) /\ finite_double e /\
    (1 - bpow radix2 (-23)) * D - 2.101 * real64 r <= real64 e.
Proof.
  intros D0 Fr HD.
  destruct (transfer loc _ Up Hi HI (clearance_below d r filled s HM p plain_ok q HI Bc D D0 Fr HD)) as (e & E & Fe & e' & P1 & Err).
  exists e. split; [exact E|]. split; [exact Fe|]. apply Rabs_le_inv in Err. lra.
Qed.

Lemma doubles_planar b : flat d -> in_bounds d b = true -> filled b = true ->
  exists e, estimate_distance (sdf_field s) (ieee_pose r) loc = Ok (e, true) /\ finite_double e /\
    real64 e <= 1.42 * gap q (center_of p b) + 0.751 * real64 r.
Proof.
  intros Fl Hb Fb.
  destruct (transfer loc _ Up Hi HI (clearance_planar d r filled s HM p plain_ok q HI Bc b Fl Hb Fb)) as (e & E & Fe & e' & P1 & Err).
  exists e. split; [exact E|]. split; [exact Fe|]. apply Rabs_le_inv in Err. lra.
Qed.

Lemma doubles_exact b : in_bounds d b = true -> filled b = true ->
  (forall j, in_bounds d j = true -> within_one (index_of p q) j -> exact_at d r filled s j) ->
  exists e, estimate_distance (sdf_field s) (ieee_pose r) loc = Ok (e, true) /\ finite_double e /\
    real64 e <= (1 + bpow radix2 (-23)) * gap q (center_of p b) + 0.376 * real64 r.
Proof.
  intros Hb Fb HX.
  destruct (transfer loc _ Up Hi HI (clearance_exact d r filled s HM p plain_ok q HI Bc b Hb Fb HX)) as (e & E & Fe & e' & P1 & Err).
  exists e. split; [exact E|]. split; [exact Fe|]. apply Rabs_le_inv in Err. lra.
Qed.
End Map.

Lemma doubles_steady d r filled s loc loc' : let p := plain_pose (real64 r) in let q := real_vec loc in let q' := real_vec loc' in
  field_of_map d r filled s -> real64 r <= bpow radix2 80 ->
  flat d \/ (forall c, in_bounds d c = true -> exact_at d r filled s c) ->
  usable_point loc -> in_bounds d (index_of (ieee_pose r) loc) = true -> in_bounds d (index_of p q) = true ->
  usable_point loc' -> in_bounds d (index_of (ieee_pose r) loc') = true -> in_bounds d (index_of p q') = true ->
  exists e e', estimate_distance (sdf_field s) (ieee_pose r) loc = Ok (e, true) /\
    estimate_distance (sdf_field s) (ieee_pose r) loc' = Ok (e', true) /\
    Rabs (real64 e - real64 e') <= 4.08 * path q q' + 0.002 * real64 r /\
    (between_centers (real_field s) q -> between_centers (real_field s) q' ->
     Rabs (real64 e - real64 e') <= 1.02 * path q q' + 0.002 * real64 r).
Proof.
  intros p q q' HM Sm HX U1 H1 I1 U2 H2 I2.
  destruct (map_doubles d r filled s HM Sm loc U1 H1 I1) as (e & E & _ & Err).
  destruct (map_doubles d r filled s HM Sm loc' U2 H2 I2) as (e' & E' & _ & Err').
  exists e, e'. split; [exact E|]. split; [exact E'|].
  fold q p in Err. fold q' p in Err'. pose proof (plain_ok d r filled s HM) as G. fold p in G.
  assert (Tr : forall a b m M, Rabs (real64 e - a) <= m -> Rabs (real64 e' - b) <= m -> Rabs (a - b) <= M ->
    Rabs (real64 e - real64 e') <= M + 2 * m).
  { intros a b m M A B C. apply Rabs_le_inv in A. apply Rabs_le_inv in B. apply Rabs_le_inv in C. apply Rabs_le. lra. }
  split.
  - pose proof (map_lipschitz_anywhere d r filled s HM HX p q q' G I1 I2) as K.
    change (to_world p q) with q in K. change (to_world p q') with q' in K.
    pose proof (Tr _ _ _ _ Err Err' K). lra.
  - intros B1 B2. pose proof (map_lipschitz d r filled s HM HX p q q' G I1 I2 B1 B2) as K.
    change (to_world p q) with q in K. change (to_world p q') with q' in K.
    pose proof (Tr _ _ _ _ Err Err' K). lra.
Qed.

(** ** Gradients *)
Section Gradient.
Variables (d : dims) (r : binary64) (filled : idx -> bool) (s : sdf).
Hypothesis HM : field_of_map d r filled s.
Hypothesis HX : flat d \/ (forall c, in_bounds d c = true -> exact_at d r filled s c).

Lemma slope_bound n x at_ : (0 <= x < n)%Z -> (forall y, (0 <= y < n)%Z -> in_bounds d (at_ y) = true) ->
  (forall y, share_face (at_ (y + 1)%Z) (at_ y)) ->
  Rabs (slope (sdf_field s) n x at_) <= 2.02 /\ ((0 < x < n - 1)%Z -> Rabs (slope (sdf_field s) n x at_) <= 1.52).
Proof.
  intros Hx B F. destruct (map_dims _ _ _ _ HM) as (_ & FR & Rp). destruct (field_parts d r filled s HM) as (_ & Er).
  assert (V : forall j, real32 (value (sdf_field s) j) = value (real_field s) j) by (intros j; symmetry; exact (view_value (sdf_field s) j)).
  unfold slope. cbv zeta. rewrite Er, !V. clear V.
  destruct (Z.eqb_spec n 1) as [N|N]; [rewrite Rabs_R0; split; intros; lra|].
  set (lo := Z.max 0 (x - 1)). set (hi := Z.min (n - 1) (x + 1)).
  assert (Hlo : (lo = Z.max 0 (x - 1))%Z) by reflexivity. assert (Hhi : (hi = Z.min (n - 1) (x + 1))%Z) by reflexivity.
  clearbody lo hi.
  assert (One : (hi = lo + 1)%Z -> Rabs ((value (real_field s) (at_ hi) - value (real_field s) (at_ lo)) / (IZR (hi - lo) * real64 r)) <= 2.02).
  { intros C. pose proof (step_slope d r filled s HM HX (at_ (lo + 1)%Z) (at_ lo) (B (lo + 1)%Z ltac:(lia)) (B lo ltac:(lia)) (F lo)) as S1.
    rewrite C. replace (lo + 1 - lo)%Z with 1%Z by lia. unfold Rdiv. rewrite Rabs_mult, Rmult_1_l.
    rewrite (Rabs_right (/ real64 r)) by (apply Rle_ge, Rlt_le, Rinv_0_lt_compat; lra).
    apply Rmult_le_reg_r with (real64 r); [lra|]. eapply Rle_trans; [|exact S1]. apply Req_le. field. lra. }
  assert (Two : (hi = lo + 1 + 1)%Z -> Rabs ((value (real_field s) (at_ hi) - value (real_field s) (at_ lo)) / (IZR (hi - lo) * real64 r)) <= 1.52).
  { intros C. pose proof (two_step_slope d r filled s HM HX (at_ (lo + 1 + 1)%Z) (at_ (lo + 1)%Z) (at_ lo)
      (B (lo + 1 + 1)%Z ltac:(lia)) (B (lo + 1)%Z ltac:(lia)) (B lo ltac:(lia)) (F _) (F _)) as S1.
    rewrite C. replace (lo + 1 + 1 - lo)%Z with 2%Z by lia. unfold Rdiv. rewrite Rabs_mult.
    rewrite (Rabs_right (/ (2 * real64 r))) by (apply Rle_ge, Rlt_le, Rinv_0_lt_compat; lra).
    apply Rmult_le_reg_r with (2 * real64 r); [lra|]. rewrite Rmult_assoc, Rinv_l by lra. lra. }
  split.
  - destruct (Z.eq_dec hi (lo + 1)) as [C|C]; [auto|]. apply Rle_trans with 1.52; [apply Two; lia|lra].
  - intros C. apply Two. lia.
Qed.

Lemma accurate_bound v x M : accurate v x -> Rabs x <= M -> 1 <= M <= 3 -> Rabs (real64 v) <= M + 0.01.
Proof using.
  intros (_ & A) B HM'. pose proof (Rabs_triang (real64 v - x) x) as T. replace (real64 v - x + x) with (real64 v) in T by ring.
  assert (E : bpow radix2 (-23) * Rabs x <= / 8388608 * M).
  { change (bpow radix2 (-23)) with (/ 8388608). apply Rmult_le_compat_l; lra. }
  assert (bpow radix2 (-1075) <= / 8388608).
  { change (/ 8388608) with (bpow radix2 (-23)). apply bpow_le. lia. }
  lra.
Qed.

Lemma doubles_gradient i edges g : grid_aligned_gradient (sdf_field s) i edges = Some g ->
  finite_vec g /\
  Rabs (real64 (vx g)) <= 2.03 /\ Rabs (real64 (vy g)) <= 2.03 /\ Rabs (real64 (vz g)) <= 2.03 /\
  (strictly_inside d i -> Rabs (real64 (vx g)) <= 1.53 /\ Rabs (real64 (vy g)) <= 1.53 /\ Rabs (real64 (vz g)) <= 1.53).
Proof.
  intros E. destruct (map_dims _ _ _ _ HM) as (_ & FR & Rp). destruct (field_parts d r filled s HM) as (Ed & Er).
  pose proof HM as (Hs & (Fr & _) & (L & U) & _).
  assert (B : in_bounds d i = true).
  { rewrite <- Ed. destruct (in_bounds (f_dims (sdf_field s)) i) eqn:N; [reflexivity|].
    rewrite (proj2 (aligned_none (sdf_field s) i edges) (or_introl N)) in E. discriminate E. }
  pose proof (gradient_accurate (sdf_field s)) as K. rewrite Ed, Er in K.
  destruct (K Fr) with (i := i) (edges := edges) (g := g) as (Ax & Ay & Az); auto.
  { split; [apply Rle_trans with (2 := L)|apply Rle_trans with (1 := U)]; apply bpow_le; lia. }
  { intros j Hj. destruct (value_bound d r filled s HM j Hj) as (F & V). split; [exact F|].
    apply Rle_trans with (bpow radix2 16 * bpow radix2 100).
    - apply Rle_trans with (46343 * real64 r); [lra|]. apply Rmult_le_compat; try lra. change (bpow radix2 16) with 65536. lra.
    - rewrite <- bpow_plus. apply bpow_le. lia. }
  clear K E. apply in_bounds_spec in B. destruct i as [x y z]. cbn [ix iy iz] in *.
  assert (Sx : forall a, share_face (I (a + 1) y z) (I a y z)) by (intros; unfold share_face; cbn [ix iy iz]; lia).
  assert (Sy : forall a, share_face (I x (a + 1) z) (I x a z)) by (intros; unfold share_face; cbn [ix iy iz]; lia).
  assert (Sz : forall a, share_face (I x y (a + 1)) (I x y a)) by (intros; unfold share_face; cbn [ix iy iz]; lia).
  destruct (slope_bound (nx d) x (fun t => I t y z)) as (X1 & X2); [lia|intros; apply in_bounds_spec; cbn [ix iy iz]; lia|auto|].
  destruct (slope_bound (ny d) y (fun t => I x t z)) as (Y1 & Y2); [lia|intros; apply in_bounds_spec; cbn [ix iy iz]; lia|auto|].
  destruct (slope_bound (nz d) z (fun t => I x y t)) as (Z1 & Z2); [lia|intros; apply in_bounds_spec; cbn [ix iy iz]; lia|auto|].
  split; [split; [apply Ax|split; [apply Ay|apply Az]]|].
  replace 2.03 with (2.02 + 0.01) by lra. replace 1.53 with (1.52 + 0.01) by lra.
  split; [eapply accurate_bound; [exact Ax|exact X1|lra]|]. split; [eapply accurate_bound; [exact Ay|exact Y1|lra]|].
  split; [eapply accurate_bound; [exact Az|exact Z1|lra]|].
  intros S. unfold strictly_inside in S. cbn [ix iy iz] in S.
  split; [eapply accurate_bound; [exact Ax|apply X2; lia|lra]|]. split; [eapply accurate_bound; [exact Ay|apply Y2; lia|lra]|].
  eapply accurate_bound; [exact Az|apply Z2; lia|lra].
Qed.
End Gradient.

(** ** A case *)
Definition edge_point : vec ieee := @V ieee half64 one64 half64.

Lemma real_half : real64 half64 = 1 / 2.
Proof. unfold real64, half64, B2R, F2R. cbn. lra. Qed.

Lemma edge_real : real_vec edge_point = @V reals (1/2) 1 (1/2).
Proof. unfold real_vec, edge_point. cbn [vx vy vz]. rewrite real_half, real_one. reflexivity. Qed.

Lemma edge_usable : usable_point edge_point.
Proof.
  unfold usable_point, finite_vec, finite_double, edge_point. cbn [vx vy vz]. rewrite real_half, real_one.
  assert (1 <= bpow radix2 800) by (change 1 with (bpow radix2 0); apply bpow_le; lia).
  repeat split; try reflexivity; rewrite Rabs_pos_eq; lra.
Qed.

Lemma ideal_case : exists s,
  let q := real_vec edge_point in let p := plain_pose (real64 one64) in
  field_of_map (D 3 3 1) one64 (only (I 1 1 0)) s /\ real64 one64 <= bpow radix2 80 /\
  usable_point edge_point /\ in_bounds (D 3 3 1) (index_of (ieee_pose one64) edge_point) = true /\
  in_bounds (D 3 3 1) (index_of p q) = true /\ between_centers (real_field s) q /\
  flat (D 3 3 1) /\ in_bounds (D 3 3 1) (I 1 1 0) = true /\ only (I 1 1 0) (I 1 1 0) = true /\
  only (I 1 1 0) (index_of p q) = false /\
  (forall b, in_bounds (D 3 3 1) b = true -> only (I 1 1 0) b = true -> 1 <= gap q (center_of p b)) /\
  (forall j, in_bounds (D 3 3 1) j = true -> exact_at (D 3 3 1) one64 (only (I 1 1 0)) s j).
Proof.
  destruct estimate_case as (s & H & _ & B & C & F & X). exists s. cbv zeta. rewrite edge_real.
  split; [exact H|]. split.
  { rewrite real_one. change 1 with (bpow radix2 0). apply bpow_le. lia. }
  split; [exact edge_usable|]. split; [vm_compute; reflexivity|]. split; [exact B|]. split; [exact C|]. split; [exact F|]. exact X.
Qed.

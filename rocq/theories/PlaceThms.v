(** Estimates in doubles anywhere in a grid that stands anywhere, in world distances. *)
From Coq Require Import Reals Lra Lia Psatz.
From Flocq Require Import Core.Core IEEE754.Binary IEEE754.Bits.
From Verif Require Import Base BaseFacts Floats Grid GridFacts DistSpec CollisionMap SdfGen SdfSpec Arith SdfQuery SdfField QuerySpec
  QueryReal QueryThms QueryTurn AutoDiffSpec AutoDiffThms DoubleSpec WallSpec EstimateSpec EstimateMap SlopeThms IdealSpec IdealMap OuterThms
  Frame FrameSpec FrameThms PlaceSpec.
Open Scope R_scope.

Lemma gap_length a b : gap a b = sqrt (length_squared (@vsub reals a b)).
Proof. reflexivity. Qed.

Lemma turn_minus w u a b : @vsub reals (turn w u a) (turn w u b) = turn w u (@vsub reals a b).
Proof. destruct u as [x y z], a as [a1 a2 a3], b as [b1 b2 b3]. unfold vsub, turn. cbn [vx vy vz]. rsimp. f_equal; asR; ring. Qed.

Lemma rigid_gap P t a b : rigid P t -> gap (to_world P a) (to_world P b) = gap a b.
Proof.
  intros Rg. rewrite !gap_length. f_equal. rewrite !(rigid_world P t Rg).
  replace (@vsub reals (vadd t (turn (rot_w P) (rot_v P) a)) (vadd t (turn (rot_w P) (rot_v P) b)))
    with (@vsub reals (turn (rot_w P) (rot_v P) a) (turn (rot_w P) (rot_v P) b)).
  - rewrite turn_minus. apply turn_length. apply (rigid_unit P t Rg).
  - unfold vsub, vadd. cbn [vx vy vz]. rsimp. f_equal; asR; ring.
Qed.

Lemma path_gap a b : path a b <= 1.7321 * gap a b.
Proof.
  unfold path, gap. set (x := vx a - vx b). set (y := vy a - vy b). set (z := vz a - vz b).
  assert (E : x * x + y * y + z * z = Rabs x * Rabs x + Rabs y * Rabs y + Rabs z * Rabs z).
  { rewrite <- !Rabs_mult. rewrite !Rabs_pos_eq; [ring| | |]; apply Rle_0_sqr. }
  rewrite E. pose proof (Rabs_pos x). pose proof (Rabs_pos y). pose proof (Rabs_pos z).
  clear E. set (i := Rabs x) in *. set (j := Rabs y) in *. set (k := Rabs z) in *. clearbody i j k. clear x y z.
  set (m := i * i + j * j + k * k). assert (M0 : 0 <= m) by (unfold m; nra).
  replace 1.7321 with (sqrt (1.7321 * 1.7321)) by (apply sqrt_square; lra). rewrite <- sqrt_mult by lra.
  rewrite <- (sqrt_square (i + j + k)) by lra. apply sqrt_le_1_alt. unfold m.
  pose proof (Rle_0_sqr (i - j)). pose proof (Rle_0_sqr (j - k)). pose proof (Rle_0_sqr (i - k)). unfold Rsqr in *. nra.
Qed.

Section Place.
Variables (d : dims) (r : binary64) (filled : idx -> bool) (s : sdf) (N : R).
Variables (inverse forward : transform ieee) (w : dbl ieee) (v : vec ieee) (P : pose reals) (t : rvec) (S far : R).
Let p := placed_pose r inverse forward w v.
Hypothesis HM : field_of_map d r filled s.
Hypothesis HX : flat d \/ (forall c, in_bounds d c = true -> exact_at d r filled s c).
Hypothesis WP : well_placed d r N inverse P t S far.

Lemma place_geometry : geometry (real64 r) P /\ rigid P t.
Proof using WP. destruct WP as (_ & _ & _ & _ & G & Rg & _). split; assumption. Qed.

Lemma place_gap loc b : gap (to_grid P (real_vec loc)) (center_of P b) = gap (real_vec loc) (world_center P b).
Proof using WP.
  destruct place_geometry as (G & Rg). unfold world_center.
  rewrite <- (g_back_and_there _ _ G (real_vec loc)) at 2. symmetry. exact (rigid_gap P t _ _ Rg).
Qed.

Lemma place_doubles loc : seen d p P S loc ->
  exists e, estimate_distance (sdf_field s) p loc = Ok (e, true) /\ finite_double e /\
    Rabs (real64 e - estimated (real_field s) P (real_vec loc)) <= 0.002 * real64 r.
Proof using HM WP.
  intros (L & I1 & I2). destruct WP as (Sm & (X & Y & Z) & SB & U & G & _ & F & Fi).
  exact (placed_doubles d r filled s N HM Sm X Y Z inverse forward w v P S far SB U G F Fi loc L I1 I2).
Qed.

Lemma place_transfer loc (C : R -> Prop) : let q := to_grid P (real_vec loc) in seen d p P S loc ->
  (exists e, estimate_distance (real_field s) P (to_world P q) = Ok (e, true) /\ C e) ->
  exists e, estimate_distance (sdf_field s) p loc = Ok (e, true) /\ finite_double e /\
    exists e', C e' /\ Rabs (real64 e - e') <= 0.002 * real64 r.
Proof using HM WP.
  intros q (L & I1 & I2). destruct WP as (Sm & (X & Y & Z) & SB & U & G & _ & F & Fi).
  exact (placed_transfer d r filled s N HM Sm X Y Z inverse forward w v P S far SB U G F Fi loc C L I1 I2).
Qed.

Lemma place_steady loc loc' : seen d p P S loc -> seen d p P S loc' ->
  let far_apart := gap (real_vec loc) (real_vec loc') in
  exists e e', estimate_distance (sdf_field s) p loc = Ok (e, true) /\ estimate_distance (sdf_field s) p loc' = Ok (e', true) /\
    finite_double e /\ finite_double e' /\
    Rabs (real64 e - real64 e') <= 7.07 * far_apart + 0.004 * real64 r /\
    (between_centers (real_field s) (to_grid P (real_vec loc)) -> between_centers (real_field s) (to_grid P (real_vec loc')) ->
     Rabs (real64 e - real64 e') <= 1.77 * far_apart + 0.004 * real64 r).
Proof.
  intros H1 H2 far_apart. destruct (place_doubles loc H1) as (e & E & Fe & Err). destruct (place_doubles loc' H2) as (e' & E' & Fe' & Err').
  exists e, e'. split; [exact E|]. split; [exact E'|]. split; [exact Fe|]. split; [exact Fe'|].
  destruct place_geometry as (G & Rg). destruct H1 as (_ & _ & I1), H2 as (_ & _ & I2).
  set (q := to_grid P (real_vec loc)) in *. set (q' := to_grid P (real_vec loc')) in *.
  assert (Ew : to_world P q = real_vec loc) by apply (g_back_and_there _ _ G).
  assert (Ew' : to_world P q' = real_vec loc') by apply (g_back_and_there _ _ G).
  assert (Gp : far_apart = gap q q') by (unfold far_apart; rewrite <- Ew, <- Ew'; apply (rigid_gap P t _ _ Rg)).
  pose proof (path_gap q q') as Pg. rewrite <- Gp in Pg.
  assert (G0 : 0 <= far_apart) by (unfold far_apart, gap; apply sqrt_pos).
  apply Rabs_le_inv in Err. apply Rabs_le_inv in Err'.
  split.
  - pose proof (map_lipschitz_anywhere d r filled s HM HX P q q' G I1 I2) as K. rewrite Ew, Ew' in K.
    apply Rabs_le_inv in K. apply Rabs_le. lra.
  - intros B1 B2. pose proof (map_lipschitz d r filled s HM HX P q q' G I1 I2 B1 B2) as K. rewrite Ew, Ew' in K.
    apply Rabs_le_inv in K. apply Rabs_le. lra.
Qed.

Lemma place_class loc : seen d p P S loc ->
  exists e, estimate_distance (sdf_field s) p loc = Ok (e, true) /\ finite_double e /\
    (4.21 * real64 r < real64 e -> filled (cell_of P loc) = false) /\
    (real64 e < - (4.21 * real64 r) -> filled (cell_of P loc) = true) /\
    (flat d -> (2.17 * real64 r < real64 e -> filled (cell_of P loc) = false) /\
               (real64 e < - (2.17 * real64 r) -> filled (cell_of P loc) = true)).
Proof.
  intros H. destruct place_geometry as (G & _). pose proof H as (_ & _ & I2). destruct (map_dims d r filled s HM) as (_ & _ & Rp).
  destruct (place_transfer loc _ H (outer_class d r filled s HM HX P G _ I2)) as (e & E & Fe & e' & (P1 & P2 & P3) & Err).
  exists e. split; [exact E|]. split; [exact Fe|]. apply Rabs_le_inv in Err. unfold cell_of.
  split; [intros; apply P1; lra|]. split; [intros; apply P2; lra|].
  intros Fl. destruct (P3 Fl) as (P4 & P5). split; intros; [apply P4|apply P5]; lra.
Qed.

Lemma place_above loc b : seen d p P S loc -> in_bounds d b = true -> filled b = true ->
  exists e, estimate_distance (sdf_field s) p loc = Ok (e, true) /\ finite_double e /\
    (flat d -> real64 e <= 1.42 * gap (real_vec loc) (world_center P b) + 3.3 * real64 r) /\
    ((forall c, in_bounds d c = true -> exact_at d r filled s c) ->
     real64 e <= (1 + bpow radix2 (-23)) * gap (real_vec loc) (world_center P b) + 4.83 * real64 r).
Proof.
  intros H Hb Fb. destruct place_geometry as (G & _). pose proof H as (_ & _ & I2). destruct (map_dims d r filled s HM) as (_ & _ & Rp).
  destruct (place_transfer loc _ H (outer_above d r filled s HM HX P G _ I2 b Hb Fb)) as (e & E & Fe & e' & (P1 & P2) & Err).
  exists e. split; [exact E|]. split; [exact Fe|]. apply Rabs_le_inv in Err. rewrite place_gap in P1, P2.
  split; intros K; [specialize (P1 K)|specialize (P2 K)]; lra.
Qed.

Lemma place_below loc D_ : seen d p P S loc -> 0 <= D_ -> filled (cell_of P loc) = false ->
  (forall b, in_bounds d b = true -> filled b = true -> D_ <= gap (real_vec loc) (world_center P b)) ->
  exists e, estimate_distance (sdf_field s) p loc = Ok (e, true) /\ finite_double e /\
    (1 - bpow radix2 (-23)) * D_ - 6.55 * real64 r <= real64 e /\
    (flat d -> (1 - bpow radix2 (-23)) * D_ - 4.35 * real64 r <= real64 e).
Proof.
  intros H D0 Fr HD. destruct place_geometry as (G & _). pose proof H as (_ & _ & I2). destruct (map_dims d r filled s HM) as (_ & _ & Rp).
  assert (HD' : forall b, in_bounds d b = true -> filled b = true -> D_ <= gap (to_grid P (real_vec loc)) (center_of P b))
    by (intros b Hb Fb; rewrite place_gap; auto).
  destruct (place_transfer loc _ H (outer_below d r filled s HM HX P G _ I2 D_ D0 Fr HD')) as (e & E & Fe & e' & (P1 & P2) & Err).
  exists e. split; [exact E|]. split; [exact Fe|]. apply Rabs_le_inv in Err.
  split; [lra|]. intros K. specialize (P2 K). lra.
Qed.
End Place.

(** C133: gradients by location in turned grids, in doubles. *)
From Coq Require Import Reals Lra Lia.
From Flocq Require Import Core.Core IEEE754.Binary IEEE754.Bits.
From Verif Require Import Base BaseFacts Floats FloatFacts FloatFacts2 Grid GridFacts DistSpec CollisionMap SdfGen SdfSpec Arith SdfQuery SdfField QuerySpec
  QueryProofs QueryReal QueryThms QueryTurn QueryWitness AutoDiffSpec DoubleSpec WallSpec SmoothSpec EstimateSpec EstimateMap EstimateCase IdealSpec
  IdealMap WallProject SdfThms PropWallProject Frame FrameSpec FrameCase FrameThms PlaceSpec PlaceThms PropFrameTurn Location
  Origin OriginSpec OriginThms OriginTurn OriginPlace PropOrigin PointSpec PointThms ResampleThms WindowSpec WindowThms WindowPlace.
Open Scope R_scope.

(** C133: the smoothed gradient in a turned grid.  Each component is the slope of the
    exact estimate between the two points the code compares, to within 0.007 cells over
    their distance (and 2^-40), and is at most 7.08 + 0.02 cells over that distance in
    size.  If neither end of the window is in the grid on some axis, the call throws. *)
Theorem C133_smooth : forall d r filled s N P t delta eta S T loc window,
  let p := placed_by r T in let f := sdf_field s in
  let E a := estimated (real_field s) P (real_vec a) in
  field_of_map d r filled s -> flat d \/ (forall c, in_bounds d c = true -> exact_at d r filled s c) ->
  stands d r N T P t delta eta S -> seen d p P S loc -> usable_window loc window ->
  (forall a, reached loc window a -> in_bounds d (index_of p (to_grid p a)) = true -> seen d p P S a) ->
  (window_fits f p loc window ->
   exists g, smooth_gradient f p loc window = Ok (Some g) /\
     forall x, exists from to, window_points f p (before x loc window) loc (beyond x loc window) from to /\
       let run := run_of x from to in
       finite_double (component x g) /\ 0 < run /\
       Rabs (real64 (component x g) - (E to - E from) / run) <= 0.007 * real64 r / run + bpow radix2 (-40) /\
       Rabs (real64 (component x g)) <= 7.08 + 0.02 * real64 r / run) /\
  (~ window_fits f p loc window ->
   smooth_gradient f p loc window = Throw "Window size for GetSmoothGradient is too large for SDF").
Proof.
  intros d r filled s N P t delta eta S T loc window p f E HM HX ST.
  exact (map_window d r filled s N (inverse_of T) T (qw (quat_of T)) (qv (quat_of T)) P t S _ HM HX (origin_placed _ _ _ _ _ _ _ _ _ ST) loc window).
Qed.
Print Assumptions C133_smooth.

(** In front of, or inside, a flat wall it is the outward normal of the wall, turned with
    the grid. *)
Theorem C133_wall : forall a low d r oob frame is_filled k N s x M T P t delta eta S loc window,
  let p := placed_by r T in let f := sdf_field s in
  let tol := wall_tolerance (real64 r) N + real64 r / 1000000 in
  extracted_wall a low d r oob frame is_filled k N s x -> stands d r M T P t delta eta S -> S <= bpow radix2 90 ->
  point_within S loc -> in_bounds d (index_of p (to_grid p loc)) = true -> usable_window loc window ->
  (forall b, reached loc window b -> in_bounds d (index_of p (to_grid p b)) = true -> point_within S b) ->
  window_fits f p loc window ->
  exists g, smooth_gradient f p loc window = Ok (Some g) /\ finite_vec g /\
    apart_at_most (4 * tol / Rabs (real64 window) + bpow radix2 (-50)) (real_vec g) (turn (rot_w P) (rot_v P) (outward a low)).
Proof.
  intros a low d r oob frame is_filled k N s x M T P t delta eta S loc window p f tol EW ST S90 Hl Hi Uw Wn Fit.
  assert (Lr : bpow radix2 (-100) <= real64 r) by apply EW.
  pose proof (misplaced_le d r M T P t delta eta S Lr ST _ Hi) as Mp. pose proof (bpow_gt_0 radix2 (-100)) as P0.
  destruct (origin_placed _ _ _ _ _ _ _ _ _ ST) as (_ & _ & SB & U & G & Rg & Fo & _).
  destruct (wall_window a low d r oob frame is_filled k N s x (inverse_of T) T (qw (quat_of T)) (qv (quat_of T)) P t S _
    EW (conj (proj1 SB) S90) U Fo G Rg ltac:(lra) loc window Hl Hi Uw Wn Fit) as (g & Eg & Fg & Dg).
  exists g. split; [exact Eg|]. split; [exact Fg|]. apply apart_more with (2 := Dg). apply Rplus_le_compat_r.
  assert (W0 : 0 < / Rabs (real64 window)) by (apply Rinv_0_lt_compat; destruct Uw as (_ & B & _); pose proof (bpow_gt_0 radix2 (-200)); lra).
  unfold Rdiv. apply Rmult_le_compat_r; [lra|]. unfold tol. lra.
Qed.
Print Assumptions C133_wall.

(** The gradient at a world point at least two millionths of a cell from the faces of a
    cell is that of the cell, as C129 says. *)
Theorem C133_gradient : forall d r N T P t delta eta S,
  finite_double r -> bpow radix2 (-100) <= real64 r -> N <= bpow radix2 30 -> stands d r N T P t delta eta S ->
  bpow radix2 (-53) <= delta <= bpow radix2 (-27) ->
  forall (f : field ieee) M loc i edges g,
  f_dims f = d -> finite_double (f_res f) -> bpow radix2 (-800) <= real64 (f_res f) <= bpow radix2 800 ->
  (forall j, in_bounds d j = true -> finite_float (value f j) /\ Rabs (real32 (value f j)) <= bpow radix2 126) ->
  bpow radix2 (-90) <= M <= bpow radix2 90 -> bounded_by M (slopes f i) ->
  point_within S loc -> in_bounds d i = true ->
  inside_cell (2 * (real64 r / 1000000)) (real64 r) (to_grid P (real_vec loc)) i ->
  gradient_at f (placed_by r T) loc edges = Some g ->
  finite_vec g /\
  apart_at_most ((144000 * delta + bpow radix2 (-17)) * M) (real_vec g) (turn (rot_w P) (rot_v P) (slopes f i)).
Proof.
  intros d r N T P t delta eta S Fr Lr HN ST Hd f M loc i edges g Ed Ff Rf Vals HM Hs Hl Ib In Eg.
  pose proof (point_found d r N T P t delta eta S Fr Lr HN ST loc i Hl Ib In) as Ei. unfold cell_at in Ei.
  unfold gradient_at in Eg. rewrite Ei, Ed, Ib in Eg.
  destruct ST as (_ & _ & _ & _ & RP & _ & (HMx & _ & _) & _). rewrite <- Ed in Vals.
  exact (C129_gradient r P t delta T f M i edges g Hd RP HMx Ff Rf Vals HM Hs Eg).
Qed.
Print Assumptions C133_gradient.

(** Non-vacuity: the point (9.75, 20.25, 30.125) of the turned grid of C126, with a window
    of a sixteenth: the seven points are in the grid. *)
Definition sixteenth64 : binary64 := B754_finite 53 1024 false 4503599627370496 (-56) eq_refl.

Lemma sixteenth_real : real64 sixteenth64 = 1 / 16.
Proof. unfold real64, sixteenth64. cbn [B2R]. unfold F2R. cbn. lra. Qed.

Lemma spot_window : usable_window shelf_spot sixteenth64.
Proof.
  assert (X : vx (real_vec shelf_spot) = 39 / 4 /\ vy (real_vec shelf_spot) = 81 / 4 /\ vz (real_vec shelf_spot) = 241 / 8)
    by (rewrite shelf_spot_real; cbn [vx vy vz]; auto).
  destruct X as (X & Y & Z). cbn [real_vec vx vy vz] in X, Y, Z.
  split; [reflexivity|]. rewrite sixteenth_real, (Rabs_pos_eq (1 / 16)) by lra. split.
  { replace (1 / 16) with (bpow radix2 (-4)) by (cbn; lra). split; apply bpow_le; lia. }
  assert (K : 1024 <= bpow radix2 50) by (change 1024 with (bpow radix2 10); apply bpow_le; lia).
  cbn [shelf_spot vx vy vz] in *. rewrite X, Y, Z. rewrite !Rabs_pos_eq by lra. repeat split; lra.
Qed.

Lemma exact_part (x : binary64) m e : B2FF 53 1024 x = F754_finite false m e -> finite_double x /\ real64 x = F2R (Float radix2 (Zpos m) e).
Proof.
  intros E. unfold finite_double, real64. split; [destruct x; try discriminate E; reflexivity|rewrite <- FF2R_B2FF, E; reflexivity].
Qed.

Lemma spot_reached a : reached shelf_spot sixteenth64 a ->
  finite_vec a /\ Rabs (vx (real_vec a) - 39 / 4) <= 1 / 16 /\ Rabs (vy (real_vec a) - 81 / 4) <= 1 / 16 /\ Rabs (vz (real_vec a) - 241 / 8) <= 1 / 16.
Proof.
  assert (X : vx (real_vec shelf_spot) = 39 / 4 /\ vy (real_vec shelf_spot) = 81 / 4 /\ vz (real_vec shelf_spot) = 241 / 8)
    by (rewrite shelf_spot_real; cbn [vx vy vz]; auto).
  destruct X as (X & Y & Z). cbn [real_vec vx vy vz] in X, Y, Z.
  assert (Fs : finite_vec shelf_spot) by (repeat split). destruct Fs as (F1 & F2 & F3).
  intros [->|([| |] & [->| ->])]; unfold before, beyond, shifted; cbn [real_vec vx vy vz] in *.
  all: try (rewrite ?X, ?Y, ?Z; split; [repeat split; assumption|]; repeat split; apply Rabs_le; lra).
  1: destruct (exact_part (sub64 (vx shelf_spot) (b64_abs sixteenth64)) 5453577673768960 (-49)) as (Fn & En); [vm_compute; reflexivity|].
  2: destruct (exact_part (add64 (vx shelf_spot) (b64_abs sixteenth64)) 5523946417946624 (-49)) as (Fn & En); [vm_compute; reflexivity|].
  3: destruct (exact_part (sub64 (vy shelf_spot) (b64_abs sixteenth64)) 5682276092346368 (-48)) as (Fn & En); [vm_compute; reflexivity|].
  4: destruct (exact_part (add64 (vy shelf_spot) (b64_abs sixteenth64)) 5717460464435200 (-48)) as (Fn & En); [vm_compute; reflexivity|].
  5: destruct (exact_part (sub64 (vz shelf_spot) (b64_abs sixteenth64)) 8461841487364096 (-48)) as (Fn & En); [vm_compute; reflexivity|].
  6: destruct (exact_part (add64 (vz shelf_spot) (b64_abs sixteenth64)) 8497025859452928 (-48)) as (Fn & En); [vm_compute; reflexivity|].
  all: split; [repeat split; assumption|]; cbn [shelf_spot vx vy vz] in *; rewrite En, ?X, ?Y, ?Z; unfold F2R; cbn; repeat split; apply Rabs_le; lra.
Qed.

Lemma spot_within a : reached shelf_spot sixteenth64 a -> point_within 128 a.
Proof.
  intros H. destruct (spot_reached a H) as (F & A & B & C). split; [exact F|].
  apply Rabs_le_inv in A. apply Rabs_le_inv in B. apply Rabs_le_inv in C. repeat split; apply Rabs_le; lra.
Qed.

Example C133_nonvacuous : exists s,
  let d := D 3 3 1 in let P := shelf (real64 one64) in let p := placed_by one64 shelf_forward in let filled := only (I 1 1 0) in
  field_of_map d one64 filled s /\ flat d /\ stands d one64 3 shelf_forward P shelf_shift (bpow radix2 (-53)) 0 128 /\
  seen d p P 128 shelf_spot /\ usable_window shelf_spot sixteenth64 /\
  (forall a, reached shelf_spot sixteenth64 a -> in_bounds d (index_of p (to_grid p a)) = true -> seen d p P 128 a) /\
  window_fits (sdf_field s) p shelf_spot sixteenth64 /\
  inside_cell (2 * (real64 one64 / 1000000)) (real64 one64) (to_grid P (real_vec shelf_spot)) (I 0 0 0).
Proof.
  destruct ideal_case as (s & H & _ & _ & _ & _ & _ & Fl & _). destruct (field_parts _ _ _ _ H) as (Ed & _).
  exists s. cbv zeta. assert (R1 : 0 < real64 one64) by (rewrite real_one; lra). destruct (shelf_pose _ R1) as (G & _).
  assert (Sn : forall a, reached shelf_spot sixteenth64 a -> in_bounds (D 3 3 1) (index_of (placed_by one64 shelf_forward) (to_grid (placed_by one64 shelf_forward) a)) = true ->
    seen (D 3 3 1) (placed_by one64 shelf_forward) (shelf (real64 one64)) 128 a).
  { intros a Ra Ia. split; [apply spot_within; exact Ra|]. split; [exact Ia|].
    destruct (spot_reached a Ra) as (_ & A & B & C). apply Rabs_le_inv in A. apply Rabs_le_inv in B. apply Rabs_le_inv in C.
    rewrite (proj1 (shelf_places _ _)). rewrite (index_is (real64 one64) (shelf (real64 one64)) _ 0 0 0 R1 G); [reflexivity| | |];
      rewrite real_one; cbn [vx vy vz]; lra. }
  split; [exact H|]. split; [exact Fl|]. split; [exact shelf_stands|].
  split; [apply Sn; [left; reflexivity|vm_compute; reflexivity]|]. split; [exact spot_window|]. split; [exact Sn|]. split.
  - intros x. left. unfold inside. rewrite Ed. destruct x; vm_compute; reflexivity.
  - rewrite shelf_spot_grid, real_one. unfold inside_cell, inside_axis. cbn [vx vy vz ix iy iz]. lra.
Qed.

(** The floor of C125 in a grid placed the same way, at the same point. *)
Example C133_wall_nonvacuous : exists s x,
  let d := floor_dims in let r := quarter64 in let P := shelf (real64 r) in let p := placed_by r shelf_forward in
  extracted_wall AlongZ true d r zero32 "grid" floor_filled 2 6 s x /\
  stands d r 6 shelf_forward P shelf_shift (bpow radix2 (-53)) 0 128 /\ 128 <= bpow radix2 90 /\
  point_within 128 shelf_spot /\ in_bounds d (index_of p (to_grid p shelf_spot)) = true /\ usable_window shelf_spot sixteenth64 /\
  (forall b, reached shelf_spot sixteenth64 b -> in_bounds d (index_of p (to_grid p b)) = true -> point_within 128 b) /\
  window_fits (sdf_field s) p shelf_spot sixteenth64 /\
  4 * (wall_tolerance (real64 r) 6 + real64 r / 1000000) / Rabs (real64 sixteenth64) + bpow radix2 (-50) <= 1 / 10000.
Proof.
  destruct C125_nonvacuous as (s & x & H). cbv zeta in H. destruct H as (E & _). pose proof E as (Hs & Hr & Rr & HP & Hk & Ex & He & _).
  destruct (WallDouble.extracted_double_wall _ _ _ _ _ _ _ _ _ _ Hs Hr HP Hk Ex He) as (_ & FD & _).
  assert (Rq : real64 quarter64 = 1 / 4) by (unfold real64, quarter64; cbn [B2R]; unfold F2R; cbn; lra).
  exists s, x. cbv zeta. split; [exact E|]. split.
  { assert (R1 : 0 < real64 quarter64) by lra. destruct (shelf_pose _ R1) as (G & Rg). destruct shelf_stands as (_ & _ & SB & _ & _ & Hd & (_ & O2 & O3) & _).
    split; [lra|]. split; [cbn [floor_dims nx ny nz]; lra|]. split; [exact SB|]. split; [exact G|]. split; [exact Rg|]. split; [exact Hd|]. split.
    - split; [apply shelf_matrix|]. split; [exact O2|exact O3].
    - rewrite Rq. unfold misplaced, inverse_error. change (bpow radix2 (-53)) with (/ 9007199254740992). lra. }
  split. { change 128 with (bpow radix2 7). apply bpow_le. lia. }
  split; [apply spot_within; left; reflexivity|]. split; [vm_compute; reflexivity|]. split; [exact spot_window|].
  split; [intros b Hb _; apply spot_within; exact Hb|]. split.
  - intros y. left. unfold inside. rewrite FD. destruct y; vm_compute; reflexivity.
  - rewrite sixteenth_real, Rq, (Rabs_pos_eq (1 / 16)) by lra. unfold wall_tolerance.
    change (bpow radix2 (-42)) with (/ 4398046511104). change (bpow radix2 (-53)) with (/ 9007199254740992).
    change (bpow radix2 (-50)) with (/ 1125899906842624). lra.
Qed.

(** Smoothed gradients of maps and walls, in grids that stand anywhere. *)
From Coq Require Import Reals Lra Lia Psatz.
From Flocq Require Import Core.Core IEEE754.Binary IEEE754.Bits.
From Verif Require Import Base BaseFacts Floats Grid GridFacts DistSpec CollisionMap SdfGen SdfSpec Arith SdfQuery SdfField QuerySpec
  QueryReal QueryThms QueryTurn AutoDiffSpec AutoDiffThms DoubleSpec DoubleEstimate WallSpec SmoothSpec DoubleSmooth WallDouble EstimateSpec EstimateMap
  IdealSpec IdealMap Frame FrameSpec FrameThms FrameWall PlaceSpec PlaceThms Origin OriginSpec OriginThms OriginPlace WindowSpec WindowThms.
Open Scope R_scope.

(** ** The ends of a window *)
Definition beside (x : axis_name) (a b : vec ieee) : Prop := forall y, y <> x -> component y a = component y b.

Lemma window_beside f p loc window x from to :
  window_points f p (before x loc window) loc (beyond x loc window) from to -> beside x from to.
Proof.
  intros ([(_ & ->)|(_ & ->)] & [(_ & ->)|(_ & ->)]) y Hy; unfold before, beyond, shifted;
    destruct x, y; try reflexivity; exfalso; apply Hy; reflexivity.
Qed.

Lemma window_reached f p loc window x from to : inside f p loc ->
  window_points f p (before x loc window) loc (beyond x loc window) from to ->
  (reached loc window from /\ inside f p from) /\ (reached loc window to /\ inside f p to).
Proof.
  intros Hi ([(A & ->)|(_ & ->)] & [(B & ->)|(_ & ->)]); (split; split; auto); try (left; reflexivity); right; exists x; auto.
Qed.

Lemma beside_gap x a b : beside x a b -> gap (real_vec a) (real_vec b) = Rabs (run_of x a b).
Proof.
  intros H. unfold gap, run_of.
  assert (Sq : forall k, sqrt (k * k) = Rabs k) by (intros k; apply sqrt_Rsqr_abs).
  destruct x; [pose proof (H AlongY ltac:(discriminate)) as E1; pose proof (H AlongZ ltac:(discriminate)) as E2
              |pose proof (H AlongX ltac:(discriminate)) as E1; pose proof (H AlongZ ltac:(discriminate)) as E2
              |pose proof (H AlongX ltac:(discriminate)) as E1; pose proof (H AlongY ltac:(discriminate)) as E2];
    destruct a as [a1 a2 a3], b as [b1 b2 b3]; cbn [component vx vy vz real_vec] in *; subst; rewrite <- Sq; f_equal; ring.
Qed.

Lemma gap_within S a b : point_within S a -> point_within S b -> gap (real_vec a) (real_vec b) <= 6 * S.
Proof.
  intros (_ & A1 & A2 & A3) (_ & B1 & B2 & B3).
  assert (S0 : 0 <= S) by (apply Rle_trans with (2 := A1); apply Rabs_pos).
  unfold gap. set (x := vx (real_vec a) - _). set (y := vy (real_vec a) - _). set (z := vz (real_vec a) - _).
  assert (X : Rabs x <= 2 * S) by (apply Rabs_le; apply Rabs_le_inv in A1; apply Rabs_le_inv in B1; unfold x; lra).
  assert (Y : Rabs y <= 2 * S) by (apply Rabs_le; apply Rabs_le_inv in A2; apply Rabs_le_inv in B2; unfold y; lra).
  assert (Z : Rabs z <= 2 * S) by (apply Rabs_le; apply Rabs_le_inv in A3; apply Rabs_le_inv in B3; unfold z; lra).
  clearbody x y z. apply Rabs_le_inv in X. apply Rabs_le_inv in Y. apply Rabs_le_inv in Z.
  rewrite <- (sqrt_square (6 * S)) by lra. apply sqrt_le_1_alt. nra.
Qed.

(** ** Maps *)
Section Map.
Variables (d : dims) (r : binary64) (filled : idx -> bool) (s : sdf) (N : R).
Variables (inverse forward : transform ieee) (w : dbl ieee) (v : vec ieee) (P : pose reals) (t : rvec) (S far : R).
Let p := placed_pose r inverse forward w v.
Let f := sdf_field s.
Let E (a : vec ieee) := estimated (real_field s) P (real_vec a).
Hypothesis HM : field_of_map d r filled s.
Hypothesis HX : flat d \/ (forall c, in_bounds d c = true -> exact_at d r filled s c).
Hypothesis WP : well_placed d r N inverse P t S far.

Lemma exact_steady a b : seen d p P S a -> seen d p P S b ->
  Rabs (E b - E a) <= 7.07 * gap (real_vec a) (real_vec b) + 0.008 * real64 r.
Proof using HM HX WP.
  intros Ha Hb. destruct (place_steady d r filled s N inverse forward w v P t S far HM HX WP a b Ha Hb) as (e & e' & E1 & E2 & _ & _ & B & _).
  destruct (place_doubles d r filled s N inverse forward w v P t S far HM WP a Ha) as (e1 & E1' & _ & D1).
  destruct (place_doubles d r filled s N inverse forward w v P t S far HM WP b Hb) as (e2 & E2' & _ & D2).
  fold p in E1, E2, E1', E2'. rewrite E1 in E1'. injection E1' as <-. rewrite E2 in E2'. injection E2' as <-.
  fold (E a) in D1. fold (E b) in D2. apply Rabs_le_inv in D1. apply Rabs_le_inv in D2. apply Rabs_le_inv in B. apply Rabs_le. lra.
Qed.

Lemma map_window loc window : seen d p P S loc -> usable_window loc window ->
  (forall a, reached loc window a -> in_bounds d (index_of p (to_grid p a)) = true -> seen d p P S a) ->
  (window_fits f p loc window ->
   exists g, smooth_gradient f p loc window = Ok (Some g) /\
     forall x, exists from to, window_points f p (before x loc window) loc (beyond x loc window) from to /\
       let run := run_of x from to in
       finite_double (component x g) /\ 0 < run /\
       Rabs (real64 (component x g) - (E to - E from) / run) <= 0.007 * real64 r / run + bpow radix2 (-40) /\
       Rabs (real64 (component x g)) <= 7.08 + 0.02 * real64 r / run) /\
  (~ window_fits f p loc window ->
   smooth_gradient f p loc window = Throw "Window size for GetSmoothGradient is too large for SDF").
Proof using HM HX WP.
  intros Hl Uw Seen. destruct (field_parts _ _ _ _ HM) as (Ed & Er).
  assert (Rr : bpow radix2 (-100) <= real64 r <= bpow radix2 100) by apply HM.
  pose proof (bpow_gt_0 radix2 (-100)) as P0.
  assert (SB : bpow radix2 (-100) <= S <= bpow radix2 100) by apply WP.
  assert (In : forall a, inside f p a -> in_bounds d (index_of p (to_grid p a)) = true) by (intros a Ha; unfold inside, f in Ha; rewrite Ed in Ha; exact Ha).
  assert (Hi : inside f p loc) by (unfold inside, f; rewrite Ed; apply Hl).
  assert (K200 : 50 * bpow radix2 100 <= bpow radix2 200).
  { apply Rle_trans with (bpow radix2 6 * bpow radix2 100).
    - change (bpow radix2 6) with 64. pose proof (bpow_gt_0 radix2 100). lra.
    - rewrite <- bpow_plus. apply bpow_le. lia. }
  assert (Tol : bpow radix2 (-300) <= 0.002 * real64 r <= bpow radix2 200).
  { split; [|pose proof (bpow_gt_0 radix2 100); lra]. apply Rle_trans with (bpow radix2 (-100) * bpow radix2 (-10)).
    - rewrite <- bpow_plus. apply bpow_le. lia.
    - change (bpow radix2 (-10)) with (/ 1024). lra. }
  destruct (smooth_window f p loc window E (0.002 * real64 r) (proj1 (proj1 Hl)) Uw Tol Hi) as (Yes & No).
  - intros a Ra Ia. apply (place_doubles d r filled s N inverse forward w v P t S far HM WP a). apply Seen; auto.
  - intros a b Ra Ia Rb Ib. pose proof (Seen a Ra (In a Ia)) as Sa. pose proof (Seen b Rb (In b Ib)) as Sb.
    eapply Rle_trans; [apply exact_steady; assumption|]. pose proof (gap_within S a b (proj1 Sa) (proj1 Sb)). lra.
  - split; [|exact No]. intros Fit. destruct (Yes Fit) as (g & Eg & All). exists g. split; [exact Eg|]. intros x.
    destruct (All x) as (from & to & Wp & Fg & Rn & Dg). exists from, to. split; [exact Wp|]. cbv zeta.
    destruct (window_reached _ _ _ _ _ _ _ Hi Wp) as ((R1 & I1) & (R2 & I2)).
    pose proof (exact_steady from to (Seen _ R1 (In _ I1)) (Seen _ R2 (In _ I2))) as Ste.
    rewrite (beside_gap x from to (window_beside _ _ _ _ _ _ _ Wp)), (Rabs_pos_eq (run_of x from to)) in Ste by lra.
    set (run := run_of x from to) in *. set (D := E to - E from) in *. set (gx := real64 (component x g)) in *. clearbody run D gx.
    split; [exact Fg|]. split; [exact Rn|].
    assert (Ir : 0 < / run) by (apply Rinv_0_lt_compat; lra).
    set (h := real64 r / run). assert (h0 : 0 < h) by (unfold h; apply Rmult_lt_0_compat; lra).
    assert (Q : Rabs D / run <= 7.07 + 0.008 * h).
    { unfold h. replace (7.07 + 0.008 * (real64 r / run)) with ((7.07 * run + 0.008 * real64 r) / run) by (field; lra).
      apply Rmult_le_compat_r; lra. }
    assert (Er1 : (3 * (0.002 * real64 r) + bpow radix2 (-50) * Rabs D) / run = 3 * (0.002 * h) + bpow radix2 (-50) * (Rabs D / run)).
    { unfold h, Rdiv. ring. }
    rewrite Er1 in Dg. replace (0.007 * real64 r / run) with (0.007 * h) by (unfold h, Rdiv; ring).
    replace (0.02 * real64 r / run) with (0.02 * h) by (unfold h, Rdiv; ring).
    assert (U1 : bpow radix2 (-50) * (Rabs D / run) <= bpow radix2 (-50) * (7.07 + 0.008 * h)) by (apply Rmult_le_compat_l; [apply bpow_ge_0|exact Q]).
    change (bpow radix2 (-50)) with (/ 1125899906842624) in *. change (bpow radix2 (-40)) with (/ 1099511627776).
    assert (Dv : Rabs (D / run) = Rabs D / run) by (unfold Rdiv; rewrite Rabs_mult, (Rabs_pos_eq (/ run)) by lra; reflexivity).
    clearbody h. split; [lra|].
    replace gx with ((gx - D / run) + D / run) by ring. eapply Rle_trans; [apply Rabs_triang|]. lra.
Qed.
End Map.

(** ** Walls *)
Lemma moved_along r P t x a b : geometry r P -> rigid P t -> beside x a b ->
  forall c, axis_of c (to_grid P (real_vec b)) - axis_of c (to_grid P (real_vec a)) =
    run_of x a b * axis_of x (match c with AlongX => axis_x P | AlongY => axis_y P | AlongZ => axis_z P end).
Proof.
  intros G Rg B c. rewrite !(grid_of_world r P t _ G Rg). unfold run_of.
  pose proof (B AlongX) as B1. pose proof (B AlongY) as B2. pose proof (B AlongZ) as B3.
  destruct a as [a1 a2 a3], b as [b1 b2 b3]. cbn [component vx vy vz] in *.
  destruct x; [specialize (B2 ltac:(discriminate)); specialize (B3 ltac:(discriminate)); subst b2 b3
              |specialize (B1 ltac:(discriminate)); specialize (B3 ltac:(discriminate)); subst b1 b3
              |specialize (B1 ltac:(discriminate)); specialize (B2 ltac:(discriminate)); subst b1 b2];
    destruct c; unfold dot, vsub, axis_of; cbn [component vx vy vz real_vec]; rsimp; asR; ring.
Qed.

Lemma turned_outward (P : pose reals) a low : turn (rot_w P) (rot_v P) (outward a low) =
  let c := match a with AlongX => axis_x P | AlongY => axis_y P | AlongZ => axis_z P end in
  let s := if low then 1 else -1 in @V reals (s * vx c) (s * vy c) (s * vz c).
Proof.
  unfold axis_x, axis_y, axis_z, outward. destruct (rot_v P) as [u1 u2 u3]. unfold turn.
  destruct a, low; cbn [vx vy vz]; cbv zeta; rsimp; f_equal; asR; ring.
Qed.

Lemma above_slope r (P : pose reals) t n a low k x from to : geometry r P -> rigid P t -> beside x from to ->
  above_wall r n a low k (to_grid P (real_vec to)) - above_wall r n a low k (to_grid P (real_vec from)) =
  run_of x from to * axis_of x (turn (rot_w P) (rot_v P) (outward a low)).
Proof.
  intros G Rg B. pose proof (moved_along r P t x from to G Rg B a) as M. rewrite turned_outward. cbv zeta.
  set (c := match a with AlongX => axis_x P | AlongY => axis_y P | AlongZ => axis_z P end) in *. clearbody c.
  unfold above_wall, axis_of in *. destruct a, low, x; cbn [vx vy vz] in *; lra.
Qed.

Section Wall.
Variables (a : axis_name) (low : bool) (d : dims) (r : binary64) (oob : binary32) (frame : string)
  (is_filled : idx -> res bool) (k N : Z) (s : sdf) (xx : binary64 * binary64).
Variables (inverse forward : transform ieee) (w : dbl ieee) (v : vec ieee) (P : pose reals) (t : rvec) (S far : R).
Let p := placed_pose r inverse forward w v.
Let f := sdf_field s.
Let E (b : vec ieee) := above_wall (real64 r) (cells_along a d) a low k (to_grid P (real_vec b)).
Let tol := wall_tolerance (real64 r) N + misplaced S far.
Hypothesis EW : extracted_wall a low d r oob frame is_filled k N s xx.
Hypotheses (SB : bpow radix2 (-100) <= S <= bpow radix2 90) (UI : usable_transform S inverse) (FI : follows far S inverse (to_grid P)).
Hypotheses (G : geometry (real64 r) P) (Rg : rigid P t) (Sm : misplaced S far <= real64 r).

Lemma tol_range : bpow radix2 (-300) <= tol <= bpow radix2 200.
Proof using All.
  destruct EW as (Hs & Hr & Rr & HP & Hk & Ex & He & X & Y & Z & HN).
  assert (HN1 : (1 <= N)%Z) by (revert Hk; destruct a; unfold cells_along; lia).
  apply IZR_le in HN1. apply IZR_le in HN.
  assert (P0 := bpow_gt_0 radix2 (-100)). assert (U0 := bpow_gt_0 radix2 (-53)).
  assert (M0 : 0 <= misplaced S far).
  { assert (F0 : 0 <= far).
    { assert (B0 : bounded_by S (@V reals 0 0 0)) by (unfold bounded_by; cbn [vx vy vz]; rewrite Rabs_R0; lra).
      destruct (FI _ B0) as (A & _). apply Rle_trans with (2 := A). apply Rabs_pos. }
    unfold misplaced. assert (0 <= bpow radix2 (-53) * S) by (apply Rmult_le_pos; lra). lra. }
  unfold tol, wall_tolerance. set (q := real64 r * IZR N).
  assert (Q1 : bpow radix2 (-100) <= q) by (unfold q; nra).
  assert (Q2 : q <= bpow radix2 96).
  { unfold q. apply Rle_trans with (bpow radix2 80 * bpow radix2 16); [apply Rmult_le_compat; try lra; change (bpow radix2 16) with 65536; lra|].
    rewrite <- bpow_plus. apply bpow_le. lia. }
  set (c := bpow radix2 (-42) + 512 * (IZR N + 1) * bpow radix2 (-53)).
  assert (C1 : bpow radix2 (-42) <= c) by (unfold c; assert (0 <= 512 * (IZR N + 1) * bpow radix2 (-53)) by (apply Rmult_le_pos; lra); lra).
  assert (C2 : c <= 1).
  { unfold c. change (bpow radix2 (-42)) with (/ 4398046511104). change (bpow radix2 (-53)) with (/ 9007199254740992). lra. }
  clearbody c q. pose proof (bpow_gt_0 radix2 (-42)) as V0. split.
  - apply Rle_trans with (bpow radix2 (-42) * bpow radix2 (-100)).
    + rewrite <- bpow_plus. apply bpow_le. lia.
    + assert (bpow radix2 (-42) * bpow radix2 (-100) <= c * q) by (apply Rmult_le_compat; lra). lra.
  - assert (c * q <= 1 * bpow radix2 96) by (apply Rmult_le_compat; lra).
    assert (bpow radix2 96 + bpow radix2 80 <= bpow radix2 200).
    { apply Rle_trans with (bpow radix2 1 * bpow radix2 96).
      - change (bpow radix2 1) with 2. assert (bpow radix2 80 <= bpow radix2 96) by (apply bpow_le; lia). lra.
      - rewrite <- bpow_plus. apply bpow_le. lia. }
    lra.
Qed.

Lemma normal_bounded : bounded_by 1 (turn (rot_w P) (rot_v P) (outward a low)).
Proof using All.
  apply unit_bounded. rewrite (turn_length P _ (rigid_unit P t Rg)). unfold length_squared, outward.
  destruct a, low; cbn [vx vy vz]; rsimp; ring.
Qed.

Lemma wall_moves b c : point_within S b -> point_within S c -> Rabs (E c - E b) <= 6 * S.
Proof using All.
  intros Hb Hc. pose proof (gap_within S b c Hb Hc) as Gp.
  assert (Eq : gap (to_grid P (real_vec b)) (to_grid P (real_vec c)) = gap (real_vec b) (real_vec c)).
  { rewrite <- (g_back_and_there _ _ G (real_vec b)) at 2. rewrite <- (g_back_and_there _ _ G (real_vec c)) at 2. symmetry. apply (rigid_gap P t _ _ Rg). }
  rewrite <- Eq in Gp. unfold E. set (q := to_grid P (real_vec b)) in *. set (q' := to_grid P (real_vec c)) in *. clearbody q q'.
  apply Rle_trans with (2 := Gp). unfold gap.
  assert (Sq : forall m o, Rabs m <= sqrt (m * m + o) \/ o < 0).
  { intros m o. destruct (Rlt_le_dec o 0) as [L|L]; [right; exact L|left]. rewrite <- sqrt_Rsqr_abs. apply sqrt_le_1_alt. unfold Rsqr. lra. }
  pose proof (Rle_0_sqr (vx q - vx q')) as X. pose proof (Rle_0_sqr (vy q - vy q')) as Y. pose proof (Rle_0_sqr (vz q - vz q')) as Z. unfold Rsqr in *.
  set (x := vx q - vx q') in *. set (y := vy q - vy q') in *. set (z := vz q - vz q') in *.
  unfold above_wall. destruct a.
  - destruct (Sq x (y * y + z * z)) as [K|K]; [|lra]. rewrite <- Rplus_assoc in K. apply Rle_trans with (2 := K).
    unfold x; destruct low; [rewrite Rabs_minus_sym|]; right; f_equal; ring.
  - destruct (Sq y (x * x + z * z)) as [K|K]; [|lra]. replace (y * y + (x * x + z * z)) with (x * x + y * y + z * z) in K by ring. apply Rle_trans with (2 := K).
    unfold y; destruct low; [rewrite Rabs_minus_sym|]; right; f_equal; ring.
  - destruct (Sq z (x * x + y * y)) as [K|K]; [|lra]. replace (z * z + (x * x + y * y)) with (x * x + y * y + z * z) in K by ring. apply Rle_trans with (2 := K).
    unfold z; destruct low; [rewrite Rabs_minus_sym|]; right; f_equal; ring.
Qed.

Lemma run_long loc window x from to : finite_vec loc -> usable_window loc window ->
  window_points f p (before x loc window) loc (beyond x loc window) from to -> 0 < run_of x from to ->
  3 / 4 * Rabs (real64 window) <= run_of x from to.
Proof using All.
  intros (Fx & Fy & Fz) (Fw & Bw & Bx & By & Bz) W Pos.
  assert (Aw : finite_double (b64_abs window) /\ real64 (b64_abs window) = Rabs (real64 window)) by exact (abs_window window Fw).
  destruct Aw as (Fa & Ea).
  assert (Ends : finite_double (component x loc) -> Rabs (real64 (component x loc)) <= bpow radix2 50 * Rabs (real64 window) ->
    3 / 4 * Rabs (real64 window) <= run_of x (before x loc window) loc /\ 3 / 4 * Rabs (real64 window) <= run_of x loc (beyond x loc window)).
  { intros Fc Bc. destruct (window_ends (component x loc) (b64_abs window) Fc Fa) as (_ & _ & D1 & D2); [rewrite Ea; exact Bw|rewrite Ea; exact Bc|].
    rewrite Ea in D1, D2. apply Rabs_le_inv in D1. apply Rabs_le_inv in D2. unfold run_of, before, beyond, shifted.
    destruct x; cbn [component vx vy vz] in *; lra. }
  destruct Ends as (L1 & L2); [destruct x; assumption|destruct x; assumption|].
  pose proof (bpow_gt_0 radix2 (-200)).
  destruct W as ([(_ & ->)|(_ & ->)] & [(_ & ->)|(_ & ->)]); [|exact L1|exact L2|unfold run_of in Pos; lra].
  unfold run_of in *. lra.
Qed.

Lemma wall_window loc window : point_within S loc -> in_bounds d (index_of p (to_grid p loc)) = true -> usable_window loc window ->
  (forall b, reached loc window b -> in_bounds d (index_of p (to_grid p b)) = true -> point_within S b) ->
  window_fits f p loc window ->
  exists g, smooth_gradient f p loc window = Ok (Some g) /\ finite_vec g /\
    apart_at_most (4 * tol / Rabs (real64 window) + bpow radix2 (-50)) (real_vec g) (turn (rot_w P) (rot_v P) (outward a low)).
Proof using All.
  intros Hl Hi Uw Wn Fit. pose proof tol_range as TR.
  assert (Ed : f_dims f = d).
  { destruct EW as (Hs & Hr & Rr & HP & Hk & Ex & He & _). apply (extracted_double_wall a low d r oob frame is_filled k s xx Hs Hr HP Hk Ex He). }
  assert (In : forall b, inside f p b -> in_bounds d (index_of p (to_grid p b)) = true) by (intros b Hb; unfold inside in Hb; rewrite Ed in Hb; exact Hb).
  assert (Hi' : inside f p loc) by (unfold inside; rewrite Ed; exact Hi).
  destruct (smooth_window f p loc window E tol (proj1 Hl) Uw TR Hi') as (Yes & _).
  - intros b Rb Ib. exact (placed_wall a low d r oob frame is_filled k N s xx inverse forward w v P S far b EW SB UI FI (Wn b Rb (In b Ib)) (In b Ib)).
  - intros b c Rb Ib Rc Ic. eapply Rle_trans; [apply wall_moves; [exact (Wn b Rb (In b Ib))|exact (Wn c Rc (In c Ic))]|].
    apply Rle_trans with (bpow radix2 3 * bpow radix2 90); [change (bpow radix2 3) with 8; pose proof (bpow_gt_0 radix2 (-100)); lra|].
    rewrite <- bpow_plus. apply bpow_le. lia.
  - destruct (Yes Fit) as (g & Eg & All). exists g. split; [exact Eg|].
    assert (Ax : forall x, finite_double (component x g) /\
      Rabs (real64 (component x g) - axis_of x (turn (rot_w P) (rot_v P) (outward a low))) <= 4 * tol / Rabs (real64 window) + bpow radix2 (-50)).
    { intros x. destruct (All x) as (from & to & Wp & Fg & Rn & Dg). split; [exact Fg|].
      pose proof (run_long loc window x from to (proj1 Hl) Uw Wp Rn) as Rl.
      assert (Sl : E to - E from = run_of x from to * axis_of x (turn (rot_w P) (rot_v P) (outward a low))).
      { exact (above_slope (real64 r) P t (cells_along a d) a low k x from to G Rg (window_beside _ _ _ _ _ _ _ Wp)). }
      rewrite Sl in Dg. assert (Nb : Rabs (axis_of x (turn (rot_w P) (rot_v P) (outward a low))) <= 1).
      { destruct normal_bounded as (B1 & B2 & B3). destruct x; assumption. }
      set (n := axis_of x (turn (rot_w P) (rot_v P) (outward a low))) in *. set (run := run_of x from to) in *.
      replace (run * n / run) with n in Dg by (field; lra). eapply Rle_trans; [exact Dg|].
      rewrite Rabs_mult, (Rabs_pos_eq run) by lra.
      replace ((3 * tol + bpow radix2 (-50) * (run * Rabs n)) / run) with (3 * tol * / run + bpow radix2 (-50) * Rabs n) by (field; lra).
      pose proof (bpow_gt_0 radix2 (-50)). pose proof (bpow_gt_0 radix2 (-300)).
      assert (W0 : 0 < Rabs (real64 window)) by (destruct Uw as (_ & B & _); pose proof (bpow_gt_0 radix2 (-200)); lra).
      assert (I2 : / run <= 4 / 3 * / Rabs (real64 window)).
      { replace (4 / 3 * / Rabs (real64 window)) with (/ (3 / 4 * Rabs (real64 window))) by (field; lra). apply Rinv_le; lra. }
      assert (3 * tol * / run <= 3 * tol * (4 / 3 * / Rabs (real64 window))) by (apply Rmult_le_compat_l; lra).
      assert (bpow radix2 (-50) * Rabs n <= bpow radix2 (-50) * 1) by (apply Rmult_le_compat_l; lra).
      unfold Rdiv. lra. }
    destruct (Ax AlongX) as (F1 & D1). destruct (Ax AlongY) as (F2 & D2). destruct (Ax AlongZ) as (F3 & D3).
    split; [exact (conj F1 (conj F2 F3))|exact (conj D1 (conj D2 D3))].
Qed.
End Wall.

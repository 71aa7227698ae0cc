(** C108, C109: smoothed gradients and flat walls in doubles, rounding included. *)
From Coq Require Import Reals Lra Lia.
From Flocq Require Import Core.Core IEEE754.Binary IEEE754.Bits.
From Verif Require Import Base Floats Grid GridFacts DistSpec CollisionMap SdfGen SdfSpec SdfThms
  Arith SdfQuery SdfField QuerySpec QueryWitness DoubleSpec DoubleQuery DoubleCase DoubleGrid
  WallSpec WallExtract SmoothSpec WallQuery.
Open Scope R_scope.

(** C108: every component of the smoothed gradient is the slope of the interpolated
    field between the ends of the window, or between the point and the only end in
    the grid, up to the error of the estimates; where neither end is in the grid
    the call throws. *)
Theorem C108_smooth_gradient_in_doubles : forall (f : field ieee) loc window N W,
  let r := real64 (f_res f) in let p := ieee_pose (f_res f) in
  finite_double (f_res f) -> bpow radix2 (-100) <= r <= bpow radix2 100 -> W <= bpow radix2 100 ->
  (forall j, in_bounds (f_dims f) j = true ->
     finite_float (value f j) /\ Rabs (real32 (value f j)) + r <= W) ->
  4 * (N + 1) * bpow radix2 (-53) <= 1 / 16 ->
  IZR (nx (f_dims f)) <= N -> IZR (ny (f_dims f)) <= N -> IZR (nz (f_dims f)) <= N ->
  finite_vec loc -> usable_window loc window -> inside f p loc ->
  (window_fits f p loc window ->
   exists g, smooth_gradient f p loc window = Ok (Some g) /\
     forall a, exists from to, window_points f p (before a loc window) loc (beyond a loc window) from to /\
       slope_between f p (component a) from to
         (3 * ((bpow radix2 (-42) + 128 * (4 * (N + 1) * bpow radix2 (-53))) * W)) (component a g)) /\
  (~ window_fits f p loc window ->
   smooth_gradient f p loc window = Throw "Window size for GetSmoothGradient is too large for SDF").
Proof. exact smooth_gradient_double. Qed.
Print Assumptions C108_smooth_gradient_in_doubles.

(** Non-vacuity: the three cells of C97 in a row, the point (5/4, 1/2, 1/2) and a
    window of a quarter; the component along the row is exactly -1/2. *)
Definition minus_half : binary64 := B754_finite 53 1024 true 4503599627370496 (-53) eq_refl.
Example C108_nonvacuous :
  let p := ieee_pose (f_res slope_field) in
  finite_double (f_res slope_field) /\
  finite_vec down_point /\ usable_window down_point quarter64 /\ inside slope_field p down_point /\
  window_fits slope_field p down_point quarter64 /\
  match smooth_gradient slope_field p down_point quarter64 with
  | Ok (Some g) => eq64 (vx g) minus_half = true /\ eq64 (vy g) zero64 = true /\ eq64 (vz g) zero64 = true
  | _ => False
  end.
Proof.
  destruct estimate_case as (Fr & _ & _ & _ & _ & _ & _ & _ & Fv & _ & _ & _ & In & _).
  cbv zeta. split; [exact Fr|]. split; [exact Fv|]. split; [|split; [exact In|split]].
  - assert (Rq : real64 quarter64 = 1 / 4) by (unfold real64, quarter64; cbn [B2R]; unfold F2R; cbn; lra).
    assert (Mk : forall x m e H, eq64 x (B754_finite 53 1024 false m e H) = true -> finite_double x ->
              real64 x = F2R (Float radix2 (Z.pos m) e)).
    { intros x m e H E F. rewrite eq_finite in E by auto. destruct (Req_EM_T _ _) as [K|]; [|discriminate]. rewrite K.
      reflexivity. }
    assert (Hf : real64 (div64 one64 (b64_of_Z 2)) = 1 / 2).
    { rewrite (Mk _ 4503599627370496%positive (-53)%Z eq_refl); [|vm_compute; reflexivity|vm_compute; reflexivity].
      unfold F2R. cbn -[IZR]. lra. }
    assert (Hx : real64 (div64 (b64_of_Z 5) (b64_of_Z 4)) = 5 / 4).
    { rewrite (Mk _ 5629499534213120%positive (-52)%Z eq_refl); [|vm_compute; reflexivity|vm_compute; reflexivity].
      unfold F2R. cbn -[IZR]. lra. }
    assert (B50 : 8 <= bpow radix2 50) by (change 8 with (bpow radix2 3); apply bpow_le; lia).
    unfold usable_window, down_point. cbn [vx vy vz]. rewrite Rq, Hf, Hx, !Rabs_pos_eq by lra.
    split; [reflexivity|]. split; [split|lra].
    + change (1 / 4) with (1 / (2 * 2)). replace (1 / (2 * 2)) with (bpow radix2 (-2)) by (cbn; lra). apply bpow_le. lia.
    + apply Rle_trans with (bpow radix2 0); [change (bpow radix2 0) with 1; lra|apply bpow_le; lia].
  - intros [| |]; left; vm_compute; reflexivity.
  - vm_compute. repeat split.
Qed.

(** C109: the distance estimated in the field of a flat wall is that from the wall's
    face, at every point of the grid, up to an error of less than a billionth of the
    cell size for a hundred cells on each axis ... *)
Theorem C109_distance_from_wall : forall a low d r oob frame is_filled k N s x loc,
  extracted_wall a low d r oob frame is_filled k N s x ->
  finite_vec loc -> Rabs (real64 (vx loc)) <= bpow radix2 800 -> Rabs (real64 (vy loc)) <= bpow radix2 800 ->
  Rabs (real64 (vz loc)) <= bpow radix2 800 -> in_bounds d (index_of (ieee_pose r) loc) = true ->
  exists e, estimate_distance (sdf_field s) (ieee_pose r) loc = Ok (e, true) /\ finite_double e /\
    Rabs (real64 e - above_wall (real64 r) (cells_along a d) a low k (real_vec loc)) <= wall_tolerance (real64 r) N.
Proof. exact extracted_estimate. Qed.
Print Assumptions C109_distance_from_wall.

(** ... and the smoothed gradient is the wall's normal up to that error over the
    window. *)
Theorem C109_normal_of_wall : forall a low d r oob frame is_filled k N s x loc window,
  extracted_wall a low d r oob frame is_filled k N s x -> finite_vec loc -> usable_window loc window ->
  in_bounds d (index_of (ieee_pose r) loc) = true -> window_fits (sdf_field s) (ieee_pose r) loc window ->
  exists g, smooth_gradient (sdf_field s) (ieee_pose r) loc window = Ok (Some g) /\ finite_vec g /\
    let err := 4 * wall_tolerance (real64 r) N / Rabs (real64 window) in
    Rabs (real64 (vx g) - vx (outward a low)) <= err /\
    Rabs (real64 (vy g) - vy (outward a low)) <= err /\
    Rabs (real64 (vz g) - vz (outward a low)) <= err.
Proof. exact extracted_gradient. Qed.
Print Assumptions C109_normal_of_wall.

(** Non-vacuity: 4 x 3 x 2 cells of side a quarter, the top layer filled, seen from
    the point (1/4, 1/4, 1/4) with a window of a quarter. *)
Definition wall_dims : dims := D 4 3 2.
Definition wall_top (i : idx) : res bool := Ok (depth AlongZ false wall_dims i <? 1)%Z.
Definition wall_spot : vec ieee := @V ieee quarter64 quarter64 quarter64.
Example C109_nonvacuous : exists s x,
  extracted_wall AlongZ false wall_dims quarter64 zero32 "grid" wall_top 1 4 s x /\
  finite_vec wall_spot /\ usable_window wall_spot quarter64 /\
  in_bounds wall_dims (index_of (ieee_pose quarter64) wall_spot) = true /\
  window_fits (sdf_field s) (ieee_pose quarter64) wall_spot quarter64 /\
  above_wall (real64 quarter64) 2 AlongZ false 1 (real_vec wall_spot) = 0.
Proof.
  assert (S : size_ok wall_dims) by (unfold size_ok; cbn; lia).
  assert (An : answers wall_dims wall_top (fun c => (depth AlongZ false wall_dims c <? 1)%Z)) by (intros c Hc; reflexivity).
  assert (Rq : real64 quarter64 = 1 / 4) by (unfold real64, quarter64; cbn [B2R]; unfold F2R; cbn; lra).
  assert (R2 : 1 / 4 = bpow radix2 (-2)) by (cbn; lra).
  destruct (extract_sign wall_dims quarter64 zero32 "grid" _ _ S quarter_usable An) as (s & x & He & Dd & _).
  exists s, x. split; [|split; [repeat split|split; [|split; [vm_compute; reflexivity|split]]]].
  - split; [exact S|]. split; [exact quarter_usable|].
    split; [rewrite Rq, R2; split; apply bpow_le; lia|]. split; [exact An|]. split; [cbn; lia|].
    split; [apply quarter_stored; cbn; lia|]. split; [exact He|]. cbn. lia.
  - split; [reflexivity|]. unfold wall_spot. cbn [vx vy vz]. rewrite Rq, Rabs_pos_eq by lra.
    assert (B50 : 1 <= bpow radix2 50) by (change 1 with (bpow radix2 0); apply bpow_le; lia).
    split; [rewrite R2; split; apply bpow_le; lia|lra].
  - assert (FD : f_dims (sdf_field s) = wall_dims) by exact Dd.
    intros [| |]; left; unfold inside; rewrite FD; vm_compute; reflexivity.
  - unfold above_wall, wall_spot. cbn [real_vec vx vy vz]. rewrite Rq. change (IZR (2 - 1)) with 1. change (1 / 4 * 1 - 1 / 4 = 0). lra.
Qed.

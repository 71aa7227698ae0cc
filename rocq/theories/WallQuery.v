(** Smoothed gradients and walls, in the form the properties are stated in. *)
From Coq Require Import Reals Lra Lia.
From Flocq Require Import Core.Core IEEE754.Binary IEEE754.Bits.
From Verif Require Import Base Floats FloatFacts FloatFacts2 Grid GridFacts DistSpec CollisionMap SdfGen SdfSpec SdfThms
  Arith SdfQuery SdfField QuerySpec QueryWitness DoubleSpec DoubleQuery DoubleCase DoubleEstimate DoubleGrid
  WallSpec SmoothSpec DoubleSmooth WallThms WallExtract WallDouble.
Open Scope R_scope.

Lemma smooth_gradient_double (f : field ieee) loc window N W :
  let r := real64 (f_res f) in let p := ieee_pose (f_res f) in
  finite_double (f_res f) -> bpow radix2 (-100) <= r <= bpow radix2 100 -> W <= bpow radix2 100 ->
  (forall j, in_bounds (f_dims f) j = true ->
     finite_float (value f j) /\ Rabs (real32 (value f j)) + r <= W) ->
  4 * (N + 1) * bpow radix2 (-53) <= 1 / 16 ->
  IZR (nx (f_dims f)) <= N -> IZR (ny (f_dims f)) <= N -> IZR (nz (f_dims f)) <= N ->
  finite_vec loc -> usable_window loc window -> inside f p loc ->
  (window_fits f p loc window ->
   exists g, smooth_gradient f p loc window = Ok (Some g) /\
     forall a, exists from to, window_points f p (before a loc window) loc (beyond a loc window) from to /\
       slope_between f p (component a) from to
         (3 * ((bpow radix2 (-42) + 128 * (4 * (N + 1) * bpow radix2 (-53))) * W)) (component a g)) /\
  (~ window_fits f p loc window ->
   smooth_gradient f p loc window = Throw "Window size for GetSmoothGradient is too large for SDF").
Proof.
  intros r p Fr Rr HW Vals SN Hnx Hny Hnz (Fx & Fy & Fz) (Fw & Bw & Bx & By & Bz) Hi.
  destruct loc as [x y z]. cbn [vx vy vz] in *.
  destruct (smooth_double f x y z window N W Fr Rr HW Vals SN Hnx Hny Hnz Fx Fy Fz Fw Bw Bx By Bz Hi) as (Yes & No).
  split.
  - intros Fit. destruct (Yes (Fit AlongX) (Fit AlongY) (Fit AlongZ)) as (g & E & Gx & Gy & Gz).
    exists g. split; [exact E|]. intros [| |]; [exact Gx|exact Gy|exact Gz].
  - intros Not. apply No.
    assert (Dec : forall a, inside f p a \/ ~ inside f p a).
    { intros a. unfold inside. destruct (in_bounds _ _); [left; reflexivity|right; discriminate]. }
    destruct (Dec (before AlongX (@V ieee x y z) window)) as [X1|X1];
    destruct (Dec (beyond AlongX (@V ieee x y z) window)) as [X2|X2]; [| | |left; split; assumption].
    all: destruct (Dec (before AlongY (@V ieee x y z) window)) as [Y1|Y1];
      destruct (Dec (beyond AlongY (@V ieee x y z) window)) as [Y2|Y2]; [| | |right; left; split; assumption].
    all: destruct (Dec (before AlongZ (@V ieee x y z) window)) as [Z1|Z1];
      destruct (Dec (beyond AlongZ (@V ieee x y z) window)) as [Z2|Z2]; [| | |right; right; split; assumption].
    all: exfalso; apply Not; intros [| |]; auto.
Qed.

Lemma tolerance_eq r N : (bpow radix2 (-42) + 128 * (4 * (IZR N + 1) * u)) * (r * IZR N) = wall_tolerance r N.
Proof. unfold wall_tolerance, u. ring. Qed.

Section Extracted.
  Variables (a : axis_name) (low : bool) (d : dims) (r : binary64) (oob : binary32) (frame : String.string).
  Variables (is_filled : idx -> res bool) (k N : Z) (s : sdf) (x : binary64 * binary64).

  Notation extracted_wall := (extracted_wall a low d r oob frame is_filled k N s x).

  Lemma extracted_estimate loc : extracted_wall ->
    finite_vec loc -> Rabs (real64 (vx loc)) <= bpow radix2 800 -> Rabs (real64 (vy loc)) <= bpow radix2 800 ->
    Rabs (real64 (vz loc)) <= bpow radix2 800 -> in_bounds d (index_of (ieee_pose r) loc) = true ->
    exists e, estimate_distance (sdf_field s) (ieee_pose r) loc = Ok (e, true) /\ finite_double e /\
      Rabs (real64 e - above_wall (real64 r) (cells_along a d) a low k (real_vec loc)) <= wall_tolerance (real64 r) N.
  Proof.
    intros (Hs & Hr & Rr & HP & Hk & Ex & He & X & Y & Z & HN) Fv Bx By Bz Hi.
    destruct (extracted_double_wall a low d r oob frame is_filled k s x Hs Hr HP Hk Ex He) as (Wl & FD & FR).
    rewrite <- tolerance_eq. rewrite <- FR in *. rewrite <- FD in Hi, X, Y, Z |- *.
    exact (wall_estimate_double (sdf_field s) a low k N (proj1 Hr) Rr Wl HN X Y Z loc Fv Bx By Bz Hi).
  Qed.

  Lemma extracted_gradient loc window : extracted_wall -> finite_vec loc -> usable_window loc window ->
    in_bounds d (index_of (ieee_pose r) loc) = true -> window_fits (sdf_field s) (ieee_pose r) loc window ->
    exists g, smooth_gradient (sdf_field s) (ieee_pose r) loc window = Ok (Some g) /\ finite_vec g /\
      let err := 4 * wall_tolerance (real64 r) N / Rabs (real64 window) in
      Rabs (real64 (vx g) - vx (outward a low)) <= err /\
      Rabs (real64 (vy g) - vy (outward a low)) <= err /\
      Rabs (real64 (vz g) - vz (outward a low)) <= err.
  Proof.
    intros (Hs & Hr & Rr & HP & Hk & Ex & He & X & Y & Z & HN) (Fx & Fy & Fz) (Fw & Bw & Bx & By & Bz) Hi Fit.
    destruct (extracted_double_wall a low d r oob frame is_filled k s x Hs Hr HP Hk Ex He) as (Wl & FD & FR).
    destruct loc as [lx ly lz]. cbn [vx vy vz] in *.
    cbv zeta. rewrite <- tolerance_eq. rewrite <- FR in *. rewrite <- FD in Hi, X, Y, Z.
    exact (wall_gradient_double (sdf_field s) a low k N lx ly lz window (proj1 Hr) Rr Wl HN X Y Z Fx Fy Fz Fw Bw Bx By Bz
      Hi (Fit AlongX) (Fit AlongY) (Fit AlongZ)).
  Qed.
End Extracted.

(** Model of the queries of SignedDistanceField, include/sdf_tools/sdf.hpp:341-1191:
    gradients, distance estimates, distance to the boundary and the projections.

    What comes from arc_utilities' VoxelGrid (the pose, the conversion between
    locations and indices) is an argument: [pose].  Locations are 4-vectors in
    the code; their last coordinate is 1 (0 for directions) and is left out. *)
From Verif Require Import Base Grid Arith.

Section Query.
  Variable A : arith.
  Notation dbl := (dbl A).
  Notation vec := (vec A).
  Infix "+." := (dadd A) (at level 50, left associativity).
  Infix "-." := (dsub A) (at level 50, left associativity).
  Infix "*." := (dmul A) (at level 40, left associativity).
  Infix "/." := (ddiv A) (at level 40, left associativity).
  Notation "# n" := (of_int A n) (at level 5, format "# n").

  (** The parts of a SignedDistanceField the queries read: cells, cell size
      (GetResolution, sdf.hpp:93-96) and x_size_, y_size_, z_size_. *)
  Record field := F { f_grid : grid (flt A); f_res : dbl; f_size : vec }.

  (** GetNumXCells, GetNumYCells, GetNumZCells of the field,
      include/sdf_tools/sdf.hpp:441-443 (arc_utilities, outside /repo). *)
  Definition f_dims (f : field) : dims := gdims (f_grid f).

  (** GetImmutable(index).first, include/sdf_tools/sdf.hpp:446 (arc_utilities,
      outside /repo). *)
  Definition value (f : field) (i : idx) : flt A := fst (get (f_grid f) i).

  (** What the field takes from arc_utilities: inverse_origin_transform_ * p
      (include/sdf_tools/sdf.hpp:979), GetOriginTransform() * p (L1067),
      PointInFrameToGridIndex4d (L1088), GridIndexToLocationGridFrame
      (src/sdf_tools/sdf.cpp:46), arc_helpers::ClampValue
      (include/sdf_tools/sdf.hpp:1171-1176), and the quaternion (w, x, y, z) of
      origin_transform_.rotation() (include/sdf_tools/sdf.hpp:414). *)
  Record pose := Pose {
    to_grid : vec -> vec;
    to_world : vec -> vec;
    index_of : vec -> idx;
    center_of : idx -> vec;
    clamp : dbl -> dbl -> dbl -> dbl;
    rot_w : dbl; rot_v : vec
  }.

  (** ** Gradients *)

  (** Is the index one cell in from every edge?  sdf.hpp:440-443. *)
  Definition interior (d : dims) (i : idx) : bool :=
    (0 <? ix i) && (0 <? iy i) && (0 <? iz i) &&
    (ix i <? nx d - 1) && (iy i <? ny d - 1) && (iz i <? nz d - 1).

  (** One component of the interior gradient, sdf.hpp:445-454: the difference is
      taken in float. *)
  Definition central (f : field) (hi lo : idx) : dbl :=
    widen A (fsub A (value f hi) (value f lo)) *. (#1 /. (#2 *. f_res f)).

  (** One component of the edge gradient, sdf.hpp:470-511: the difference is
      taken in double. *)
  Definition one_sided (f : field) (low high : Z) (at_ : Z -> idx) : dbl :=
    let increment := #(high - low) *. f_res f in
    if dlt A #0 increment
    then (widen A (value f (at_ high)) -. widen A (value f (at_ low))) *. (#1 /. increment)
    else #0.

  (** std::max(0, index - 1), include/sdf_tools/sdf.hpp:464, L466, L468. *)
  Definition low_index (i : Z) : Z := Z.max 0 (i - 1).

  (** std::min(cells - 1, index + 1), include/sdf_tools/sdf.hpp:465, L467, L469. *)
  Definition high_index (n i : Z) : Z := Z.min (n - 1) (i + 1).

  (** GetGridAlignedGradient, sdf.hpp:432-526.  [None] is the empty vector. *)
  Definition grid_aligned_gradient (f : field) (i : idx) (edges : bool) : option vec :=
    let d := f_dims f in
    let (x, y, z) := i in
    if in_bounds d i then
      if interior d i then
        Some (V (central f (I (x + 1) y z) (I (x - 1) y z))
                (central f (I x (y + 1) z) (I x (y - 1) z))
                (central f (I x y (z + 1)) (I x y (z - 1))))
      else if edges then
        Some (V (one_sided f (low_index x) (high_index (nx d) x) (fun x' => I x' y z))
                (one_sided f (low_index y) (high_index (ny d) y) (fun y' => I x y' z))
                (one_sided f (low_index z) (high_index (nz d) z) (fun z' => I x y z')))
      else None
    else None.

  (** Eigen::Quaterniond, include/sdf_tools/sdf.hpp:414-421: the real part and the
      vector part. *)
  Record quat := Q { qw : dbl; qv : vec }.

  (** The product of Eigen quaternions, include/sdf_tools/sdf.hpp:421 (Eigen,
      outside /repo). *)
  Definition qmul (a b : quat) : quat :=
    let (w1, v1) := a in let (w2, v2) := b in
    Q (w1 *. w2 -. vx v1 *. vx v2 -. vy v1 *. vy v2 -. vz v1 *. vz v2)
      (V (w1 *. vx v2 +. vx v1 *. w2 +. vy v1 *. vz v2 -. vz v1 *. vy v2)
         (w1 *. vy v2 +. vy v1 *. w2 +. vz v1 *. vx v2 -. vx v1 *. vz v2)
         (w1 *. vz v2 +. vz v1 *. w2 +. vx v1 *. vy v2 -. vy v1 *. vx v2)).

  (** inverse() of an Eigen quaternion, include/sdf_tools/sdf.hpp:421 (Eigen,
      outside /repo). *)
  Definition qinv (a : quat) : quat :=
    let (w, v) := a in
    let n2 := vx v *. vx v +. vy v *. vy v +. vz v *. vz v +. w *. w in
    if dlt A #0 n2
    then Q (w /. n2) (V ((#0 -. vx v) /. n2) ((#0 -. vy v) /. n2) ((#0 -. vz v) /. n2))
    else Q #0 (V #0 #0 #0).

  (** grid_rotation * (temp * grid_rotation.inverse()), sdf.hpp:414-424. *)
  Definition rotate (p : pose) (g : vec) : vec :=
    let q := Q (rot_w p) (rot_v p) in
    qv (qmul q (qmul (Q #0 g) (qinv q))).

  (** GetGradient(index), sdf.hpp:398-430. *)
  Definition gradient (f : field) (p : pose) (i : idx) (edges : bool) : option vec :=
    match grid_aligned_gradient f i edges with
    | Some g => Some (rotate p g)
    | None => None
    end.

  (** GetGradient3d / GetGradient4d / GetGradient(x, y, z), sdf.hpp:361-396. *)
  Definition gradient_at (f : field) (p : pose) (loc : vec) (edges : bool) : option vec :=
    let i := index_of p (to_grid p loc) in
    if in_bounds (f_dims f) i then gradient f p i edges else None.

  (** GetFullGradient, sdf.hpp:341-358: the gradient function at every cell; the
      grid is made with std::vector<double>(3, oob_value_) everywhere. *)
  Definition full_gradient (f : field) (g : idx -> option vec) : grid (option vec) :=
    let o := widen A (goob (f_grid f)) in
    fold_left (fun acc i => fst (set acc i (g i))) (sweep (f_dims f))
      (mk_grid (f_dims f) (Some (V o o o)) (Some (V o o o))).

  (** ** Distance estimates *)

  (** GetCorrectedCenterDistance, sdf.hpp:773-796. *)
  Definition corrected_center_distance (f : field) (i : idx) : res dbl :=
    let (v, ok) := get (f_grid f) i in
    if ok then
      let nominal := widen A v in
      let offset := f_res f *. lit A 1 2 in
      Ok (if dle A #0 nominal then nominal -. offset else nominal +. offset)
    else Throw "Index out of bounds".

  (** GetAxisInterpolationIndices, sdf.hpp:798-833. *)
  Definition axis_interpolation_indices (initial size : Z) (offset : dbl) : Z * Z :=
    if dle A #0 offset then
      let upper := initial + 1 in
      if size <=? upper then
        let lower := initial - 1 in
        if lower <? 0 then (initial, initial) else (lower, initial)
      else (initial, upper)
    else
      let lower := initial - 1 in
      if lower <? 0 then
        let upper := initial + 1 in
        if size <=? upper then (initial, initial) else (initial, upper)
      else (lower, initial).

  (** BilinearInterpolate, sdf.hpp:699-726: (multiplier * d1) * values * d2. *)
  Definition bilinear (low1 high1 low2 high2 q1 q2 l1l2 l1h2 h1l2 h1h2 : dbl) : dbl :=
    let m := #1 /. ((high1 -. low1) *. (high2 -. low2)) in
    let a := m *. (high1 -. q1) in
    let b := m *. (q1 -. low1) in
    (a *. l1l2 +. b *. h1l2) *. (high2 -. q2) +. (a *. l1h2 +. b *. h1h2) *. (q2 -. low2).

  (** BilinearInterpolateDistanceXY, sdf.hpp:728-743. *)
  Definition bilinear_xy (r : dbl) (corner q : vec) (mm mp pm pp : dbl) : dbl :=
    bilinear (vx corner) (vx corner +. r) (vy corner) (vy corner +. r) (vx q) (vy q) mm mp pm pp.

  (** TrilinearInterpolateDistance, sdf.hpp:745-771. *)
  Definition trilinear (r : dbl) (corner q : vec)
      (mmm mmp mpm mpp pmm pmp ppm ppp : dbl) : dbl :=
    let mz := bilinear_xy r corner q mmm mpm pmm ppm in
    let pz := bilinear_xy r corner q mmp mpp pmp ppp in
    let slope := (pz -. mz) *. (#1 /. r) in
    mz +. (vz q -. vz corner) *. slope.

  (** EstimateDistanceInterpolateFromNeighborsGridFrame, sdf.hpp:835-901. *)
  Definition estimate_from_neighbors (f : field) (p : pose) (q : vec) (i : idx) : res dbl :=
    let offset := vsub q (center_of p i) in
    let d := f_dims f in
    let (xl, xu) := axis_interpolation_indices (ix i) (nx d) (vx offset) in
    let (yl, yu) := axis_interpolation_indices (iy i) (ny d) (vy offset) in
    let (zl, zu) := axis_interpolation_indices (iz i) (nz d) (vz offset) in
    let corner := center_of p (I xl yl zl) in
    let* mmm := corrected_center_distance f (I xl yl zl) in
    let* mmp := corrected_center_distance f (I xl yl zu) in
    let* mpm := corrected_center_distance f (I xl yu zl) in
    let* mpp := corrected_center_distance f (I xl yu zu) in
    let* pmm := corrected_center_distance f (I xu yl zl) in
    let* pmp := corrected_center_distance f (I xu yl zu) in
    let* ppm := corrected_center_distance f (I xu yu zl) in
    let* ppp := corrected_center_distance f (I xu yu zu) in
    Ok (trilinear (f_res f) corner q mmm mmp mpm mpp pmm pmp ppm ppp).

  (** EstimateDistance, 3d and 4d, sdf.hpp:903-961. *)
  Definition estimate_distance (f : field) (p : pose) (loc : vec) : res (dbl * bool) :=
    let q := to_grid p loc in
    let i := index_of p q in
    if in_bounds (f_dims f) i
    then let* e := estimate_from_neighbors f p q i in Ok (e, true)
    else Ok (widen A (goob (f_grid f)), false).

  (** ComputeAxisSmoothGradient, sdf.hpp:656-697. *)
  Definition axis_smooth_gradient (point minus plus : dbl * bool) (v vminus vplus : dbl)
    : res dbl :=
    if snd point && snd minus && snd plus
    then Ok ((fst plus -. fst minus) /. (vplus -. vminus))
    else if snd point && snd minus
    then Ok ((fst point -. fst minus) /. (v -. vminus))
    else if snd point && snd plus
    then Ok ((fst plus -. fst point) /. (vplus -. v))
    else Throw "Window size for GetSmoothGradient is too large for SDF".

  (** GetSmoothGradient, sdf.hpp:528-598.  LocationInBounds(x, y, z) is the
      bounds test of the location's index. *)
  Definition smooth_gradient (f : field) (p : pose) (loc : vec) (window : dbl)
    : res (option vec) :=
    let w := dabs A window in
    let (x, y, z) := loc in
    if in_bounds (f_dims f) (index_of p (to_grid p loc)) then
      let* pt := estimate_distance f p loc in
      let* mx := estimate_distance f p (V (x -. w) y z) in
      let* px := estimate_distance f p (V (x +. w) y z) in
      let* my := estimate_distance f p (V x (y -. w) z) in
      let* py := estimate_distance f p (V x (y +. w) z) in
      let* mz := estimate_distance f p (V x y (z -. w)) in
      let* pz := estimate_distance f p (V x y (z +. w)) in
      let* gx := axis_smooth_gradient pt mx px x (x -. w) (x +. w) in
      let* gy := axis_smooth_gradient pt my py y (y -. w) (y +. w) in
      let* gz := axis_smooth_gradient pt mz pz z (z -. w) (z +. w) in
      Ok (Some (V gx gy gz))
    else Ok None.

  (** ** Distance to the boundary *)

  (** Array3d::minCoeff(&index), include/sdf_tools/sdf.hpp:986-987: the first
      smallest. *)
  Definition min_index (a b c : dbl) : Z :=
    let (m, k) := if dlt A b a then (b, 1) else (a, 0) in
    if dlt A c m then 2 else k.

  (** DistanceToBoundary4d, sdf.hpp:976-989. *)
  Definition distance_to_boundary (f : field) (p : pose) (loc : vec) : dbl * bool :=
    let q := to_grid p loc in
    let dx := dmin (vx q) (vx (f_size f) -. vx q) in
    let dy := dmin (vy q) (vy (f_size f) -. vy q) in
    let dz := dmin (vz q) (vz (f_size f) -. vz q) in
    let inside := dle A #0 dx && dle A #0 dy && dle A #0 dz in
    let k := min_index (dabs A dx) (dabs A dy) (dabs A dz) in
    ((if k =? 0 then dx else if k =? 1 then dy else dz), inside).

  (** ** Projections *)

  (** ProjectIntoValidVolumeToMinimumDistance4d, sdf.hpp:1162-1191. *)
  Definition project_into_valid_volume (f : field) (p : pose) (loc : vec) (min_dist : dbl) : vec :=
    let q := to_grid p loc in
    let margin := min_dist +. f_res f *. lit A 1 10000 in
    let x := clamp p (vx q) margin (vx (f_size f) -. margin) in
    let y := clamp p (vy q) margin (vy (f_size f) -. margin) in
    let z := clamp p (vz q) margin (vz (f_size f) -. margin) in
    if negb (deq A x (vx q)) || negb (deq A y (vy q)) || negb (deq A z (vz q))
    then to_world p (V x y z)
    else loc.

  (** What one pass through the loop of the projection leaves behind,
      include/sdf_tools/sdf.hpp:1091-1121. *)
  Inductive step_result :=
  | Running (q : vec) (i : idx) (dist : dbl)
  | Finished (q : vec)
  | Failed (why : string).

  (** The loop test and body, sdf.hpp:1091-1120. *)
  Definition project_step (f : field) (p : pose) (min_dist mult : dbl)
      (q : vec) (i : idx) (dist : dbl) : step_result :=
    if dle A dist min_dist then
      match grid_aligned_gradient f i true with
      | Some g =>
          if dlt A (f_res f *. lit A 1 4) (norm g) then
            let with_margin := min_dist +. f_res f *. mult *. lit A 1 10000 in
            let step := dmin (f_res f *. mult) (with_margin -. dist) in
            let q' := vadd q (vscale (normalized g) step) in
            let i' := index_of p q' in
            match estimate_from_neighbors f p q' i' with
            | Ok dist' => Running q' i' dist'
            | Throw e => Failed e
            | UB e => Failed e
            end
          else Failed "Encountered flat gradient - stuck"
      | None => Failed "Failed to compute gradient - out of SDF?"
      end
    else Finished q.

  (** The loop, include/sdf_tools/sdf.hpp:1091-1120, [fuel] passes at most;
      [Running] means it has not ended by then. *)
  Fixpoint project_loop (fuel : nat) (f : field) (p : pose) (min_dist mult : dbl)
      (q : vec) (i : idx) (dist : dbl) : step_result :=
    match fuel with
    | O => Running q i dist
    | S fuel' =>
        match project_step f p min_dist mult q i dist with
        | Running q' i' dist' => project_loop fuel' f p min_dist mult q' i' dist'
        | r => r
        end
    end.

  (** ProjectOutOfCollisionToMinimumDistanceGridFrame, sdf.hpp:1071-1122. *)
  Definition project_out_grid_frame (fuel : nat) (f : field) (p : pose)
      (q : vec) (min_dist mult : dbl) : step_result :=
    let i := index_of p q in
    match estimate_from_neighbors f p q i with
    | Ok dist => project_loop fuel f p min_dist mult q i dist
    | Throw e => Failed e
    | UB e => Failed e
    end.

  (** ProjectOutOfCollisionToMinimumDistance4d, sdf.hpp:1041-1069. *)
  Definition project_out (fuel : nat) (f : field) (p : pose)
      (loc : vec) (min_dist mult : dbl) : step_result :=
    let loc1 := if in_bounds (f_dims f) (index_of p (to_grid p loc))
                then loc else project_into_valid_volume f p loc #0 in
    match project_out_grid_frame fuel f p (to_grid p loc1) min_dist mult with
    | Finished q => Finished (to_world p q)
    | r => r
    end.
End Query.
Arguments F {A} f_grid f_res f_size.
Arguments f_grid {A} _. Arguments f_res {A} _. Arguments f_size {A} _.
Arguments f_dims {A} f. Arguments value {A} f i.
Arguments Pose {A} to_grid to_world index_of center_of clamp rot_w rot_v.
Arguments to_grid {A} _ _. Arguments to_world {A} _ _. Arguments index_of {A} _ _.
Arguments center_of {A} _ _. Arguments clamp {A} _ _ _ _.
Arguments rot_w {A} _. Arguments rot_v {A} _.
Arguments Running {A} q i dist. Arguments Finished {A} q. Arguments Failed {A} why.
Arguments Q {A} qw qv. Arguments qw {A} _. Arguments qv {A} _.
Arguments rotate {A} p g. Arguments qmul {A} a b. Arguments qinv {A} a.
Arguments grid_aligned_gradient {A} f i edges. Arguments gradient {A} f p i edges.
Arguments gradient_at {A} f p loc edges. Arguments full_gradient {A} f g.
Arguments corrected_center_distance {A} f i.
Arguments axis_interpolation_indices {A} initial size offset.
Arguments bilinear {A}. Arguments bilinear_xy {A}. Arguments trilinear {A}.
Arguments estimate_from_neighbors {A} f p q i. Arguments estimate_distance {A} f p loc.
Arguments axis_smooth_gradient {A}. Arguments smooth_gradient {A} f p loc window.
Arguments min_index {A} a b c. Arguments distance_to_boundary {A} f p loc.
Arguments project_into_valid_volume {A} f p loc min_dist.
Arguments project_step {A}. Arguments project_loop {A}.
Arguments project_out_grid_frame {A}. Arguments project_out {A}.
Arguments central {A}. Arguments one_sided {A}.

(** Model of scripts/3d_sdf_demo_rviz.py.

    numpy, ROS and rviz are external; arrays are as in Python.v, extended here by
    assignment at integer indices.  The random cloud of create_point_cloud
    (L15-19) is an argument, visualize_point_cloud (L32-37) only repeats it.
    Stamps, frames, colours and scales of the messages are not modelled, nor are
    the five repetitions of L117-121, which publish the same messages. *)
From Verif Require Import Base Floats Grid Arith SdfQuery Python Node.

(** ** numpy *)

(** Conversion of a double to an integer by truncation (numpy), for
    scripts/3d_sdf_demo_rviz.py:24; infinities and NaN have no value. *)
Definition int_part (v : binary64) : option Z :=
  match v with
  | B754_zero _ _ _ => Some 0
  | B754_finite _ _ s m e _ =>
      let a := if e <? 0 then Z.pos m / 2 ^ (- e) else Z.pos m * 2 ^ e in
      Some (if s then - a else a)
  | _ => None
  end.

(** astype(np.int64) of one element, scripts/3d_sdf_demo_rviz.py:24: a C cast,
    undefined when the result does not fit. *)
Definition as_int64 (v : binary64) : res Z :=
  match int_part v with
  | Some z => if (- 2 ^ 63 <=? z) && (z <? 2 ^ 63) then Ok z else UB "double does not fit int64"
  | None => UB "double does not fit int64"
  end.

(** np.zeros(shape), scripts/3d_sdf_demo_rviz.py:23.  The array holds floats, of
    which only 0.0 and 1.0 occur; here they are the integers 0 and 1. *)
Definition zeros (s : list Z) : res (ndarray Z) :=
  if forallb (fun n => 0 <=? n) s then Ok (ND s (row_major s) (repeat 0 (Z.to_nat (prod s))))
  else Throw "ValueError".

(** A negative index counts from the end of its axis (numpy), for
    scripts/3d_sdf_demo_rviz.py:28. *)
Definition from_end (n i : Z) : Z := if i <? 0 then i + n else i.

(** The indices of all axes (numpy), for scripts/3d_sdf_demo_rviz.py:28. *)
Definition from_ends (s ix : list Z) : list Z := map (fun q => from_end (fst q) (snd q)) (combine s ix).

(** a[ix] = v, scripts/3d_sdf_demo_rviz.py:28, for one element of rows, cols and
    channels. *)
Definition put {T} (v : T) (a : ndarray T) (ix : list Z) : res (ndarray T) :=
  match offset (shape a) (strides a) (from_ends (shape a) ix) with
  | Some o => Ok (ND (shape a) (strides a) (upd (Z.to_nat o) v (buffer a)))
  | None => Throw "IndexError"
  end.

(** a[::k] for k = S skip, scripts/3d_sdf_demo_rviz.py:120; [left] items are to be
    left out before the next one. *)
Fixpoint every_from {T} (skip left : nat) (l : list T) : list T :=
  match l, left with
  | [], _ => []
  | x :: t, O => x :: every_from skip skip t
  | _ :: t, S n => every_from skip n t
  end.

(** The rows of reshape([-1, 3]), scripts/3d_sdf_demo_rviz.py:42, L120. *)
Fixpoint rows_of_3 {T} (l : list T) : list (T * T * T) :=
  match l with
  | a :: b :: c :: t => (a, b, c) :: rows_of_3 t
  | _ => []
  end.

(** reshape([-1, 3]), scripts/3d_sdf_demo_rviz.py:120. *)
Definition reshape_rows {T} (a : ndarray T) : res (list (T * T * T)) :=
  if (length (items a) mod 3 =? 0)%nat then Ok (rows_of_3 (items a)) else Throw "ValueError".

(** ** point_cloud_to_voxel_grid *)

(** One row of indices, scripts/3d_sdf_demo_rviz.py:24. *)
Definition point_index (r : binary64) (o p : vec ieee) : res (list Z) :=
  let* x := as_int64 (div64 (sub64 (vx p) (vx o)) r) in
  let* y := as_int64 (div64 (sub64 (vy p) (vy o)) r) in
  let* z := as_int64 (div64 (sub64 (vz p) (vz o)) r) in
  Ok [x; y; z].

(** point_cloud_to_voxel_grid, scripts/3d_sdf_demo_rviz.py:22-29.  numpy checks
    all indices before it assigns; as an IndexError ends the function, checking
    and assigning one by one gives the same result. *)
Definition point_cloud_to_voxel_grid (pc : list (vec ieee)) (s0 s1 s2 : Z) (r : binary64) (o : vec ieee)
    : res (ndarray Z) :=
  let* vg := zeros [s0; s1; s2] in
  let* ixs := foldM (fun l p => let* ix := point_index r o p in Ok (l ++ [ix])) pc [] in
  foldM (put 1) ixs vg.

(** ** get_grid_points *)

(** One coordinate of (indices * res) - origin_point,
    scripts/3d_sdf_demo_rviz.py:52. *)
Definition grid_coordinate (r o : binary64) (i : Z) : binary64 := sub64 (mul64 (b64_of_Z i) r) o.

(** get_grid_points, scripts/3d_sdf_demo_rviz.py:49-53, as the rows of
    reshape([-1, 3]) (L42, L120).  np.meshgrid has indexing='xy' by default: its
    arrays have the shape (s1, s0, s2), and item [j, i, k] of their stack is
    (i, j, k). *)
Definition get_grid_points (o : vec ieee) (r : binary64) (s0 s1 s2 : Z) : list (vec ieee) :=
  map (fun ix => @V ieee (grid_coordinate r (vx o) (nth 1 ix 0)) (grid_coordinate r (vy o) (nth 0 ix 0))
                         (grid_coordinate r (vz o) (nth 2 ix 0)))
      (indices [s1; s0; s2]).

(** ** visualize_sdf *)

(** One record of the published cloud, scripts/3d_sdf_demo_rviz.py:43. *)
Record cloud_point := CP { p_x : binary32; p_y : binary32; p_z : binary32; p_distance : binary32 }.

(** visualize_sdf, scripts/3d_sdf_demo_rviz.py:40-46. *)
Definition visualize_sdf (a : ndarray binary32) (s0 s1 s2 : Z) (r : binary64) (o : vec ieee) : list cloud_point :=
  map (fun q : vec ieee * binary32 => CP (b32_of_b64 (vx (fst q))) (b32_of_b64 (vy (fst q))) (b32_of_b64 (vz (fst q))) (snd q))
      (combine (get_grid_points o r s0 s1 s2) (items a)).

(** ** Arrows *)

(** grad_scale, 0.02 as a float, scripts/3d_sdf_demo_rviz.py:115: numpy computes
    float array times Python float in floats. *)
Definition grad_scale : binary32 := B754_finite 24 128 false 10737418 (-29) eq_refl.

(** The operator * of numpy floats, round to nearest even,
    scripts/3d_sdf_demo_rviz.py:120. *)
Definition mul32 (x y : binary32) : binary32 := b32_mult BinarySingleNaN.mode_NE x y.

(** An arrow marker of namespace sdf_grad, scripts/3d_sdf_demo_rviz.py:56-86. *)
Record arrow := Arrow { a_id : Z; a_start : vec ieee; a_end : vec ieee }.

(** position + direction, scripts/3d_sdf_demo_rviz.py:92; the direction is a row of
    floats. *)
Definition arrow_end (p : vec ieee) (g : binary32 * binary32 * binary32) : vec ieee :=
  let '(gx, gy, gz) := g in
  let along c h := add64 c (b64_of_b32 (mul32 h grad_scale)) in
  @V ieee (along (vx p) gx) (along (vy p) gy) (along (vz p) gz).

(** plot_arrows_rviz as called in scripts/3d_sdf_demo_rviz.py:120 (L89-93), with
    subsample = 8 (L114). *)
Definition plot_arrows (g : ndarray binary32) (s0 s1 s2 : Z) (r : binary64) (o : vec ieee) : res (list arrow) :=
  let* rows := reshape_rows g in
  let pairs := combine (every_from 7 0 (get_grid_points o r s0 s1 s2)) (every_from 7 0 rows) in
  Ok (map (fun q : nat * (vec ieee * (binary32 * binary32 * binary32)) => Arrow (Z.of_nat (fst q)) (fst (snd q)) (arrow_end (fst (snd q)) (snd (snd q))))
          (combine (seq 0 (length pairs)) pairs)).

(** main, scripts/3d_sdf_demo_rviz.py:105-121: the voxel grid, the cloud of
    distances and the arrows.  [p] is the pose of the field. *)
Definition demo (pc : list (vec ieee)) (s0 s1 s2 : Z) (r : binary64) (o : vec ieee) (p : pose ieee)
    : res (ndarray Z * list cloud_point * list arrow) :=
  let* vg := point_cloud_to_voxel_grid pc s0 s1 s2 r o in
  let* ag := compute_sdf_and_gradient_3d vg r p in
  let* arrows := plot_arrows (snd ag) s0 s1 s2 r o in
  Ok (vg, visualize_sdf (fst ag) s0 s1 s2 r o, arrows).

(** Vocabulary for gradients of the distance estimate. *)
From Coq Require Import Reals.
From Verif Require Import Base Grid Arith SdfQuery QuerySpec.
Open Scope R_scope.

(** The distance EstimateDistance gives at a location. *)
Definition estimated (f : rfield) (p : pose reals) (loc : rvec) : R :=
  match estimate_distance f p loc with Ok (e, _) => e | _ => 0 end.

Definition len (h : rvec) : R := sqrt (length_squared h).

(** [n] is the derivative of [e] at [loc] as far as the displacements [towards]
    go: the error of the linear approximation is small against the displacement. *)
Definition derivative_towards (towards : rvec -> Prop) (e : rvec -> R) (loc n : rvec) : Prop :=
  forall eps, 0 < eps -> exists delta, 0 < delta /\
    forall h, towards h -> len h < delta ->
      Rabs (e (vadd loc h) - e loc - dot n h) <= eps * len h.

(** The gradient: all displacements. *)
Definition is_gradient : (rvec -> R) -> rvec -> rvec -> Prop := derivative_towards (fun _ => True).

(** Displacements that lower no coordinate in the grid's frame. *)
Definition forward (p : pose reals) (loc h : rvec) : Prop :=
  let q := to_grid p loc in let q' := to_grid p (vadd loc h) in
  vx q <= vx q' /\ vy q <= vy q' /\ vz q <= vz q'.

(** On this axis the point is inside the grid and not level with the centre of a
    cell other than the first and the last. *)
Definition between_levels (r : R) (n : Z) (v : R) : Prop :=
  0 < v < r * IZR n /\ forall k, (0 < k < n - 1)%Z -> v <> r * (IZR k + 1/2).
Definition off_levels (f : rfield) (q : rvec) : Prop :=
  between_levels (f_res f) (nx (f_dims f)) (vx q) /\
  between_levels (f_res f) (ny (f_dims f)) (vy q) /\
  between_levels (f_res f) (nz (f_dims f)) (vz q).

(** The slope between a cell's centre and the next one's on an axis with [n] cells
    on which the cell has number [k]; the last cell looks back, a lone cell has
    slope 0.  [c k'] is the centred value of the cell with number k' there. *)
Definition step_slope (r : R) (n k : Z) (c : Z -> R) : R :=
  if (k + 1 <? n)%Z then (c (k + 1)%Z - c k) / r
  else if (0 <? k)%Z then (c k - c (k - 1)%Z) / r else 0.

(** Cells that share a face. *)
Definition share_face (i j : idx) : Prop :=
  (Z.abs (ix i - ix j) + Z.abs (iy i - iy j) + Z.abs (iz i - iz j) = 1)%Z.

(** Centred values of cells that share a face differ by at most [M]. *)
Definition gentle (f : rfield) (M : R) : Prop :=
  forall i j, in_bounds (f_dims f) i = true -> in_bounds (f_dims f) j = true -> share_face i j ->
    Rabs (centered_value f i - centered_value f j) <= M.

(** How far apart two points are, along the axes. *)
Definition path (q q' : rvec) : R :=
  Rabs (vx q - vx q') + Rabs (vy q - vy q') + Rabs (vz q - vz q').

(** Vocabulary for C130: points of a grid and the cells they lie in. *)
From Coq Require Import Reals.
From Verif Require Import Base Grid Arith SdfQuery QuerySpec.
Open Scope R_scope.

(** On one axis, [x] is at least [m] from both faces of cell number [k]. *)
Definition inside_axis (m r x : R) (k : Z) : Prop := r * IZR k + m <= x <= r * (IZR k + 1) - m.

(** The point [q], in the grid frame, is in cell [i], at least [m] from each of its faces. *)
Definition inside_cell (m r : R) (q : rvec) (i : idx) : Prop :=
  inside_axis m r (vx q) (ix i) /\ inside_axis m r (vy q) (iy i) /\ inside_axis m r (vz q) (iz i).

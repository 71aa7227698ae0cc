(** Vocabulary for fields of a flat wall. *)
From Coq Require Import Reals.
From Verif Require Import Base Floats Grid SdfGen Arith SdfQuery QuerySpec SdfField DoubleSpec.
Open Scope R_scope.

Inductive axis_name := AlongX | AlongY | AlongZ.

(** Number of cells and coordinate along an axis. *)
Definition cells_along (a : axis_name) (d : dims) : Z :=
  match a with AlongX => nx d | AlongY => ny d | AlongZ => nz d end.
Definition coordinate (a : axis_name) (i : idx) : Z :=
  match a with AlongX => ix i | AlongY => iy i | AlongZ => iz i end.

(** How many cells lie between [i] and the face of the grid the wall stands at:
    the low face of the axis, or the high one. *)
Definition depth (a : axis_name) (low : bool) (d : dims) (i : idx) : Z :=
  if low then coordinate a i else (cells_along a d - 1 - coordinate a i)%Z.

(** The unit vector out of the wall. *)
Definition outward (a : axis_name) (low : bool) : rvec :=
  let s := if low then 1 else -1 in
  match a with AlongX => @V reals s 0 0 | AlongY => @V reals 0 s 0 | AlongZ => @V reals 0 0 s end.

(** Signed distance, in a map of cells of side [r], from a cell at depth [h] to the
    nearest cell of the other class when the filled cells are the first [k]. *)
Definition wall_value (r : R) (k h : Z) : R :=
  if (h <? k)%Z then - (r * IZR (k - h)) else r * IZR (h + 1 - k).

(** The field of a map whose filled cells are the first [k] layers, [0 < k], and
    whose other cells, at least one layer, are free. *)
Definition wall_field (f : rfield) (a : axis_name) (low : bool) (k : Z) : Prop :=
  (0 < k < cells_along a (f_dims f))%Z /\
  forall i, in_bounds (f_dims f) i = true -> value f i = wall_value (f_res f) k (depth a low (f_dims f) i).

(** The stored floats of a field as real numbers. *)
Definition real_field (s : sdf) : rfield :=
  @F reals (G (sdf_dims s) (map real32 (gdata (s_grid s))) (real32 (goob (s_grid s))))
    (real64 (s_res s)) (real_vec (grid_size (sdf_dims s) (s_res s))).

(** The first [n] multiples of [r] are floats. *)
Definition stored_exactly (r : binary64) (n : Z) : Prop :=
  forall z, (1 <= z <= n)%Z -> exists w : binary32, finite_float w /\ real32 w = (IZR z * real64 r)%R.

(** Vocabulary for C132: the volume of a grid, in the grid frame. *)
From Coq Require Import Reals.
From Flocq Require Import Core.Core IEEE754.Binary IEEE754.Bits.
From Verif Require Import Base Floats Grid Arith SdfQuery QuerySpec DoubleSpec.
Open Scope R_scope.

(** [x] cut off at [lo] and [hi]. *)
Definition cut (lo hi x : R) : R := Rmin (Rmax x lo) hi.

(** The corner opposite to the origin. *)
Definition far_corner (d : dims) (r : R) : rvec := @V reals (r * IZR (nx d)) (r * IZR (ny d)) (r * IZR (nz d)).

(** A point cut off so that it keeps the distance [m] from all faces. *)
Definition cut_into (m : R) (size q : rvec) : rvec :=
  @V reals (cut m (vx size - m) (vx q)) (cut m (vy size - m) (vy q)) (cut m (vz size - m) (vz q)).

(** There is room for a margin of [m] on all sides. *)
Definition room (m : R) (size : rvec) : Prop := 2 * m <= vx size /\ 2 * m <= vy size /\ 2 * m <= vz size.

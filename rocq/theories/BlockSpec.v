(** Vocabulary for C134: chunks of a hashed map as blocks of space. *)
From Coq Require Import Reals.
From Verif Require Import Base Grid Arith SdfQuery QuerySpec Hashed.
Open Scope R_scope.

(** The sides of a chunk of [d] cells of side [r]. *)
Definition block_sizes (r : R) (d : dims) : rvec := @V reals (r * IZR (nx d)) (r * IZR (ny d)) (r * IZR (nz d)).

(** The centre of chunk number [k], in the grid frame. *)
Definition block_center (r : R) (d : dims) (k : idx) : rvec :=
  @V reals (r * IZR (nx d) * (IZR (ix k) + 1 / 2)) (r * IZR (ny d) * (IZR (iy k) + 1 / 2)) (r * IZR (nz d) * (IZR (iz k) + 1 / 2)).

(** The location is in chunk number [k] or on its faces. *)
Definition closed_block (r : R) (p : pose reals) (d : dims) (k : idx) (loc : rvec) : Prop :=
  let q := to_grid p loc in
  r * IZR (nx d) * IZR (ix k) <= vx q <= r * IZR (nx d) * (IZR (ix k) + 1) /\
  r * IZR (ny d) * IZR (iy k) <= vy q <= r * IZR (ny d) * (IZR (iy k) + 1) /\
  r * IZR (nz d) * IZR (iz k) <= vz q <= r * IZR (nz d) * (IZR (iz k) + 1).

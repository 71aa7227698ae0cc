(** Vocabulary for C128: a grid of [d] cells of side [r] that stands in the world at the
    exact pose [P], and points seen by it. *)
From Coq Require Import Reals.
From Flocq Require Import Core.Core IEEE754.Binary IEEE754.Bits.
From Verif Require Import Base Floats Grid Arith SdfQuery QuerySpec DoubleSpec Frame FrameSpec.
Open Scope R_scope.

(** The grid has at most [N] cells on an axis, the transform into it is usable for
    coordinates of up to [S] and follows the exact one to within [far], and points are
    misplaced by no more than a millionth of a cell over [N]. *)
Definition well_placed (d : dims) (r : binary64) (N : R) (inverse : transform ieee) (P : pose reals) (t : rvec) (S far : R) : Prop :=
  real64 r <= bpow radix2 80 /\ (IZR (nx d) <= N /\ IZR (ny d) <= N /\ IZR (nz d) <= N) /\
  bpow radix2 (-100) <= S <= bpow radix2 100 /\ usable_transform S inverse /\
  geometry (real64 r) P /\ rigid P t /\ follows far S inverse (to_grid P) /\ N * misplaced S far <= real64 r / 1000000.

(** The point is in the grid, both as the code sees it and exactly. *)
Definition seen (d : dims) (p : pose ieee) (P : pose reals) (S : R) (loc : vec ieee) : Prop :=
  point_within S loc /\ in_bounds d (index_of p (to_grid p loc)) = true /\
  in_bounds d (index_of P (to_grid P (real_vec loc))) = true.

(** The cell the point is in. *)
Definition cell_of (P : pose reals) (loc : vec ieee) : idx := index_of P (to_grid P (real_vec loc)).

(** The centre of a cell, in the world. *)
Definition world_center (P : pose reals) (b : idx) : rvec := to_world P (center_of P b).

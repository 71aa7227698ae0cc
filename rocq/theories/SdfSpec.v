(** Specification vocabulary for signed distance fields. *)
From Coq Require Import Reals.
From Flocq Require Import Core.Core IEEE754.Binary IEEE754.Bits.
From Verif Require Import Base Floats Grid DistSpec.

(** A resolution that is finite and whose float image is positive (a resolution
    below about 7e-46 would be stored as 0). *)
Definition usable_resolution (r : binary64) : Prop :=
  is_finite 53 1024 r = true /\ gt32 (b32_of_b64 r) zero32 = true.

(** float(sqrt(double(m)) * r), or +infinity when there is no distance. *)
Definition rounded_distance (m : option Z) (r : binary64) : binary32 :=
  match m with
  | Some z => b32_of_b64 (mul64 (sqrt64 (b64_of_Z z)) r)
  | None => inf32
  end.

(** Value for a cell of the given class at squared cell distance [m] from the
    other class. *)
Definition signed_value (is_filled : bool) (m : option Z) (r : binary64) : binary32 :=
  if is_filled then b32_opp (rounded_distance m r) else rounded_distance m r.

(** [p] is a cell of the grid in the other class than [c]. *)
Definition other_class (d : dims) (filled : idx -> bool) (c p : idx) : Prop :=
  in_bounds d p = true /\ filled p <> filled c.

(** [m] is the least squared distance from [c] to a cell of the other class. *)
Definition nearest_other (d : dims) (filled : idx -> bool) (c : idx) (m : Z) : Prop :=
  (exists p, other_class d filled c p /\ distsq c p = m) /\
  (forall p, other_class d filled c p -> m <= distsq c p).

(** The predicate passed to the extraction answers [filled] on the grid. *)
Definition answers (d : dims) (is_filled : idx -> res bool) (filled : idx -> bool) : Prop :=
  forall i, in_bounds d i = true -> is_filled i = Ok (filled i).

(** [lo] and [hi] as doubles bound the stored floats and are attained. *)
Definition upper_extremum (d : dims) (value : idx -> binary32) (hi : binary64) : Prop :=
  (forall c, in_bounds d c = true -> le32 (value c) (b32_of_b64 hi) = true) /\
  (exists c, in_bounds d c = true /\ value c = b32_of_b64 hi).
Definition lower_extremum (d : dims) (value : idx -> binary32) (lo : binary64) : Prop :=
  (forall c, in_bounds d c = true -> ge32 (value c) (b32_of_b64 lo) = true) /\
  (exists c, in_bounds d c = true /\ value c = b32_of_b64 lo).

(** The cells just outside the grid that a virtual border adds: one layer around
    every axis longer than one cell. *)
Definition beyond (n v : Z) : Prop := if 1 <? n then -1 <= v <= n else 0 <= v < n.
Definition outside_shell (d : dims) (p : idx) : Prop :=
  in_bounds d p = false /\
  beyond (nx d) (ix p) /\ beyond (ny d) (iy p) /\ beyond (nz d) (iz p).

(** [p] is in the other class than [c], or just outside the grid. *)
Definition other_or_outside (d : dims) (filled : idx -> bool) (c p : idx) : Prop :=
  other_class d filled c p \/ outside_shell d p.
Definition nearest_other_or_outside (d : dims) (filled : idx -> bool) (c : idx) (m : Z) : Prop :=
  (exists p, other_or_outside d filled c p /\ distsq c p = m) /\
  (forall p, other_or_outside d filled c p -> m <= distsq c p).

(** Sizes of the grid enlarged by that layer. *)
Definition enlarged (n : Z) : Z := if 1 <? n then n + 2 else n.
Definition enlarged_dims (d : dims) : dims :=
  D (enlarged (nx d)) (enlarged (ny d)) (enlarged (nz d)).

(** Occupancy values that count as filled. *)
Definition counts_as_filled (unknown_is_filled : bool) (occ : binary32) : Prop :=
  gt32 occ half32 = true \/ (unknown_is_filled = true /\ eq32 occ half32 = true).

(** The cells of a grid in the given class, in sweep order. *)
Definition cells_of (d : dims) (Q : idx -> bool) : list idx := filter Q (sweep d).

(** Position in the enlarged grid of a cell of the grid, and back. *)
Definition one_if_longer (n : Z) : Z := if 1 <? n then 1 else 0.
Definition shift_in (d : dims) (c : idx) : idx :=
  I (ix c + one_if_longer (nx d)) (iy c + one_if_longer (ny d)) (iz c + one_if_longer (nz d)).
Definition shift_out (d : dims) (v : idx) : idx :=
  I (ix v - one_if_longer (nx d)) (iy v - one_if_longer (ny d)) (iz v - one_if_longer (nz d)).

(** The point sets of the two enlarged fields: the cells of one class, and the
    added layer. *)
Definition with_layer (d : dims) (Q : idx -> bool) (v : idx) : bool :=
  negb (in_bounds d (shift_out d v)) || Q (shift_out d v).

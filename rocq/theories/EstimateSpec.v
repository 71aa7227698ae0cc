(** Vocabulary for comparing distance estimates with the map. *)
From Coq Require Import Reals.
From Flocq Require Import Core.Core IEEE754.Binary IEEE754.Bits.
From Verif Require Import Base Floats Grid DistSpec CollisionMap SdfGen SdfSpec Arith SdfQuery QuerySpec DoubleSpec.
Open Scope R_scope.

(** Distance between two points. *)
Definition gap (a b : rvec) : R :=
  sqrt ((vx a - vx b) * (vx a - vx b) + (vy a - vy b) * (vy a - vy b) + (vz a - vz b) * (vz a - vz b)).

(** [s] is the field extracted from a map of cells of side [r], all its values are
    finite, and [filled] says which cells are filled. *)
Definition field_of_map (d : dims) (r : binary64) (filled : idx -> bool) (s : sdf) : Prop :=
  size_ok d /\ usable_resolution r /\ bpow radix2 (-100) <= real64 r <= bpow radix2 100 /\
  (exists is_filled oob frame x, answers d is_filled filled /\
     extract_sdf d r is_filled oob frame = Ok (s, x)) /\
  forall c, in_bounds d c = true -> finite_float (fst (sdf_get s c)).

(** The value stored at a cell is that of the nearest cell of the other class. *)
Definition exact_at (d : dims) (r : binary64) (filled : idx -> bool) (s : sdf) (c : idx) : Prop :=
  forall z, nearest_other d filled c z -> fst (sdf_get s c) = signed_value (filled c) (Some z) r.

(** Specification vocabulary for connected components, independent of the
    flood-fill algorithm. *)
From Verif Require Import Base Grid.

(** Two cells share a face. *)
Definition face_adjacent (a b : idx) : Prop :=
  Z.abs (ix a - ix b) + Z.abs (iy a - iy b) + Z.abs (iz a - iz b) = 1.

(** [a] and [b] are joined by a chain of face-adjacent cells of the grid, all of
    them taking part ([elig]), each step permitted by [link]. *)
Inductive joined (d : dims) (elig : idx -> bool) (link : idx -> idx -> bool)
  : idx -> idx -> Prop :=
| joined_refl a : in_bounds d a = true -> elig a = true -> joined d elig link a a
| joined_step a b c :
    joined d elig link a b -> face_adjacent b c ->
    in_bounds d c = true -> elig c = true -> link b c = true ->
    joined d elig link a c.

(** [lab] numbers the regions of the participating cells 1..n:
    - participating cells carry a number between 1 and n, the others carry 0;
    - every number between 1 and n is used;
    - two participating cells carry the same number iff they are joined. *)
Definition regions_numbered (d : dims) (elig : idx -> bool) (link : idx -> idx -> bool)
    (lab : idx -> Z) (n : Z) : Prop :=
  0 <= n /\
  (forall a, in_bounds d a = true -> elig a = true -> 1 <= lab a <= n) /\
  (forall a, in_bounds d a = true -> elig a = false -> lab a = 0) /\
  (forall k, 1 <= k <= n -> exists a, in_bounds d a = true /\ elig a = true /\ lab a = k) /\
  (forall a b, in_bounds d a = true -> in_bounds d b = true ->
     elig a = true -> elig b = true -> (lab a = lab b <-> joined d elig link a b)).

(** Numbers are given out in the order of the x-y-z sweep: a cell's number is 1
    or at most one more than some earlier cell's number. *)
Definition numbered_in_sweep_order (d : dims) (elig : idx -> bool) (lab : idx -> Z) : Prop :=
  forall pre a post, sweep d = pre ++ a :: post -> elig a = true ->
    lab a = 1 \/ exists b, In b pre /\ elig b = true /\ lab a - 1 <= lab b.

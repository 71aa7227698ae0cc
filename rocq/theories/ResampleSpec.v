(** Resampling in terms of locations. *)
From Coq Require Import Reals.
From Verif Require Import Base Floats Grid CollisionMap TaggedMap Arith SdfQuery QuerySpec.
Local Open Scope R_scope.

(** Cell [i] is visited before cell [j] by "for x, for y, for z". *)
Definition visited_before (i j : idx) : Prop :=
  (ix i < ix j \/ ix i = ix j /\ (iy i < iy j \/ iy i = iy j /\ iz i < iz j))%Z.

(** [i] is the last cell of a grid of size [d] that [t] sends to [j]. *)
Definition last_to (d : dims) (t : idx -> idx) (j i : idx) : Prop :=
  in_bounds d i = true /\ t i = j /\
  forall k, in_bounds d k = true -> t k = j -> k = i \/ visited_before k i.

(** Two maps with the same origin and cells of side [r] and [r']. *)
Record same_frame (r r' : R) (p p' : pose reals) : Prop := {
  sf_old : geometry r p;
  sf_new : geometry r' p';
  sf_origin : forall q, to_grid p' (to_world p q) = q
}.

(** The location [q] (in the grid frame) lies in a filled cell of the map. *)
Definition filled_at (p : pose reals) (m : cmap) (q : rvec) : Prop :=
  in_bounds (cm_dims m) (index_of p q) = true /\
  gt32 (c_occ (fst (cm_get m (index_of p q)))) half32 = true.

(** [n] cells of side [r'] cover [c] cells of side [r] and none is superfluous. *)
Definition covers (r : R) (c : Z) (r' : R) (n : Z) : Prop :=
  r * IZR c <= r' * IZR n /\ (n = 0%Z \/ r' * IZR (n - 1) < r * IZR c).

(** What a constructor does that rounds size / resolution up. *)
Definition covered (r : R) (d : dims) (r' : R) (d' : dims) : Prop :=
  covers r (nx d) r' (nx d') /\ covers r (ny d) r' (ny d') /\ covers r (nz d) r' (nz d').

Definition nonnegative (d : dims) : Prop := (0 <= nx d /\ 0 <= ny d /\ 0 <= nz d)%Z.

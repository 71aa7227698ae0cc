(** Specification vocabulary for the distance field: squared Euclidean distance
    between cells and the minimum over a set of obstacle cells.  Independent of
    the algorithm. *)
From Verif Require Import Base Grid.

(** Squared Euclidean distance between two cells, in cell units. *)
Definition distsq (a b : idx) : Z :=
  (ix a - ix b) * (ix a - ix b) + (iy a - iy b) * (iy a - iy b)
  + (iz a - iz b) * (iz a - iz b).

(** [m] is the squared distance from cell [c] to the nearest of [points]. *)
Definition nearest_distsq (points : list idx) (c : idx) (m : Z) : Prop :=
  (exists p, In p points /\ distsq c p = m) /\
  (forall p, In p points -> m <= distsq c p).

(** [a] and [b] are equal or touch by a face, edge or corner. *)
Definition within_one (a b : idx) : Prop :=
  Z.abs (ix a - ix b) <= 1 /\ Z.abs (iy a - iy b) <= 1 /\ Z.abs (iz a - iz b) <= 1.

(** Grids for which the int32 arithmetic cannot overflow. *)
Definition size_ok (d : dims) : Prop :=
  0 <= nx d /\ 0 <= ny d /\ 0 <= nz d /\
  nx d * nx d + ny d * ny d + nz d * nz d <= 2147483647.

Definition all_inside (d : dims) (pts : list idx) : Prop :=
  forall p, In p pts -> in_bounds d p = true.

(** City-block distance between two cells, in cell units. *)
Definition manhattan (a b : idx) : Z :=
  Z.abs (ix a - ix b) + Z.abs (iy a - iy b) + Z.abs (iz a - iz b).

(** Grids of a single layer along some axis: planar maps. *)
Definition flat (d : dims) : Prop := nx d <= 1 \/ ny d <= 1 \/ nz d <= 1.

(** Obstacle [o] is nearer to cell [c] than every other obstacle. *)
Definition held_by (pts : list idx) (o c : idx) : Prop :=
  forall q, In q pts -> q <> o -> distsq c o < distsq c q.

(** Cell [c] can be reached from obstacle [o] by steps to face neighbours, each
    leading away from [o], through cells of the grid that [o] is strictly nearest
    to; at [c] itself it is enough that no obstacle is nearer. *)
Inductive reached (d : dims) (pts : list idx) (o : idx) : idx -> Prop :=
| reached_start : In o pts -> reached d pts o o
| reached_step c c' : reached d pts o c -> held_by pts o c ->
    distsq c c' = 1 -> distsq c o < distsq c' o -> in_bounds d c' = true ->
    (forall q, In q pts -> distsq c' o <= distsq c' q) -> reached d pts o c'.

(** Two cells on a line along an axis. *)
Definition straight (c p : idx) : Prop :=
  (iy c = iy p /\ iz c = iz p) \/ (ix c = ix p /\ iz c = iz p) \/ (ix c = ix p /\ iy c = iy p).

(** The cells of a box, given by two opposite corners. *)
Definition in_box (lo hi c : idx) : Prop :=
  ix lo <= ix c <= ix hi /\ iy lo <= iy c <= iy hi /\ iz lo <= iz c <= iz hi.

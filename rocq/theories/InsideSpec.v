(** What it means that a point is in a grid: no counterpart in /repo. *)
From Coq Require Import Reals.
From Verif Require Import Base Grid Arith QuerySpec.
Open Scope R_scope.

(** [q] is between the faces of the box from 0 to [size], moved out by [e] (inwards if [e]
    is negative).  With [e] = 0 this is the space covered by the cells.  No counterpart in
    /repo. *)
Definition in_the_box (e : R) (size q : vec reals) : Prop :=
  (- e <= vx q < vx size + e) /\ (- e <= vy q < vy size + e) /\ (- e <= vz q < vz size + e).

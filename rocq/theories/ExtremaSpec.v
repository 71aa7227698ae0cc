(** Where following the gradient from a cell leads, as a relation. *)
From Coq Require Import Relations.Relation_Operators.
From Verif Require Import Base Floats Grid SdfGen Arith SdfQuery.

Section Spec.
  Variable f : field ieee.
  Variable p : pose ieee.

  (** 0.06125 of the resolution. *)
  Definition threshold : binary64 := mul64 (f_res f) (lit ieee 6125 100000).

  (** All components of the cell's gradient are at most the threshold in size. *)
  Definition flat_cell (i : idx) : Prop :=
    exists g, gradient f p i true = Some g /\
      le64 (b64_abs (vx g)) threshold = true /\ le64 (b64_abs (vy g)) threshold = true /\
      le64 (b64_abs (vz g)) threshold = true.

  (** One coordinate moves up, down or stays: against the gradient inside
      obstacles, with it outside. *)
  Definition moves (g : binary64) (i j : Z) : Prop :=
    (gt64 g threshold = true /\ j = i + 1) \/
    (gt64 g threshold = false /\ lt64 g (opp64 threshold) = true /\ j = i - 1) \/
    (gt64 g threshold = false /\ lt64 g (opp64 threshold) = false /\ j = i).

  Definition steps_to (i j : idx) : Prop :=
    ~ flat_cell i /\
    exists g, gradient f p i true = Some g /\
      let w := if lt32 (value f i) zero32 then vscale g (b64_of_Z (-1)) else g in
      moves (vx w) (ix i) (ix j) /\ moves (vy w) (iy i) (iy j) /\ moves (vz w) (iz i) (iz j).

  (** Zero or more, one or more steps. *)
  Definition leads_to := clos_refl_trans_1n idx steps_to.
  Definition leads_back (i : idx) : Prop := exists j, steps_to i j /\ leads_to j i.

  (** The cell's path leaves the grid. *)
  Definition leaves_from (i : idx) : Prop :=
    exists j k, leads_to i j /\ in_bounds (f_dims f) j = true /\ steps_to j k /\
      in_bounds (f_dims f) k = false.
  (** The path from [i] reaches [j], which is flat or lies on a cycle of the path. *)
  Definition stops_at (i j : idx) : Prop :=
    leads_to i j /\ in_bounds (f_dims f) j = true /\ (flat_cell j \/ leads_back j).
End Spec.

(** No coordinate is -infinity. *)
Definition located (v : vec ieee) : Prop :=
  ne64 (vx v) ninf64 = true /\ ne64 (vy v) ninf64 = true /\ ne64 (vz v) ninf64 = true.

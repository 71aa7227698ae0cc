(** Holes of an object that is one cell thick, independent of how the code counts
    them. *)
From Verif Require Import Base Grid TopoSpec SurfaceSpec.

(** Cells of one layer that share a side. *)
Definition beside (i j : idx) : Prop := face_adjacent i j /\ iz i = iz j.

(** Cells of one layer that share a side or a corner. *)
Definition meets (i j : idx) : Prop := touches i j /\ iz i = iz j.

(** Steps from cell to cell ([near]: [beside] or [meets]) lead out of the grid
    without entering the component. *)
Inductive gets_out (near : idx -> idx -> Prop) (d : dims) (label : idx -> Z) (c : Z) : idx -> Prop :=
| gets_out_here i : in_bounds d i = false -> gets_out near d label c i
| gets_out_step i j : label i <> c -> near i j -> gets_out near d label c j -> gets_out near d label c i.

Definition enclosed (near : idx -> idx -> Prop) (d : dims) (label : idx -> Z) (c : Z) (i : idx) : Prop :=
  in_bounds d i = true /\ label i <> c /\ ~ gets_out near d label c i.

(** The enclosed cells form [n] separate regions. *)
Definition encloses (near : idx -> idx -> Prop) (d : dims) (label : idx -> Z) (c : Z) (n : nat) : Prop :=
  exists cells, (forall i, In i cells <-> enclosed near d label c i) /\
    component_count cells
      (fun i j => enclosed near d label c i /\ enclosed near d label c j /\ near i j) n.

(** Around the corner point (x, y) two cells of the component meet diagonally and
    the other two cells are not of the component. *)
Definition belongs (d : dims) (label : idx -> Z) (c : Z) (i : idx) : Prop :=
  in_bounds d i = true /\ label i = c.
Definition contact (d : dims) (label : idx -> Z) (c : Z) (v : Z * Z) : Prop :=
  let (x, y) := v in
  let cell a b := belongs d label c (I a b 0) in
  (cell (x - 1) (y - 1) /\ cell x y /\ ~ cell (x - 1) y /\ ~ cell x (y - 1)) \/
  (cell (x - 1) y /\ cell x (y - 1) /\ ~ cell (x - 1) (y - 1) /\ ~ cell x y).
Definition contacts (d : dims) (label : idx -> Z) (c : Z) (q : nat) : Prop :=
  exists points, NoDup points /\ length points = q /\
    forall v, In v points <-> contact d label c v.

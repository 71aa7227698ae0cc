(** What surfaces, corners, vertex graphs and enclosed regions are, independent
    of how the code finds them. *)
From Coq Require Import Permutation.
From Verif Require Import Base Floats Grid TopoSpec CollisionMap ComponentSpec.

(** ** Cells on the surface of their component *)
Definition on_grid_edge (d : dims) (i : idx) : Prop :=
  ix i = 0 \/ iy i = 0 \/ iz i = 0 \/
  ix i = nx d - 1 \/ iy i = ny d - 1 \/ iz i = nz d - 1.

(** A cell of the grid at its edge or with a face neighbour in the grid that has
    another label. *)
Definition surface_cell (d : dims) (label : idx -> Z) (i : idx) : Prop :=
  in_bounds d i = true /\
  (on_grid_edge d i \/
   exists j, face_adjacent i j /\ in_bounds d j = true /\ label j <> label i).

(** The kinds of cell a caller may ask for: bit 0 filled, bit 1 empty, bit 2
    unknown (neither above nor below one half). *)
Definition kind_bit (o : binary32) : Z :=
  if gt32 o half32 then 0 else if lt32 o half32 then 1 else 2.
Definition requested (types : Z) (o : binary32) : Prop := Z.testbit types (kind_bit o) = true.

(** An answer listing surfaces per component holds [i] under [k]. *)
Definition listed (answer : list (Z * list idx)) (k : Z) (i : idx) : Prop :=
  exists cells, In (k, cells) answer /\ In i cells.
(** Each component appears once, with no cell twice and never empty. *)
Definition well_listed (answer : list (Z * list idx)) : Prop :=
  NoDup (map fst answer) /\
  forall k cells, In (k, cells) answer -> NoDup cells /\ cells <> [].

(** ** Occupancy surface: one of the 26 surrounding cells is of another kind *)
Inductive kind := Filled | Empty | Unknown.
Definition kind_of (o : binary32) : kind :=
  if gt32 o half32 then Filled else if lt32 o half32 then Empty else Unknown.
Definition touches (i j : idx) : Prop :=
  i <> j /\ Z.abs (ix i - ix j) <= 1 /\ Z.abs (iy i - iy j) <= 1 /\ Z.abs (iz i - iz j) <= 1.

(** ** Number of connected components of a graph *)
Inductive reaches {V} (link : V -> V -> Prop) : V -> V -> Prop :=
| reaches_refl v : reaches link v v
| reaches_step u v w : reaches link u v -> link v w -> reaches link u w.

(** One representative per component. *)
Definition component_count {V} (vertices : list V) (link : V -> V -> Prop) (n : nat) : Prop :=
  exists reps, length reps = n /\ NoDup reps /\ incl reps vertices /\
    forall v, In v vertices -> exists! r, In r reps /\ reaches link r v.

(** ** Vertex graphs given by direction bits *)
Definition direction (bit : Z) : Z * Z * Z :=
  match bit with
  | 0 => (0, 0, -1) | 1 => (0, 0, 1)
  | 2 => (0, -1, 0) | 3 => (0, 1, 0)
  | 4 => (-1, 0, 0) | _ => (1, 0, 0)
  end.
(** [v] has a bit pointing at [w]. *)
Definition points_at (graph : list (idx * Z)) (v w : idx) : Prop :=
  exists bits k, In (v, bits) graph /\ 0 <= k < 6 /\ Z.testbit bits k = true /\
                 w = add v (direction k).
Definition graph_symmetric (graph : list (idx * Z)) : Prop :=
  forall v w, In w (map fst graph) -> points_at graph v w -> points_at graph w v.
Definition has_dangling_bit (graph : list (idx * Z)) : Prop :=
  exists v w, points_at graph v w /\ ~ In w (map fst graph).

(** ** Mirror images *)
Definition mirror_x (d : dims) (i : idx) : idx := I (nx d - 1 - ix i) (iy i) (iz i).
Definition mirror_y (d : dims) (i : idx) : idx := I (ix i) (ny d - 1 - iy i) (iz i).
Definition mirror_z (d : dims) (i : idx) : idx := I (ix i) (iy i) (nz d - 1 - iz i).
(** [h] is [g] seen in the mirror. *)
Definition mirrored {A} (mirror : dims -> idx -> idx) (g h : grid A) : Prop :=
  gdims h = gdims g /\ goob h = goob g /\
  forall i, in_bounds (gdims g) i = true -> gget h i = gget g (mirror (gdims g) i).

(** ** Enclosed cells: no way out of the grid without entering the component *)
Inductive escapes (d : dims) (label : idx -> Z) (c : Z) : idx -> Prop :=
| escapes_out i : in_bounds d i = false -> escapes d label c i
| escapes_step i j : label i <> c -> face_adjacent i j -> escapes d label c j ->
                     escapes d label c i.
Definition has_cavity (d : dims) (label : idx -> Z) (c : Z) : Prop :=
  exists i, in_bounds d i = true /\ label i <> c /\ ~ escapes d label c i.

(** ** A flat top: four cells of the component in a square, with four more below
    them and none above. *)
Definition flat_top (d : dims) (label : idx -> Z) (c : Z) (x y z : Z) : Prop :=
  forall i j, (i = 0 \/ i = 1) -> (j = 0 \/ j = 1) ->
    in_bounds d (I (x + i) (y + j) z) = true /\ label (I (x + i) (y + j) z) = c /\
    in_bounds d (I (x + i) (y + j) (z - 1)) = true /\ label (I (x + i) (y + j) (z - 1)) = c /\
    (in_bounds d (I (x + i) (y + j) (z + 1)) = true -> label (I (x + i) (y + j) (z + 1)) <> c).

(** The same, in terms of occupancy. *)
Definition occupied_flat_top (m : cmap) (x y z : Z) : Prop :=
  forall i j, (i = 0 \/ i = 1) -> (j = 0 \/ j = 1) ->
    in_bounds (cm_dims m) (I (x + i) (y + j) z) = true /\
    gt32 (occupancy_at m (I (x + i) (y + j) z)) half32 = true /\
    in_bounds (cm_dims m) (I (x + i) (y + j) (z - 1)) = true /\
    gt32 (occupancy_at m (I (x + i) (y + j) (z - 1))) half32 = true /\
    (in_bounds (cm_dims m) (I (x + i) (y + j) (z + 1)) = true ->
     gt32 (occupancy_at m (I (x + i) (y + j) (z + 1))) half32 = false).

(** ** Small vocabulary for statements *)

(** The label stored in a cell (out of bounds: that of the out-of-bounds value). *)
Definition label {A} (comp : A -> Z) (g : grid A) (i : idx) : Z := comp (gget g i).

(** Hash tables may be visited in any order. *)
Definition any_order (order : list idx -> list idx) : Prop :=
  forall l, Permutation (order l) l.

(** The holes and voids a topology call answers with. *)
Definition answer {M} (r : res (M * list (Z * (Z * Z)))) : res (list (Z * (Z * Z))) :=
  let* (_, t) := r in Ok t.

(** Where the code looks when it asks whether a cell of a given kind is on the
    surface: at the cell itself only if that is empty. *)
Definition looked_up (o : binary32) (i : idx) : idx :=
  match kind_bit o with
  | 0 => I (ix i) (iy i) (iy i)
  | 1 => i
  | _ => I (ix i) (iz i) (iz i)
  end.

(** Model of the dense voxel grid the repository's maps derive from.

    The class itself, arc_utilities VoxelGrid, is not in /repo.  The repo relies
    on it at include/sdf_tools/collision_map.hpp:34 (base class),
    include/sdf_tools/sdf.hpp:20 and include/sdf_tools/sdf_generation.hpp:27.
    The layout (row-major, stride1 = ny*nz, stride2 = nz) is fixed by the
    members the repo serialises: src/sdf_tools/sdf.cpp:241-245 (stride1_,
    stride2_, num_x_cells_, num_y_cells_, num_z_cells_). *)
From Verif Require Import Base.

(** GRID_INDEX: three int64 indices, built at
    include/sdf_tools/sdf_generation.hpp:227 and read at L120-125. *)
Record idx := I { ix : Z; iy : Z; iz : Z }.

(** Number of cells per axis: GetNumXCells, GetNumYCells, GetNumZCells (members
    serialised at src/sdf_tools/sdf.cpp:243-245). *)
Record dims := D { nx : Z; ny : Z; nz : Z }.

(** Equality of GRID_INDEX, used by the hash tables keyed by it, e.g.
    include/sdf_tools/topology_computation.hpp:45-46 and L81. *)
Definition idx_eqb (a b : idx) : bool :=
  (ix a =? ix b) && (iy a =? iy b) && (iz a =? iz b).

(** IndexInBounds, called e.g. at include/sdf_tools/collision_map.hpp:325 and L341;
    the same test is written out at L100-103. *)
Definition in_bounds (d : dims) (i : idx) : bool :=
  (0 <=? ix i) && (0 <=? iy i) && (0 <=? iz i)
  && (ix i <? nx d) && (iy i <? ny d) && (iz i <? nz d).

(** GetDataIndex: x * stride1 + y * stride2 + z.  The strides are serialised at
    src/sdf_tools/sdf.cpp:241-242. *)
Definition data_index (d : dims) (i : idx) : Z :=
  ix i * (ny d * nz d) + iy i * nz d + iz i.

(** Number of cells, the size of the data vector (serialised at
    src/sdf_tools/sdf.cpp:227-228, the product at
    include/sdf_tools/topology_computation.hpp:114-116). *)
Definition ncells (d : dims) : Z := nx d * ny d * nz d.

(** The data members of VoxelGrid that matter: sizes, data vector and out-of-bounds
    value, serialised at src/sdf_tools/sdf.cpp:227-249.  The pose is kept apart
    (Arith.v, SdfQuery.v). *)
Record grid (A : Type) := G {
  gdims : dims;
  gdata : list A;
  goob : A
}.
Arguments G {A} _ _ _.
Arguments gdims {A} _.
Arguments gdata {A} _.
Arguments goob {A} _.

(** A freshly constructed grid: every cell holds the default value (constructors
    called at include/sdf_tools/sdf.hpp:68-78 and
    include/sdf_tools/collision_map.hpp:164-270). *)
Definition mk_grid {A} (d : dims) (def oob : A) : grid A :=
  G d (repeat def (Z.to_nat (ncells d))) oob.

(** GetImmutable(x,y,z): (cell, true) in bounds, (oob_value, false) otherwise.
    Called e.g. at include/sdf_tools/sdf_generation.hpp:254-255 and L395. *)
Definition get {A} (g : grid A) (i : idx) : A * bool :=
  if in_bounds (gdims g) i
  then (nth (Z.to_nat (data_index (gdims g) i)) (gdata g) (goob g), true)
  else (goob g, false).

(** GetImmutable(x,y,z).first, e.g. include/sdf_tools/sdf_generation.hpp:254. *)
Definition gget {A} (g : grid A) (i : idx) : A := fst (get g i).

(** SetValue(x,y,z,v): writes and returns true in bounds, returns false otherwise
    (the body of the overrides at include/sdf_tools/collision_map.hpp:405-420
    without the flag). *)
Definition set {A} (g : grid A) (i : idx) (v : A) : grid A * bool :=
  if in_bounds (gdims g) i
  then (G (gdims g) (upd (Z.to_nat (data_index (gdims g) i)) v (gdata g)) (goob g), true)
  else (g, false).

(** The grid after SetValue or an assignment through GetMutable, e.g.
    include/sdf_tools/sdf_generation.hpp:188-195. *)
Definition gset {A} (g : grid A) (i : idx) (v : A) : grid A := fst (set g i v).

(** The data vector has as many elements as the grid has cells: the invariant of
    VoxelGrid that deserialisation does not check
    (src/sdf_tools/sdf.cpp:280-369). *)
Definition wf_grid {A} (g : grid A) : Prop :=
  0 <= nx (gdims g) /\ 0 <= ny (gdims g) /\ 0 <= nz (gdims g) /\
  List.length (gdata g) = Z.to_nat (ncells (gdims g)).

(** [0; 1; ...; n-1]: the values of a loop variable, e.g.
    include/sdf_tools/sdf_generation.hpp:221. *)
Definition zrange (n : Z) : list Z := map Z.of_nat (seq 0 (Z.to_nat n)).

(** The triple loop "for x, for y, for z" used all over the repository, e.g.
    include/sdf_tools/sdf_generation.hpp:221-227. *)
Definition sweep (d : dims) : list idx :=
  flat_map (fun x => flat_map (fun y => map (fun z => I x y z) (zrange (nz d)))
                              (zrange (ny d)))
           (zrange (nx d)).

(** An index moved by an offset, e.g.
    include/sdf_tools/sdf_generation.hpp:169-171. *)
Definition add (i : idx) (t : Z * Z * Z) : idx :=
  let '(dx, dy, dz) := t in I (ix i + dx) (iy i + dy) (iz i + dz).

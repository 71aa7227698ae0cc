(** Model of CollisionMapGrid's cells, mutators and connected components:
    include/sdf_tools/collision_map.hpp and src/sdf_tools/collision_map.cpp.

    The overloads of GetMutable and SetValue that take a location in space
    convert it to an index with the (external) LocationToGridIndex and delegate
    to the index versions (collision_map.hpp:287-321, L353-388); they are in
    Location.v. *)
From Verif Require Import Base Floats Grid CCModel.

(** COLLISION_CELL, collision_map.hpp:20-32. *)
Record ccell := CC { c_occ : binary32; c_comp : Z }.

(** The members of CollisionMapGrid (collision_map.hpp:156-158) and its base class;
    the origin transform and cell sizes play no role here. *)
Record cmap := CM {
  cm_grid : grid ccell;
  cm_ncomp : Z;          (* number_of_components_ *)
  cm_frame : string;     (* frame_ *)
  cm_valid : bool        (* components_valid_ *)
}.

(** Constructors, collision_map.hpp:164-274. *)
Definition cm_new (frame : string) (d : dims) (def oob : ccell) : cmap :=
  CM (mk_grid d def oob) 0 frame false.

(** GetNumXCells, GetNumYCells, GetNumZCells of the base class, used at
    collision_map.hpp:57-61. *)
Definition cm_dims (m : cmap) : dims := gdims (cm_grid m).

(** GetImmutable(index) of the base class, used at collision_map.hpp:689. *)
Definition cm_get (m : cmap) (i : idx) : ccell * bool := get (cm_grid m) i.

(** AreComponentsValid, collision_map.hpp:282-285. *)
Definition cm_components_valid (m : cmap) : bool := cm_valid m.

(** SetValue(index, value), collision_map.hpp:390-420; L459-489 are the same for an
    rvalue. *)
Definition cm_set (m : cmap) (i : idx) (v : ccell) : cmap * bool :=
  if in_bounds (cm_dims m) i
  then (CM (gset (cm_grid m) i v) (cm_ncomp m) (cm_frame m) false, true)
  else (m, false).

(** What the reference returned by GetMutable points at,
    collision_map.hpp:328-333. *)
Inductive cref := RCell (i : idx) | ROob.

(** GetMutable(index), collision_map.hpp:323-351: in bounds the components stop
    being valid at the time of the call; out of bounds the reference is to the
    map's own out-of-bounds value. *)
Definition cm_get_mutable (m : cmap) (i : idx) : cmap * cref * bool :=
  if in_bounds (cm_dims m) i
  then (CM (cm_grid m) (cm_ncomp m) (cm_frame m) false, RCell i, true)
  else (m, ROob, false).

(** Assignment through such a reference by the caller of collision_map.hpp:323-351
    (no code of the map runs). *)
Definition cm_write_ref (m : cmap) (r : cref) (v : ccell) : cmap :=
  match r with
  | RCell i => CM (gset (cm_grid m) i v) (cm_ncomp m) (cm_frame m) (cm_valid m)
  | ROob => CM (G (gdims (cm_grid m)) (gdata (cm_grid m)) v)
               (cm_ncomp m) (cm_frame m) (cm_valid m)
  end.

(** are_connected_fn of UpdateConnectedComponents, collision_map.cpp:573-588. *)
Definition cm_connected (m : cmap) (a b : idx) : bool :=
  Bool.eqb (gt32 (c_occ (fst (cm_get m a))) half32) (gt32 (c_occ (fst (cm_get m b))) half32).

(** get_component_fn of UpdateConnectedComponents, collision_map.cpp:589-601. *)
Definition cm_component (m : cmap) (i : idx) : Z :=
  let (c, ok) := cm_get m i in if ok then c_comp c else -1.

(** mark_component_fn of UpdateConnectedComponents, collision_map.cpp:602-610. *)
Definition cm_mark (m : cmap) (i : idx) (comp : Z) : cmap :=
  let '(m1, r, ok) := cm_get_mutable m i in
  if ok then fst (cm_set m1 i (CC (c_occ (fst (cm_get m1 i))) comp)) else m1.

(** UpdateConnectedComponents, collision_map.cpp:564-618. *)
Definition cm_update (m : cmap) : res (cmap * Z) :=
  if cm_valid m then Ok (m, cm_ncomp m)
  else
    let* (m', n) := compute_connected_components (cm_dims m)
                      cm_connected cm_component cm_mark m in
    Ok (CM (cm_grid m') n (cm_frame m') true, n).

(** components.at(k).push_back(i), collision_map.cpp:773. *)
Definition at_push (l : list (list idx)) (k : Z) (i : idx) : res (list (list idx)) :=
  match nth_error l (Z.to_nat k) with
  | Some row => Ok (upd (Z.to_nat k) (row ++ [i]) l)
  | None => Throw "out_of_range"
  end.

(** ExtractConnectedComponents, collision_map.cpp:756-778; [component - 1] is
    computed in uint32_t. *)
Definition cm_extract_components (m : cmap) : res (cmap * list (list idx)) :=
  let* m1 := if cm_valid m then Ok m else let* (m', _) := cm_update m in Ok m' in
  let* comps := foldM (fun l i => at_push l (wrap_u32 (c_comp (fst (cm_get m1 i)) - 1)) i)
                  (sweep (cm_dims m1)) (repeat [] (Z.to_nat (cm_ncomp m1))) in
  Ok (m1, comps).

(** Histories of API calls by one caller: SetValue (collision_map.hpp:390),
    GetMutable (L323), an assignment through the reference returned by the k-th
    GetMutable call of the history (0-based), UpdateConnectedComponents and
    ExtractConnectedComponents (collision_map.cpp:564 and L756). *)
Inductive cm_op :=
| SetCell (i : idx) (v : ccell)
| GetRef (i : idx)
| WriteRef (k : nat) (v : ccell)
| UpdateCC
| ExtractCC.

(** One call of a history (the functions cited at [cm_op], collision_map.hpp:323-420
    and collision_map.cpp:564-618, L756-778). *)
Definition cm_step (st : cmap * list cref) (o : cm_op) : res (cmap * list cref) :=
  let (m, refs) := st in
  match o with
  | SetCell i v => Ok (fst (cm_set m i v), refs)
  | GetRef i => let '(m', r, _) := cm_get_mutable m i in Ok (m', refs ++ [r])
  | WriteRef k v =>
      match nth_error refs k with
      | Some r => Ok (cm_write_ref m r v, refs)
      | None => UB "no such reference"
      end
  | UpdateCC => let* (m', _) := cm_update m in Ok (m', refs)
  | ExtractCC => let* (m', _) := cm_extract_components m in Ok (m', refs)
  end.

(** A whole history, starting without references; no counterpart in /repo. *)
Definition cm_run (m : cmap) (ops : list cm_op) : res (cmap * list cref) :=
  foldM cm_step ops (m, []).

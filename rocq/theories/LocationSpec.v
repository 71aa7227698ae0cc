(** Vocabulary for calls that name a cell by a location in space. *)
From Coq Require Import Reals.
From Verif Require Import Base Grid CollisionMap TaggedMap SdfLock Arith SdfQuery QuerySpec Location.
Open Scope Z_scope.

(** The location lies in the cube of cell [i]: cells have side [r], and a point on
    a face shared by two cells belongs to the upper one. *)
Definition in_cube (r : R) (p : pose reals) (i : idx) (loc : rvec) : Prop :=
  let q := to_grid p loc in
  (r * IZR (ix i) <= vx q < r * (IZR (ix i) + 1) /\
   r * IZR (iy i) <= vy q < r * (IZR (iy i) + 1) /\
   r * IZR (iz i) <= vz q < r * (IZR (iz i) + 1))%R.

(** The location lies in the volume of a grid of [d] cells. *)
Definition in_volume (r : R) (p : pose reals) (d : dims) (loc : rvec) : Prop :=
  let q := to_grid p loc in
  (0 <= vx q < r * IZR (nx d) /\ 0 <= vy q < r * IZR (ny d) /\ 0 <= vz q < r * IZR (nz d))%R.

(** The call with every location replaced by the cell it lies in. *)
Definition place_index {A} (p : pose A) (w : place A) : idx :=
  match w with Cell i => i | Spot loc => cell_at p loc end.

Definition cm_by_index {A} (p : pose A) (c : cm_call A) : cm_op :=
  match c with
  | CSet w v => SetCell (place_index p w) v
  | CGetRef w => GetRef (place_index p w)
  | CWriteRef k v => WriteRef k v
  | CUpdate => UpdateCC
  | CExtract => ExtractCC
  end.

Definition tm_by_index {A} (p : pose A) (c : tm_call A) : tm_op :=
  match c with
  | KSet w v => TSet (place_index p w) v
  | KGetRef w => TGetRef (place_index p w)
  | KWriteRef k v => TWriteRef k v
  | KUpdate => TUpdateCC
  | KSegments t b => TUpdateSeg t b
  end.

Definition sdf_by_index {A} (p : pose A) (c : sdf_call A) : sdf_op :=
  match c with
  | FSet w v => SSet (place_index p w) v
  | FGetRef w => SGetRef (place_index p w)
  | FWriteRef k v => SWriteRef k v
  | FLock => SLock
  | FUnlock => SUnlock
  | FSetFrame f => SSetFrame f
  end.

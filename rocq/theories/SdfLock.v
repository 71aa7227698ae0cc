(** Model of the lock of SignedDistanceField, include/sdf_tools/sdf.hpp:107-337,
    as histories of calls.  The overloads that take a location convert it to an
    index and delegate (sdf.hpp:135-169, L199-234, L266-301); see Location.v. *)
From Verif Require Import Base Floats Grid CollisionMap SdfGen.

(** Lock, include/sdf_tools/sdf.hpp:117-120. *)
Definition sdf_lock (s : sdf) : sdf := SDF (s_grid s) (s_res s) (s_frame s) true.

(** Unlock, include/sdf_tools/sdf.hpp:122-125. *)
Definition sdf_unlock (s : sdf) : sdf := SDF (s_grid s) (s_res s) (s_frame s) false.

(** SetFrame, include/sdf_tools/sdf.hpp:103-106. *)
Definition sdf_set_frame (s : sdf) (f : string) : sdf := SDF (s_grid s) (s_res s) f (s_locked s).

(** GetMutable(index), include/sdf_tools/sdf.hpp:171-197: refused calls return a
    reference to oob_value_. *)
Definition sdf_get_mutable (s : sdf) (i : idx) : cref * bool :=
  if in_bounds (sdf_dims s) i && negb (s_locked s) then (RCell i, true) else (ROob, false).

(** Assignment through a reference that GetMutable returned,
    include/sdf_tools/sdf.hpp:175, L180 (no code of the field runs). *)
Definition sdf_write_ref (s : sdf) (r : cref) (v : binary32) : sdf :=
  match r with
  | RCell i => SDF (gset (s_grid s) i v) (s_res s) (s_frame s) (s_locked s)
  | ROob => SDF (G (gdims (s_grid s)) (gdata (s_grid s)) v) (s_res s) (s_frame s) (s_locked s)
  end.

(** One call on a field: SetValue (include/sdf_tools/sdf.hpp:236-264), GetMutable
    (L171-197), Lock, Unlock (L117-125), SetFrame (L103-106).  [SWriteRef k v]
    assigns through the reference returned by the k-th GetMutable call of the
    history (0-based). *)
Inductive sdf_op :=
| SSet (i : idx) (v : binary32)
| SGetRef (i : idx)
| SWriteRef (k : nat) (v : binary32)
| SLock
| SUnlock
| SSetFrame (f : string).

(** The effect of one call, include/sdf_tools/sdf.hpp:103-331; the list holds the
    references handed out so far. *)
Definition sdf_step (st : sdf * list cref) (o : sdf_op) : res (sdf * list cref) :=
  let (s, refs) := st in
  match o with
  | SSet i v => Ok (fst (sdf_set s i v), refs)
  | SGetRef i => Ok (s, refs ++ [fst (sdf_get_mutable s i)])
  | SWriteRef k v =>
      match nth_error refs k with
      | Some r => Ok (sdf_write_ref s r v, refs)
      | None => UB "no such reference"
      end
  | SLock => Ok (sdf_lock s, refs)
  | SUnlock => Ok (sdf_unlock s, refs)
  | SSetFrame f => Ok (sdf_set_frame s f, refs)
  end.

(** A history of such calls, include/sdf_tools/sdf.hpp:103-331, in order. *)
Definition sdf_run (st : sdf * list cref) (ops : list sdf_op) : res (sdf * list cref) :=
  foldM sdf_step ops st.

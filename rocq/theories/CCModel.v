(** Model of connected-component labelling,
    include/sdf_tools/topology_computation.hpp:24-149, generic in the callbacks
    like the C++ template.  The three std::function callbacks read and write the
    map they close over; here that map is the state [S]. *)
From Verif Require Import Base Grid.

Section CC.
  Context {S : Type}.
  Variable d : dims.                               (* source_grid dimensions *)
  Variable are_connected : S -> idx -> idx -> bool.
  Variable get_component : S -> idx -> Z.          (* std::function<int64_t(..)> *)
  Variable mark_component : S -> idx -> Z -> S.

  (** neighbor_indices, topology_computation.hpp:66-72. *)
  Definition face_neighbors (i : idx) : list idx :=
    [ I (ix i - 1) (iy i) (iz i); I (ix i + 1) (iy i) (iz i);
      I (ix i) (iy i - 1) (iz i); I (ix i) (iy i + 1) (iz i);
      I (ix i) (iy i) (iz i - 1); I (ix i) (iy i) (iz i + 1) ].

  (** queued_hashtable lookups, topology_computation.hpp:45-49 and L81: membership
      in the list of queued indices. *)
  Definition queued (h : list idx) (i : idx) : bool := existsb (idx_eqb i) h.

  (** Body of the neighbour loop, topology_computation.hpp:73-87.  The callback is
      wrapped in std::function<uint32_t(..)> at L29, so its int64 result is reduced
      modulo 2^32. *)
  Definition enqueue (s : S) (cur : idx) (qh : list idx * list idx) (n : idx)
    : list idx * list idx :=
    let (q, h) := qh in
    if wrap_u32 (get_component s n) =? 0 then
      if are_connected s cur n then
        if queued h n then (q, h) else (q ++ [n], n :: h)
      else (q, h)
    else (q, h).

  (** The while loop of MarkConnectedComponent, topology_computation.hpp:55-88.
      [fuel] bounds the number of pops. *)
  Fixpoint bfs (fuel : nat) (s : S) (q h : list idx) (c : Z) : res S :=
    match q with
    | [] => Ok s
    | cur :: q' =>
        match fuel with
        | O => UB "fuel"
        | Datatypes.S fuel' =>
            let s' := mark_component s cur c in
            let (q2, h2) := fold_left (enqueue s' cur) (face_neighbors cur) (q', h) in
            bfs fuel' s' q2 h2 c
        end
    end.

  (** MarkConnectedComponent, topology_computation.hpp:24-90.  Its return value
      is always 0 (marked_cells is never incremented, L54 and L89). *)
  Definition mark_connected_component (s : S) (start : idx) (c : Z) : res (S * Z) :=
    let* s' := bfs (Datatypes.S (Z.to_nat (ncells d))) s [start] [start] c in
    Ok (s', 0).

  (** State of the sweep, topology_computation.hpp:114-118: map, marked_cells,
      connected_components, and whether the function has returned early (L142). *)
  Record cc_state := CS { cs_map : S; cs_marked : Z; cs_count : Z; cs_returned : bool }.

  (** Body of the sweep, topology_computation.hpp:126-144; [cs_returned] models the
      early return at L140-143. *)
  Definition cc_visit (st : cc_state) (i : idx) : res cc_state :=
    if cs_returned st then Ok st
    else if get_component (cs_map st) i =? 0 then
      let count := wrap_u32 (cs_count st + 1) in
      let* (s', marked) := mark_connected_component (cs_map st) i count in
      let total := cs_marked st + marked in
      Ok (CS s' total count (total =? ncells d))
    else Ok st.

  (** ComputeConnectedComponents, topology_computation.hpp:92-149. *)
  Definition compute_connected_components (s : S) : res (S * Z) :=
    let s0 := fold_left (fun s i => mark_component s i 0) (sweep d) s in
    let* st := foldM cc_visit (sweep d) (CS s0 0 0 false) in
    Ok (cs_map st, cs_count st).
End CC.
Arguments CS {S} _ _ _ _.

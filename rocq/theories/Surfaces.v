(** Model of the surface and topology functions:
    include/sdf_tools/topology_computation.hpp:150-718 and their callers in
    CollisionMapGrid and TaggedObjectCollisionMapGrid.

    The two map classes have the same text up to the cell type, so the functions
    are written over a cell type with an occupancy and a component.

    A std::unordered_map from indices is a list of entries with distinct keys;
    the order in which the program visits it is unspecified and is a parameter
    [order] (the theorems quantify over all of them).
    Simplification: int32_t and int64_t counters are unbounded. *)
From Verif Require Import Base Floats Grid CollisionMap TaggedMap.

(** Is the index a key of the hash map, as in queued_hashtable[v] <= 0 at
    include/sdf_tools/topology_computation.hpp:216? *)
Definition mem (i : idx) (l : list idx) : bool := existsb (idx_eqb i) l.

(** ** Connectivity of surface vertices, topology_computation.hpp:150-296 *)

(** The six steps in the order in which the bits are tested,
    include/sdf_tools/topology_computation.hpp:209-286: bit 0 is z-, bit 1 z+, bit 2
    y-, bit 3 y+, bit 4 x-, bit 5 x+. *)
Definition steps : list (Z * (Z * Z * Z)) :=
  [(0, (0, 0, -1)); (1, (0, 0, 1)); (2, (0, -1, 0)); (3, (0, 1, 0)); (4, (-1, 0, 0));
   (5, (1, 0, 0))].

(** surface_vertex_connectivity.at(v),
    include/sdf_tools/topology_computation.hpp:207. *)
Fixpoint conn_at (conn : list (idx * Z)) (v : idx) : res Z :=
  match conn with
  | [] => Throw "out_of_range"
  | (w, b) :: conn' => if idx_eqb v w then Ok b else conn_at conn' v
  end.

(** One of the six "try to add the vertex" blocks,
    include/sdf_tools/topology_computation.hpp:209-286. *)
Definition push (v : idx) (bits : Z) (qs : list idx * list idx) (s : Z * (Z * Z * Z))
  : list idx * list idx :=
  let (queue, queued) := qs in
  let w := add v (snd s) in
  if Z.testbit bits (fst s) && negb (mem w queued)
  then (queue ++ [w], w :: queued) else qs.

(** The while loop, include/sdf_tools/topology_computation.hpp:197-287.  Of
    vertex_components only whether an entry is positive is ever read, so it is kept
    as the list of labelled vertices. *)
Fixpoint walk (fuel : nat) (conn : list (idx * Z)) (queue queued marked : list idx) (count : nat)
  : res (list idx * nat) :=
  match queue with
  | [] => Ok (marked, count)
  | v :: queue' =>
      match fuel with
      | O => UB "walk did not end"
      | S fuel' =>
          let* bits := conn_at conn v in
          let (q, s) := fold_left (push v bits) steps (queue', queued) in
          walk fuel' conn q s (v :: marked) (S count)
      end
  end.

(** The loop over the vertices with its early exit,
    include/sdf_tools/topology_computation.hpp:166-294. *)
Fixpoint scan (conn : list (idx * Z)) (keys marked : list idx) (comps processed : nat) : res nat :=
  match keys with
  | [] => Ok comps
  | k :: keys' =>
      if mem k marked then scan conn keys' marked comps processed
      else
        let* (marked', n) := walk (S (length conn)) conn [k] [k] marked 0 in
        if (processed + n =? length conn)%nat then Ok (S comps)
        else scan conn keys' marked' (S comps) (processed + n)
  end.

(** ComputeConnectivityOfSurfaceVertices,
    include/sdf_tools/topology_computation.hpp:151-296. *)
Definition surface_vertex_components (conn : list (idx * Z)) : res nat :=
  scan conn (map fst conn) [] 0 0.

(** ** ComputeHolesInSurface, topology_computation.hpp:326-639 *)

(** The corners a surface voxel contributes,
    include/sdf_tools/topology_computation.hpp:377-484.  The variable
    xyzp1_component is read at z - 1, as the code does (L383-386). *)
Definition voxel_vertices (component : Z) (get : idx -> Z) (i : idx) : list idx :=
  let (x, y, z) := i in
  let differs c := negb (component =? c) in
  let xyzm1 := get (I x y (z - 1)) in
  let xyzp1 := get (I x y (z - 1)) in
  let xym1z := get (I x (y - 1) z) in
  let xyp1z := get (I x (y + 1) z) in
  let xm1yz := get (I (x - 1) y z) in
  let xp1yz := get (I (x + 1) y z) in
  let corner a b c v := if differs a || differs b || differs c then [v] else [] in
  corner xyzm1 xym1z xm1yz (I x y z) ++
  corner xyzp1 xym1z xm1yz (I x y (z + 1)) ++
  corner xyzm1 xyp1z xm1yz (I x (y + 1) z) ++
  corner xyzp1 xyp1z xm1yz (I x (y + 1) (z + 1)) ++
  corner xyzm1 xym1z xp1yz (I (x + 1) y z) ++
  corner xyzp1 xym1z xp1yz (I (x + 1) y (z + 1)) ++
  corner xyzm1 xyp1z xp1yz (I (x + 1) (y + 1) z) ++
  corner xyzp1 xyp1z xp1yz (I (x + 1) (y + 1) (z + 1)).

(** surface_vertices[v] = 1, include/sdf_tools/topology_computation.hpp:473: the key
    is added if it is new. *)
Definition insert (l : list idx) (v : idx) : list idx := if mem v l then l else l ++ [v].

(** The loop over the surface voxels,
    include/sdf_tools/topology_computation.hpp:375-485. *)
Definition surface_vertices (component : Z) (get : idx -> Z) (surface : list idx) : list idx :=
  fold_left insert (flat_map (voxel_vertices component get) surface) [].

(** The test for one edge of a vertex, e.g.
    include/sdf_tools/topology_computation.hpp:597-603: an edge counts when some but
    not all of the four voxels around it are outside the component. *)
Definition exposed (component a b c d : Z) : bool :=
  let differs v := negb (component =? v) in
  (differs a || differs b || differs c || differs d) &&
  negb (differs a && differs b && differs c && differs d).

(** The six edges of a vertex, include/sdf_tools/topology_computation.hpp:510-608. *)
Definition vertex_edges (component : Z) (get : idx -> Z) (v : idx) : list bool :=
  let (x, y, z) := v in
  let mmm := get (I (x - 1) (y - 1) (z - 1)) in
  let mmp := get (I (x - 1) (y - 1) z) in
  let mpm := get (I (x - 1) y (z - 1)) in
  let mpp := get (I (x - 1) y z) in
  let pmm := get (I x (y - 1) (z - 1)) in
  let pmp := get (I x (y - 1) z) in
  let ppm := get (I x y (z - 1)) in
  let ppp := get (I x y z) in
  [ exposed component mmm mpm pmm ppm;       (* z- *)
    exposed component mmp mpp pmp ppp;       (* z+ *)
    exposed component mmm mmp pmm pmp;       (* y- *)
    exposed component mpm mpp ppm ppp;       (* y+ *)
    exposed component mmm mmp mpm mpp;       (* x- *)
    exposed component pmm pmp ppm ppp ].     (* x+ *)

(** vertex_connectivity[key] |= ...,
    include/sdf_tools/topology_computation.hpp:606. *)
Fixpoint bits_of (l : list bool) : Z :=
  match l with
  | [] => 0
  | b :: l' => Z.b2z b + 2 * bits_of l'
  end.

(** edge_count, include/sdf_tools/topology_computation.hpp:605. *)
Definition edge_count (l : list bool) : nat := count_occ Bool.bool_dec l true.

Section Order.
  (** The order in which an unordered_map holding the given keys is visited. *)
  Variable order : list idx -> list idx.

  (** ComputeHolesInSurface, include/sdf_tools/topology_computation.hpp:326-639,
      without its printing. *)
  Definition holes_in_surface (component : Z) (surface : list idx) (get : idx -> Z)
    : res (Z * Z) :=
    let vertices := order (surface_vertices component get (order surface)) in
    let edges := map (vertex_edges component get) vertices in
    let with_edges k := Z.of_nat (length (filter (fun l => edge_count l =? k)%nat edges)) in
    let m3 := with_edges 3%nat in
    let m5 := with_edges 5%nat in
    let m6 := with_edges 6%nat in
    let conn := map (fun v => (v, bits_of (vertex_edges component get v))) (order vertices) in
    let* surfaces := surface_vertex_components conn in
    let voids := Z.of_nat surfaces - 1 in
    Ok (1 + Z.quot (m5 + 2 * m6 - m3) 8 + voids, voids).

  (** std::map::find or operator[] of a std::map, e.g.
      include/sdf_tools/topology_computation.hpp:317 and
      src/sdf_tools/tagged_object_collision_map.cpp:813. *)
  Definition map_get {V} (k : Z) (l : list (Z * V)) : option V :=
    match find (fun e => fst e =? k) l with Some e => Some (snd e) | None => None end.

  (** component_surfaces[k][i] = 1,
      include/sdf_tools/topology_computation.hpp:317-318. *)
  Definition add_surface (m : list (Z * list idx)) (k : Z) (i : idx) : list (Z * list idx) :=
    map_put k (insert (match map_get k m with Some l => l | None => [] end) i) m.

  (** ** Surfaces of components: ExtractComponentSurfaces,
      include/sdf_tools/topology_computation.hpp:298-324. *)
  Definition component_surfaces (d : dims) (get : idx -> Z) (is_surface : idx -> bool)
    : list (Z * list idx) :=
    fold_left (fun m i => if is_surface i then add_surface m (get i) i else m) (sweep d) [].

  (** ComputeComponentTopology,
      include/sdf_tools/topology_computation.hpp:641-671. *)
  Definition component_topology (d : dims) (get : idx -> Z) (is_surface : idx -> bool)
    : res (list (Z * (Z * Z))) :=
    foldM (fun acc e =>
             let* h := holes_in_surface (fst e) (snd e) get in
             Ok (map_put (fst e) h acc))
          (component_surfaces d get is_surface) [].
End Order.

(** ** Conversions of surfaces, topology_computation.hpp:673-718 *)

(** ExtractStaticSurface, include/sdf_tools/topology_computation.hpp:675-693.  A raw
    surface is a map from indices to uint8_t. *)
Definition static_surface (raw : list (idx * Z)) : list idx :=
  map fst (filter (fun e => snd e =? 1) raw).

(** Assignment to an entry of an unordered_map from indices,
    include/sdf_tools/topology_computation.hpp:703, L715. *)
Fixpoint index_put {V} (i : idx) (v : V) (l : list (idx * V)) : list (idx * V) :=
  match l with
  | [] => [(i, v)]
  | (j, w) :: l' => if idx_eqb i j then (i, v) :: l' else (j, w) :: index_put i v l'
  end.

(** ConvertToDynamicSurface, include/sdf_tools/topology_computation.hpp:695-706. *)
Definition dynamic_surface (static : list idx) : list (idx * Z) :=
  fold_left (fun m i => index_put i 1 m) static [].

(** BuildSurfaceIndexMap, include/sdf_tools/topology_computation.hpp:708-718. *)
Definition surface_index_map (static : list idx) : list (idx * nat) :=
  fold_left (fun m e => index_put (snd e) (fst e) m) (combine (seq 0 (length static)) static) [].

(** ** The map classes *)
Section Cells.
  Context {A : Type} (occ : A -> binary32) (comp : A -> Z).

  (** The indices of one of the three loops of IsSurfaceIndex,
      include/sdf_tools/collision_map.hpp:45-92. *)
  Definition between (lo hi : Z) : list Z :=
    map (fun k => lo + Z.of_nat k) (seq 0 (Z.to_nat (hi - lo + 1))).

  (** IsSurfaceIndex, include/sdf_tools/collision_map.hpp:45-92,
      include/sdf_tools/tagged_object_collision_map.hpp:57-104. *)
  Definition is_surface_index (g : grid A) (i : idx) : bool :=
    let d := gdims g in
    if negb (in_bounds d i) then false
    else
      let ours := occ (fst (get g i)) in
      existsb (fun x => existsb (fun y => existsb (fun z =>
        negb (idx_eqb (I x y z) i) &&
        (let other := occ (fst (get g (I x y z))) in
         (lt32 ours half32 && ge32 other half32) ||
         (gt32 ours half32 && le32 other half32) ||
         (eq32 ours half32 && negb (eq32 other half32))))
        (between (Z.max 0 (iz i - 1)) (Z.min (nz d - 1) (iz i + 1))))
        (between (Z.max 0 (iy i - 1)) (Z.min (ny d - 1) (iy i + 1))))
        (between (Z.max 0 (ix i - 1)) (Z.min (nx d - 1) (ix i + 1))).

  (** IsConnectedComponentSurfaceIndex, collision_map.hpp:94-154,
      tagged_object_collision_map.hpp:106-169.  The last edge test compares z with
      the number of cells, as the code does. *)
  Definition is_component_surface (g : grid A) (i : idx) : bool :=
    let d := gdims g in
    let (x, y, z) := i in
    if negb (in_bounds d i) then false
    else if (x =? 0) || (y =? 0) || (z =? 0)
            || (x =? nx d - 1) || (y =? ny d - 1) || (z =? nz d) then true
    else
      let ours := comp (fst (get g i)) in
      let differs j := negb (ours =? comp (fst (get g j))) in
      differs (I x y (z - 1)) || differs (I x y (z + 1)) ||
      differs (I x (y - 1) z) || differs (I x (y + 1) z) ||
      differs (I (x - 1) y z) || differs (I (x + 1) y z).

  (** CheckIfCandidateCorner, collision_map.hpp:549-619,
      tagged_object_collision_map.hpp:599-669. *)
  Definition candidate_corner (g : grid A) (i : idx) : bool * bool :=
    let (c, ok) := get g i in
    if ok then
      let different j := let (n, inside) := get g j in inside && negb (comp n =? comp c) in
      let count :=
        Z.b2z (different (add i (-1, 0, 0))) + Z.b2z (different (add i (1, 0, 0))) +
        Z.b2z (different (add i (0, -1, 0))) + Z.b2z (different (add i (0, 1, 0))) +
        Z.b2z (different (add i (0, 0, -1))) + Z.b2z (different (add i (0, 0, 1))) in
      if count <=? 1 then (false, true) else (true, true)
    else (false, false).

  (** The get_component_fn of all callers, collision_map.cpp:631-643. *)
  Definition component_or_outside (g : grid A) (i : idx) : Z :=
    let (c, ok) := get g i in if ok then comp c else -1.

  (** FILLED_COMPONENTS, include/sdf_tools/collision_map.hpp:647,
      include/sdf_tools/tagged_object_collision_map.hpp:699. *)
  Definition filled_bit : Z := 1.

  (** EMPTY_COMPONENTS, include/sdf_tools/collision_map.hpp:648,
      include/sdf_tools/tagged_object_collision_map.hpp:700. *)
  Definition empty_bit : Z := 2.

  (** UNKNOWN_COMPONENTS, include/sdf_tools/collision_map.hpp:649,
      include/sdf_tools/tagged_object_collision_map.hpp:701. *)
  Definition unknown_bit : Z := 4.

  (** is_surface_index_fn of ExtractComponentSurfaces,
      src/sdf_tools/collision_map.cpp:715-750,
      src/sdf_tools/tagged_object_collision_map.cpp:510-546, and of the tagged
      ComputeComponentTopology,
      src/sdf_tools/tagged_object_collision_map.cpp:449-485: filled cells are looked
      up at (x, y, y) and unknown ones at (x, z, z), as the code does. *)
  Definition surface_of_types (types : Z) (g : grid A) (i : idx) : bool :=
    let (x, y, z) := i in
    let o := occ (fst (get g i)) in
    if gt32 o half32 then
      (0 <? Z.land types filled_bit) && is_component_surface g (I x y y)
    else if lt32 o half32 then
      (0 <? Z.land types empty_bit) && is_component_surface g (I x y z)
    else
      (0 <? Z.land types unknown_bit) && is_component_surface g (I x z z).

  (** ExtractComponentSurfaces, collision_map.cpp:697-754,
      tagged_object_collision_map.cpp:492-550. *)
  Definition extract_component_surfaces (types : Z) (g : grid A) : list (Z * list idx) :=
    component_surfaces (gdims g) (component_or_outside g) (surface_of_types types g).
End Cells.

(** is_surface_index_fn of CollisionMapGrid::ComputeComponentTopology,
    src/sdf_tools/collision_map.cpp:644-666. *)
Definition cm_surface (ignore_empty : bool) (g : grid ccell) (i : idx) : bool :=
  (if ignore_empty then gt32 (c_occ (fst (get g i))) half32 else true)
  && is_component_surface c_comp g i.

(** CollisionMapGrid::ComputeComponentTopology,
    src/sdf_tools/collision_map.cpp:620-671. *)
Definition cm_topology (order : list idx -> list idx) (ignore_empty recompute : bool) (m : cmap)
  : res (cmap * list (Z * (Z * Z))) :=
  let* m1 := if recompute then let* (m', _) := cm_update m in Ok m' else Ok m in
  let* t := component_topology order (cm_dims m1) (component_or_outside c_comp (cm_grid m1))
              (cm_surface ignore_empty (cm_grid m1)) in
  Ok (m1, t).

(** TaggedObjectCollisionMapGrid::ComputeComponentTopology,
    tagged_object_collision_map.cpp:424-490. *)
Definition tm_topology (order : list idx -> list idx) (types : Z) (recompute : bool) (m : tmap)
  : res (tmap * list (Z * (Z * Z))) :=
  let* m1 := if recompute then let* (m', _) := tm_update m in Ok m' else Ok m in
  let* t := component_topology order (tm_dims m1) (component_or_outside t_comp (tm_grid m1))
              (surface_of_types t_occ t_comp types (tm_grid m1)) in
  Ok (m1, t).

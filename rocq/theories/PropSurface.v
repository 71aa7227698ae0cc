(** C41-C45, C67-C70: surfaces, corners, holes and voids. *)
From Coq Require Import Permutation.
From Verif Require Import Base Floats Grid TopoSpec SurfaceSpec CollisionMap ComponentSpec
  CollisionMapProofs TaggedMap Surfaces VertexProofs HoleProofs SurfaceProofs TopologyProofs
  TopologyThms SurfaceThms TaggedSpec TaggedProofs SurfaceAgree.

(** Both map classes have the same text here, so statements range over a cell
    type with an occupancy and a component label; [ccell] and [tcell] are the two
    instances. *)

(** ** C41: the surfaces per component *)

(** Each component is listed at most once, with no cell repeated. *)
Theorem C41_listed_once : forall A (occ : A -> binary32) (comp : A -> Z) types g,
  well_listed (extract_component_surfaces occ comp types g).
Proof. exact (fun A occ comp types g => surfaces_well _ _ _). Qed.
Print Assumptions C41_listed_once.

(** Full statement: for every mask and map, [listed ... k i] iff the cell is in
    bounds, labelled [k], requested and a [surface_cell].  Proved for empty cells
    when no cell carries the label of the out-of-bounds value; false for filled and
    unknown cells, which are looked up at another index (below). *)
Theorem C41_empty_surfaces_partial : forall A (occ : A -> binary32) (comp : A -> Z) g,
  (forall i, in_bounds (gdims g) i = true -> label comp g i <> comp (goob g)) ->
  forall k i, listed (extract_component_surfaces occ comp 2 g) k i <->
    label comp g i = k /\ requested 2 (occ (gget g i)) /\ surface_cell (gdims g) (label comp g) i.
Proof. exact (fun A => empty_surfaces). Qed.
Print Assumptions C41_empty_surfaces_partial.

(** In every mask and map, what is listed: the surface test is made at
    [looked_up], which is the cell itself only for empty cells. *)
Theorem C41_what_is_listed_partial : forall A (occ : A -> binary32) (comp : A -> Z) types g k i,
  0 <= types ->
  (listed (extract_component_surfaces occ comp types g) k i <->
   in_bounds (gdims g) i = true /\ label comp g i = k /\ requested types (occ (gget g i)) /\
   is_component_surface comp g (looked_up (occ (gget g i)) i) = true).
Proof. exact (fun A => extract_listed). Qed.
Print Assumptions C41_what_is_listed_partial.

(** The surface test itself is right when the label differs from that of the
    out-of-bounds value. *)
Theorem C41_surface_test : forall A (comp : A -> Z) (g : grid A) i,
  (in_bounds (gdims g) i = true -> comp (goob g) <> label comp g i) ->
  (is_component_surface comp g i = true <-> surface_cell (gdims g) (label comp g) i).
Proof. exact (fun A => component_surface_spec). Qed.
Print Assumptions C41_surface_test.

(** Refuted: on every fully occupied map of at least 5 cells per side, the edge
    cell (2,2,0) is never listed. *)
Theorem C41_filled_missed_refuted : forall A (occ : A -> binary32) (comp : A -> Z) (g : grid A) c,
  (forall i, in_bounds (gdims g) i = true -> label comp g i = c) ->
  5 <= nx (gdims g) -> 5 <= ny (gdims g) -> 5 <= nz (gdims g) ->
  (forall i, in_bounds (gdims g) i = true -> gt32 (occ (gget g i)) half32 = true) ->
  surface_cell (gdims g) (label comp g) (I 2 2 0) /\ requested 1 (occ (gget g (I 2 2 0))) /\
  forall types k, 0 <= types -> ~ listed (extract_component_surfaces occ comp types g) k (I 2 2 0).
Proof. exact (fun A => filled_surface_missed). Qed.
Print Assumptions C41_filled_missed_refuted.

Theorem C41_unknown_missed_refuted : forall A (occ : A -> binary32) (comp : A -> Z) (g : grid A) c,
  (forall i, in_bounds (gdims g) i = true -> label comp g i = c) ->
  5 <= nx (gdims g) -> 5 <= ny (gdims g) -> 5 <= nz (gdims g) ->
  (forall i, in_bounds (gdims g) i = true ->
     gt32 (occ (gget g i)) half32 = false /\ lt32 (occ (gget g i)) half32 = false) ->
  surface_cell (gdims g) (label comp g) (I 2 0 2) /\ requested 4 (occ (gget g (I 2 0 2))) /\
  forall types k, 0 <= types -> ~ listed (extract_component_surfaces occ comp types g) k (I 2 0 2).
Proof. exact (fun A => unknown_surface_missed). Qed.
Print Assumptions C41_unknown_missed_refuted.

(** Refuted the other way: an interior cell is listed. *)
Theorem C41_interior_listed_refuted : forall A (occ : A -> binary32) (comp : A -> Z) (g : grid A) c,
  (forall i, in_bounds (gdims g) i = true -> label comp g i = c) ->
  3 <= nx (gdims g) -> 3 <= nz (gdims g) -> nz (gdims g) < ny (gdims g) -> comp (goob g) <> c ->
  (forall i, in_bounds (gdims g) i = true -> gt32 (occ (gget g i)) half32 = true) ->
  ~ surface_cell (gdims g) (label comp g) (I 1 (nz (gdims g) - 1) 1) /\
  listed (extract_component_surfaces occ comp 1 g) c (I 1 (nz (gdims g) - 1) 1).
Proof. exact (fun A => interior_listed). Qed.
Print Assumptions C41_interior_listed_refuted.

(** Refuted: with an out-of-bounds value that carries the same label, cells on the
    far z edge are not recognised. *)
Theorem C41_far_edge_missed_refuted : forall A (comp : A -> Z) (g : grid A) c,
  (forall i, in_bounds (gdims g) i = true -> label comp g i = c) ->
  3 <= nx (gdims g) -> 3 <= ny (gdims g) -> 2 <= nz (gdims g) -> comp (goob g) = c ->
  surface_cell (gdims g) (label comp g) (I 1 1 (nz (gdims g) - 1)) /\
  is_component_surface comp g (I 1 1 (nz (gdims g) - 1)) = false.
Proof. exact (fun A => far_edge_missed). Qed.
Print Assumptions C41_far_edge_missed_refuted.

(** ** C42: candidate corners *)
Theorem C42_candidate_corner : forall A (comp : A -> Z) (g : grid A) i,
  (candidate_corner comp g i = (true, true) <->
   in_bounds (gdims g) i = true /\
   exists j k, j <> k /\ face_adjacent i j /\ face_adjacent i k /\
     in_bounds (gdims g) j = true /\ in_bounds (gdims g) k = true /\
     label comp g j <> label comp g i /\ label comp g k <> label comp g i) /\
  (candidate_corner comp g i = (false, false) <-> in_bounds (gdims g) i = false) /\
  (snd (candidate_corner comp g i) = in_bounds (gdims g) i).
Proof. exact (fun A => candidate_corner_spec). Qed.
Print Assumptions C42_candidate_corner.

(** ** C70: the occupancy surface *)
Theorem C70_surface_index : forall A (occ : A -> binary32) (g : grid A) i,
  (forall j, is_nan 24 128 (occ (gget g j)) = false) ->
  (is_surface_index occ g i = true <->
   in_bounds (gdims g) i = true /\
   exists j, touches i j /\ in_bounds (gdims g) j = true /\
     kind_of (occ (gget g j)) <> kind_of (occ (gget g i))).
Proof. exact (fun A => surface_index_spec). Qed.
Print Assumptions C70_surface_index.

(** ** C43: conversions between surface representations *)
Theorem C43_static_surface : forall raw i, In i (static_surface raw) <-> In (i, 1) raw.
Proof. exact static_in. Qed.
Print Assumptions C43_static_surface.

Theorem C43_dynamic_surface : forall l i v, In (i, v) (dynamic_surface l) <-> v = 1 /\ In i l.
Proof. exact dynamic_spec. Qed.
Print Assumptions C43_dynamic_surface.

Theorem C43_round_trip : forall raw, (forall i v, In (i, v) raw -> v = 1) ->
  forall i v, In (i, v) (dynamic_surface (static_surface raw)) <-> In (i, v) raw.
Proof.
  intros raw H i v. rewrite dynamic_spec, static_in. split.
  - intros (-> & K). exact K.
  - intros K. rewrite <- (H i v K). auto.
Qed.
Print Assumptions C43_round_trip.

Theorem C43_index_map : forall l i n, NoDup l ->
  (In (i, n) (surface_index_map l) <-> nth_error l n = Some i).
Proof. exact index_map_spec. Qed.
Print Assumptions C43_index_map.

(** ** C44: components of the vertex graph *)
Theorem C44_components_counted : forall graph,
  NoDup (map fst graph) -> graph_symmetric graph -> ~ has_dangling_bit graph ->
  exists n, surface_vertex_components graph = Ok n /\
            component_count (map fst graph) (points_at graph) n.
Proof.
  intros graph N S D. destruct (components_ok graph N S) as [(n & E & C & _)|(_ & F)]; [|contradiction].
  exists n. auto.
Qed.
Print Assumptions C44_components_counted.

Theorem C44_missing_vertex_throws : forall graph,
  NoDup (map fst graph) -> graph_symmetric graph -> has_dangling_bit graph ->
  surface_vertex_components graph = Throw "out_of_range".
Proof.
  intros graph N S D. destruct (components_ok graph N S) as [(n & _ & _ & F)|(E & _)]; [contradiction|auto].
Qed.
Print Assumptions C44_missing_vertex_throws.

Theorem C44_any_order : forall graph graph',
  NoDup (map fst graph) -> graph_symmetric graph -> Permutation graph graph' ->
  surface_vertex_components graph = surface_vertex_components graph'.
Proof. exact components_permutation. Qed.
Print Assumptions C44_any_order.

(** On any graph, symmetric or not, the call ends, and throws only over a missing
    vertex. *)
Theorem C44_always_ends : forall graph, NoDup (map fst graph) ->
  (exists n, surface_vertex_components graph = Ok n) \/
  (surface_vertex_components graph = Throw "out_of_range" /\ has_dangling_bit graph).
Proof. exact (fun graph N => scan_total graph N (map fst graph) (incl_refl _) [] 0%nat 0%nat). Qed.
Print Assumptions C44_always_ends.

(** Holes and voids of a map do not depend on any hash order. *)
Theorem C44_topology_any_order : forall o o' ignore_empty recompute m,
  any_order o -> any_order o' ->
  cm_topology o ignore_empty recompute m = cm_topology o' ignore_empty recompute m.
Proof. exact cm_topology_order_free. Qed.
Print Assumptions C44_topology_any_order.

Theorem C44_tagged_topology_any_order : forall o o' types recompute m,
  any_order o -> any_order o' ->
  tm_topology o types recompute m = tm_topology o' types recompute m.
Proof. exact tm_topology_order_free. Qed.
Print Assumptions C44_tagged_topology_any_order.

(** ** C45: mirror images *)

(** Refuted for z: a 2 x 2 x 2 block with one voxel on top gets an answer, its
    mirror image an exception, in every hash order. *)
Theorem C45_z_mirror_refuted : exists m m',
  sound m /\ sound m' /\ mirrored mirror_z (cm_grid m) (cm_grid m') /\
  forall o, any_order o ->
    answer (cm_topology o true true m) = Ok [(2, (1, 1))] /\
    cm_topology o true true m' = Throw "out_of_range".
Proof.
  exists knobbed_map, knobbed_mirror.
  split; [apply build_sound; vm_compute; congruence|].
  split; [apply build_sound; vm_compute; congruence|].
  split; [exact knobbed_mirrored|].
  exact (fun o P => conj (knobbed_answer o P) (knobbed_mirror_answer o P)).
Qed.
Print Assumptions C45_z_mirror_refuted.

(** It does hold for mirror images in x and y (labels carried along). *)
Theorem C45_xy_mirror_partial : forall o o' ignore_empty m m',
  any_order o -> any_order o' ->
  mirrored mirror_x (cm_grid m) (cm_grid m') \/ mirrored mirror_y (cm_grid m) (cm_grid m') ->
  answer (cm_topology o ignore_empty false m) = answer (cm_topology o' ignore_empty false m').
Proof. exact mirror_topology. Qed.
Print Assumptions C45_xy_mirror_partial.

(** ** C67: ComputeComponentTopology answers *)

(** Refuted: it throws on every map in which a 2 x 2 patch of occupied cells with
    occupied cells below has nothing occupied above, in particular on every solid
    map of at least 2 cells per side. *)
Theorem C67_flat_top_throws_refuted : forall o ignore_empty m x y z,
  any_order o -> sound m -> occupied_flat_top m x y z ->
  cm_topology o ignore_empty true m = Throw "out_of_range".
Proof. exact occupied_flat_top_throws. Qed.
Print Assumptions C67_flat_top_throws_refuted.

Theorem C67_solid_map_throws_refuted : forall o ignore_empty m,
  any_order o -> sound m ->
  2 <= nx (cm_dims m) -> 2 <= ny (cm_dims m) -> 2 <= nz (cm_dims m) ->
  (forall i, in_bounds (cm_dims m) i = true -> gt32 (occupancy_at m i) half32 = true) ->
  cm_topology o ignore_empty true m = Throw "out_of_range".
Proof.
  exact (fun o e m P S X Y Z F =>
    occupied_flat_top_throws o e m _ _ _ P S (solid_flat_top m X Y Z F)).
Qed.
Print Assumptions C67_solid_map_throws_refuted.

(** The same for any labelling that is not recomputed. *)
Theorem C67_labelled_flat_top_throws_refuted : forall o ignore_empty m c x y z,
  any_order o -> 0 <= c ->
  (ignore_empty = true -> forall i, in_bounds (cm_dims m) i = true -> component_at m i = c ->
     gt32 (occupancy_at m i) half32 = true) ->
  flat_top (cm_dims m) (component_at m) c x y z ->
  cm_topology o ignore_empty false m = Throw "out_of_range".
Proof. exact flat_top_topology. Qed.
Print Assumptions C67_labelled_flat_top_throws_refuted.

(** ** C68: voids are cavities *)

(** Refuted: an object without a cavity is reported with one void. *)
Theorem C68_bogus_void_refuted : exists m m' n,
  sound m /\ cm_update m = Ok (m', n) /\
  ~ has_cavity (cm_dims m') (component_at m') 2 /\
  forall o, any_order o -> answer (cm_topology o true true m) = Ok [(2, (1, 1))].
Proof.
  destruct knobbed_update as (n & E). exists knobbed_map, knobbed_labelled, n.
  split; [apply build_sound; vm_compute; congruence|]. split; [exact E|].
  split; [exact knobbed_solid|exact knobbed_answer].
Qed.
Print Assumptions C68_bogus_void_refuted.

(** ** C69: plain and tagged maps agree *)

(** Refuted: with one occupied cell, the tagged map lists no filled component. *)
Theorem C69_tagged_disagrees_refuted : exists m t,
  cm_dims m = tm_dims t /\
  (forall i, in_bounds (cm_dims m) i = true -> occupancy_at m i = t_occ (fst (tm_get t i))) /\
  forall o o', any_order o -> any_order o' ->
    answer (cm_topology o true true m) = Ok [(2, (0, 0))] /\
    answer (tm_topology o' 1 true t) = Ok [].
Proof.
  exists lone_map, lone_tagged. destruct lone_same_occupancy as (D & S).
  exact (conj D (conj S lone_answers)).
Qed.
Print Assumptions C69_tagged_disagrees_refuted.

(** What does hold: the two classes number the components alike ... *)
Theorem C69_same_components : forall m t,
  sound m -> tsound t -> tm_dims t = cm_dims m ->
  (forall i, in_bounds (cm_dims m) i = true -> tocc t i = occupancy_at m i) ->
  exists m' t' n, cm_update m = Ok (m', n) /\ tm_update t = Ok (t', n) /\
    forall i, in_bounds (cm_dims m) i = true -> tcomp t' i = component_at m' i.
Proof. exact same_numbers. Qed.
Print Assumptions C69_same_components.

(** ... and report the same topology, of all components or of the filled ones, as
    long as looking up the wrong cell does no harm ... *)
Theorem C69_harmless_lookups_partial : forall m t o o' (all : bool) m' n,
  any_order o -> any_order o' -> sound m -> tsound t -> tm_dims t = cm_dims m ->
  (forall i, in_bounds (cm_dims m) i = true -> tocc t i = occupancy_at m i) ->
  t_comp (goob (tm_grid t)) = c_comp (goob (cm_grid m)) ->
  cm_update m = Ok (m', n) ->
  (forall i, in_bounds (cm_dims m) i = true -> all = true \/ gt32 (occupancy_at m i) half32 = true ->
     is_component_surface c_comp (cm_grid m') (looked_up (occupancy_at m i) i) =
     is_component_surface c_comp (cm_grid m') i) ->
  answer (tm_topology o' (if all then 7 else 1) true t) = answer (cm_topology o (negb all) true m).
Proof. exact same_topology_any. Qed.
Print Assumptions C69_harmless_lookups_partial.

(** ... as in every map of at most two layers along x that is as wide as high. *)
Theorem C69_thin_partial : forall m t o o' (all : bool),
  any_order o -> any_order o' -> sound m -> tsound t -> tm_dims t = cm_dims m ->
  (forall i, in_bounds (cm_dims m) i = true -> tocc t i = occupancy_at m i) ->
  t_comp (goob (tm_grid t)) = c_comp (goob (cm_grid m)) ->
  nx (cm_dims m) <= 2 -> ny (cm_dims m) = nz (cm_dims m) ->
  answer (tm_topology o' (if all then 7 else 1) true t) = answer (cm_topology o (negb all) true m).
Proof. exact thin_topology_any. Qed.
Print Assumptions C69_thin_partial.

(** Two layers of 3 x 3 cells with a hole in the middle of a filled plate. *)
Definition plate_cells (i : idx) : bool := (ix i =? 0) && negb ((iy i =? 1) && (iz i =? 1)).
Example C69_nonvacuous : let m := build (D 2 3 3) plate_cells in let t := tagged_build (D 2 3 3) plate_cells in
  sound m /\ tsound t /\ tm_dims t = cm_dims m /\
  (forall i, in_bounds (cm_dims m) i = true -> tocc t i = occupancy_at m i) /\
  t_comp (goob (tm_grid t)) = c_comp (goob (cm_grid m)) /\ nx (cm_dims m) <= 2 /\ ny (cm_dims m) = nz (cm_dims m) /\
  answer (cm_topology (fun l => l) true true m) = Ok [(1, (1, 0))].
Proof.
  cbv zeta. split; [apply build_sound; cbn; lia|]. split; [apply tagged_build_sound; cbn; lia|]. split; [reflexivity|].
  split; [intros i Hi; apply builds_agree; cbn; auto; lia|]. split; [reflexivity|]. split; [cbn; lia|]. split; [reflexivity|].
  vm_compute. reflexivity.
Qed.

(** ** The hypotheses are met *)
Definition solid : cmap := build (D 5 6 5) (fun _ => true).
Definition solid_labelled : cmap := match cm_update solid with Ok (m, _) => m | _ => solid end.
Example surface_nonvacuous :
  sound solid /\ occupied_flat_top solid 1 2 4 /\ any_order (fun l => rev l) /\
  (forallb (fun i => label c_comp (cm_grid solid_labelled) i =? 1) (sweep (D 5 6 5)) = true) /\
  c_comp (goob (cm_grid solid_labelled)) = 0 /\
  length (extract_component_surfaces c_occ c_comp 2 (cm_grid knobbed_labelled)) = 1%nat /\
  candidate_corner c_comp (cm_grid knobbed_labelled) (I 1 1 1) = (true, true) /\
  is_surface_index c_occ (cm_grid knobbed_labelled) (I 0 0 0) = true /\
  surface_vertex_components [(I 0 0 0, 2); (I 0 0 1, 1); (I 4 4 4, 0)] = Ok 2%nat /\
  surface_vertex_components [(I 0 0 0, 2); (I 4 4 4, 0)] = Throw "out_of_range" /\
  surface_index_map [I 0 0 1; I 3 4 5] = [(I 0 0 1, 0%nat); (I 3 4 5, 1%nat)].
Proof.
  split; [apply build_sound; vm_compute; congruence|].
  split; [intros i j [->| ->] [->| ->]; vm_compute; repeat split; congruence|].
  split; [intros l; apply Permutation_sym, Permutation_rev|].
  vm_compute. repeat split.
Qed.

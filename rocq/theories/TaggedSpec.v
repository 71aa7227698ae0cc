(** What it means for a tagged map's components, convex segments and per-object
    fields to be right. *)
From Coq Require Import Sorted.
From Verif Require Import Base Floats Grid DistSpec TopoSpec SdfGen SdfSpec Arith SdfQuery ExtremaSpec TaggedMap.

Definition tocc (m : tmap) (i : idx) : binary32 := t_occ (fst (tm_get m i)).
Definition tcomp (m : tmap) (i : idx) : Z := t_comp (fst (tm_get m i)).
Definition tobj (m : tmap) (i : idx) : Z := t_obj (fst (tm_get m i)).
Definition tseg (m : tmap) (i : idx) : Z := t_seg (fst (tm_get m i)).

(** Both occupied (strictly above 0.5) or both not. *)
Definition tsame_kind (m : tmap) (a b : idx) : bool :=
  Bool.eqb (gt32 (tocc m a) half32) (gt32 (tocc m b) half32).

Definition tcomponents_right (m : tmap) (n : Z) : Prop :=
  regions_numbered (tm_dims m) (fun _ => true) (tsame_kind m) (tcomp m) n /\
  numbered_in_sweep_order (tm_dims m) (fun _ => true) (tcomp m).

(** Maps a program can hold: data of the right size, 32-bit numbers, fewer than
    2^32 cells. *)
Definition u32 (z : Z) : Prop := 0 <= z < 4294967296.
Definition tcell_ok (c : tcell) : Prop := u32 (t_comp c) /\ u32 (t_obj c) /\ u32 (t_seg c).
Definition tmap_ok (m : tmap) : Prop :=
  wf_grid (tm_grid m) /\ ncells (tm_dims m) < 4294967296 /\
  tcell_ok (goob (tm_grid m)) /\ (forall i, tcell_ok (fst (tm_get m i))).

(** Only component numbers (resp. convex segment numbers) of cells may differ. *)
Definition same_frame_and_size (m m' : tmap) : Prop :=
  tm_dims m' = tm_dims m /\ tm_frame m' = tm_frame m /\ goob (tm_grid m') = goob (tm_grid m) /\
  (forall i, tocc m' i = tocc m i) /\ (forall i, tobj m' i = tobj m i).
Definition only_components_differ (m m' : tmap) : Prop :=
  same_frame_and_size m m' /\ (forall i, tseg m' i = tseg m i) /\
  tm_nseg m' = tm_nseg m /\ tm_seg_valid m' = tm_seg_valid m.
Definition only_segments_differ (m m' : tmap) : Prop :=
  same_frame_and_size m m' /\ (forall i, tcomp m' i = tcomp m i) /\ tm_ncomp m' = tm_ncomp m.

(** Convex segments, given the local extremum of every cell.  A cell takes part if
    it is free (below 0.5) or belongs to a named object, and its extremum is
    nowhere infinite.  Neighbours are linked if they belong to the same object and
    their extrema are closer than the threshold. *)
Definition takes_part (m : tmap) (ex : idx -> vec ieee) (i : idx) : bool :=
  (lt32 (tocc m i) half32 || (0 <? tobj m i)) &&
  negb (isinf64 (vx (ex i)) || isinf64 (vy (ex i)) || isinf64 (vz (ex i))).
Definition seg_linked (m : tmap) (ex : idx -> vec ieee) (threshold : binary64) (a b : idx) : bool :=
  (tobj m a =? tobj m b) && lt64 (norm (vsub (ex a) (ex b))) threshold.
Definition segments_right (m : tmap) (ex : idx -> vec ieee) (threshold : binary64) (n : Z) : Prop :=
  regions_numbered (tm_dims m) (takes_part m ex) (seg_linked m ex threshold) (tseg m) n /\
  numbered_in_sweep_order (tm_dims m) (takes_part m ex) (tseg m).

(** A geometry the extraction accepts: one usable resolution, no int32 overflow,
    an extrema map of the map's shape, cell centres none of whose coordinates is
    -infinity. *)
Definition geometry_ok (d : dims) (g : geometry) : Prop :=
  size_ok (enlarged_dims d) /\ usable_resolution (g_cx g) /\
  g_cy g = g_cx g /\ g_cz g = g_cx g /\ g_wd g = d /\
  (forall i, in_bounds d i = true -> located (center_of (g_pose g) i)).

(** Cells that count as filled when only some objects are of interest. *)
Definition object_filled (m : tmap) (objects : list Z) (unknown : bool) (i : idx) : Prop :=
  counts_as_filled unknown (tocc m i) /\ (objects = [] \/ In (tobj m i) objects).

(** Keys of a std::map: strictly increasing. *)
Definition ascending (l : list Z) : Prop := StronglySorted Z.lt l.

(** References are not used any more once components or segments are computed. *)
Fixpoint trefs_not_kept (count : nat) (live : list nat) (ops : list tm_op) : Prop :=
  match ops with
  | [] => True
  | TSet _ _ :: ops' => trefs_not_kept count live ops'
  | TGetRef _ :: ops' => trefs_not_kept (S count) (count :: live) ops'
  | TWriteRef k _ :: ops' => In k live /\ trefs_not_kept count live ops'
  | TUpdateCC :: ops' | TUpdateSeg _ _ :: ops' => trefs_not_kept count [] ops'
  end.

Definition top_ok (o : tm_op) : Prop :=
  match o with TSet _ v | TWriteRef _ v => tcell_ok v | _ => True end.

(** Calls that write no cell: handing out a reference and recomputing components. *)
Definition writes_nothing (o : tm_op) : Prop :=
  match o with TGetRef _ | TUpdateCC => True | _ => False end.

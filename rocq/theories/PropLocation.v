(** C92: calls that name a cell by a location in space. *)
From Coq Require Import Reals Lra.
From Verif Require Import Base Floats Grid CollisionMap ComponentSpec TaggedMap TaggedSpec
  SdfGen SdfLock Surfaces Arith SdfQuery QuerySpec QueryThms Location LocationSpec LocationThms.
Open Scope Z_scope.

(** The cell a location names is the one whose cube it lies in, and it is in the
    grid exactly when the location is in the grid's volume. *)
Theorem C92_cell_of_location : forall r (p : pose reals) loc i, (0 < r)%R -> geometry r p ->
  (cell_at p loc = i <-> in_cube r p i loc).
Proof. exact cell_at_cube. Qed.
Print Assumptions C92_cell_of_location.

Theorem C92_volume : forall r (p : pose reals) loc d, (0 < r)%R -> geometry r p ->
  (in_bounds d (cell_at p loc) = true <-> in_volume r p d loc).
Proof. exact cell_at_volume. Qed.
Print Assumptions C92_volume.

Theorem C92_center_names_cell : forall r (p : pose reals) i, (0 < r)%R -> geometry r p ->
  in_cube r p i (to_world p (center_of p i)).
Proof. intros r p i Hr G. exact (center_in_cube r p Hr G i). Qed.
Print Assumptions C92_center_names_cell.

(** A write at a location succeeds exactly inside the volume, is read back at every
    location of the same cube, changes no read in any other cube, and leaves the
    components invalid; a refused write changes nothing. *)
Theorem C92_map_write : forall r (p : pose reals), (0 < r)%R -> geometry r p ->
  forall m loc v m' ok, wf_grid (cm_grid m) -> cm_set_at p m loc v = (m', ok) ->
  (ok = true <-> in_volume r p (cm_dims m) loc) /\
  (ok = true -> cm_components_valid m' = false) /\
  (ok = true -> forall i loc', in_cube r p i loc -> in_cube r p i loc' -> cm_get_at p m' loc' = (v, true)) /\
  (forall i loc', in_cube r p i loc -> ~ in_cube r p i loc' -> cm_get_at p m' loc' = cm_get_at p m loc') /\
  (ok = false -> m' = m).
Proof. exact cm_write_in_space. Qed.
Print Assumptions C92_map_write.

Theorem C92_tagged_write : forall r (p : pose reals), (0 < r)%R -> geometry r p ->
  forall m loc v m' ok, wf_grid (tm_grid m) -> tm_set_at p m loc v = (m', ok) ->
  (ok = true <-> in_volume r p (tm_dims m) loc) /\
  (ok = true -> tm_components_valid m' = false) /\
  (ok = true -> forall i loc', in_cube r p i loc -> in_cube r p i loc' -> tm_get_at p m' loc' = (v, true)) /\
  (forall i loc', in_cube r p i loc -> ~ in_cube r p i loc' -> tm_get_at p m' loc' = tm_get_at p m loc') /\
  (ok = false -> m' = m).
Proof. exact tm_write_in_space. Qed.
Print Assumptions C92_tagged_write.

Theorem C92_field_write : forall r (p : pose reals), (0 < r)%R -> geometry r p ->
  forall s loc v s' ok, wf_grid (s_grid s) -> sdf_set_at p s loc v = (s', ok) ->
  (ok = true <-> in_volume r p (sdf_dims s) loc /\ s_locked s = false) /\
  (ok = true -> forall i loc', in_cube r p i loc -> in_cube r p i loc' -> sdf_get_at p s' loc' = (v, true)) /\
  (forall i loc', in_cube r p i loc -> ~ in_cube r p i loc' -> sdf_get_at p s' loc' = sdf_get_at p s loc') /\
  (ok = false -> s' = s).
Proof. exact sdf_write_in_space. Qed.
Print Assumptions C92_field_write.

(** The same in any arithmetic (so for IEEE doubles and whatever conversion the
    grid uses), with "the same cell" in place of "the same cube". *)
Theorem C92_map_write_any : forall A (p : pose A) m loc v m' ok,
  wf_grid (cm_grid m) -> cm_set_at p m loc v = (m', ok) ->
  ok = in_bounds (cm_dims m) (cell_at p loc) /\
  (ok = true -> cm_components_valid m' = false /\
     forall loc', cell_at p loc' = cell_at p loc -> cm_get_at p m' loc' = (v, true)) /\
  (forall loc', cell_at p loc' <> cell_at p loc -> cm_get_at p m' loc' = cm_get_at p m loc') /\
  (ok = false -> m' = m).
Proof. exact cm_set_at_spec. Qed.
Print Assumptions C92_map_write_any.

Theorem C92_tagged_write_any : forall A (p : pose A) m loc v m' ok,
  wf_grid (tm_grid m) -> tm_set_at p m loc v = (m', ok) ->
  ok = in_bounds (tm_dims m) (cell_at p loc) /\
  (ok = true -> tm_components_valid m' = false /\
     forall loc', cell_at p loc' = cell_at p loc -> tm_get_at p m' loc' = (v, true)) /\
  (forall loc', cell_at p loc' <> cell_at p loc -> tm_get_at p m' loc' = tm_get_at p m loc') /\
  (ok = false -> m' = m).
Proof. exact tm_set_at_spec. Qed.
Print Assumptions C92_tagged_write_any.

Theorem C92_field_write_any : forall A (p : pose A) s loc v s' ok,
  wf_grid (s_grid s) -> sdf_set_at p s loc v = (s', ok) ->
  ok = in_bounds (sdf_dims s) (cell_at p loc) && negb (s_locked s) /\
  (ok = true -> forall loc', cell_at p loc' = cell_at p loc -> sdf_get_at p s' loc' = (v, true)) /\
  (forall loc', cell_at p loc' <> cell_at p loc -> sdf_get_at p s' loc' = sdf_get_at p s loc') /\
  (ok = false -> s' = s).
Proof. exact sdf_set_at_spec. Qed.
Print Assumptions C92_field_write_any.

(** Mutable access by location, used at once, is a write at the location. *)
Theorem C92_map_reference : forall A (p : pose A) m loc v m' r ok,
  cm_get_mutable_at p m loc = (m', r, ok) ->
  ok = in_bounds (cm_dims m) (cell_at p loc) /\
  (ok = true -> cm_write_ref m' r v = fst (cm_set_at p m loc v)) /\ (ok = false -> m' = m).
Proof. exact cm_ref_at. Qed.
Print Assumptions C92_map_reference.

Theorem C92_tagged_reference : forall A (p : pose A) m loc v m' r ok,
  tm_get_mutable_at p m loc = (m', r, ok) ->
  ok = in_bounds (tm_dims m) (cell_at p loc) /\
  (ok = true -> tm_write_ref m' r v = fst (tm_set_at p m loc v)) /\ (ok = false -> m' = m).
Proof. exact tm_ref_at. Qed.
Print Assumptions C92_tagged_reference.

Theorem C92_field_reference : forall A (p : pose A) s loc v r ok,
  sdf_get_mutable_at p s loc = (r, ok) ->
  ok = in_bounds (sdf_dims s) (cell_at p loc) && negb (s_locked s) /\
  (ok = true -> sdf_write_ref s r v = fst (sdf_set_at p s loc v)).
Proof. exact sdf_ref_at. Qed.
Print Assumptions C92_field_reference.

(** Corners by location are corners of the cell. *)
Theorem C92_corner : forall A (p : pose A) m loc,
  cm_corner_at p m loc = candidate_corner c_comp (cm_grid m) (cell_at p loc).
Proof. exact cm_corner_at_eq. Qed.
Print Assumptions C92_corner.

Theorem C92_tagged_corner : forall A (p : pose A) m loc,
  tm_corner_at p m loc = candidate_corner t_comp (tm_grid m) (cell_at p loc).
Proof. exact tm_corner_at_eq. Qed.
Print Assumptions C92_tagged_corner.

(** A history of calls that name cells by index or by location has exactly the
    effect of the same history by index... *)
Theorem C92_map_history : forall A (p : pose A) m l,
  cm_calls p m l = cm_run m (map (cm_by_index p) l).
Proof. exact cm_calls_run. Qed.
Print Assumptions C92_map_history.

Theorem C92_tagged_history : forall A (p : pose A) g m l,
  tm_calls p g m l = tm_run g m (map (tm_by_index p) l).
Proof. exact tm_calls_run. Qed.
Print Assumptions C92_tagged_history.

Theorem C92_field_history : forall A (p : pose A) l st,
  sdf_calls p st l = sdf_run st (map (sdf_by_index p) l).
Proof. exact sdf_calls_eq. Qed.
Print Assumptions C92_field_history.

(** ... so that the validity flag stays truthful (C04) and a lock holds (C24). *)
Theorem C92_map_flag_sound : forall A (p : pose A) frame d def oob l,
  0 <= nx d -> 0 <= ny d -> 0 <= nz d -> ncells d < 4294967296 ->
  cell_ok def -> cell_ok oob ->
  let ops := map (cm_by_index p) l in
  Forall op_ok ops -> refs_not_kept 0 [] ops ->
  exists m refs, cm_calls p (cm_new frame d def oob) l = Ok (m, refs) /\ map_ok m /\
    cm_dims m = d /\ (cm_components_valid m = true -> components_right m (cm_ncomp m)).
Proof. exact cm_calls_sound. Qed.
Print Assumptions C92_map_flag_sound.

Theorem C92_tagged_flag_sound : forall A (p : pose A) g frame d def oob l,
  0 <= nx d -> 0 <= ny d -> 0 <= nz d -> ncells d < 4294967296 -> geometry_ok d g ->
  tcell_ok def -> tcell_ok oob ->
  let ops := map (tm_by_index p) l in
  Forall top_ok ops -> trefs_not_kept 0 [] ops ->
  exists m refs, tm_calls p g (tm_new frame d def oob) l = Ok (m, refs) /\ tmap_ok m /\
    tm_dims m = d /\ (tm_components_valid m = true -> tcomponents_right m (tm_ncomp m)).
Proof. exact tm_calls_sound. Qed.
Print Assumptions C92_tagged_flag_sound.

Theorem C92_field_locked : forall A (p : pose A) s refs l s' refs',
  wf_grid (s_grid s) -> s_locked s = true -> ~ In FUnlock l ->
  (forall k v, In (FWriteRef k v) l -> (length refs <= k)%nat) ->
  sdf_calls p (s, refs) l = Ok (s', refs') ->
  forall loc, in_bounds (sdf_dims s) (cell_at p loc) = true ->
    sdf_get_at p s' loc = sdf_get_at p s loc /\
    (forall v, sdf_set_at p s' loc v = (s', false)) /\
    snd (sdf_get_mutable_at p s' loc) = false.
Proof. exact sdf_calls_locked. Qed.
Print Assumptions C92_field_locked.

(** Two unit cells in a row: a write at (1.5, 0.5, 0.5) is read at (1, 0.75, 0.25)
    but not at (0.5, 0.5, 0.5). *)
Example location_nonvacuous :
  let p := plain_pose 1 in
  let a := (@V reals (3 / 2) (1 / 2) (1 / 2))%R in
  let b := (@V reals 1 (3 / 4) (1 / 4))%R in
  let c := (@V reals (1 / 2) (1 / 2) (1 / 2))%R in
  geometry 1 p /\ wf_grid (cm_grid pair_map) /\
  in_cube 1 p (I 1 0 0) a /\ in_cube 1 p (I 1 0 0) b /\ ~ in_cube 1 p (I 1 0 0) c /\
  in_volume 1 p (cm_dims pair_map) a /\
  let m' := fst (cm_set_at p pair_map a (CC one32 0)) in
  cm_get_at p m' b = (CC one32 0, true) /\ cm_get_at p m' c = (CC zero32 0, true) /\
  cm_calls p pair_map [CSet (Spot a) (CC one32 0); CGetRef (Cell (I 0 0 0)); CWriteRef 0 (CC half32 0); CUpdate]
  = cm_run pair_map [SetCell (I 1 0 0) (CC one32 0); GetRef (I 0 0 0); WriteRef 0 (CC half32 0); UpdateCC].
Proof. exact location_case. Qed.

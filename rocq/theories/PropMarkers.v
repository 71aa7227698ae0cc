(** C99, C100: where the cubes of the drawings are. *)
From Coq Require Import Lia Reals Lra.
From Verif Require Import Base Floats Grid CollisionMap TaggedMap TaggedSpec SdfGen Arith SdfQuery QuerySpec QueryReal QueryThms QueryTurn
  Display DisplaySpec DisplayProofs DisplaySdf DisplayThms Hashed HashedSpec Node Location Markers MarkerSpec MarkerThms.
Open Scope R_scope.

(** C99: for every grid pose, turned or not, the boxes of a drawing of a collision
    map fill exactly the cubes of the cells of a drawn class, each in its colour. *)
Theorem C99_collision_map : forall r p, 0 < r -> geometry r p ->
  forall m collision free unknown,
    fills (cm_picture p r m collision free unknown) r p (cm_dims m)
      (fun i => drawn (class_color collision free unknown (c_occ (fst (cm_get m i)))))
      (fun i => class_color collision free unknown (c_occ (fst (cm_get m i)))).
Proof.
  intros r p Hr G m c1 c2 c3. apply grid_frame_fills; auto. apply (cm_export_draws (center_of p)).
Qed.
Print Assumptions C99_collision_map.

(** C99, surfaces only: the cubes of the cells that touch a cell of another class. *)
Theorem C99_surfaces : forall r p, 0 < r -> geometry r p ->
  forall m collision free unknown, (forall j, is_nan 24 128 (c_occ (fst (cm_get m j))) = false) ->
    fills (cm_surface_picture p r m collision free unknown) r p (cm_dims m)
      (fun i => on_surface m i /\ drawn (class_color collision free unknown (c_occ (fst (cm_get m i)))))
      (fun i => class_color collision free unknown (c_occ (fst (cm_get m i)))).
Proof.
  intros r p Hr G m c1 c2 c3 H. apply grid_frame_fills; auto. apply (surfaces_draws (center_of p) m c1 c2 c3 H).
Qed.
Print Assumptions C99_surfaces.

(** C99, components: every cell's cube. *)
Theorem C99_components : forall r p, 0 < r -> geometry r p ->
  forall unique_color m color_unknown,
    fills (cm_component_picture p r unique_color m color_unknown) r p (cm_dims m) (fun _ => True)
      (fun i => component_color unique_color color_unknown (c_occ (fst (cm_get m i))) (c_comp (fst (cm_get m i)))).
Proof.
  intros r p Hr G u m b. apply grid_frame_fills; auto. apply (cm_export_components_draws (center_of p)).
Qed.
Print Assumptions C99_components.

(** C99, a tagged map by object: the cubes of the cells of the objects asked for. *)
Theorem C99_tagged_map : forall r p, 0 < r -> geometry r p ->
  forall unique_color m alpha objects,
    fills (tm_picture p r unique_color m alpha objects) r p (tm_dims m)
      (fun i => (objects = [] \/ In (tobj m i) objects) /\ drawn (unique_color (tobj m i) alpha))
      (fun i => unique_color (tobj m i) alpha).
Proof.
  intros r p Hr G u m a o. apply grid_frame_fills; auto. apply (tm_export_draws (center_of p)).
Qed.
Print Assumptions C99_tagged_map.

(** C99, a tagged map by occupancy. *)
Theorem C99_tagged_occupancy : forall r p, 0 < r -> geometry r p ->
  forall m collision free unknown,
    fills (tm_occupancy_picture p r m collision free unknown) r p (tm_dims m)
      (fun i => drawn (class_color collision free unknown (tocc m i)))
      (fun i => class_color collision free unknown (tocc m i)).
Proof.
  intros r p Hr G m c1 c2 c3. apply grid_frame_fills; auto. apply (tm_export_occupancy_draws (center_of p)).
Qed.
Print Assumptions C99_tagged_occupancy.

(** C99, the drawings with one marker for each object: every marker fills exactly
    the cubes of the cells of its object. *)
Theorem C99_object_drawings : forall r p, 0 < r -> geometry r p ->
  forall d frame object wanted P col ks,
    one_marker_each (center_of p) d frame object wanted P col ks ->
    forall k, In k ks -> exists id, wanted id /\ mk_ns k = object_ns id /\
      fills (in_grid_frame p r, k) r p d (fun i => object i = id /\ P i) (fun _ => col id).
Proof.
  intros r p Hr G d frame object wanted P col ks (_ & H) k Hk.
  apply H in Hk as (id & l & Hw & _ & L & ->). exists id. split; auto. split; auto.
  apply grid_frame_fills; auto. exists l. auto.
Qed.
Print Assumptions C99_object_drawings.

(** C99, a field: every cell's cube; and of the drawing of the collisions only, the
    cubes of the cells whose value is at most zero, in red. *)
Theorem C99_field : forall r p, 0 < r -> geometry r p ->
  forall clamp01 s alpha,
    fills (sdf_picture p r clamp01 s alpha) r p (sdf_dims s) (fun _ => True)
      (fun i => distance_color (clamp01 alpha) (fst (distance_range s)) (snd (distance_range s)) (fst (sdf_get s i))).
Proof.
  intros r p Hr G c s a. apply grid_frame_fills; auto. apply (sdf_export_draws (center_of p)).
Qed.
Print Assumptions C99_field.

Theorem C99_field_collisions : forall r p, 0 < r -> geometry r p ->
  forall s alpha,
    fills (sdf_collision_picture p r s alpha) r p (sdf_dims s)
      (fun i => le32 (fst (sdf_get s i)) zero32 = true) (fun _ => red alpha).
Proof. exact collision_picture. Qed.
Print Assumptions C99_field_collisions.

(** A turned grid with one filled cell: the corner at the origin is drawn, the
    point at height two is not. *)
Example C99_case :
  let solid := RGBA one32 zero32 zero32 one32 in
  let none := RGBA zero32 zero32 zero32 zero32 in
  let m := cm_new "map"%string (D 1 1 1) (CC one32 0) (CC zero32 0) in
  0 < 1 /\ geometry 1 tilted /\ tilted <> plain_pose 1 /\
  in_drawing (cm_picture tilted 1 m solid none none) solid (@V reals 0 0 0) /\
  ~ in_drawing (cm_picture tilted 1 m solid none none) solid (@V reals 0 0 2).
Proof.
  destruct tilted_ok as (Gt & Rt). destruct tilted_origin as (C & _). cbn zeta.
  pose proof (C99_collision_map 1 tilted Rlt_0_1 Gt) as F.
  split; [lra|]. split; [exact Gt|]. split; [|split].
  - intros E. destruct tilted_squares as (A & B & _). unfold tilted in E.
    assert (K := f_equal (fun q => vz (rot_v q)) E). cbn in K. rewrite K in B. rsimp. lra.
  - apply F. exists (I 0 0 0). split; [reflexivity|]. split; [vm_compute; reflexivity|]. split; [reflexivity|exact C].
  - intros D0. apply F in D0 as (i & Bi & _ & _ & _ & _ & Cz).
    assert (i = I 0 0 0) as ->.
    { destruct i as [x y z]. apply GridFacts.in_bounds_spec in Bi. unfold cm_dims, cm_new, mk_grid in Bi. cbn [ix iy iz cm_grid gdims nx ny nz] in Bi. f_equal; lia. }
    unfold tilted in Cz. cbn [turned_pose to_grid] in Cz. vunfold. unfold vsub in Cz. cbn [vx vy vz iz] in Cz.
    revert Cz. rsimp. generalize (2 / sqrt 5) (1 / sqrt 5). intros w z Cz. nra.
Qed.

(** C100: the same for the drawing of the generator node, as far as it holds: when
    the grid's pose only moves.  Missing: turned poses, see the refutation. *)
Theorem C100_node_partial : forall r p t, 0 < r -> geometry r p -> only_moves p t ->
  forall m frame alpha,
    (forall i, in_bounds (gdims m) i = true -> fst (get m i) = 0%Z \/ fst (get m i) = 1%Z) ->
    exists k, node_picture p r m frame alpha = Ok k /\
      fills k r p (gdims m) (fun i => fst (get m i) = 1%Z) (fun _ => red alpha).
Proof. intros r p t Hr G M m frame alpha H. exact (node_fills r p t m frame alpha Hr G M H). Qed.
Print Assumptions C100_node_partial.

(** C100: and for the cells of the hashed map. *)
Theorem C100_hashed_partial : forall r p t, 0 < r -> geometry r p -> only_moves p t ->
  forall d oob frame ws in_grid order collision free unknown, chunk_ok d -> chunk_order order ->
    (forall k i, in_bounds d i = true ->
       in_grid k i = center_of p (I (ix k * nx d + ix i) (iy k * ny d + iy i) (iz k * nz d + iz i))) ->
    let h := apply_writes (cell_at p) (h_new frame d oob) ws in
    forall c loc,
      (exists k, In k (h_cells p r in_grid order h collision free unknown) /\ in_drawing k c loc) <->
      exists q v, h_get (cell_at p) h q = (v, FoundInCell) /\
        class_color collision free unknown (c_occ v) = c /\ closed_cube r p (cell_at p q) loc.
Proof.
  intros r p t Hr G M d oob frame ws in_grid order c1 c2 c3 Hd Ho Hin h c loc.
  exact (hashed_fills r p d oob frame ws in_grid order c1 c2 c3 Hr G Hd Ho Hin t c loc M).
Qed.
Print Assumptions C100_hashed_partial.

(** C100 is false for turned poses: the node's drawing leaves out a location that
    lies in a filled cell. *)
Theorem C100_node_refuted : exists r p t m, 0 < r /\ geometry r p /\ rigid p t /\
  (forall i, in_bounds (gdims m) i = true -> fst (get m i) = 0%Z \/ fst (get m i) = 1%Z) /\
  forall frame alpha, exists k, node_picture p r m frame alpha = Ok k /\
    exists i loc, in_bounds (gdims m) i = true /\ fst (get m i) = 1%Z /\ closed_cube r p i loc /\
      forall c, ~ in_drawing k c loc.
Proof.
  destruct tilted_ok as (Gt & Rt).
  exists 1, tilted, (@V reals 0 0 0), (Grid.G (D 1 1 1) [1%Z] 0%Z). split; [lra|]. split; [auto|]. split; [auto|]. split.
  - intros [x y z] B. right. apply GridFacts.in_bounds_spec in B. cbn [ix iy iz gdims nx ny nz] in B.
    assert (x = 0%Z) as -> by lia. assert (y = 0%Z) as -> by lia. assert (z = 0%Z) as -> by lia. reflexivity.
  - intros frame alpha. destruct (node_leaves_out frame alpha) as (k & E & H1 & H2 & H3).
    exists k. split; auto. exists (I 0 0 0), (@V reals 0 0 0). auto.
Qed.
Print Assumptions C100_node_refuted.

(** And the hashed map's drawing leaves out the very location that was written. *)
Theorem C100_hashed_refuted : exists r p t d loc, 0 < r /\ geometry r p /\ rigid p t /\ chunk_ok d /\
  forall v oob frame in_grid order collision free unknown, chunk_order order ->
    (forall k i, in_bounds d i = true ->
       in_grid k i = center_of p (I (ix k * nx d + ix i) (iy k * ny d + iy i) (iz k * nz d + iz i))) ->
    let h := apply_writes (cell_at p) (h_new frame d oob) [WCell loc v] in
    h_get (cell_at p) h loc = (v, FoundInCell) /\
    forall c k, In k (h_cells p r in_grid order h collision free unknown) -> ~ in_drawing k c loc.
Proof.
  destruct tilted_ok as (Gt & Rt).
  exists 1, tilted, (@V reals 0 0 0), (D 1 1 1), (@V reals 0 0 0).
  split; [lra|]. split; [auto|]. split; [auto|]. split; [repeat split|].
  intros v oob frame in_grid order c1 c2 c3 Ho Hin h.
  destruct (hashed_leaves_out frame oob v in_grid order c1 c2 c3 Ho Hin) as (A & _ & B). split; [exact A|exact B].
Qed.
Print Assumptions C100_hashed_refuted.

(** A moved grid meets the hypotheses of the partial theorems. *)
Example C100_case :
  let p := turned_pose 1 1 (@V reals 0 0 0) (@V reals 3 4 5) in
  geometry 1 p /\ only_moves p (@V reals 3 4 5) /\
  forall frame alpha, exists k, node_picture p 1 (Grid.G (D 1 1 1) [1%Z] 0%Z) frame alpha = Ok k /\
    in_drawing k (red alpha) (@V reals 4 5 6).
Proof.
  cbn zeta. set (p := turned_pose 1 1 (@V reals 0 0 0) (@V reals 3 4 5)).
  assert (M : only_moves p (@V reals 3 4 5)).
  { intros [a b c]. unfold p. cbn [turned_pose to_world]. vunfold. cbn [vx vy vz]. rsimp. f_equal; ring. }
  assert (Gp : geometry 1 p).
  { apply turned_ok; [lra|]. unfold length_squared. cbn [vx vy vz]. rsimp. ring. }
  split; [exact Gp|]. split; [exact M|]. intros frame alpha.
  destruct (C100_node_partial 1 p _ Rlt_0_1 Gp M (Grid.G (D 1 1 1) [1%Z] 0%Z) frame alpha) as (k & E & F).
  - intros [x y z] B. right. apply GridFacts.in_bounds_spec in B. cbn [ix iy iz gdims nx ny nz] in B.
    assert (x = 0%Z) as -> by lia. assert (y = 0%Z) as -> by lia. assert (z = 0%Z) as -> by lia. reflexivity.
  - exists k. split; auto. apply F. exists (I 0 0 0). split; [reflexivity|]. split; [reflexivity|]. split; [reflexivity|].
    unfold closed_cube, p. cbn [turned_pose to_grid]. vunfold. unfold vsub. cbn [vx vy vz ix iy iz]. rsimp. lra.
Qed.

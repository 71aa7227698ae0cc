(** C52, C53, C71-C73: drawings. *)
From Coq Require Import Reals.
From Flocq Require Import Core.Core IEEE754.Binary IEEE754.Bits.
From Verif Require Import Base Floats Grid DistSpec DistModel SdfGen SdfSpec SdfThms CollisionMap TaggedMap TaggedSpec QueryWitness
  Surfaces SurfaceSpec Arith Display DisplaySpec DisplayProofs DisplaySdf DisplayThms DisplayCase.
Local Open Scope Z_scope.

(** ** C52: one point and one colour per cell of a visible class *)
Theorem C52_export : forall point (center : idx -> point) m collision free unknown,
  let k := cm_export center m collision free unknown in
  mk_frame k = cm_frame m /\ mk_ns k = Text "collision_map_display" /\
  draws center k (cm_dims m)
    (fun i => drawn (class_color collision free unknown (c_occ (fst (cm_get m i)))))
    (fun i => class_color collision free unknown (c_occ (fst (cm_get m i)))).
Proof. exact @cm_export_draws. Qed.
Print Assumptions C52_export.

Theorem C52_export_tagged : forall point (center : idx -> point) m collision free unknown,
  let k := tm_export_occupancy center m collision free unknown in
  mk_frame k = tm_frame m /\ mk_ns k = Text "tagged_object_collision_map_occupancy_display" /\
  draws center k (tm_dims m)
    (fun i => drawn (class_color collision free unknown (tocc m i)))
    (fun i => class_color collision free unknown (tocc m i)).
Proof. exact @tm_export_occupancy_draws. Qed.
Print Assumptions C52_export_tagged.

(** Separate markers for filled, free and unknown cells. *)
Theorem C52_export_separate : forall point (center : idx -> point) m c1 c2 c3,
  exists a b c, cm_export_separate center m c1 c2 c3 = [a; b; c] /\
    shows center a m (Text "collision_only") Filled (fun _ => True) c1 /\
    shows center b m (Text "free_only") Empty (fun _ => True) c2 /\
    shows center c m (Text "unknown_only") Unknown (fun _ => True) c3.
Proof. exact @export_separate. Qed.
Print Assumptions C52_export_separate.

(** Component drawings show every cell, in its component's colour. *)
Theorem C52_components : forall point (center : idx -> point) unique_color m color_unknown,
  let k := cm_export_components center unique_color m color_unknown in
  mk_frame k = cm_frame m /\ mk_ns k = Text "connected_components_display" /\
  draws center k (cm_dims m) (fun _ => True)
    (fun i => let c := fst (cm_get m i) in
       if eq32 (c_occ c) half32 && negb color_unknown then RGBA half32 half32 half32 one32
       else unique_color (c_comp c) one32).
Proof.
  intros. destruct (cm_export_components_draws center unique_color m color_unknown) as (A & B & C).
  split; auto. split; auto. eapply draws_ext; [| |exact C]; [reflexivity|]. intros i _ _. cbn beta zeta.
  unfold component_color. destruct (eq32 _ _), color_unknown; reflexivity.
Qed.
Print Assumptions C52_components.

Theorem C52_components_tagged : forall point (center : idx -> point) unique_color m color_unknown,
  let k := tm_export_components center unique_color m color_unknown in
  mk_frame k = tm_frame m /\ mk_ns k = Text "tagged_object_connected_components_display" /\
  draws center k (tm_dims m) (fun _ => True)
    (fun i => if eq32 (tocc m i) half32 && negb color_unknown then RGBA half32 half32 half32 one32
              else unique_color (tcomp m i) one32).
Proof.
  intros. destruct (tm_export_components_draws center unique_color m color_unknown) as (A & B & C).
  split; auto. split; auto. eapply draws_ext; [| |exact C]; [reflexivity|]. intros i _ _. cbn beta zeta.
  unfold component_color, tocc, tcomp. destruct (eq32 _ _), color_unknown; reflexivity.
Qed.
Print Assumptions C52_components_tagged.

(** A convex segment shows exactly its cells, a surface exactly its members. *)
Theorem C52_segment : forall point (center : idx -> point) unique_color hot m obj seg,
  let k := tm_export_segment center unique_color hot m obj seg in
  mk_frame k = tm_frame m /\ mk_ns k = Segment obj seg /\
  draws center k (tm_dims m) (fun i => tobj m i = obj /\ tseg m i = seg)
    (fun _ => if tm_nseg m <? 22 then unique_color seg one32 else hot seg (tm_nseg m)).
Proof. exact @tm_export_segment_draws. Qed.
Print Assumptions C52_segment.

Theorem C52_surface : forall point (center : idx -> point) m surface c,
  let k := tm_export_surface center m surface c in
  mk_frame k = tm_frame m /\ mk_ns k = Text "tagged_object_collision_map_surface" /\
  shown k = map (fun e => (center (fst e), c)) (filter (fun e => snd e =? 1) surface).
Proof. exact @surface_points. Qed.
Print Assumptions C52_surface.

(** Drawing by object: the requested objects (all if none is named) whose colour
    is visible; colours given by the caller or generated. *)
Theorem C52_objects : forall point (center : idx -> point) unique_color m alpha objects,
  let k := tm_export center unique_color m alpha objects in
  mk_frame k = tm_frame m /\ mk_ns k = tagged_ns /\
  draws center k (tm_dims m)
    (fun i => (objects = [] \/ In (tobj m i) objects) /\ drawn (unique_color (tobj m i) alpha))
    (fun i => unique_color (tobj m i) alpha).
Proof. exact @tm_export_draws. Qed.
Print Assumptions C52_objects.

Theorem C52_object_colors : forall point (center : idx -> point) unique_color m colors,
  ascending (map fst colors) ->
  exists col, (forall id, given_or_generated unique_color colors id (col id)) /\
    let k := tm_export_colors center unique_color m colors in
    mk_frame k = tm_frame m /\ mk_ns k = tagged_ns /\
    draws center k (tm_dims m) (fun i => drawn (col (tobj m i))) (fun i => col (tobj m i)).
Proof.
  intros point center unique_color m colors As. exists (color_of unique_color colors). split.
  - intros id. apply color_of_spec. exact As.
  - apply tm_export_colors_draws.
Qed.
Print Assumptions C52_object_colors.

(** One marker per object.  The functions never throw. *)
Theorem C52_unique : forall point (center : idx -> point) unique_color m alpha objects,
  exists ks, tm_export_unique center unique_color m alpha objects = Ok ks /\
    one_marker_each center (tm_dims m) (tm_frame m) (tobj m) (selected objects)
      (fun i => drawn (unique_color (tobj m i) alpha)) (fun id => unique_color id alpha) ks.
Proof. exact @export_unique. Qed.
Print Assumptions C52_unique.

Theorem C52_unique_colors : forall point (center : idx -> point) unique_color m colors,
  ascending (map fst colors) ->
  exists ks col, tm_export_colors_unique center unique_color m colors = Ok ks /\
    (forall id, given_or_generated unique_color colors id (col id)) /\
    one_marker_each center (tm_dims m) (tm_frame m) (tobj m)
      (fun id => In id (map fst colors) \/ id <> 0) (fun i => drawn (col (tobj m i))) col ks.
Proof. exact @export_colors_unique. Qed.
Print Assumptions C52_unique_colors.

Example C52_nonvacuous :
  mk_points (cm_export (fun i => i) row_plain red green no_color) = [I 0 0 0; I 1 0 0; I 2 0 0] /\
  mk_colors (cm_export (fun i => i) row_plain red green no_color) = [red; green; green] /\
  mk_points (cm_export_surfaces (fun i => i) row_plain red green no_color) = [I 0 0 0; I 1 0 0].
Proof. exact row_plain_drawn. Qed.

(** ** C53: surface drawings show the cells with a neighbour of another class *)
Theorem C53_surfaces : forall point (center : idx -> point) m collision free unknown,
  (forall j, is_nan 24 128 (c_occ (fst (cm_get m j))) = false) ->
  let k := cm_export_surfaces center m collision free unknown in
  mk_frame k = cm_frame m /\ mk_ns k = Text "collision_map_display" /\
  draws center k (cm_dims m)
    (fun i => (exists j, touches i j /\ in_bounds (cm_dims m) j = true /\
                 kind_of (c_occ (fst (cm_get m j))) <> kind_of (c_occ (fst (cm_get m i)))) /\
              drawn (class_color collision free unknown (c_occ (fst (cm_get m i)))))
    (fun i => class_color collision free unknown (c_occ (fst (cm_get m i)))).
Proof. exact @surfaces_draws. Qed.
Print Assumptions C53_surfaces.

Theorem C53_surfaces_separate : forall point (center : idx -> point) m c1 c2 c3,
  (forall j, is_nan 24 128 (c_occ (fst (cm_get m j))) = false) ->
  exists a b c, cm_export_surfaces_separate center m c1 c2 c3 = [a; b; c] /\
    shows center a m (Text "collision_surfaces_only") Filled (on_surface m) c1 /\
    shows center b m (Text "free_surfaces_only") Empty (on_surface m) c2 /\
    shows center c m (Text "unknown_surfaces_only") Unknown (on_surface m) c3.
Proof. exact @export_surfaces_separate. Qed.
Print Assumptions C53_surfaces_separate.

(** ** C71: contour drawings show an object's cells next to something else *)
Theorem C71_contour : forall point (center : idx -> point) unique_color g m alpha objects,
  drawable m g ->
  exists k, tm_contour center unique_color g m alpha objects = Ok k /\
    mk_frame k = tm_frame m /\ mk_ns k = tagged_ns /\
    draws center k (tm_dims m)
      (fun i => selected objects (tobj m i) /\ contour_cell m i /\ drawn (unique_color (tobj m i) alpha))
      (fun i => unique_color (tobj m i) alpha).
Proof. exact @contour. Qed.
Print Assumptions C71_contour.

Theorem C71_contour_unique : forall point (center : idx -> point) unique_color g m alpha objects,
  drawable m g ->
  exists ks, tm_contour_unique center unique_color g m alpha objects = Ok ks /\
    one_marker_each center (tm_dims m) (tm_frame m) (tobj m) (selected objects)
      (fun i => contour_cell m i /\ drawn (unique_color (tobj m i) alpha)) (fun id => unique_color id alpha) ks.
Proof. exact @contour_unique. Qed.
Print Assumptions C71_contour_unique.

Theorem C71_contour_colors : forall point (center : idx -> point) unique_color g m colors,
  drawable m g -> ascending (map fst colors) ->
  exists k col, tm_contour_colors center unique_color g m colors = Ok k /\
    mk_frame k = tm_frame m /\ mk_ns k = tagged_ns /\
    (forall id, given_or_generated unique_color colors id (col id)) /\
    draws center k (tm_dims m) (fun i => tobj m i <> 0 /\ contour_cell m i /\ drawn (col (tobj m i)))
      (fun i => col (tobj m i)).
Proof. exact @contour_colors. Qed.
Print Assumptions C71_contour_colors.

Theorem C71_contour_colors_unique : forall point (center : idx -> point) unique_color g m colors,
  drawable m g -> ascending (map fst colors) ->
  exists ks col, tm_contour_colors_unique center unique_color g m colors = Ok ks /\
    (forall id, given_or_generated unique_color colors id (col id)) /\
    one_marker_each center (tm_dims m) (tm_frame m) (tobj m) (fun id => id <> 0)
      (fun i => contour_cell m i /\ drawn (col (tobj m i))) col ks.
Proof. exact @contour_colors_unique. Qed.
Print Assumptions C71_contour_colors_unique.

(** Five cells of one object in a row of seven: the two ends are the contour. *)
Example C71_nonvacuous : drawable row_map row_geo /\
  exists k, tm_contour (fun i => i) plain_color row_geo row_map one32 [] = Ok k /\
    mk_points k = [I 1 0 0; I 5 0 0] /\
  exists ks, tm_export_unique (fun i => i) plain_color row_map one32 [] = Ok ks /\
    map (fun k => (mk_ns k, mk_points k)) ks = [(object_ns 3, [I 1 0 0; I 2 0 0; I 3 0 0; I 4 0 0; I 5 0 0])].
Proof. exact (conj row_drawable row_contour). Qed.

(** ** C72: one marker and one marker per object show the same *)
Theorem C72_same : forall point (center : idx -> point) unique_color m alpha objects ks,
  ~ drawn (unique_color 0 alpha) -> tm_export_unique center unique_color m alpha objects = Ok ks ->
  forall e, In e (shown (tm_export center unique_color m alpha objects)) <-> exists k, In k ks /\ In e (shown k).
Proof. exact @export_same. Qed.
Print Assumptions C72_same.

Theorem C72_same_colors : forall point (center : idx -> point) unique_color m colors ks,
  ascending (map fst colors) -> ~ drawn (unique_color 0 one32) ->
  tm_export_colors_unique center unique_color m colors = Ok ks ->
  forall e, In e (shown (tm_export_colors center unique_color m colors)) <-> exists k, In k ks /\ In e (shown k).
Proof. exact @export_colors_same. Qed.
Print Assumptions C72_same_colors.

Theorem C72_same_contour : forall point (center : idx -> point) unique_color g m alpha objects k ks,
  drawable m g -> tm_contour center unique_color g m alpha objects = Ok k ->
  tm_contour_unique center unique_color g m alpha objects = Ok ks ->
  forall e, In e (shown k) <-> exists k', In k' ks /\ In e (shown k').
Proof. exact @contour_same. Qed.
Print Assumptions C72_same_contour.

Theorem C72_same_contour_colors : forall point (center : idx -> point) unique_color g m colors k ks,
  drawable m g -> ascending (map fst colors) ->
  tm_contour_colors center unique_color g m colors = Ok k ->
  tm_contour_colors_unique center unique_color g m colors = Ok ks ->
  forall e, In e (shown k) <-> exists k', In k' ks /\ In e (shown k').
Proof. exact @contour_colors_same. Qed.
Print Assumptions C72_same_contour_colors.

Example C72_nonvacuous : ~ drawn (plain_color 0 one32) /\ drawn (plain_color 3 one32).
Proof. split; [intros H|]; vm_compute in *; [discriminate|reflexivity]. Qed.

(** ** C73: colours of a drawn field *)
Theorem C73_colors_partial : forall point (center : idx -> point) clamp01 s alpha,
  (forall i, in_bounds (sdf_dims s) i = true -> is_finite 24 128 (fst (sdf_get s i)) = true) ->
  exists col, let k := sdf_export center clamp01 s alpha in
    mk_frame k = s_frame s /\ mk_ns k = Text "sdf_display" /\
    draws center k (sdf_dims s) (fun _ => True) col /\
    (forall i, in_bounds (sdf_dims s) i = true ->
       c_a (col i) = clamp01 alpha /\ shaded (fst (sdf_get s i)) (col i)) /\
    (forall i j, in_bounds (sdf_dims s) i = true -> in_bounds (sdf_dims s) j = true ->
       (gt32 (fst (sdf_get s i)) zero32 = true -> le32 (fst (sdf_get s i)) (fst (sdf_get s j)) = true ->
        (B2R 24 128 (c_g (col i)) <= B2R 24 128 (c_g (col j)))%R) /\
       (lt32 (fst (sdf_get s i)) zero32 = true -> le32 (fst (sdf_get s j)) (fst (sdf_get s i)) = true ->
        (B2R 24 128 (c_r (col i)) <= B2R 24 128 (c_r (col j)))%R)).
Proof.
  intros point center clamp01 s alpha F.
  exists (fun i => distance_color (clamp01 alpha) (fst (distance_range s)) (snd (distance_range s)) (fst (sdf_get s i))).
  destruct (sdf_export_draws center clamp01 s alpha) as (A & B & C). cbn zeta. split; auto. split; auto. split; auto. split.
  - intros i Hi. apply colors_shaded; auto.
  - intros i j Hi Hj. apply colors_monotone; auto.
Qed.
Print Assumptions C73_colors_partial.

(** Missing and false: infinite values.  The field of an empty map is drawn with a
    green channel that is not a number. *)
Theorem C73_infinite_refuted : exists s x,
  extract_sdf (D 2 1 1) one64 (fun _ => Ok false) zero32 "f" = Ok (s, x) /\
  map (fun c => is_nan 24 128 (c_g c)) (mk_colors (sdf_export (fun i => i) (fun a => a) s one32)) = [true; true].
Proof. exact nan_shade. Qed.
Print Assumptions C73_infinite_refuted.

(** The collision-only drawing shows the cells at most 0; for an extracted field
    these are the filled cells. *)
Theorem C73_collision_only : forall point (center : idx -> point) s, exists l,
  exactly (sdf_dims s) (fun i => le32 (fst (sdf_get s i)) zero32 = true) l /\
  sdf_export_collision center s = map center l.
Proof. exact @collision_export_draws. Qed.
Print Assumptions C73_collision_only.

Theorem C73_collision_cells : forall point (center : idx -> point) d r oob frame is_filled filled s x,
  size_ok d -> usable_resolution r -> answers d is_filled filled ->
  extract_sdf d r is_filled oob frame = Ok (s, x) ->
  exists l, exactly d (fun i => filled i = true) l /\ sdf_export_collision center s = map center l.
Proof. exact @collision_cells. Qed.
Print Assumptions C73_collision_cells.

Example C73_nonvacuous : exists s x,
  extract_sdf (D 2 1 1) one64 (fun i => Ok (ix i =? 0)) zero32 "f" = Ok (s, x) /\
  map (fun i => is_finite 24 128 (fst (sdf_get s i))) (sweep (sdf_dims s)) = [true; true] /\
  map (fun c => (gt32 (c_r c) zero32, gt32 (c_g c) zero32, gt32 (c_b c) zero32))
    (mk_colors (sdf_export (fun i => i) (fun a => a) s one32)) = [(true, false, false); (false, true, false)] /\
  sdf_export_collision (fun i => i) s = [I 0 0 0].
Proof. exact shade_case. Qed.

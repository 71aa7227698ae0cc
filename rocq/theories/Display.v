(** Model of the functions that draw maps and fields as RViz markers:
    src/sdf_tools/collision_map.cpp:317-562,
    src/sdf_tools/tagged_object_collision_map.cpp:660-1364 and
    src/sdf_tools/sdf.cpp:504-639.

    Of a marker only the frame, the namespace, the points and the colours are
    modelled; id, type, action, lifetime, pose and scale are constants or copies
    of the map's pose and resolution.  Colours of components and objects come from
    arc_utilities and are an argument. *)
From Verif Require Import Base Floats Grid CollisionMap TaggedMap Surfaces SdfGen Arith.

(** std_msgs::ColorRGBA (ROS), as filled in at
    src/sdf_tools/collision_map.cpp:550-554. *)
Record color := RGBA { c_r : binary32; c_g : binary32; c_b : binary32; c_a : binary32 }.

(** A namespace: a fixed text, a text followed by std::to_string of a number, or
    the text of a convex segment (tagged_object_collision_map.cpp:1291-1295). *)
Inductive namespace := Text (s : string) | Numbered (s : string) (n : Z) | Segment (obj seg : Z).

Section Display.
  Context {point : Type}.
  (** GridIndexToLocationGridFrame (arc_utilities). *)
  Variable center : idx -> point.
  (** arc_helpers::GenerateUniqueColor(id, alpha). *)
  Variable unique_color : Z -> binary32 -> color.

  (** The modelled members of visualization_msgs::Marker: header.frame_id and ns
      (src/sdf_tools/sdf.cpp:594-596), points and colors
      (src/sdf_tools/tagged_object_collision_map.cpp:716-717). *)
  Record marker := Marker {
    mk_frame : string; mk_ns : namespace; mk_points : list point; mk_colors : list color
  }.

  (** points.push_back and colors.push_back,
      src/sdf_tools/tagged_object_collision_map.cpp:710-717. *)
  Definition push (c : color) (k : marker) (i : idx) : marker :=
    Marker (mk_frame k) (mk_ns k) (mk_points k ++ [center i]) (mk_colors k ++ [c]).

  (** The test "color.a > 0.0" around the two push_backs,
      src/sdf_tools/tagged_object_collision_map.cpp:707. *)
  Definition visible (c : color) : bool := gt32 (c_a c) zero32.

  (** The two push_backs under that test,
      src/sdf_tools/tagged_object_collision_map.cpp:707-718. *)
  Definition push_visible (c : color) (k : marker) (i : idx) : marker :=
    if visible c then push c k i else k.

  (** DefaultMarker, src/sdf_tools/tagged_object_collision_map.cpp:661-678, and the
      same lines in the other classes, e.g. src/sdf_tools/sdf.cpp:592-606. *)
  Definition blank (frame : string) (n : namespace) : marker := Marker frame n [] [].

  (** ** CollisionMapGrid *)

  (** One cell of ExportForDisplay, src/sdf_tools/collision_map.cpp:351-374. *)
  Definition draw_class (collision free unknown : color) (occ : binary32) (k : marker) (i : idx)
    : marker :=
    if gt32 occ half32 then push_visible collision k i
    else if lt32 occ half32 then push_visible free k i
    else push_visible unknown k i.

  (** ExportForDisplay, collision_map.cpp:317-379. *)
  Definition cm_export (m : cmap) (collision free unknown : color) : marker :=
    fold_left (fun k i => draw_class collision free unknown (c_occ (fst (cm_get m i))) k i)
      (sweep (cm_dims m)) (blank (cm_frame m) (Text "collision_map_display")).

  (** Assignment to ns, src/sdf_tools/collision_map.cpp:391. *)
  Definition renamed (n : namespace) (k : marker) : marker :=
    Marker (mk_frame k) n (mk_points k) (mk_colors k).

  (** MakeFromFloatColors(0.0, 0.0, 0.0, 0.0),
      src/sdf_tools/collision_map.cpp:386-388. *)
  Definition no_color : color := RGBA zero32 zero32 zero32 zero32.

  (** ExportForSeparateDisplay, collision_map.cpp:381-403. *)
  Definition cm_export_separate (m : cmap) (collision free unknown : color) : list marker :=
    [renamed (Text "collision_only") (cm_export m collision no_color no_color);
     renamed (Text "free_only") (cm_export m no_color free no_color);
     renamed (Text "unknown_only") (cm_export m no_color no_color unknown)].

  (** ExportSurfacesForDisplay, collision_map.cpp:405-471. *)
  Definition cm_export_surfaces (m : cmap) (collision free unknown : color) : marker :=
    fold_left (fun k i =>
        if is_surface_index c_occ (cm_grid m) i
        then draw_class collision free unknown (c_occ (fst (cm_get m i))) k i else k)
      (sweep (cm_dims m)) (blank (cm_frame m) (Text "collision_map_display")).

  (** ExportSurfacesForSeparateDisplay, collision_map.cpp:473-496. *)
  Definition cm_export_surfaces_separate (m : cmap) (collision free unknown : color) : list marker :=
    [renamed (Text "collision_surfaces_only") (cm_export_surfaces m collision no_color no_color);
     renamed (Text "free_surfaces_only") (cm_export_surfaces m no_color free no_color);
     renamed (Text "unknown_surfaces_only") (cm_export_surfaces m no_color no_color unknown)].

  (** The grey of unknown cells, collision_map.cpp:550-555. *)
  Definition grey : color := RGBA half32 half32 half32 one32.

  (** A cell's colour by component, src/sdf_tools/collision_map.cpp:534-557.
      GenerateComponentColor is include/sdf_tools/collision_map.hpp:38-43. *)
  Definition component_color (color_unknown : bool) (occ : binary32) (comp : Z) : color :=
    if negb (eq32 occ half32) then unique_color comp one32
    else if color_unknown then unique_color comp one32
    else grey.

  (** ExportConnectedComponentsForDisplay, collision_map.cpp:498-562. *)
  Definition cm_export_components (m : cmap) (color_unknown : bool) : marker :=
    fold_left (fun k i => let c := fst (cm_get m i) in
                 push (component_color color_unknown (c_occ c) (c_comp c)) k i)
      (sweep (cm_dims m)) (blank (cm_frame m) (Text "connected_components_display")).

  (** ** TaggedObjectCollisionMapGrid *)

  (** The namespace of the drawings in one marker,
      src/sdf_tools/tagged_object_collision_map.cpp:691. *)
  Definition tagged_ns : namespace := Text "tagged_object_collision_map_display".

  (** The namespace of the marker of one object,
      src/sdf_tools/tagged_object_collision_map.cpp:731, L741. *)
  Definition object_ns (id : Z) : namespace := Numbered "tagged_object_collision_map_display_" id.

  (** cell.object_id, src/sdf_tools/tagged_object_collision_map.cpp:699-700. *)
  Definition object_at (m : tmap) (i : idx) : Z := t_obj (fst (tm_get m i)).

  (** ExportForDisplay(alpha, objects),
      src/sdf_tools/tagged_object_collision_map.cpp:680-724. *)
  Definition tm_export (m : tmap) (alpha : binary32) (objects : list Z) : marker :=
    let draw_all := match objects with [] => true | _ => false end in
    let wanted := fold_left (fun t id => map_put id 1 t) objects [] in
    fold_left (fun k i =>
        let id := object_at m i in
        if draw_all || (match map_get id wanted with Some _ => true | None => false end)
        then push_visible (unique_color id alpha) k i else k)
      (sweep (tm_dims m)) (blank (tm_frame m) tagged_ns).

  (** markers.at(n) and an update in place,
      src/sdf_tools/tagged_object_collision_map.cpp:779-781; std::vector::at
      throws. *)
  Definition at_marker (ks : list marker) (n : nat) (f : marker -> marker) : res (list marker) :=
    match nth_error ks n with
    | Some k => Ok (upd n (f k) ks)
    | None => Throw "out_of_range"
    end.

  (** The last loop, src/sdf_tools/tagged_object_collision_map.cpp:787-796. *)
  Definition pruned (ks : list marker) : list marker :=
    filter (fun k => match mk_points k with [] => false | _ => true end) ks.

  (** objects_to_draw_map, src/sdf_tools/tagged_object_collision_map.cpp:734: the
      position of each object's marker. *)
  Definition table : Type := list (Z * nat).

  (** "objects_to_draw_map[id] = size; markers.push_back(...)",
      src/sdf_tools/tagged_object_collision_map.cpp:756-761.  The position stored is
      the size of the table. *)
  Definition new_marker (frame : string) (id : Z) (st : table * list marker) : table * list marker :=
    let (t, ks) := st in (map_put id (length t) t, ks ++ [blank frame (object_ns id)]).

  (** ExportForDisplayUniqueNs(alpha, objects), tagged_object_collision_map.cpp:726-797. *)
  Definition tm_export_unique (m : tmap) (alpha : binary32) (objects : list Z) : res (list marker) :=
    let draw_all := match objects with [] => true | _ => false end in
    let '(_, t0, ks0) := fold_left (fun st id => let '(n, t, ks) := st in
                      (S n, map_put id n t, ks ++ [blank (tm_frame m) (object_ns id)]))
                    objects (0%nat, [], []) in
    let* (_, ks) := foldM (fun st i =>
        let id := object_at m i in
        let st1 := if draw_all && negb (id =? 0) &&
                      (match map_get id (fst st) with None => true | Some _ => false end)
                   then new_marker (tm_frame m) id st else st in
        match map_get id (fst st1) with
        | Some n =>
            if visible (unique_color id alpha)
            then let* ks' := at_marker (snd st1) n (fun k => push (unique_color id alpha) k i) in
                 Ok (fst st1, ks')
            else Ok st1
        | None => Ok st1
        end) (sweep (tm_dims m)) (t0, ks0) in
    Ok (pruned ks).

  (** color_map with a generated entry for a missing id,
      src/sdf_tools/tagged_object_collision_map.cpp:812-821, L878-887. *)
  Definition with_color (id : Z) (colors : list (Z * color)) : list (Z * color) * color :=
    match map_get id colors with
    | Some c => (colors, c)
    | None => (map_put id (unique_color id one32) colors, unique_color id one32)
    end.

  (** ExportForDisplay(color_map), tagged_object_collision_map.cpp:799-838. *)
  Definition tm_export_colors (m : tmap) (colors : list (Z * color)) : marker :=
    snd (fold_left (fun st i =>
        let (cs, c) := with_color (object_at m i) (fst st) in
        (cs, push_visible c (snd st) i))
      (sweep (tm_dims m)) (colors, blank (tm_frame m) tagged_ns)).

  (** ExportForDisplayUniqueNs(color_map), tagged_object_collision_map.cpp:840-915. *)
  Definition tm_export_colors_unique (m : tmap) (colors : list (Z * color)) : res (list marker) :=
    let st0 := fold_left (fun st e => let '(t, ks) := st in
                 (map_put (fst e) (length ks) t, ks ++ [blank (tm_frame m) (object_ns (fst e))]))
                 colors ([], []) in
    let* (_, st) := foldM (fun cst i =>
        let '(cs, st) := cst in
        let id := object_at m i in
        let st1 := if negb (id =? 0) &&
                      (match map_get id (fst st) with None => true | Some _ => false end)
                   then new_marker (tm_frame m) id st else st in
        match map_get id (fst st1) with
        | Some n =>
            let (cs', c) := with_color id cs in
            if visible c
            then let* ks' := at_marker (snd st1) n (fun k => push c k i) in
                 Ok (cs', (fst st1, ks'))
            else Ok (cs', st1)
        | None => Ok (cs, st1)
        end) (sweep (tm_dims m)) (colors, st0) in
    Ok (pruned (snd st)).

  (** The float -1.9 * GetResolution(), tagged_object_collision_map.cpp:931. *)
  Definition contour_limit (r : binary64) : binary32 :=
    b32_of_b64 (mul64 (opp64 (div64 (b64_of_Z 19) (b64_of_Z 10))) r).

  (** tagged_object_collision_map.cpp:940-948: is the cell near the surface of its own object? *)
  Definition on_contour (r : binary64) (sdfs : list (Z * sdf)) (m : tmap) (i : idx) : bool :=
    match map_get (object_at m i) sdfs with
    | Some s => let dist := fst (sdf_get s i) in
                lt32 dist zero32 && gt32 dist (contour_limit r)
    | None => false
    end.

  (** The fields of the objects to draw,
      src/sdf_tools/tagged_object_collision_map.cpp:922-926. *)
  Definition contour_sdfs (g : geometry) (m : tmap) (objects : list Z) : res (list (Z * sdf)) :=
    match objects with
    | [] => tm_make_all_object_sdfs g m true false
    | _ => tm_make_object_sdfs g m objects true false
    end.

  (** ExportContourOnlyForDisplay(alpha, objects), tagged_object_collision_map.cpp:917-970. *)
  Definition tm_contour (g : geometry) (m : tmap) (alpha : binary32) (objects : list Z) : res marker :=
    let* sdfs := contour_sdfs g m objects in
    Ok (fold_left (fun k i =>
          if on_contour (g_cx g) sdfs m i
          then push_visible (unique_color (object_at m i) alpha) k i else k)
        (sweep (tm_dims m)) (blank (tm_frame m) tagged_ns)).

  (** objects_to_draw_map.at(id), then markers.at(..),
      src/sdf_tools/tagged_object_collision_map.cpp:1025-1028. *)
  Definition push_to (st : table * list marker) (id : Z) (c : color) (i : idx)
    : res (table * list marker) :=
    match map_get id (fst st) with
    | Some n => let* ks' := at_marker (snd st) n (fun k => push c k i) in Ok (fst st, ks')
    | None => Throw "out_of_range"
    end.

  (** One blank marker per field,
      src/sdf_tools/tagged_object_collision_map.cpp:983-992. *)
  Definition contour_markers (frame : string) (sdfs : list (Z * sdf)) : table * list marker :=
    fold_left (fun st e => let '(t, ks) := st in
      (map_put (fst e) (length ks) t, ks ++ [blank frame (object_ns (fst e))])) sdfs ([], []).

  (** ExportContourOnlyForDisplayUniqueNs(alpha, objects), tagged_object_collision_map.cpp:972-1045. *)
  Definition tm_contour_unique (g : geometry) (m : tmap) (alpha : binary32) (objects : list Z)
    : res (list marker) :=
    let* sdfs := contour_sdfs g m objects in
    let* st := foldM (fun st i =>
        if on_contour (g_cx g) sdfs m i && visible (unique_color (object_at m i) alpha)
        then push_to st (object_at m i) (unique_color (object_at m i) alpha) i
        else Ok st) (sweep (tm_dims m)) (contour_markers (tm_frame m) sdfs) in
    Ok (pruned (snd st)).

  (** Colours for all objects with a field, tagged_object_collision_map.cpp:1057-1065. *)
  Definition all_colors (sdfs : list (Z * sdf)) (colors : list (Z * color)) : list (Z * color) :=
    fold_left (fun cs e => fst (with_color (fst e) cs)) sdfs colors.

  (** color_map.at(id), src/sdf_tools/tagged_object_collision_map.cpp:1087. *)
  Definition color_at (cs : list (Z * color)) (id : Z) : res color :=
    match map_get id cs with Some c => Ok c | None => Throw "out_of_range" end.

  (** ExportContourOnlyForDisplay(color_map), tagged_object_collision_map.cpp:1050-1106. *)
  Definition tm_contour_colors (g : geometry) (m : tmap) (colors : list (Z * color)) : res marker :=
    let* sdfs := tm_make_all_object_sdfs g m true false in
    foldM (fun k i =>
        if on_contour (g_cx g) sdfs m i
        then let* c := color_at (all_colors sdfs colors) (object_at m i) in Ok (push_visible c k i)
        else Ok k) (sweep (tm_dims m)) (blank (tm_frame m) tagged_ns).

  (** ExportContourOnlyForDisplayUniqueNs(color_map), tagged_object_collision_map.cpp:1108-1182. *)
  Definition tm_contour_colors_unique (g : geometry) (m : tmap) (colors : list (Z * color))
    : res (list marker) :=
    let* sdfs := tm_make_all_object_sdfs g m true false in
    let* st := foldM (fun st i =>
        if on_contour (g_cx g) sdfs m i
        then let* c := color_at (all_colors sdfs colors) (object_at m i) in
             if visible c then push_to st (object_at m i) c i else Ok st
        else Ok st) (sweep (tm_dims m)) (contour_markers (tm_frame m) sdfs) in
    Ok (pruned (snd st)).

  (** ExportForDisplayOccupancyOnly, tagged_object_collision_map.cpp:1188-1233. *)
  Definition tm_export_occupancy (m : tmap) (collision free unknown : color) : marker :=
    fold_left (fun k i => let occ := t_occ (fst (tm_get m i)) in
        push_visible (if gt32 occ half32 then collision
                      else if lt32 occ half32 then free else unknown) k i)
      (sweep (tm_dims m)) (blank (tm_frame m) (Text "tagged_object_collision_map_occupancy_display")).

  (** ExportConnectedComponentsForDisplay, tagged_object_collision_map.cpp:1235-1283. *)
  Definition tm_export_components (m : tmap) (color_unknown : bool) : marker :=
    fold_left (fun k i => let c := fst (tm_get m i) in
                 push (component_color color_unknown (t_occ c) (t_comp c)) k i)
      (sweep (tm_dims m)) (blank (tm_frame m) (Text "tagged_object_connected_components_display")).

  (** ExportConvexSegmentForDisplay, tagged_object_collision_map.cpp:1285-1334.  [hot_to_cold] is
      arc_helpers' InterpolateHotToCold(segment, 1.0, number of segments). *)
  Definition tm_export_segment (hot_to_cold : Z -> Z -> color) (m : tmap) (obj seg : Z) : marker :=
    fold_left (fun k i => let c := fst (tm_get m i) in
        if (t_obj c =? obj) && (t_seg c =? seg)
        then push (if tm_nseg m <? 22 then unique_color seg one32 else hot_to_cold seg (tm_nseg m)) k i
        else k)
      (sweep (tm_dims m)) (blank (tm_frame m) (Segment obj seg)).

  (** ExportSurfaceForDisplay, tagged_object_collision_map.cpp:1336-1364: the surface in the order its
      hash table is visited. *)
  Definition tm_export_surface (m : tmap) (surface : list (idx * Z)) (c : color) : marker :=
    fold_left (fun k e => if snd e =? 1 then push c k (fst e) else k)
      surface (blank (tm_frame m) (Text "tagged_object_collision_map_surface")).

  (** ** SignedDistanceField *)

  (** Largest and smallest distance as doubles, both starting at 0,
      sdf.cpp:523-541. *)
  Definition distance_range (s : sdf) : binary64 * binary64 :=
    fold_left (fun mm i => let (lo, hi) := mm : binary64 * binary64 in
        let d := b64_of_b32 (fst (sdf_get s i)) in
        (if lt64 d lo then d else lo, if gt64 d hi then d else hi))
      (sweep (sdf_dims s)) (zero64, zero64).

  (** (float)(std::abs(distance / limit) * 0.8 + 0.2), src/sdf_tools/sdf.cpp:567,
      L574. *)
  Definition shade (d limit : binary64) : binary32 :=
    b32_of_b64 (add64 (mul64 (b64_abs (div64 d limit)) (div64 (b64_of_Z 8) (b64_of_Z 10)))
                      (div64 (b64_of_Z 2) (b64_of_Z 10))).

  (** The colour of one cell, src/sdf_tools/sdf.cpp:562-581; [alpha] is already
      clamped. *)
  Definition distance_color (alpha : binary32) (lo hi : binary64) (v : binary32) : color :=
    let d := b64_of_b32 v in
    if gt64 d zero64 then RGBA zero32 (shade d hi) zero32 alpha
    else if lt64 d zero64 then RGBA (shade d lo) zero32 zero32 alpha
    else RGBA zero32 zero32 one32 alpha.

  (** ExportForDisplay, sdf.cpp:504-587: points in one pass, colours in another. *)
  Definition sdf_export (clamp01 : binary32 -> binary32) (s : sdf) (alpha : binary32) : marker :=
    let (lo, hi) := distance_range s in
    Marker (s_frame s) (Text "sdf_display")
      (fold_left (fun l i => l ++ [center i]) (sweep (sdf_dims s)) [])
      (fold_left (fun l i => l ++ [distance_color (clamp01 alpha) lo hi (fst (sdf_get s i))])
         (sweep (sdf_dims s)) []).

  (** ExportForDisplayCollisionOnly, sdf.cpp:589-639: points only (the colour is
      that of the whole marker). *)
  Definition sdf_export_collision (s : sdf) : list point :=
    fold_left (fun l i => if le64 (b64_of_b32 (fst (sdf_get s i))) zero64 then l ++ [center i] else l)
      (sweep (sdf_dims s)) [].
End Display.
Arguments marker : clear implicits.

(** C02-C06 for tagged maps, C46-C49, C64. *)
From Verif Require Import Base Floats Grid DistSpec TopoSpec SdfGen SdfSpec Arith SdfQuery SdfField
  QueryWitness Extrema ExtremaSpec TaggedMap TaggedSpec TaggedProofs TaggedCase DistModel TaggedExact TaggedFresh.

(** C02, C03 for tagged maps: components are the face-connected regions of equal
    kind, numbered in sweep order; object ids, convex segments, their count and
    flag are untouched. *)
Theorem C02_tagged_components_exact : forall m,
  tmap_ok m -> tm_components_valid m = false ->
  exists m' n, tm_update m = Ok (m', n) /\ tmap_ok m' /\ only_components_differ m m' /\
    tcomponents_right m' n /\ tm_ncomp m' = n /\ tm_components_valid m' = true /\
    n <= ncells (tm_dims m).
Proof. exact tupdate_fresh. Qed.
Print Assumptions C02_tagged_components_exact.

Theorem C03_tagged_payload_kept : forall m m' n,
  tmap_ok m -> tm_update m = Ok (m', n) -> only_components_differ m m'.
Proof. exact tupdate_payload. Qed.
Print Assumptions C03_tagged_payload_kept.

(** C04 for tagged maps, over histories that also compute convex segments. *)
Theorem C04_tagged_valid_flag_sound : forall g frame d def oob ops,
  0 <= nx d -> 0 <= ny d -> 0 <= nz d -> ncells d < 4294967296 -> geometry_ok d g ->
  tcell_ok def -> tcell_ok oob -> Forall top_ok ops -> trefs_not_kept 0 [] ops ->
  exists m refs, tm_run g (tm_new frame d def oob) ops = Ok (m, refs) /\ tmap_ok m /\
    tm_dims m = d /\ (tm_components_valid m = true -> tcomponents_right m (tm_ncomp m)).
Proof. exact thistory_sound. Qed.
Print Assumptions C04_tagged_valid_flag_sound.

(** C06 for tagged maps: component numbers depend on the occupancies only, and
    updating again changes nothing. *)
Theorem C06_tagged_recompute_determined : forall m1 m2,
  tmap_ok m1 -> (tm_components_valid m1 = true -> tcomponents_right m1 (tm_ncomp m1)) ->
  tmap_ok m2 -> (tm_components_valid m2 = true -> tcomponents_right m2 (tm_ncomp m2)) ->
  tm_dims m2 = tm_dims m1 -> (forall i, tocc m2 i = tocc m1 i) ->
  exists m1' m2' n, tm_update m1 = Ok (m1', n) /\ tm_update m2 = Ok (m2', n) /\
    (forall i, in_bounds (tm_dims m1) i = true -> tcomp m1' i = tcomp m2' i) /\
    tm_update m1' = Ok (m1', n).
Proof.
  exact (fun m1 m2 O1 V1 O2 V2 => tupdate_determined m1 m2 (conj O1 V1) (conj O2 V2)).
Qed.
Print Assumptions C06_tagged_recompute_determined.

(** C46 is false: whenever the segments are flagged valid, a free cell that has a
    segment can be made an obstacle with SetValue; the flag stays true although no
    computation (whatever extrema and threshold) would give these numbers. *)
Theorem C46_stale_segments_refuted : forall m i,
  tmap_ok m -> in_bounds (tm_dims m) i = true -> tm_segments_valid m = Ok true ->
  tobj m i = 0 -> tseg m i <> 0 ->
  let m' := fst (tm_set m i (TC one32 (tcomp m i) (tobj m i) (tseg m i))) in
  tm_segments_valid m' = Ok true /\ forall ex threshold n, ~ segments_right m' ex threshold n.
Proof. exact stale_segments. Qed.
Print Assumptions C46_stale_segments_refuted.

(** C46, what does hold: after a computation and any calls that write no cell the
    flag is set, the segments are right for the map as it is, and computing them
    again changes none of them. *)
Theorem C46_unwritten_partial : forall g m threshold border ops m1 n m2 refs,
  tmap_ok m -> geometry_ok (tm_dims m) g -> tm_update_segments g m threshold border = Ok (m1, n) ->
  Forall writes_nothing ops -> tm_run g m1 ops = Ok (m2, refs) ->
  tm_segments_valid m2 = Ok true /\ tm_nseg m2 = n /\ (forall i, tseg m2 i = tseg m1 i) /\
  exists ex, tm_extrema g m2 border = Ok ex /\ segments_right m2 (fun i => fst (get ex i)) threshold n /\
  exists m3, tm_update_segments g m2 threshold border = Ok (m3, n) /\
    forall i, in_bounds (tm_dims m) i = true -> tseg m3 i = tseg m2 i.
Proof. exact fresh_segments. Qed.
Print Assumptions C46_unwritten_partial.

(** C47 is false: after any constructor with arguments, and any calls other than
    UpdateConvexSegments, AreConvexSegmentsValid reads an uninitialised bool. *)
Theorem C47_uninitialised_flag_refuted : forall g frame d def oob ops m refs,
  Forall (fun o => match o with TUpdateSeg _ _ => False | _ => True end) ops ->
  tm_run g (tm_new frame d def oob) ops = Ok (m, refs) ->
  is_ub (tm_segments_valid m) = true.
Proof. exact uninitialised_until_segments. Qed.
Print Assumptions C47_uninitialised_flag_refuted.

(** C47, what does hold: the default constructor initialises it. *)
Theorem C47_default_initialised : tm_segments_valid tm_default = Ok false.
Proof. exact eq_refl. Qed.
Print Assumptions C47_default_initialised.

(** C48: UpdateConvexSegments succeeds on every map with a usable geometry. *)
Theorem C48_defined : forall g m threshold border,
  tmap_ok m -> geometry_ok (tm_dims m) g ->
  exists ex m' n, tm_extrema g m border = Ok ex /\ gdims ex = tm_dims m /\
    tm_update_segments g m threshold border = Ok (m', n).
Proof. exact segments_defined. Qed.
Print Assumptions C48_defined.

(** C48, where the extrema come from: the extrema map of a field in which unknown
    cells are obstacles and, without a border, obstacles that belong to no object
    are neither inside nor outside. *)
Theorem C48_extrema_source : forall g m border,
  tmap_ok m -> geometry_ok (tm_dims m) g ->
  exists s ex, tm_extrema g m border = Ok ex /\
    compute_extrema (sdf_field s) (g_pose g) (tm_dims m) = Ok ex /\
    sdf_dims s = tm_dims m /\ s_res s = g_cx g /\ goob (s_grid s) = inf32 /\
    forall i, in_bounds (tm_dims m) i = true ->
      (lt32 (fst (sdf_get s i)) zero32 = true <->
         counts_as_filled true (tocc m i) /\ (border = true \/ 0 < tobj m i)) /\
      (gt32 (fst (sdf_get s i)) zero32 = true <-> ~ counts_as_filled true (tocc m i)).
Proof. exact extrema_field. Qed.
Print Assumptions C48_extrema_source.

(** C48: the segments are exactly the regions of taking-part cells linked by equal
    object and extrema closer than the threshold, numbered 1..n in sweep order;
    other cells carry 0; nothing but segment numbers changes. *)
Theorem C48_segments_exact : forall g m threshold border ex,
  tmap_ok m -> tm_extrema g m border = Ok ex ->
  exists m' n, tm_update_segments g m threshold border = Ok (m', n) /\
    tmap_ok m' /\ only_segments_differ m m' /\
    segments_right m' (fun i => fst (get ex i)) threshold n /\
    tm_nseg m' = n /\ tm_segments_valid m' = Ok true /\ n <= ncells (tm_dims m).
Proof. exact segments_update. Qed.
Print Assumptions C48_segments_exact.

(** C48 in the property's own words. *)
Theorem C48_segments_respect_objects : forall g m threshold border ex m' n,
  tmap_ok m -> tm_extrema g m border = Ok ex ->
  tm_update_segments g m threshold border = Ok (m', n) ->
  (forall a b, in_bounds (tm_dims m) a = true -> in_bounds (tm_dims m) b = true ->
     tseg m' a <> 0 -> tseg m' a = tseg m' b -> tobj m a = tobj m b) /\
  (forall a, in_bounds (tm_dims m) a = true -> 0 <= tseg m' a <= n) /\
  (forall a, in_bounds (tm_dims m) a = true -> tseg m' a <> 0 ->
     (lt32 (tocc m a) half32 = true \/ 0 < tobj m a) /\
     isinf64 (vx (fst (get ex a))) = false /\ isinf64 (vy (fst (get ex a))) = false /\
     isinf64 (vz (fst (get ex a))) = false).
Proof. exact segments_words. Qed.
Print Assumptions C48_segments_respect_objects.

(** C49: filled cells of the named objects (all if the list is empty) are
    negative, all other cells positive; border or not. *)
Theorem C49_selected_objects : forall g m oob objects unknown border,
  tmap_ok m -> size_ok (enlarged_dims (tm_dims m)) -> usable_resolution (g_cx g) ->
  g_cy g = g_cx g -> g_cz g = g_cx g ->
  exists s x, tm_extract_sdf g m oob objects unknown border = Ok (s, x) /\
    sdf_dims s = tm_dims m /\ s_res s = g_cx g /\ s_frame s = tm_frame m /\ s_locked s = false /\
    goob (s_grid s) = oob /\
    forall i, in_bounds (tm_dims m) i = true -> exists v, sdf_get s i = (v, true) /\
      is_nan 24 128 v = false /\
      (object_filled m objects unknown i -> lt32 v zero32 = true) /\
      (~ object_filled m objects unknown i -> gt32 v zero32 = true).
Proof. exact object_sign. Qed.
Print Assumptions C49_selected_objects.

(** C49, distances are those between the selected and the other cells. *)
Theorem C49_distance : forall g m oob objects unknown s mx mn P,
  tmap_ok m -> size_ok (tm_dims m) -> usable_resolution (g_cx g) ->
  g_cy g = g_cx g -> g_cz g = g_cx g ->
  (forall i, P i = true <-> object_filled m objects unknown i) ->
  tm_extract_sdf g m oob objects unknown false = Ok (s, (mx, mn)) ->
  forall c, in_bounds (tm_dims m) c = true ->
  exists v, sdf_get s c = (signed_value (P c) v (g_cx g), true) /\
    (forall z, v = Some z -> 1 <= z <= 2147483647 /\
       exists p, other_class (tm_dims m) P c p /\ distsq c p = z) /\
    (forall z, nearest_other (tm_dims m) P c z -> z <= 6 -> v = Some z).
Proof. exact object_distance. Qed.
Print Assumptions C49_distance.

Theorem C49_distance_border : forall g m oob objects unknown s mx mn P,
  tmap_ok m -> size_ok (enlarged_dims (tm_dims m)) -> usable_resolution (g_cx g) ->
  g_cy g = g_cx g -> g_cz g = g_cx g ->
  (forall i, P i = true <-> object_filled m objects unknown i) ->
  tm_extract_sdf g m oob objects unknown true = Ok (s, (mx, mn)) ->
  forall c, in_bounds (tm_dims m) c = true ->
  exists v, sdf_get s c = (signed_value (P c) v (g_cx g), true) /\
    (forall z, v = Some z -> 1 <= z <= 2147483647 /\
       exists p, other_or_outside (tm_dims m) P c p /\ distsq c p = z) /\
    (forall z, nearest_other_or_outside (tm_dims m) P c z -> z <= 6 -> v = Some z).
Proof. exact object_distance_border. Qed.
Print Assumptions C49_distance_border.

(** C49, the distances in terms of the distance fields of selected and other
    cells. *)
Theorem C49_distance_field : forall g m oob objects unknown s x P,
  tmap_ok m -> size_ok (tm_dims m) -> usable_resolution (g_cx g) ->
  g_cy g = g_cx g -> g_cz g = g_cx g ->
  (forall i, P i = true <-> object_filled m objects unknown i) ->
  tm_extract_sdf g m oob objects unknown false = Ok (s, x) ->
  exists to_filled to_free,
    build_distance_field (tm_dims m) (cells_of (tm_dims m) P) = Ok to_filled /\
    build_distance_field (tm_dims m) (cells_of (tm_dims m) (fun i => negb (P i))) = Ok to_free /\
    forall c, in_bounds (tm_dims m) c = true ->
      sdf_get s c =
        (signed_value (P c) (cell_distsq (if P c then to_free else to_filled) c) (g_cx g), true).
Proof. exact object_values. Qed.
Print Assumptions C49_distance_field.

Theorem C49_distance_field_border : forall g m oob objects unknown s x P,
  tmap_ok m -> size_ok (enlarged_dims (tm_dims m)) -> usable_resolution (g_cx g) ->
  g_cy g = g_cx g -> g_cz g = g_cx g ->
  (forall i, P i = true <-> object_filled m objects unknown i) ->
  tm_extract_sdf g m oob objects unknown true = Ok (s, x) ->
  let d := tm_dims m in let e := enlarged_dims d in
  exists to_filled to_free,
    build_distance_field e (cells_of e (with_layer d P)) = Ok to_filled /\
    build_distance_field e (cells_of e (with_layer d (fun i => negb (P i)))) = Ok to_free /\
    forall c, in_bounds d c = true ->
      sdf_get s c =
        (signed_value (P c) (cell_distsq (if P c then to_free else to_filled) (shift_in d c)) (g_cx g), true).
Proof. exact object_values_border. Qed.
Print Assumptions C49_distance_field_border.

(** C49: MakeObjectSDFs has one entry per id asked for, MakeAllObjectSDFs one per
    nonzero id present; each is the field of that object alone. *)
Theorem C49_make_object_sdfs : forall g m ids unknown border,
  tmap_ok m -> size_ok (enlarged_dims (tm_dims m)) -> usable_resolution (g_cx g) ->
  g_cy g = g_cx g -> g_cz g = g_cx g ->
  exists l, tm_make_object_sdfs g m ids unknown border = Ok l /\
    ascending (map fst l) /\
    (forall id, In id (map fst l) <-> In id ids) /\
    (forall id s, In (id, s) l ->
       exists x, tm_extract_sdf g m inf32 [id] unknown border = Ok (s, x)).
Proof. exact make_object_sdfs_spec. Qed.
Print Assumptions C49_make_object_sdfs.

Theorem C49_make_all_object_sdfs : forall g m unknown border,
  tmap_ok m -> size_ok (enlarged_dims (tm_dims m)) -> usable_resolution (g_cx g) ->
  g_cy g = g_cx g -> g_cz g = g_cx g ->
  exists l, tm_make_all_object_sdfs g m unknown border = Ok l /\
    ascending (map fst l) /\
    (forall id, In id (map fst l) <-> 0 < id /\ exists i, in_bounds (tm_dims m) i = true /\ tobj m i = id) /\
    (forall id s, In (id, s) l ->
       exists x, tm_extract_sdf g m inf32 [id] unknown border = Ok (s, x)).
Proof. exact make_all_spec. Qed.
Print Assumptions C49_make_all_object_sdfs.

(** C64: the field of free space and named objects: free cells carry the distance
    to the nearest filled cell, filled cells of a named object the (negative)
    distance to the nearest cell that is not filled by a named object, other
    filled cells exactly zero. *)
Theorem C64_free_and_named : forall g m oob unknown,
  tmap_ok m -> size_ok (tm_dims m) -> usable_resolution (g_cx g) ->
  g_cy g = g_cx g -> g_cz g = g_cx g ->
  exists s x free_s free_x named_s named_x,
    tm_free_and_named g m oob unknown = Ok (s, x) /\
    tm_extract_cells g m (fun c => occupied unknown (t_occ c)) oob = Ok (free_s, free_x) /\
    tm_extract_cells g m (fun c => (0 <? t_obj c) && occupied unknown (t_occ c)) oob = Ok (named_s, named_x) /\
    sdf_dims s = tm_dims m /\ s_res s = g_cx g /\ s_frame s = tm_frame m /\ s_locked s = false /\
    goob (s_grid s) = oob /\
    forall i, in_bounds (tm_dims m) i = true ->
      (~ counts_as_filled unknown (tocc m i) ->
         sdf_get s i = sdf_get free_s i /\ gt32 (fst (sdf_get s i)) zero32 = true) /\
      (counts_as_filled unknown (tocc m i) -> 0 < tobj m i ->
         sdf_get s i = sdf_get named_s i /\ lt32 (fst (sdf_get s i)) zero32 = true) /\
      (counts_as_filled unknown (tocc m i) -> tobj m i = 0 -> sdf_get s i = (zero32, true)).
Proof. exact free_and_named. Qed.
Print Assumptions C64_free_and_named.

(** C64 in terms of distance fields: free cells use the field of the filled cells
    ([P]), filled cells of named objects ([Q]) that of all cells but those. *)
Theorem C64_distance_field : forall g m oob unknown P Q,
  tmap_ok m -> size_ok (tm_dims m) -> usable_resolution (g_cx g) ->
  g_cy g = g_cx g -> g_cz g = g_cx g ->
  (forall i, P i = true <-> counts_as_filled unknown (tocc m i)) ->
  (forall i, Q i = true <-> counts_as_filled unknown (tocc m i) /\ 0 < tobj m i) ->
  forall s mx mn, tm_free_and_named g m oob unknown = Ok (s, (mx, mn)) ->
  exists to_filled to_rest,
    build_distance_field (tm_dims m) (cells_of (tm_dims m) P) = Ok to_filled /\
    build_distance_field (tm_dims m) (cells_of (tm_dims m) (fun i => negb (Q i))) = Ok to_rest /\
    forall c, in_bounds (tm_dims m) c = true ->
      sdf_get s c =
        (if negb (P c) then signed_value false (cell_distsq to_filled c) (g_cx g)
         else if Q c then signed_value true (cell_distsq to_rest c) (g_cx g) else zero32, true).
Proof. exact both_values. Qed.
Print Assumptions C64_distance_field.

(** C96, what holds: the reported maximum is right when some cell is free, the
    reported minimum when some filled cell belongs to a named object. *)
Theorem C96_extrema_both_classes : forall g m oob unknown P Q,
  tmap_ok m -> size_ok (tm_dims m) -> usable_resolution (g_cx g) ->
  g_cy g = g_cx g -> g_cz g = g_cx g ->
  (forall i, P i = true <-> counts_as_filled unknown (tocc m i)) ->
  (forall i, Q i = true <-> counts_as_filled unknown (tocc m i) /\ 0 < tobj m i) ->
  forall s mx mn, tm_free_and_named g m oob unknown = Ok (s, (mx, mn)) ->
  ((exists c, in_bounds (tm_dims m) c = true /\ P c = false) ->
     upper_extremum (tm_dims m) (fun c => fst (sdf_get s c)) mx) /\
  ((exists c, in_bounds (tm_dims m) c = true /\ Q c = true) ->
     lower_extremum (tm_dims m) (fun c => fst (sdf_get s c)) mn).
Proof.
  intros g m oob unknown P Q Hok Hs Hr Ey Ez HP HQ s mx mn E.
  exact (conj (upper_right g m oob unknown P Q Hok Hs Hr Ey Ez HP HQ s mx mn E)
              (lower_right g m oob unknown P Q Hok Hs Hr Ey Ez HP HQ s mx mn E)).
Qed.
Print Assumptions C96_extrema_both_classes.

(** C96 is false otherwise: without free space the reported maximum is -infinity,
    without named objects the reported minimum is +infinity, and every obstacle
    that belongs to no object stores a value outside. *)
Theorem C96_extrema_refuted : forall g m oob unknown P Q,
  tmap_ok m -> size_ok (tm_dims m) -> usable_resolution (g_cx g) ->
  g_cy g = g_cx g -> g_cz g = g_cx g ->
  (forall i, P i = true <-> counts_as_filled unknown (tocc m i)) ->
  (forall i, Q i = true <-> counts_as_filled unknown (tocc m i) /\ 0 < tobj m i) ->
  forall s mx mn c, tm_free_and_named g m oob unknown = Ok (s, (mx, mn)) ->
  in_bounds (tm_dims m) c = true -> P c = true -> Q c = false ->
  ((forall i, in_bounds (tm_dims m) i = true -> P i = true) ->
     mx = ninf64 /\ gt32 (fst (sdf_get s c)) (b32_of_b64 mx) = true) /\
  ((forall i, in_bounds (tm_dims m) i = true -> Q i = false) ->
     mn = inf64 /\ lt32 (fst (sdf_get s c)) (b32_of_b64 mn) = true).
Proof.
  intros g m oob unknown P Q Hok Hs Hr Ey Ez HP HQ s mx mn c E Hc Hp Hq.
  exact (conj (fun Ha => upper_wrong g m oob unknown P Q Hok Hs Hr Ey Ez HP HQ s mx mn E c Ha Hc Hq)
              (fun Ha => lower_wrong g m oob unknown P Q Hok Hs Hr Ey Ez HP HQ s mx mn E c Ha Hc Hp)).
Qed.
Print Assumptions C96_extrema_refuted.

(** A map that meets the first theorem and one that shows the second. *)
Example C96_nonvacuous :
  tmap_ok mixed /\ tmap_ok unnamed /\ size_ok (tm_dims mixed) /\ usable_resolution (g_cx (row_geo 4)) /\
  match tm_free_and_named (row_geo 4) mixed inf32 false with
  | Ok (s, (mx, mn)) =>
      reads s [b32_of_b64 SdfThms.quarter64; zero32; b32_opp (b32_of_b64 SdfThms.quarter64);
               b32_of_b64 SdfThms.quarter64] = true /\
      eq64 mx SdfThms.quarter64 = true /\ eq64 mn (opp64 SdfThms.quarter64) = true
  | _ => False
  end /\
  match tm_free_and_named (row_geo 2) unnamed inf32 false with
  | Ok (s, (mx, mn)) =>
      reads s [zero32; zero32] = true /\ eq64 mx ninf64 = true /\ eq64 mn inf64 = true
  | _ => False
  end.
Proof. exact mixed_case. Qed.

(** A corridor of eight cells: obstacles at the ends, one of them named 5, an
    object 3 in the middle. *)
Example tagged_nonvacuous :
  geometry_ok (D 8 1 1) case_geo /\ Forall top_ok case_ops /\ trefs_not_kept 0 [] case_ops /\
  match tm_run case_geo (tm_new "f" (D 8 1 1) (tcell2 zero32 0) (tcell2 zero32 0)) case_ops with
  | Ok (m, _) => map t_seg (gdata (tm_grid m)) = case_segs /\ map t_comp (gdata (tm_grid m)) = case_comps /\
                 tm_segments_valid m = Ok true /\ tm_components_valid m = true /\
                 tm_object_ids m = [3; 5]
  | _ => False
  end.
Proof. exact tagged_case. Qed.

(** The same corridor after more calls that write nothing. *)
Example C46_nonvacuous :
  Forall writes_nothing [TGetRef (I 3 0 0); TUpdateCC; TGetRef (I 9 9 9)] /\
  match tm_run case_geo (tm_new "f" (D 8 1 1) (tcell2 zero32 0) (tcell2 zero32 0)) case_ops with
  | Ok (m, _) =>
      match tm_run case_geo m [TGetRef (I 3 0 0); TUpdateCC; TGetRef (I 9 9 9)] with
      | Ok (m2, refs) => map t_seg (gdata (tm_grid m2)) = case_segs /\ length refs = 2%nat
      | _ => False
      end
  | _ => False
  end.
Proof. split; [repeat constructor|]. vm_compute. split; reflexivity. Qed.

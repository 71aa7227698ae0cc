(** C16-C23: signed-distance-field extraction. *)
From Coq Require Import Reals.
From Flocq Require Import Core.Core IEEE754.Binary IEEE754.Bits.
From Verif Require Import Base Floats Grid DistSpec DistModel CollisionMap SdfGen SdfSpec SdfThms SdfBorderThms SdfExact.
Open Scope Z_scope.

(** C16: the extraction returns a field of the requested size, resolution and
    frame; free cells are positive, filled cells negative, nothing is NaN. *)
Theorem C16_sign : forall d r oob frame is_filled filled,
  size_ok d -> usable_resolution r -> answers d is_filled filled ->
  exists s x, extract_sdf d r is_filled oob frame = Ok (s, x) /\
    sdf_dims s = d /\ s_res s = r /\ s_frame s = frame /\ s_locked s = false /\
    goob (s_grid s) = oob /\
    forall c, in_bounds d c = true -> exists v, sdf_get s c = (v, true) /\
      is_nan 24 128 v = false /\
      (filled c = false -> gt32 v zero32 = true) /\
      (filled c = true -> lt32 v zero32 = true).
Proof. exact extract_sign. Qed.
Print Assumptions C16_sign.

(** C17: the stored magnitude is the rounded distance, for a cell distance that
    some cell of the other class really has; exact up to squared distance 6. *)
Theorem C17_magnitude : forall d r oob frame is_filled filled s mx mn,
  size_ok d -> usable_resolution r -> answers d is_filled filled ->
  extract_sdf d r is_filled oob frame = Ok (s, (mx, mn)) ->
  forall c, in_bounds d c = true ->
  exists m, sdf_get s c = (signed_value (filled c) m r, true) /\
    (forall z, m = Some z -> 1 <= z <= 2147483647 /\
       exists p, other_class d filled c p /\ distsq c p = z) /\
    (forall z, nearest_other d filled c z -> z <= 6 -> m = Some z).
Proof. intros d r oob frame f P s mx mn H1 H2 H3 H4. exact (extract_magnitude d r oob frame f P H1 H2 H3 s mx mn H4). Qed.
Print Assumptions C17_magnitude.

(** C17, in terms of the distance fields of the two classes: the magnitude at a
    free cell comes from the field built on the filled cells, and conversely. *)
Theorem C17_distance_field : forall d r oob frame is_filled filled s x,
  size_ok d -> usable_resolution r -> answers d is_filled filled ->
  extract_sdf d r is_filled oob frame = Ok (s, x) ->
  exists to_filled to_free,
    build_distance_field d (cells_of d filled) = Ok to_filled /\
    build_distance_field d (cells_of d (fun i => negb (filled i))) = Ok to_free /\
    forall c, in_bounds d c = true ->
      sdf_get s c =
        (signed_value (filled c) (cell_distsq (if filled c then to_free else to_filled) c) r, true).
Proof. exact extract_values. Qed.
Print Assumptions C17_distance_field.

(** C17, cells next to the other class store exactly float(resolution). *)
Theorem C17_boundary_cells : forall d r oob frame is_filled filled s mx mn,
  size_ok d -> usable_resolution r -> answers d is_filled filled ->
  extract_sdf d r is_filled oob frame = Ok (s, (mx, mn)) ->
  forall c p, in_bounds d c = true -> other_class d filled c p -> distsq c p = 1 ->
  sdf_get s c = ((if filled c then b32_opp (b32_of_b64 r) else b32_of_b64 r), true).
Proof. intros d r oob frame f P s mx mn H1 H2 H3 H4. exact (extract_boundary d r oob frame f P H1 H2 H3 s mx mn H4). Qed.
Print Assumptions C17_boundary_cells.

(** C17, how close the rounded magnitude is to the real distance sqrt(m)*r. *)
Theorem C17_accuracy : forall m r,
  1 <= m <= 2147483647 -> is_finite 53 1024 r = true ->
  (bpow radix2 (-125) <= B2R 53 1024 r)%R ->
  (sqrt (IZR m) * B2R 53 1024 r <= bpow radix2 127)%R ->
  is_finite 24 128 (rounded_distance (Some m) r) = true /\
  (Rabs (B2R 24 128 (rounded_distance (Some m) r) - sqrt (IZR m) * B2R 53 1024 r)
   <= bpow radix2 (-23) * (sqrt (IZR m) * B2R 53 1024 r))%R.
Proof. exact rounded_accuracy. Qed.
Print Assumptions C17_accuracy.

(** C18 *)
Theorem C18_one_class_infinite : forall d r oob frame is_filled filled s mx mn,
  size_ok d -> usable_resolution r -> answers d is_filled filled ->
  extract_sdf d r is_filled oob frame = Ok (s, (mx, mn)) ->
  forall b, (forall c, in_bounds d c = true -> filled c = b) ->
  forall c, in_bounds d c = true -> sdf_get s c = ((if b then ninf32 else inf32), true).
Proof. intros d r oob frame f P s mx mn H1 H2 H3 H4. exact (extract_one_class d r oob frame f P H1 H2 H3 s mx mn H4). Qed.
Print Assumptions C18_one_class_infinite.

(** C19: the reported pair bounds the unrounded cell distances and both ends are
    attained. *)
Theorem C19_extrema_unrounded : forall d r oob frame is_filled filled s mx mn,
  size_ok d -> usable_resolution r -> answers d is_filled filled ->
  extract_sdf d r is_filled oob frame = Ok (s, (mx, mn)) -> 0 < ncells d ->
  exists dist : idx -> binary64,
    (forall c, in_bounds d c = true ->
       fst (sdf_get s c) = b32_of_b64 (dist c) /\
       le64 (dist c) mx = true /\ ge64 (dist c) mn = true) /\
    (exists c, in_bounds d c = true /\ dist c = mx) /\
    (exists c, in_bounds d c = true /\ dist c = mn).
Proof. exact extract_extrema_double. Qed.
Print Assumptions C19_extrema_unrounded.

(** C19, the same for the stored floats. *)
Theorem C19_extrema_stored : forall d r oob frame is_filled filled s mx mn,
  size_ok d -> usable_resolution r -> answers d is_filled filled ->
  extract_sdf d r is_filled oob frame = Ok (s, (mx, mn)) -> 0 < ncells d ->
  upper_extremum d (fun c => fst (sdf_get s c)) mx /\
  lower_extremum d (fun c => fst (sdf_get s c)) mn.
Proof. intros d r oob frame f P s mx mn H1 H2 H3 H4. exact (extract_extrema d r oob frame f P H1 H2 H3 s mx mn H4). Qed.
Print Assumptions C19_extrema_stored.

(** C20 is false: on every grid of one class with an axis longer than one cell the
    reported maximum (all filled) is below, or the minimum (all free) above, a
    stored value. *)
Theorem C20_border_extrema_refuted : forall d r oob frame is_filled s mx mn,
  size_ok (enlarged_dims d) -> 0 <= nx d -> 0 <= ny d -> 0 <= nz d -> 0 < ncells d ->
  1 < nx d \/ 1 < ny d \/ 1 < nz d -> usable_resolution r ->
  lt32 (b32_of_b64 r) inf32 = true ->
  extract_sdf_grid d r r r is_filled oob frame true = Ok (s, (mx, mn)) ->
  (answers d is_filled (fun _ => true) ->
     mx = ninf64 /\ exists c, in_bounds d c = true /\ gt32 (fst (sdf_get s c)) (b32_of_b64 mx) = true) /\
  (answers d is_filled (fun _ => false) ->
     mn = inf64 /\ exists c, in_bounds d c = true /\ lt32 (fst (sdf_get s c)) (b32_of_b64 mn) = true).
Proof. exact border_extrema_wrong. Qed.
Print Assumptions C20_border_extrema_refuted.

(** C20, what does hold: with both classes present the pair is right. *)
Theorem C20_border_extrema_both_classes : forall d r oob frame is_filled filled,
  size_ok (enlarged_dims d) -> 0 <= nx d /\ 0 <= ny d /\ 0 <= nz d ->
  usable_resolution r -> answers d is_filled filled ->
  forall s mx mn, extract_sdf_grid d r r r is_filled oob frame true = Ok (s, (mx, mn)) ->
  (exists c, in_bounds d c = true /\ filled c = false) ->
  (exists c, in_bounds d c = true /\ filled c = true) ->
  upper_extremum d (fun c => fst (sdf_get s c)) mx /\
  lower_extremum d (fun c => fst (sdf_get s c)) mn.
Proof. exact border_extrema. Qed.
Print Assumptions C20_border_extrema_both_classes.

(** C21: with a virtual border the size, frame and signs are as without. *)
Theorem C21_border_sign : forall d r oob frame is_filled filled,
  size_ok (enlarged_dims d) -> 0 <= nx d /\ 0 <= ny d /\ 0 <= nz d ->
  usable_resolution r -> answers d is_filled filled ->
  exists s x, extract_sdf_grid d r r r is_filled oob frame true = Ok (s, x) /\
    sdf_dims s = d /\ s_res s = r /\ s_frame s = frame /\ s_locked s = false /\
    goob (s_grid s) = oob /\
    forall c, in_bounds d c = true -> exists v, sdf_get s c = (v, true) /\
      is_nan 24 128 v = false /\
      (filled c = false -> gt32 v zero32 = true) /\
      (filled c = true -> lt32 v zero32 = true).
Proof. exact border_sign. Qed.
Print Assumptions C21_border_sign.

(** C21, the magnitude is the rounded distance to a cell of the other class or
    just outside the grid; exact up to squared distance 6. *)
Theorem C21_border_magnitude : forall d r oob frame is_filled filled,
  size_ok (enlarged_dims d) -> 0 <= nx d /\ 0 <= ny d /\ 0 <= nz d ->
  usable_resolution r -> answers d is_filled filled ->
  forall s mx mn, extract_sdf_grid d r r r is_filled oob frame true = Ok (s, (mx, mn)) ->
  forall c, in_bounds d c = true ->
  exists m, sdf_get s c = (signed_value (filled c) m r, true) /\
    (forall z, m = Some z -> 1 <= z <= 2147483647 /\
       exists p, other_or_outside d filled c p /\ distsq c p = z) /\
    (forall z, nearest_other_or_outside d filled c z -> z <= 6 -> m = Some z).
Proof. exact border_magnitude. Qed.
Print Assumptions C21_border_magnitude.

(** C21, in terms of distance fields: the fields are those of the enlarged grid,
    with the added layer counted as the other class. *)
Theorem C21_border_distance_field : forall d r oob frame is_filled filled s x,
  size_ok (enlarged_dims d) -> 0 <= nx d /\ 0 <= ny d /\ 0 <= nz d ->
  usable_resolution r -> answers d is_filled filled ->
  extract_sdf_grid d r r r is_filled oob frame true = Ok (s, x) ->
  exists to_filled to_free,
    build_distance_field (enlarged_dims d)
      (cells_of (enlarged_dims d) (with_layer d filled)) = Ok to_filled /\
    build_distance_field (enlarged_dims d)
      (cells_of (enlarged_dims d) (with_layer d (fun i => negb (filled i)))) = Ok to_free /\
    forall c, in_bounds d c = true ->
      sdf_get s c =
        (signed_value (filled c)
           (cell_distsq (if filled c then to_free else to_filled) (shift_in d c)) r, true).
Proof. exact border_values. Qed.
Print Assumptions C21_border_distance_field.

(** C21, the bound by the distance to the outside.  Full statement: the same
    without [flat d \/ distsq c p <= 6].  Proved for every cell of a single-layer
    grid and for the outer layers (squared distance up to 6) of any grid, and (by
    C21_outside_exact, in PropShapes) wherever the outside is nearest; deeper cells
    of 3-D grids with a nearer cell of the other class inherit the open question of
    C15. *)
Theorem C21_border_bound_partial : forall d r oob frame is_filled filled s x c p,
  size_ok (enlarged_dims d) -> 0 <= nx d -> 0 <= ny d -> 0 <= nz d -> usable_resolution r ->
  answers d is_filled filled ->
  extract_sdf_grid d r r r is_filled oob frame true = Ok (s, x) ->
  in_bounds d c = true -> outside_shell d p -> flat d \/ distsq c p <= 6 ->
  exists v, sdf_get s c = (v, true) /\
    le32 v (rounded_distance (Some (distsq c p)) r) = true /\
    ge32 v (b32_opp (rounded_distance (Some (distsq c p)) r)) = true.
Proof. exact border_bound. Qed.
Print Assumptions C21_border_bound_partial.

(** C91: on a single-layer grid with both classes present every stored value is a
    finite rounded distance to a cell of the other class, at most the city-block
    distance to each of them ... *)
Theorem C91_planar_sdf : forall d r oob frame is_filled filled,
  size_ok d -> usable_resolution r -> answers d is_filled filled ->
  forall s mx mn, extract_sdf d r is_filled oob frame = Ok (s, (mx, mn)) ->
  forall c p, flat d -> in_bounds d c = true -> other_class d filled c p ->
  exists z, sdf_get s c = (signed_value (filled c) (Some z) r, true) /\
    1 <= z <= manhattan c p * manhattan c p /\
    exists q, other_class d filled c q /\ distsq c q = z.
Proof. exact extract_flat. Qed.
Print Assumptions C91_planar_sdf.

(** ... and with a virtual border this holds whatever the classes are, the cells
    just outside counting as the other class. *)
Theorem C91_planar_sdf_border : forall d r oob frame is_filled filled,
  size_ok (enlarged_dims d) -> 0 <= nx d /\ 0 <= ny d /\ 0 <= nz d ->
  usable_resolution r -> answers d is_filled filled ->
  forall s mx mn, extract_sdf_grid d r r r is_filled oob frame true = Ok (s, (mx, mn)) ->
  forall c p, flat d -> in_bounds d c = true -> other_or_outside d filled c p ->
  exists z, sdf_get s c = (signed_value (filled c) (Some z) r, true) /\
    1 <= z <= manhattan c p * manhattan c p /\
    exists q, other_or_outside d filled c q /\ distsq c q = z.
Proof. exact border_planar. Qed.
Print Assumptions C91_planar_sdf_border.

(** C22: a collision map's cells are classed by occupancy and the flag, with or
    without border. *)
Theorem C22_unknown_flag : forall m r oob unknown border,
  size_ok (enlarged_dims (cm_dims m)) ->
  0 <= nx (cm_dims m) -> 0 <= ny (cm_dims m) -> 0 <= nz (cm_dims m) ->
  usable_resolution r ->
  exists s x, cm_extract_sdf m r r r oob unknown border = Ok (s, x) /\
    sdf_dims s = cm_dims m /\ s_frame s = cm_frame m /\
    forall i c, in_bounds (cm_dims m) i = true -> cm_get m i = (c, true) ->
      exists v, sdf_get s i = (v, true) /\
        (counts_as_filled unknown (c_occ c) -> lt32 v zero32 = true) /\
        (~ counts_as_filled unknown (c_occ c) -> gt32 v zero32 = true).
Proof. exact cm_sign. Qed.
Print Assumptions C22_unknown_flag.

(** C22, NaN occupancy never counts as filled. *)
Theorem C22_nan_is_free : forall u o, is_nan 24 128 o = true -> ~ counts_as_filled u o.
Proof.
  intros u o H F. apply occupied_spec in F. rewrite (occupied_nan u o H) in F. discriminate.
Qed.
Print Assumptions C22_nan_is_free.

(** C23: cell sizes that do not all compare equal (NaN included) are refused. *)
Theorem C23_nonuniform_refused : forall d cx cy cz is_filled oob frame border,
  eq64 cx cy && eq64 cx cz = false ->
  exists msg, extract_sdf_grid d cx cy cz is_filled oob frame border = Throw msg.
Proof. exact nonuniform_throws. Qed.
Print Assumptions C23_nonuniform_refused.

(** Non-vacuity. *)
Example sdf_nonvacuous :
  let d := D 3 2 2 in
  let f := fun i : idx => Ok (ix i =? 0) in
  size_ok d /\ size_ok (enlarged_dims d) /\ usable_resolution quarter64 /\
  answers d f (fun i => ix i =? 0) /\ 0 < ncells d /\
  match extract_sdf d quarter64 f zero32 "map" with
  | Ok (s, (mx, mn)) => eq32 (fst (sdf_get s (I 2 1 0))) half32 = true /\
                        eq64 mx (b64_of_b32 half32) = true /\ lt64 mn zero64 = true
  | _ => False
  end /\
  match extract_sdf_grid d quarter64 quarter64 quarter64 f zero32 "map" true with
  | Ok (s, _) => eq32 (fst (sdf_get s (I 2 1 0))) (b32_of_b64 quarter64) = true
  | _ => False
  end.
Proof.
  cbn zeta. split; [unfold size_ok; cbn [nx ny nz]; lia|].
  split; [vm_compute; repeat split; discriminate|].
  split; [exact quarter_usable|]. split; [intros i Hi; exact eq_refl|].
  split; [exact eq_refl|]. split; [vm_compute; auto|vm_compute; auto].
Qed.

(** A single-layer map with both classes, every value finite. *)
Example planar_sdf_nonvacuous :
  let d := D 3 4 1 in
  let f := fun i : idx => Ok (ix i =? 0) in
  size_ok d /\ size_ok (enlarged_dims d) /\ flat d /\ usable_resolution quarter64 /\
  answers d f (fun i => ix i =? 0) /\
  other_class d (fun i => ix i =? 0) (I 2 3 0) (I 0 0 0) /\ outside_shell d (I 2 4 0) /\
  match extract_sdf d quarter64 f zero32 "map",
        extract_sdf_grid d quarter64 quarter64 quarter64 f zero32 "map" true with
  | Ok (s, _), Ok (t, _) => eq32 (fst (sdf_get s (I 2 3 0))) half32 = true /\
                            eq32 (fst (sdf_get t (I 2 3 0))) (b32_of_b64 quarter64) = true
  | _, _ => False
  end.
Proof. exact planar_sdf_example. Qed.

Example nonuniform_nonvacuous :
  eq64 quarter64 quarter64 && eq64 quarter64 (B754_nan 53 1024 false 1 eq_refl) = false.
Proof. reflexivity. Qed.

(** C58, C59, C83: the dynamic spatial-hashed collision map. *)
From Coq Require Import Lia Permutation.
From Verif Require Import Base Floats Grid CollisionMap Display Hashed HashedSpec HashedProofs HashedThms.
Local Open Scope Z_scope.

(** C58: after any writes to a new map, a location reads the value of the last
    write that covers it (a chunk write covers its chunk, a cell write its cell),
    the out-of-bounds value when there is none, and is found exactly when its
    chunk has been written to. *)
Theorem C58_read_last_write : forall (point : Type) (cell_at : point -> idx) d oob frame, chunk_ok d ->
  forall ws q, let h := apply_writes cell_at (h_new frame d oob) ws in
    (forall v, last_covering cell_at d ws q v -> fst (h_get cell_at h q) = v) /\
    ((forall w, In w ws -> ~ covers cell_at d w q) -> fst (h_get cell_at h q) = oob) /\
    (snd (h_get cell_at h q) <> NotFound <-> exists w, In w ws /\ touches cell_at d w q).
Proof. intros point cell_at d oob frame Hd. exact (history cell_at d oob frame Hd). Qed.
Print Assumptions C58_read_last_write.

(** C58, one step: the written location reads the written value, cells of the
    same chunk that are not covered keep their value, and locations in other
    chunks keep value and status. *)
Theorem C58_one_write : forall (point : Type) (cell_at : point -> idx) d oob frame, chunk_ok d ->
  forall ws w q,
    let h := apply_writes cell_at (h_new frame d oob) ws in
    let h' := apply_write cell_at h w in
    (covers cell_at d w q -> fst (h_get cell_at h' q) = written w) /\
    (~ covers cell_at d w q -> fst (h_get cell_at h' q) = fst (h_get cell_at h q)) /\
    (~ touches cell_at d w q -> h_get cell_at h' q = h_get cell_at h q).
Proof.
  intros point cell_at d oob frame Hd ws w q. cbn zeta.
  pose proof (good_writes cell_at d oob frame Hd ws) as Hg. split; [|split].
  - intros C. apply (get_covered cell_at d oob frame Hd _ w q Hg C).
  - intros C. destruct (touches_dec cell_at d w q) as [T|T].
    + apply (get_touched cell_at d oob frame Hd _ w q Hg T C).
    + rewrite (get_untouched cell_at d oob frame _ w q Hg T). auto.
  - intros T. apply (get_untouched cell_at d oob frame _ w q Hg T).
Qed.
Print Assumptions C58_one_write.

(** Chunks of 2 x 2 x 2 cells; a chunk write, a cell write inside it, and a cell
    write next door, at negative coordinates. *)
Example C58_case :
  let d := D 2 2 2 in
  let free := CC zero32 0 in
  let solid := CC one32 0 in
  let odd := CC half32 7 in
  let ws := [WChunk (I 0 0 0) solid; WCell (I 1 1 1) free; WCell (I (-1) 0 0) solid] in
  let h := apply_writes (fun i => i) (h_new "map" d odd) ws in
  chunk_ok d /\
  last_covering (fun i => i) d ws (I 1 1 1) free /\
  map (h_get (fun i => i) h) [I 0 1 0; I 1 1 1; I (-1) 0 0; I (-2) 0 0; I 5 5 5] =
    [(solid, FoundInCell); (free, FoundInCell); (solid, FoundInCell); (odd, FoundInCell); (odd, NotFound)].
Proof.
  cbn zeta. split; [repeat split|]. split.
  - exists [WChunk (I 0 0 0) (CC one32 0)], (WCell (I 1 1 1) (CC zero32 0)), [WCell (I (-1) 0 0) (CC one32 0)].
    do 3 (split; [reflexivity|]). intros w [<-|[]]. cbn [covers]. unfold same_cell. discriminate.
  - vm_compute. reflexivity.
Qed.

(** C59: after the constructors with parameters, and any writes, asking
    IsInitialized() is undefined. *)
Theorem C59_initialised_flag_refuted : forall (point : Type) (cell_at : point -> idx) d oob frame, chunk_ok d ->
  forall ws, is_ub (h_is_initialized (apply_writes cell_at (h_new frame d oob) ws)) = true.
Proof.
  intros point cell_at d oob frame Hd ws.
  destruct (good_writes cell_at d oob frame Hd ws) as (_ & _ & _ & E & _).
  unfold h_is_initialized. rewrite E. reflexivity.
Qed.
Print Assumptions C59_initialised_flag_refuted.

(** C59: the default constructor does set the flag. *)
Theorem C59_default_partial : h_is_initialized h_default = Ok false.
Proof. reflexivity. Qed.
Print Assumptions C59_default_partial.

(** The components of a hashed map are never valid. *)
Theorem C59_components_partial : forall (point : Type) (cell_at : point -> idx) d oob frame, chunk_ok d ->
  forall ws, h_components_valid (apply_writes cell_at (h_new frame d oob) ws) = false.
Proof.
  intros point cell_at d oob frame Hd ws.
  destruct (good_writes cell_at d oob frame Hd ws) as (_ & _ & _ & _ & E & _). exact E.
Qed.
Print Assumptions C59_components_partial.

(** C83: the drawing agrees with the reads.  [place k i] is the drawn position
    of cell i of chunk k. *)
Theorem C83_drawing_matches_reads : forall (point : Type) (cell_at : point -> idx) (place : idx -> idx -> point)
    d oob frame ws order collision free unknown,
  chunk_ok d -> chunk_order order -> (forall i, exists p, cell_at p = i) ->
  let h := apply_writes cell_at (h_new frame d oob) ws in
  let colour v := if gt32 (c_occ v) half32 then collision else if lt32 (c_occ v) half32 then free else unknown in
  exists mc mk,
    h_export place order h collision free unknown =
      (if (0 <? length (mk_points mc))%nat then [mc] else []) ++ (if (0 <? length (mk_points mk))%nat then [mk] else []) /\
    mk_frame mc = frame /\ mk_frame mk = frame /\
    mk_ns mc = Text "dynamic_spatial_hashed_collision_map_chunks_display" /\
    mk_ns mk = Text "dynamic_spatial_hashed_collision_map_cells_display" /\
    length (mk_points mc) = length (mk_colors mc) /\ length (mk_points mk) = length (mk_colors mk) /\
    (forall p c, In (p, c) (combine (mk_points mc) (mk_colors mc)) <->
       exists q v, h_get cell_at h q = (v, FoundInChunk) /\ p = place (region_of d (cell_at q)) (I 0 0 0) /\
         c = colour v) /\
    (forall p c, In (p, c) (combine (mk_points mk) (mk_colors mk)) <->
       exists q v, h_get cell_at h q = (v, FoundInCell) /\
         p = place (region_of d (cell_at q)) (local_of d (cell_at q)) /\ c = colour v) /\
    ((forall k i k' i', in_bounds d i = true -> in_bounds d i' = true -> place k i = place k' i' -> k = k' /\ i = i') ->
     NoDup (mk_points mc) /\ NoDup (mk_points mk)).
Proof.
  intros point cell_at place d oob frame ws order collision free unknown Hd Ho Hc.
  exact (export_ok cell_at place d oob frame ws order collision free unknown Hd Ho Hc).
Qed.
Print Assumptions C83_drawing_matches_reads.

(** One chunk drawn as a whole, one drawn cell by cell; a map without writes has
    nothing to draw. *)
Example C83_case :
  let d := D 1 2 1 in
  let solid := CC one32 0 in
  let red := RGBA one32 zero32 zero32 one32 in
  let gray := RGBA half32 half32 half32 one32 in
  let place (k i : idx) := I (ix k * 1 + ix i) (iy k * 2 + iy i) (iz k * 1 + iz i) in
  let h0 := h_new "map" d (CC half32 0) in
  let h := apply_writes (fun i => i) h0 [WCell (I 0 1 0) solid; WChunk (I 3 0 0) solid] in
  h_export place (fun l => l) h0 red gray gray = [] /\
  map (fun m => (mk_points m, mk_colors m)) (h_export place (fun l => l) h red gray gray) =
    [([I 3 0 0], [red]); ([I 0 0 0; I 0 1 0], [gray; red])] /\
  forall k i k' i', in_bounds d i = true -> in_bounds d i' = true -> place k i = place k' i' -> k = k' /\ i = i'.
Proof.
  cbn zeta. split; [vm_compute; reflexivity|]. split; [vm_compute; reflexivity|].
  intros [a b c] [x y z] [a' b' c'] [x' y' z'] B B' E. apply GridFacts.in_bounds_spec in B, B'. cbn [ix iy iz nx ny nz] in *.
  injection E as E1 E2 E3. assert (a = a' /\ x = x' /\ b = b' /\ y = y' /\ c = c' /\ z = z') as (-> & -> & -> & -> & -> & ->) by lia.
  auto.
Qed.

(** C33, C63: the local-extrema map. *)
From Coq Require Import Relations.Relation_Operators.
From Verif Require Import Base Floats Grid CollisionMap SdfGen Arith SdfQuery SdfField QueryWitness
  Extrema ExtremaSpec ExtremaProofs ExtremaThms.

(** C33: on a field whose map has its shape, the computation ends; a flat cell
    stores its own centre; a cell whose step leaves the grid stores infinity;
    every other cell stores what the cell it steps to stores; and the stored value
    is either infinity, when the path from the cell leaves the grid, or the centre
    of a cell on its path that is flat or on a cycle. *)
Theorem C33_extrema_map : forall (f : field ieee) (p : pose ieee),
  0 <= nx (f_dims f) -> 0 <= ny (f_dims f) -> 0 <= nz (f_dims f) ->
  (forall i, in_bounds (f_dims f) i = true -> located (center_of p i)) ->
  exists m, compute_extrema f p (f_dims f) = Ok m /\ gdims m = f_dims f /\
  forall i, in_bounds (f_dims f) i = true ->
    (flat_cell f p i -> get m i = (center_of p i, true)) /\
    (forall j, steps_to f p i j -> in_bounds (f_dims f) j = false -> get m i = (off_grid, true)) /\
    (forall j, steps_to f p i j -> in_bounds (f_dims f) j = true -> get m i = get m j) /\
    ((get m i = (off_grid, true) /\ leaves_from f p i) \/
     (exists j, stops_at f p i j /\ get m i = (center_of p j, true))).
Proof. exact extrema_correct. Qed.
Print Assumptions C33_extrema_map.

(** C63 (the map has the field's shape).  If the constructor computes even one
    cell more than the field has, the program reads an empty vector. *)
Theorem C63_larger_map_undefined : forall (f : field ieee) (p : pose ieee) wd,
  0 <= nx wd -> 0 <= ny wd -> 0 <= nz wd ->
  forall i, in_bounds wd i = true -> in_bounds (f_dims f) i = false ->
  compute_extrema f p wd = UB "raw_gradient[0] of an empty vector".
Proof. exact larger_map_ub. Qed.
Print Assumptions C63_larger_map_undefined.

(** C63 is false for a constructor that counts cells as ceil(size / resolution) or
    by truncation: the size of three cells of 0.1 counts as four, and the size of
    29 cells of 0.01 as 28. *)
Theorem C63_recount_refuted : forall p,
  recount ceil64 (sdf_field (row_sdf 3 tenth)) = D 4 1 1 /\
  compute_extrema (sdf_field (row_sdf 3 tenth)) p (recount ceil64 (sdf_field (row_sdf 3 tenth)))
    = UB "raw_gradient[0] of an empty vector" /\
  recount trunc64 (sdf_field (row_sdf 29 hundredth)) = D 28 1 1.
Proof. intros p. exact (conj recount_ceil (conj (recount_ceil_ub p) recount_trunc)). Qed.
Print Assumptions C63_recount_refuted.

(** A case of C33: six cells in a row, obstacles at the ends.  The obstacles' paths
    leave the grid; cells 1 to 3 share the extremum of the cycle 2, 3. *)
Example extrema_nonvacuous :
  exists s x m, cm_extract_sdf corridor one64 one64 one64 inf32 false false = Ok (s, x) /\
    (forall i, in_bounds (f_dims (sdf_field s)) i = true -> located (center_of (ieee_pose one64) i)) /\
    f_dims (sdf_field s) = D 6 1 1 /\
    compute_extrema (sdf_field s) (ieee_pose one64) (f_dims (sdf_field s)) = Ok m /\
    vx (fst (get m (I 0 0 0))) = inf64 /\
    vx (fst (get m (I 1 0 0))) = vx (center_of (ieee_pose one64) (I 2 0 0)) /\
    vx (fst (get m (I 3 0 0))) = vx (fst (get m (I 2 0 0))).
Proof. exact extrema_case. Qed.

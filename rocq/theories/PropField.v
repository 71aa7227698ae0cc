(** C110-C114: how distance fields depend on the size of the map, the order and number
    of the obstacles, the place of the map's edges, and from cell to cell. *)
From Coq Require Import Reals Lra Permutation.
From Flocq Require Import Core.Core IEEE754.Binary IEEE754.Bits.
From Verif Require Import Base Floats Grid GridFacts DistSpec DistModel DistThms SdfGen SdfSpec SdfThms FieldSpec
  LongRow DistOrder DistCompare SdfCompare SdfInvert.
Open Scope Z_scope.

(** C110 is false of the code: the claim would be C08 without its size bound.  A row of
    46342 cells with an obstacle at its start overflows the int32 arithmetic, and so
    does every longer row; 46340 cells satisfy the bound of C08. *)
Theorem C110_long_rows_refuted : size_ok (D 46340 1 1) /\ forall n, 46342 <= n <= 2147483647 ->
  all_inside (D n 1 1) [I 0 0 0] /\ build_distance_field (D n 1 1) [I 0 0 0] = UB "signed overflow".
Proof. exact long_row_sharp. Qed.
Print Assumptions C110_long_rows_refuted.

Theorem C110_long_maps_refuted : forall n r oob frame, 46342 <= n <= 2147483647 ->
  extract_sdf (D n 1 1) r (fun i => Ok (ix i =? 0)) oob frame = UB "signed overflow".
Proof. exact long_row_sdf. Qed.
Print Assumptions C110_long_maps_refuted.

(** C111: listing an obstacle again changes nothing ... *)
Theorem C111_repeated_obstacle : forall d l1 l2 p,
  size_ok d -> all_inside d (l1 ++ l2) -> In p l1 ->
  build_distance_field d (l1 ++ p :: l2) = build_distance_field d (l1 ++ l2).
Proof. exact repeated_obstacle. Qed.
Print Assumptions C111_repeated_obstacle.

(** ... but the full claim (the field depends on the set of obstacles only, and moves
    with them) is false.  The order of the obstacles matters ... *)
Theorem C111_order_refuted : exists d pts pts' f f' c,
  size_ok d /\ all_inside d pts /\ NoDup pts /\ Permutation pts pts' /\
  build_distance_field d pts = Ok f /\ build_distance_field d pts' = Ok f' /\ in_bounds d c = true /\
  cell_distsq f c = Some 9 /\ cell_distsq f' c = Some 8.
Proof. exact order_fails. Qed.
Print Assumptions C111_order_refuted.

(** ... so a mirrored map has not always the mirrored signed distance field ... *)
Theorem C111_mirror_refuted : exists d filled s x s' x' c,
  size_ok d /\ in_bounds d c = true /\
  extract_sdf d quarter64 (fun i => Ok (filled i)) zero32 "map" = Ok (s, x) /\
  extract_sdf d quarter64 (fun i => Ok (filled (mirrored_x (nx d) i))) zero32 "map" = Ok (s', x') /\
  lt32 (fst (sdf_get s c)) (fst (sdf_get s' (mirrored_x (nx d) c))) = true.
Proof. exact mirror_fails. Qed.
Print Assumptions C111_mirror_refuted.

(** ... and free layers added on both sides of a map can change the values inside. *)
Theorem C111_margin_refuted : exists d filled s x s' x' c,
  size_ok d /\ in_bounds d c = true /\
  extract_sdf d quarter64 (fun i => Ok (filled i)) zero32 "map" = Ok (s, x) /\
  extract_sdf (D (nx d + 2) (ny d) (nz d)) quarter64
    (fun i => Ok ((1 <=? ix i) && (ix i <=? nx d) && filled (I (ix i - 1) (iy i) (iz i)))) zero32 "map" = Ok (s', x') /\
  lt32 (fst (sdf_get s' (moved_x c))) (fst (sdf_get s c)) = true.
Proof. exact margin_fails. Qed.
Print Assumptions C111_margin_refuted.

(** The order does not matter in cells near an obstacle ... *)
Theorem C111_order_near : forall d pts pts' f f' c v,
  size_ok d -> all_inside d pts -> same_cells pts pts' ->
  build_distance_field d pts = Ok f -> build_distance_field d pts' = Ok f' ->
  in_bounds d c = true -> nearest_distsq pts c v -> v <= 6 -> cell_distsq f c = cell_distsq f' c.
Proof. exact order_near. Qed.
Print Assumptions C111_order_near.

(** ... and in cells that a nearest obstacle reaches through its own region. *)
Theorem C111_order_reached : forall d pts pts' f f' c o,
  size_ok d -> all_inside d pts -> same_cells pts pts' ->
  build_distance_field d pts = Ok f -> build_distance_field d pts' = Ok f' ->
  reached d pts o c -> cell_distsq f c = cell_distsq f' c.
Proof. exact order_reached. Qed.
Print Assumptions C111_order_reached.

(** C112 is false of the code: filling one more cell can raise the value of a cell
    that stays free. *)
Theorem C112_added_obstacle_refuted : exists d filled filled' s x s' x' c,
  size_ok d /\ in_bounds d c = true /\ (forall i, filled i = true -> filled' i = true) /\ filled' c = false /\
  extract_sdf d quarter64 (fun i => Ok (filled i)) zero32 "map" = Ok (s, x) /\
  extract_sdf d quarter64 (fun i => Ok (filled' i)) zero32 "map" = Ok (s', x') /\
  lt32 (fst (sdf_get s c)) (fst (sdf_get s' c)) = true.
Proof. exact added_fails. Qed.
Print Assumptions C112_added_obstacle_refuted.

(** It holds for cells that are then near an obstacle ... *)
Theorem C112_added_near : forall d r oob frame is_filled is_filled' filled filled' s x s' x' c v v',
  size_ok d -> usable_resolution r -> answers d is_filled filled -> answers d is_filled' filled' ->
  extract_sdf d r is_filled oob frame = Ok (s, x) -> extract_sdf d r is_filled' oob frame = Ok (s', x') ->
  (forall i, filled i = true -> filled' i = true) -> in_bounds d c = true -> filled' c = false ->
  nearest_other d filled c v -> nearest_other d filled' c v' -> v' <= 6 ->
  le32 (fst (sdf_get s' c)) (fst (sdf_get s c)) = true.
Proof. exact added_near. Qed.
Print Assumptions C112_added_near.

(** ... and for those that a nearest obstacle then reaches through its own region ... *)
Theorem C112_added_exact : forall d pts pts' f f' c m v',
  size_ok d -> all_inside d pts' -> (forall p, In p pts -> In p pts') ->
  build_distance_field d pts = Ok f -> build_distance_field d pts' = Ok f' ->
  in_bounds d c = true -> cell_distsq f c = Some m ->
  nearest_distsq pts' c v' -> v' <= 6 \/ (exists o, reached d pts' o c) ->
  exists m', cell_distsq f' c = Some m' /\ m' <= m.
Proof. exact added_exact. Qed.
Print Assumptions C112_added_exact.

(** ... and on planar maps the distance never grows by more than a factor sqrt 2. *)
Theorem C112_added_planar : forall d pts pts' f f' c m,
  size_ok d -> flat d -> all_inside d pts' -> (forall p, In p pts -> In p pts') ->
  build_distance_field d pts = Ok f -> build_distance_field d pts' = Ok f' ->
  in_bounds d c = true -> cell_distsq f c = Some m ->
  exists m', cell_distsq f' c = Some m' /\ m' <= 2 * m.
Proof. exact added_planar. Qed.
Print Assumptions C112_added_planar.

(** C113: exchanging filled and free cells negates every value, bit for bit ... *)
Theorem C113_inverted_map : forall d r oob frame is_filled not_filled filled s x s' x',
  size_ok d -> usable_resolution r -> answers d is_filled filled ->
  answers d not_filled (fun i => negb (filled i)) ->
  extract_sdf d r is_filled oob frame = Ok (s, x) -> extract_sdf d r not_filled oob frame = Ok (s', x') ->
  forall c, in_bounds d c = true -> sdf_get s' c = (b32_opp (fst (sdf_get s c)), true).
Proof. exact inverted_plain. Qed.
Print Assumptions C113_inverted_map.

(** ... with a virtual border too. *)
Theorem C113_inverted_map_border : forall d r oob frame is_filled not_filled filled s x s' x',
  size_ok (enlarged_dims d) -> 0 <= nx d /\ 0 <= ny d /\ 0 <= nz d -> usable_resolution r ->
  answers d is_filled filled -> answers d not_filled (fun i => negb (filled i)) ->
  extract_sdf_grid d r r r is_filled oob frame true = Ok (s, x) ->
  extract_sdf_grid d r r r not_filled oob frame true = Ok (s', x') ->
  forall c, in_bounds d c = true -> sdf_get s' c = (b32_opp (fst (sdf_get s c)), true).
Proof. exact inverted_border. Qed.
Print Assumptions C113_inverted_map_border.

(** The reported maximum and minimum are exchanged and negated, bit for bit ... *)
Theorem C113_inverted_extrema : forall d r oob oob' frame frame' is_filled not_filled filled s mx mn s' x',
  size_ok d -> usable_resolution r -> answers d is_filled filled ->
  answers d not_filled (fun i => negb (filled i)) ->
  extract_sdf d r is_filled oob frame = Ok (s, (mx, mn)) -> extract_sdf d r not_filled oob' frame' = Ok (s', x') ->
  x' = (opp64 mn, opp64 mx).
Proof. exact inverted_extrema. Qed.
Print Assumptions C113_inverted_extrema.

(** ... with a virtual border too. *)
Theorem C113_inverted_extrema_border : forall d r oob oob' frame frame' is_filled not_filled filled s mx mn s' x',
  size_ok (enlarged_dims d) -> 0 <= nx d /\ 0 <= ny d /\ 0 <= nz d -> usable_resolution r ->
  answers d is_filled filled -> answers d not_filled (fun i => negb (filled i)) ->
  extract_sdf_grid d r r r is_filled oob frame true = Ok (s, (mx, mn)) ->
  extract_sdf_grid d r r r not_filled oob' frame' true = Ok (s', x') ->
  x' = (opp64 mn, opp64 mx).
Proof. exact inverted_extrema_border. Qed.
Print Assumptions C113_inverted_extrema_border.

(** C114: on a planar map two cells of one class that share a face differ by at most
    one cell in their distance to the other class ... *)
Theorem C114_planar_neighbours : forall d r oob frame is_filled filled s x a b,
  size_ok d -> flat d -> usable_resolution r -> answers d is_filled filled ->
  extract_sdf d r is_filled oob frame = Ok (s, x) ->
  in_bounds d a = true -> in_bounds d b = true -> distsq a b = 1 -> filled a = filled b ->
  (exists p, other_class d filled a p) ->
  exists m k, sdf_get s a = (signed_value (filled a) (Some m) r, true) /\
    sdf_get s b = (signed_value (filled a) (Some k) r, true) /\
    (Rabs (sqrt (IZR m) - sqrt (IZR k)) <= 1)%R.
Proof. exact sdf_steps. Qed.
Print Assumptions C114_planar_neighbours.

(** ... and the distance field changes over any stretch by at most its city-block
    length. *)
Theorem C114_planar_lipschitz : forall d pts f a b m k,
  size_ok d -> flat d -> all_inside d pts -> build_distance_field d pts = Ok f ->
  in_bounds d a = true -> in_bounds d b = true ->
  cell_distsq f a = Some m -> cell_distsq f b = Some k ->
  (Rabs (sqrt (IZR m) - sqrt (IZR k)) <= IZR (manhattan a b))%R.
Proof. exact planar_lipschitz. Qed.
Print Assumptions C114_planar_lipschitz.

(** The reason it holds on planar maps, C90_planar_neighbours, is false in three
    dimensions: here a cell is 26 (squared) from its only obstacle at that distance,
    its neighbour is 25 from the same obstacle but stores 26. *)
Theorem C114_consistency_refuted : exists d pts f a b m,
  size_ok d /\ all_inside d pts /\ build_distance_field d pts = Ok f /\
  in_bounds d a = true /\ in_bounds d b = true /\ distsq a b = 1 /\ cell_distsq f a = Some m /\
  forall q, In q pts -> distsq a q = m -> exists k, cell_distsq f b = Some k /\ distsq b q < k.
Proof. exact consistency_fails. Qed.
Print Assumptions C114_consistency_refuted.

(** In three dimensions the full statement (C114_planar_neighbours without [flat]) is
    proved for cells near an obstacle, or reached by a nearest obstacle through its own
    region.  Missing: other cells of grids with three or more layers. *)
Theorem C114_neighbours_partial : forall d pts f a b m k,
  size_ok d -> all_inside d pts -> build_distance_field d pts = Ok f ->
  in_bounds d a = true -> in_bounds d b = true -> distsq a b = 1 ->
  (exists v, nearest_distsq pts a v /\ v <= 6) \/ (exists o, reached d pts o a) ->
  (exists v, nearest_distsq pts b v /\ v <= 6) \/ (exists o, reached d pts o b) ->
  cell_distsq f a = Some m -> cell_distsq f b = Some k -> (Rabs (sqrt (IZR m) - sqrt (IZR k)) <= 1)%R.
Proof. exact exact_step. Qed.
Print Assumptions C114_neighbours_partial.

(** Non-vacuity: the planar map of C112 before and after, with near and far cells, its
    inverse, and a permuted list with a repetition. *)
Example field_nonvacuous :
  let d := D 4 4 1 in
  let before := fun i => listed [I 0 0 0; I 2 1 0] i in
  let after := fun i => listed [I 3 3 0; I 0 0 0; I 2 1 0] i in
  size_ok d /\ flat d /\ size_ok (enlarged_dims d) /\ usable_resolution quarter64 /\
  answers d (fun i => Ok (before i)) before /\ answers d (fun i => Ok (negb (before i))) (fun i => negb (before i)) /\
  (forall i, before i = true -> after i = true) /\
  same_cells [I 0 0 0; I 2 1 0; I 3 3 0] [I 3 3 0; I 2 1 0; I 0 0 0; I 2 1 0] /\
  other_class d before (I 0 3 0) (I 2 1 0) /\ nearest_other d after (I 1 3 0) 4 /\
  match extract_sdf d quarter64 (fun i => Ok (before i)) zero32 "map",
        extract_sdf d quarter64 (fun i => Ok (negb (before i))) zero32 "map",
        build_distance_field d [I 0 0 0; I 2 1 0; I 3 3 0],
        build_distance_field d [I 3 3 0; I 2 1 0; I 0 0 0; I 2 1 0] with
  | Ok (s, _), Ok (t, _), Ok f, Ok g =>
      eq32 (fst (sdf_get s (I 2 3 0))) half32 = true /\ eq32 (fst (sdf_get t (I 2 3 0))) (b32_opp half32) = true /\
      cell_distsq f (I 1 3 0) = Some 4 /\ cell_distsq g (I 1 3 0) = Some 4 /\
      cell_distsq f (I 0 3 0) = Some 9 /\ cell_distsq g (I 0 3 0) = Some 9
  | _, _, _, _ => False
  end.
Proof.
  intros d before after. split; [unfold size_ok, d; cbn [nx ny nz]; lia|]. split; [right; right; cbn; lia|].
  split; [vm_compute; repeat split; discriminate|]. split; [exact quarter_usable|].
  split; [intros i Hi; reflexivity|]. split; [intros i Hi; reflexivity|].
  split. { intros i Hi. unfold after, before, listed in *. cbn [existsb] in *. rewrite Hi. apply orb_true_r. }
  split. { intros p. cbn. tauto. }
  split; [split; [reflexivity|discriminate]|]. split.
  { split; [exists (I 3 3 0); split; [split; [reflexivity|discriminate]|reflexivity]|].
    intros p (Ip & Np). unfold after, listed in Np. cbn [existsb] in Np.
    destruct (idx_eqb_spec p (I 3 3 0)) as [->|_]; [vm_compute; discriminate|].
    destruct (idx_eqb_spec p (I 0 0 0)) as [->|_]; [vm_compute; discriminate|].
    destruct (idx_eqb_spec p (I 2 1 0)) as [->|_]; [vm_compute; discriminate|]. cbn in Np. congruence. }
  vm_compute. repeat split.
Qed.

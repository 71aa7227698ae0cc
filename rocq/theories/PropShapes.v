(** C105, C106: obstacles around which every distance is exact, on grids of any
    shape; and the cells nearest to the virtual border (C21). *)
From Coq Require Import Reals.
From Flocq Require Import Core.Core IEEE754.Binary IEEE754.Bits.
From Verif Require Import Base Floats Grid GridFacts DistModel DistSpec DistThms DistReach DistShapes
  CollisionMap SdfGen SdfSpec SdfThms SdfShapes.
Open Scope Z_scope.

(** C105: an obstacle's true distance is stored in every cell it is nearest to and
    that can be reached from it by steps leading away from it, through cells it is
    strictly nearest to ([reached], in DistSpec) ... *)
Theorem C105_reached : forall d pts o c,
  size_ok d -> all_inside d pts -> reached d pts o c ->
  exists f, build_distance_field d pts = Ok f /\
    cell_distsq f c = Some (distsq c o) /\ nearest_distsq pts c (distsq c o).
Proof.
  intros d pts o c Hs Hp R. destruct (build_total d pts Hs Hp) as (f & Hf). exists f. split; [exact Hf|].
  exact (reached_exact d pts f o c Hs Hp Hf R).
Qed.
Print Assumptions C105_reached.

(** ... hence in every cell that sees a nearest obstacle straight ahead along an
    axis, whatever the other obstacles are ... *)
Theorem C105_straight : forall d pts f c p,
  size_ok d -> all_inside d pts -> build_distance_field d pts = Ok f ->
  in_bounds d c = true -> In p pts -> straight c p -> nearest_distsq pts c (distsq c p) ->
  cell_distsq f c = Some (distsq c p).
Proof. exact straight_exact. Qed.
Print Assumptions C105_straight.

(** ... in every cell when there are two obstacles (C13 has a wrong value with
    three) ... *)
Theorem C105_two_obstacles : forall d pts f c p q,
  size_ok d -> build_distance_field d pts = Ok f ->
  in_bounds d p = true -> in_bounds d q = true -> (forall a, In a pts <-> a = p \/ a = q) -> in_bounds d c = true ->
  cell_distsq f c = Some (Z.min (distsq c p) (distsq c q)).
Proof. exact two_exact. Qed.
Print Assumptions C105_two_obstacles.

(** ... in every cell when the obstacles fill a box ... *)
Theorem C105_box : forall d pts lo hi,
  size_ok d -> all_inside d pts -> (forall q, In q pts <-> in_box lo hi q) -> pts <> [] ->
  exists f, build_distance_field d pts = Ok f /\
    forall c m, in_bounds d c = true -> nearest_distsq pts c m -> cell_distsq f c = Some m.
Proof.
  intros d pts lo hi Hs Hp Box Hne. destruct (build_total d pts Hs Hp) as (f & Hf). exists f. split; [exact Hf|].
  intros c m Hc Hn. destruct (box_exact d pts f c lo hi Hs Hp Hf Box Hne Hc) as (-> & N).
  f_equal. destruct N as ((p & Ip & Dp) & N1), Hn as ((p' & Ip' & Dp') & N2).
  specialize (N1 _ Ip'). specialize (N2 _ Ip). lia.
Qed.
Print Assumptions C105_box.

(** ... or everything but a box. *)
Theorem C105_room : forall d pts f c lo hi m,
  size_ok d -> all_inside d pts -> build_distance_field d pts = Ok f ->
  (forall q, In q pts <-> in_bounds d q = true /\ ~ in_box lo hi q) -> in_bounds d c = true ->
  nearest_distsq pts c m -> cell_distsq f c = Some m.
Proof. exact outside_box_exact. Qed.
Print Assumptions C105_room.

(** Non-vacuity: a box of eight cells in a 3-D grid, and cells off its faces, edges
    and corners; the room around the same box; a pair; and, with the three obstacles
    of C13, a cell with the wrong value beside cells that are reached. *)
Example shapes_nonvacuous :
  let d := D 6 5 4 in let lo := I 1 1 1 in let hi := I 2 2 2 in
  let box := cells_of d (fun c => (1 <=? ix c) && (ix c <=? 2) && (1 <=? iy c) && (iy c <=? 2) && (1 <=? iz c) && (iz c <=? 2)) in
  let room := cells_of d (fun c => negb ((1 <=? ix c) && (ix c <=? 2) && (1 <=? iy c) && (iy c <=? 2) && (1 <=? iz c) && (iz c <=? 2))) in
  size_ok d /\ all_inside d box /\ all_inside d room /\ length box = 8%nat /\
  (forall q, In q box <-> in_box lo hi q) /\
  (forall q, In q room <-> in_bounds d q = true /\ ~ in_box lo hi q) /\
  match build_distance_field d box, build_distance_field d room, build_distance_field d [I 0 0 0; I 5 4 3] with
  | Ok f, Ok g, Ok h => cell_distsq f (I 5 1 1) = Some 9 /\ cell_distsq f (I 5 4 2) = Some 13 /\
      cell_distsq f (I 5 4 3) = Some 14 /\ cell_distsq g (I 2 2 2) = Some 1 /\ cell_distsq h (I 2 4 2) = Some 10
  | _, _, _ => False
  end.
Proof.
  intros d lo hi box room. split; [repeat split; cbn; lia|]. split; [apply cells_of_inside|]. split; [apply cells_of_inside|].
  split; [vm_compute; reflexivity|].
  assert (B : forall q, ((1 <=? ix q) && (ix q <=? 2) && (1 <=? iy q) && (iy q <=? 2) && (1 <=? iz q) && (iz q <=? 2)) = true <-> in_box lo hi q).
  { intros q. rewrite !Bool.andb_true_iff, !Z.leb_le. unfold in_box, lo, hi. cbn [ix iy iz]. lia. }
  split.
  { intros q. unfold box. rewrite cells_of_in, B, in_bounds_spec. unfold in_box, lo, hi, d. cbn [ix iy iz nx ny nz]. lia. }
  split.
  { intros q. unfold room. rewrite cells_of_in, <- B, Bool.negb_true_iff, Bool.not_true_iff_false. tauto. }
  vm_compute. repeat split; reflexivity.
Qed.

(** C106: the signed distance of a cell that sees the nearest cell of the other
    class straight ahead is that distance, rounded ... *)
Theorem C106_straight : forall d r oob frame is_filled filled s x,
  size_ok d -> usable_resolution r -> answers d is_filled filled ->
  extract_sdf d r is_filled oob frame = Ok (s, x) ->
  forall c p, in_bounds d c = true -> other_class d filled c p -> straight c p ->
  nearest_other d filled c (distsq c p) ->
  sdf_get s c = (signed_value (filled c) (Some (distsq c p)) r, true).
Proof. exact sdf_straight. Qed.
Print Assumptions C106_straight.

(** ... every signed distance of a map whose filled cells are those of a box (or
    half-space, wall or slab: the box may stick out of the grid), or whose free
    cells are (a room), is the rounded true distance, inside and outside ... *)
Theorem C106_box_and_room : forall d r oob frame is_filled filled s x,
  size_ok d -> usable_resolution r -> answers d is_filled filled ->
  extract_sdf d r is_filled oob frame = Ok (s, x) ->
  forall lo hi boxed c m, (forall a, in_bounds d a = true -> (filled a = boxed <-> in_box lo hi a)) ->
  in_bounds d c = true -> nearest_other d filled c m ->
  sdf_get s c = (signed_value (filled c) (Some m) r, true).
Proof. exact sdf_box. Qed.
Print Assumptions C106_box_and_room.

(** ... and so is every distance to two filled cells. *)
Theorem C106_two_cells : forall d r oob frame is_filled filled s x,
  size_ok d -> usable_resolution r -> answers d is_filled filled ->
  extract_sdf d r is_filled oob frame = Ok (s, x) ->
  forall c p q, in_bounds d c = true -> other_class d filled c p -> other_class d filled c q ->
  (forall a, other_class d filled c a -> a = p \/ a = q) ->
  sdf_get s c = (signed_value (filled c) (Some (Z.min (distsq c p) (distsq c q))) r, true).
Proof. exact sdf_pair. Qed.
Print Assumptions C106_two_cells.

(** C106, the general form. *)
Theorem C106_reached : forall d r oob frame is_filled filled s x,
  size_ok d -> usable_resolution r -> answers d is_filled filled ->
  extract_sdf d r is_filled oob frame = Ok (s, x) ->
  forall c p, in_bounds d c = true ->
  reached d (cells_of d (fun i => negb (Bool.eqb (filled i) (filled c)))) p c ->
  sdf_get s c = (signed_value (filled c) (Some (distsq c p)) r, true) /\
  nearest_other d filled c (distsq c p).
Proof. exact sdf_reached. Qed.
Print Assumptions C106_reached.

(** C21 on grids of any shape: with a virtual border the value is exact in every
    cell that is at least as near to the outside as to the other class ... *)
Theorem C21_outside_exact : forall d r oob frame is_filled filled s x,
  size_ok (enlarged_dims d) -> 0 <= nx d /\ 0 <= ny d /\ 0 <= nz d ->
  usable_resolution r -> answers d is_filled filled ->
  extract_sdf_grid d r r r is_filled oob frame true = Ok (s, x) ->
  forall c q, in_bounds d c = true -> outside_shell d q ->
  nearest_other_or_outside d filled c (distsq c q) ->
  sdf_get s c = (signed_value (filled c) (Some (distsq c q)) r, true).
Proof. exact border_outside. Qed.
Print Assumptions C21_outside_exact.

(** ... in every cell that sees the nearest other cell straight ahead ... *)
Theorem C21_straight_exact : forall d r oob frame is_filled filled s x,
  size_ok (enlarged_dims d) -> 0 <= nx d /\ 0 <= ny d /\ 0 <= nz d ->
  usable_resolution r -> answers d is_filled filled ->
  extract_sdf_grid d r r r is_filled oob frame true = Ok (s, x) ->
  forall c p, in_bounds d c = true -> other_or_outside d filled c p -> straight c p ->
  nearest_other_or_outside d filled c (distsq c p) ->
  sdf_get s c = (signed_value (filled c) (Some (distsq c p)) r, true).
Proof. exact border_straight. Qed.
Print Assumptions C21_straight_exact.

(** ... and in every cell of a map with a single class. *)
Theorem C21_single_class_exact : forall d r oob frame is_filled filled s x,
  size_ok (enlarged_dims d) -> 0 <= nx d /\ 0 <= ny d /\ 0 <= nz d ->
  usable_resolution r -> answers d is_filled filled ->
  extract_sdf_grid d r r r is_filled oob frame true = Ok (s, x) ->
  forall b c q, (forall a, in_bounds d a = true -> filled a = b) -> in_bounds d c = true ->
  outside_shell d q -> (forall p, outside_shell d p -> distsq c q <= distsq c p) ->
  sdf_get s c = (signed_value b (Some (distsq c q)) r, true).
Proof. exact border_uniform. Qed.
Print Assumptions C21_single_class_exact.

(** Non-vacuity: a slab in a 3-D map, seen from both sides, and an empty 3-D map
    inside a virtual border; the resolution is a quarter. *)
Example shapes_sdf_nonvacuous :
  let d := D 6 5 4 in
  let slab := fun i : idx => ix i <=? 1 in
  size_ok d /\ size_ok (enlarged_dims d) /\ usable_resolution quarter64 /\
  answers d (fun i => Ok (slab i)) slab /\
  (forall a, in_bounds d a = true -> (slab a = true <-> in_box (I 0 0 0) (I 1 4 3) a)) /\
  other_class d slab (I 5 3 2) (I 1 3 2) /\ straight (I 5 3 2) (I 1 3 2) /\
  nearest_other d slab (I 5 3 2) 16 /\ outside_shell d (I 2 2 (-1)) /\
  match extract_sdf d quarter64 (fun i => Ok (slab i)) zero32 "map",
        extract_sdf_grid d quarter64 quarter64 quarter64 (fun _ => Ok false) zero32 "map" true with
  | Ok (s, _), Ok (t, _) => eq32 (fst (sdf_get s (I 3 3 2))) half32 = true /\
                            eq32 (fst (sdf_get t (I 2 2 1))) half32 = true
  | _, _ => False
  end.
Proof.
  intros d slab. split; [unfold size_ok, d; cbn [nx ny nz]; lia|].
  split; [vm_compute; repeat split; discriminate|]. split; [exact quarter_usable|]. split; [intros i Hi; exact eq_refl|].
  split. { intros a Ha. apply in_bounds_spec in Ha. unfold slab, in_box, d in *. rewrite Z.leb_le. cbn [ix iy iz nx ny nz] in *. lia. }
  split; [split; [reflexivity|discriminate]|]. split; [left; auto|].
  split. { split; [exists (I 1 3 2); split; [split; [reflexivity|discriminate]|reflexivity]|].
    intros p (Ip & Np). apply in_bounds_spec in Ip. unfold slab, d, distsq in *. cbn [ix iy iz nx ny nz] in *.
    change (5 <=? 1) with false in Np. destruct (Z.leb_spec (ix p) 1) as [L|L]; [|congruence].
    pose proof (Z.square_nonneg (3 - iy p)). pose proof (Z.square_nonneg (2 - iz p)). nia. }
  split; [vm_compute; repeat split; discriminate|]. vm_compute. auto.
Qed.

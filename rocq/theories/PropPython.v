(** C57, C80-C82: the Python helpers. *)
From Coq Require Import Lia.
From Flocq Require Import IEEE754.Binary IEEE754.Bits.
From Verif Require Import Base Floats Grid DistSpec CollisionMap SdfGen SdfSpec Arith SdfQuery SdfField QueryWitness
  Python PySpec PyThms PyCase PyDist.
Local Open Scope Z_scope.

(** C57, utils_3d: the arrays are indexed [y, x, z]; the distance array holds
    the field's values, the gradient array GetGradient's components as floats. *)
Theorem C57_orientation_3d : forall env d r p,
  env_3d env d -> size_ok d -> 0 < ncells d -> usable_resolution r ->
  exists s a g, compute_sdf_3d env r = Ok s /\ compute_sdf_and_gradient_3d env r p = Ok (a, g) /\ sdf_dims s = d /\
    shape a = [ny d; nx d; nz d] /\ shape g = [ny d; nx d; nz d; 3] /\
    forall x y z, in_bounds d (I x y z) = true ->
      exists v w, sdf_get s (I x y z) = (v, true) /\ item a [y; x; z] = Some v /\
        (item env [y; x; z] = Some 1 -> lt32 v zero32 = true) /\
        (item env [y; x; z] <> Some 1 -> gt32 v zero32 = true) /\
        gradient (sdf_field s) p (I x y z) true = Some w /\
        item g [y; x; z; 0] = Some (b32_of_b64 (vx w)) /\
        item g [y; x; z; 1] = Some (b32_of_b64 (vy w)) /\
        item g [y; x; z; 2] = Some (b32_of_b64 (vz w)).
Proof. exact python_3d. Qed.
Print Assumptions C57_orientation_3d.

(** C57, utils_2d. *)
Theorem C57_orientation_2d : forall env w h r p frame,
  env_2d env w h -> size_ok (D w h 1) -> 0 < w -> 0 < h -> usable_resolution r ->
  exists s a g, compute_sdf_2d env r frame = Ok s /\ compute_sdf_and_gradient_2d env r p frame = Ok (a, g) /\
    sdf_dims s = D w h 1 /\ shape a = [h; w] /\ shape g = [h; w; 2] /\
    forall x y, 0 <= x < w -> 0 <= y < h ->
      exists v u, sdf_get s (I x y 0) = (v, true) /\ item a [y; x] = Some v /\
        (item env [y; x] = Some 1 -> lt32 v zero32 = true) /\
        (item env [y; x] <> Some 1 -> gt32 v zero32 = true) /\
        gradient (sdf_field s) p (I x y 0) true = Some u /\
        item g [y; x; 0] = Some (b32_of_b64 (vx u)) /\
        item g [y; x; 1] = Some (b32_of_b64 (vy u)).
Proof. exact python_2d. Qed.
Print Assumptions C57_orientation_2d.

(** Two environments that are not symmetric in x and y. *)
Example C57_case : env_3d env_block (D 3 2 2) /\ size_ok (D 3 2 2) /\ 0 < ncells (D 3 2 2) /\
  env_2d env_small 3 2 /\ size_ok (D 3 2 1) /\ usable_resolution one64 /\
  item env_small [0; 1] = Some 1 /\ item env_small [1; 0] = Some 0.
Proof.
  split; [exact env_block_ok|]. split; [unfold size_ok; cbn; lia|]. split; [reflexivity|].
  split; [exact env_small_ok|]. split; [exact small_size|]. split; [exact one64_usable|].
  split; reflexivity.
Qed.

(** C80: with the other helpers item [y, x] is not the value at (x, y): the
    shape is swapped, so the item may not exist, and on square fields it is the
    value of another cell. *)
Theorem C80_swapped_refuted : exists env s a b x y,
  env_2d env 3 2 /\ compute_sdf_2d env one64 "world" = Ok s /\ sdf_array_2d s = Ok a /\ sdf_to_np s = Ok b /\
  in_bounds (sdf_dims s) (I x y 0) = true /\
  (exists v, item a [y; x] = Some v) /\ item b [y; x] = None.
Proof.
  destruct (sdf_2d env_small 3 2 one64 "world" env_small_ok small_size one64_usable) as (s & E & W & Ds & K).
  destruct (array_2d s W) as (a & b & Ea & Eb & Sa & Sb & L); [rewrite Ds; reflexivity|].
  assert (B : in_bounds (sdf_dims s) (I 2 0 0) = true) by (rewrite Ds; reflexivity).
  exists env_small, s, a, b, 2, 0. split; [exact env_small_ok|]. do 4 (split; [auto|]).
  destruct (K 2 0) as (v & V1 & V2 & _); [lia|lia|]. split; [exists v; apply L; auto|].
  apply beyond_axis. rewrite Sb, Ds. reflexivity.
Qed.
Print Assumptions C80_swapped_refuted.

(** On a square field the swapped array gives the value of another cell: free
    where the transposed one says filled. *)
Theorem C80_wrong_value_refuted : match compute_sdf_2d env_square one64 "world" with
  | Ok s => match sdf_to_np s, sdf_array_2d s with
            | Ok b, Ok a => sdf_dims s = D 2 2 1 /\
                option_map (fun v => lt32 v zero32) (item a [0; 1]) = Some true /\
                option_map (fun v => gt64 v zero64) (item b [0; 1]) = Some true
            | _, _ => False
            end
  | _ => False
  end.
Proof. exact square_case_ok. Qed.
Print Assumptions C80_wrong_value_refuted.

(** C80, what holds instead: sdf_to_np and compute_gradient are indexed
    [x, y], in double precision. *)
Theorem C80_planar_helpers_partial : forall s p,
  wf_grid (s_grid s) -> nz (sdf_dims s) = 1 -> 0 < ncells (sdf_dims s) ->
  exists a g, sdf_to_np s = Ok a /\ compute_gradient s p = Ok (a, g) /\
    shape a = [nx (sdf_dims s); ny (sdf_dims s)] /\ shape g = [nx (sdf_dims s); ny (sdf_dims s); 2] /\
    forall x y, in_bounds (sdf_dims s) (I x y 0) = true ->
      item a [x; y] = Some (b64_of_b32 (fst (sdf_get s (I x y 0)))) /\
      exists v, gradient (sdf_field s) p (I x y 0) true = Some v /\
        item g [x; y; 0] = Some (vx v) /\ item g [x; y; 1] = Some (vy v).
Proof. exact untransposed_2d. Qed.
Print Assumptions C80_planar_helpers_partial.

(** C80: get_gradient is indexed [x, y, z]. *)
Theorem C80_get_gradient_partial : forall s p, wf_grid (s_grid s) -> 0 < ncells (sdf_dims s) ->
  exists g, get_gradient_3d s p = Ok g /\ shape g = [nx (sdf_dims s); ny (sdf_dims s); nz (sdf_dims s); 3] /\
    forall x y z, in_bounds (sdf_dims s) (I x y z) = true ->
      exists v, gradient (sdf_field s) p (I x y z) true = Some v /\
        item g [x; y; z; 0] = Some (vx v) /\ item g [x; y; z; 1] = Some (vy v) /\ item g [x; y; z; 2] = Some (vz v).
Proof. exact untransposed_3d. Qed.
Print Assumptions C80_get_gradient_partial.

(** C80: grid_to_np is indexed [x, y] and shows the lowest layer; every item is
    written. *)
Theorem C80_grid_to_np_partial : forall m, wf_grid (cm_grid m) ->
  shape (grid_to_np m) = [nx (cm_dims m); ny (cm_dims m)] /\
  forall x y, 0 <= x < nx (cm_dims m) -> 0 <= y < ny (cm_dims m) ->
    item (grid_to_np m) [x; y] = Some (Some (c_occ (fst (cm_get m (I x y 0))))).
Proof. exact grid_to_np_ok. Qed.
Print Assumptions C80_grid_to_np_partial.

(** The field of env_small meets the hypotheses. *)
Example C80_case : exists s, compute_sdf_2d env_small one64 "world" = Ok s /\
  wf_grid (s_grid s) /\ nz (sdf_dims s) = 1 /\ 0 < ncells (sdf_dims s) /\ nx (sdf_dims s) <> ny (sdf_dims s).
Proof.
  destruct (sdf_2d env_small 3 2 one64 "world" env_small_ok small_size one64_usable) as (s & E & W & Ds & _).
  exists s. rewrite Ds. split; auto. split; auto. split; [reflexivity|]. split; [reflexivity|discriminate].
Qed.

(** C81: to_np fails for every field that has cells, whatever its shape. *)
Theorem C81_to_np_refuted : forall s p, wf_grid (s_grid s) -> 0 < ncells (sdf_dims s) ->
  gradient_to_np (gradient_grid s p) = Throw "ValueError" /\ is_ok (to_np s (gradient_grid s p)) = false.
Proof. exact to_np_fails. Qed.
Print Assumptions C81_to_np_refuted.

(** C81: sdf_to_np works exactly for the fields with one layer (among those
    with cells). *)
Theorem C81_one_layer_partial : forall s, wf_grid (s_grid s) -> 0 < ncells (sdf_dims s) ->
  (nz (sdf_dims s) = 1 -> is_ok (sdf_to_np s) = true) /\
  (nz (sdf_dims s) <> 1 -> sdf_to_np s = Throw "ValueError").
Proof.
  intros s W P. split; [|apply sdf_to_np_layers; auto].
  intros E. destruct (array_2d s W E) as (a & b & _ & -> & _). reflexivity.
Qed.
Print Assumptions C81_one_layer_partial.

(** C82: an environment without cells makes the 3D helper raise instead of
    returning empty arrays. *)
Theorem C82_empty_environment_refuted : forall env d r p,
  env_3d env d -> size_ok d -> ncells d = 0 -> usable_resolution r ->
  exists s, compute_sdf_3d env r = Ok s /\ compute_sdf_and_gradient_3d env r p = Throw "IndexError".
Proof. exact empty_3d. Qed.
Print Assumptions C82_empty_environment_refuted.

Example C82_case : env_3d (ND [2; 0; 3] [0; 3; 1] []) (D 0 2 3) /\ size_ok (D 0 2 3) /\ ncells (D 0 2 3) = 0.
Proof.
  split; [|split; [unfold size_ok; cbn; lia|reflexivity]]. split; [|reflexivity].
  intros l H. cbn [shape] in H. inversion H as [|i n l1 s1 A H1]; subst.
  inversion H1 as [|j m l2 s2 B H2]; subst. lia.
Qed.

(** C98: an item of the 3D distance array is the rounded distance to an item of
    the environment marked differently, exact up to squared distance 6, and
    infinite when there is none. *)
Theorem C98_distances_3d : forall env d r p, env_3d env d -> size_ok d -> 0 < ncells d -> usable_resolution r ->
  exists a g, compute_sdf_and_gradient_3d env r p = Ok (a, g) /\
    forall c, in_bounds d c = true ->
      exists m, item a [iy c; ix c; iz c] = Some (signed_value (marked_3d env c) m r) /\
        (forall z, m = Some z -> 1 <= z <= 2147483647 /\
           exists q, other_class d (marked_3d env) c q /\ distsq c q = z) /\
        (forall z, nearest_other d (marked_3d env) c z -> z <= 6 -> m = Some z).
Proof. exact distances_3d. Qed.
Print Assumptions C98_distances_3d.

(** C98: the same for the 2D array, which is finite as soon as there is an item
    marked differently and then at most the city-block distance to each of them. *)
Theorem C98_distances_2d : forall env w h r p frame,
  env_2d env w h -> size_ok (D w h 1) -> 0 < w -> 0 < h -> usable_resolution r ->
  exists a g, compute_sdf_and_gradient_2d env r p frame = Ok (a, g) /\
    forall c, in_bounds (D w h 1) c = true ->
      ((forall q, ~ other_class (D w h 1) (marked_2d env) c q) ->
         item a [iy c; ix c] = Some (if marked_2d env c then ninf32 else inf32)) /\
      (forall q, other_class (D w h 1) (marked_2d env) c q ->
         exists z, item a [iy c; ix c] = Some (signed_value (marked_2d env c) (Some z) r) /\
           1 <= z <= manhattan c q * manhattan c q /\
           (exists q', other_class (D w h 1) (marked_2d env) c q' /\ distsq c q' = z) /\
           (forall z', nearest_other (D w h 1) (marked_2d env) c z' -> z' <= 6 ->
              item a [iy c; ix c] = Some (signed_value (marked_2d env c) (Some z') r))).
Proof. exact distances_2d. Qed.
Print Assumptions C98_distances_2d.

(** One marked item in two rows of four: minus one cell there, and 3, the roots of
    2 and of 10 elsewhere. *)
Example C98_case : env_2d env_row 4 2 /\ size_ok (D 4 2 1) /\ usable_resolution one64 /\
  match compute_sdf_and_gradient_2d env_row one64 (ieee_pose one64) "world" with
  | Ok (a, _) => forallb (fun e : list Z * binary32 => match item a (fst e) with Some v => eq32 v (snd e) | None => false end)
      [([0; 0], b32_opp (rounded_distance (Some 1) one64)); ([0; 3], rounded_distance (Some 9) one64);
       ([1; 1], rounded_distance (Some 2) one64); ([1; 3], rounded_distance (Some 10) one64)] = true
  | _ => False
  end.
Proof.
  split; [exact env_row_ok|]. split; [unfold size_ok; cbn; lia|]. split; [exact one64_usable|]. vm_compute. reflexivity.
Qed.

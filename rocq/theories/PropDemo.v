(** C102-C104: the demonstration script scripts/3d_sdf_demo_rviz.py. *)
From Coq Require Import Reals.
From Verif Require Import Base Floats Grid DistSpec SdfSpec Arith SdfQuery Python PySpec NodeProofs DoubleSpec
  Demo DemoSpec DemoProofs DemoThms DemoArrow DemoCase.
Local Open Scope Z_scope.

(** ** C102: a point cloud becomes the voxels that contain its points *)

(** Full statement: for every cloud, exactly the voxels that contain a point are
    marked.  Proved for clouds inside the grid, and with doubt only within
    [margin] (one part in a million of a voxel) of the voxels' faces, where the
    rounding of the division decides.  Refuted below for points under the grid. *)
Theorem C102_marks_partial : forall pc s0 s1 s2 r o,
  0 <= s0 -> 0 <= s1 -> 0 <= s2 ->
  (forall p, In p pc -> ordinary r o p /\ inside_grid margin r o p [s0; s1; s2]) ->
  exists vg, point_cloud_to_voxel_grid pc s0 s1 s2 r o = Ok vg /\ shape vg = [s0; s1; s2] /\ whole vg /\
    (forall ix v, item vg ix = Some v -> v = 0 \/ v = 1) /\
    (forall ix, item vg ix = Some 1 -> exists p, In p pc /\ inside_voxel (- margin) r o p ix) /\
    (forall p ix, In p pc -> Forall2 (fun i n => 0 <= i < n) ix [s0; s1; s2] -> inside_voxel margin r o p ix ->
       item vg ix = Some 1).
Proof. exact voxel_grid_ok. Qed.
Print Assumptions C102_marks_partial.

(** A point above the grid, or more than the grid's size below it, is rejected
    with an exception. *)
Theorem C102_outside : forall pc s0 s1 s2 r o p,
  0 <= s0 -> 0 <= s1 -> 0 <= s2 ->
  (forall q, In q pc -> ordinary r o q) -> In p pc -> far_outside margin r o p [s0; s1; s2] ->
  point_cloud_to_voxel_grid pc s0 s1 s2 r o = Throw "IndexError"%string.
Proof. exact voxel_grid_outside. Qed.
Print Assumptions C102_outside.

(** The whole script: it answers, with one record per voxel, and the distance
    recorded for voxel [i, j, k] is negative if a point of the cloud is in the
    voxel and positive if none is. *)
Theorem C102_signs : forall pc s0 s1 s2 r o p,
  0 < s0 -> 0 < s1 -> 0 < s2 -> size_ok (D s1 s0 s2) -> usable_resolution r ->
  (forall q, In q pc -> ordinary r o q /\ inside_grid margin r o q [s0; s1; s2]) ->
  exists vg cloud arrows, demo pc s0 s1 s2 r o p = Ok (vg, cloud, arrows) /\
    Z.of_nat (length cloud) = s0 * s1 * s2 /\
    forall i j k, 0 <= i < s0 -> 0 <= j < s1 -> 0 <= k < s2 ->
      exists c, nth_error cloud (Z.to_nat ((i * s1 + j) * s2 + k)) = Some c /\
        (forall q, In q pc -> inside_voxel margin r o q [i; j; k] -> lt32 (p_distance c) zero32 = true) /\
        ((forall q, In q pc -> ~ inside_voxel (- margin) r o q [i; j; k]) -> gt32 (p_distance c) zero32 = true).
Proof. exact demo_ok. Qed.
Print Assumptions C102_signs.

(** Refuted under the grid, for every shape: a point half a voxel below the grid
    marks the first voxel and one one and a half voxels below it marks the last,
    although neither is in or near any voxel. *)
Theorem C102_below_refuted : forall s0 s1 s2,
  1 <= s0 -> 1 <= s1 -> 1 <= s2 ->
  exists vg wg,
    point_cloud_to_voxel_grid [just_below] s0 s1 s2 unit64 zero_vec = Ok vg /\ item vg [0; 0; 0] = Some 1 /\
    point_cloud_to_voxel_grid [further_below] s0 s1 s2 unit64 zero_vec = Ok wg /\ item wg [s0 - 1; 0; 0] = Some 1 /\
    forall ix, Forall2 (fun i n => 0 <= i < n) ix [s0; s1; s2] ->
      ~ inside_voxel (- margin) unit64 zero_vec just_below ix /\ ~ inside_voxel (- margin) unit64 zero_vec further_below ix.
Proof. exact below_marks. Qed.
Print Assumptions C102_below_refuted.

(** Refuted for clouds with a point that has an infinite or NaN coordinate, as depth
    sensors report: converting it to an integer is undefined, whatever the other
    points are. *)
Theorem C102_not_finite_refuted : forall pc s0 s1 s2 r o p,
  0 <= s0 -> 0 <= s1 -> 0 <= s2 -> finite_double r -> finite_vec o -> In p pc -> ~ finite_vec p ->
  point_cloud_to_voxel_grid pc s0 s1 s2 r o = UB "double does not fit int64"%string.
Proof. exact voxel_grid_not_finite. Qed.
Print Assumptions C102_not_finite_refuted.

Example C102_not_finite_nonvacuous :
  finite_double unit64 /\ finite_vec zero_vec /\
  ~ finite_vec (@V ieee (vx zero_vec) (Flocq.IEEE754.Binary.B754_infinity 53 1024 false) (vz zero_vec)).
Proof. repeat split; try reflexivity. intros (_ & Y & _). discriminate Y. Qed.

(** ** C103: each distance is published at its voxel *)

(** Full statement: the distance of voxel [i, j, k] is published at that voxel's
    corner, for all shapes and origins.  Proved for grids at the origin that are a
    single row on one of the first two axes; on square grids the first two
    coordinates are exchanged.  Refuted below for all other shapes and origins. *)
Theorem C103_published_partial : forall (a : ndarray binary32) s0 s1 s2 r o,
  whole a -> shape a = [s0; s1; s2] -> 0 <= s0 -> 0 <= s1 -> 0 <= s2 ->
  ordinary_size r -> s0 <= 2 ^ 31 -> s1 <= 2 ^ 31 -> s2 <= 2 ^ 31 ->
  forall i j k, 0 <= i < s0 -> 0 <= j < s1 -> 0 <= k < s2 -> at_zero o ->
  exists c, nth_error (visualize_sdf a s0 s1 s2 r o) (Z.to_nat ((i * s1 + j) * s2 + k)) = Some c /\
    item a [i; j; k] = Some (p_distance c) /\
    (s0 = s1 -> published_at r o c j i k) /\
    (s0 = 1 \/ s1 = 1 -> published_at r o c i j k).
Proof. exact published. Qed.
Print Assumptions C103_published_partial.

(** Refuted for every shape with two or more voxels on the first two axes: the
    distance of voxel [0, 1, 0] is published at voxel [1, 0, 0]. *)
Theorem C103_transposed_refuted : forall (a : ndarray binary32) s0 s1 s2 r o,
  whole a -> shape a = [s0; s1; s2] ->
  2 <= s0 <= 2 ^ 31 -> 2 <= s1 <= 2 ^ 31 -> 1 <= s2 <= 2 ^ 31 -> ordinary_size r -> at_zero o ->
  exists c, nth_error (visualize_sdf a s0 s1 s2 r o) (Z.to_nat s2) = Some c /\
    item a [0; 1; 0] = Some (p_distance c) /\ published_at r o c 1 0 0 /\ ~ published_at r o c 0 1 0.
Proof. exact cloud_transposed. Qed.
Print Assumptions C103_transposed_refuted.

(** Refuted for every origin a unit or more away from zero: the first voxel is
    published at minus the origin. *)
Theorem C103_origin_refuted : forall (a : ndarray binary32) s0 s1 s2 r o,
  whole a -> shape a = [s0; s1; s2] -> 1 <= s0 -> 1 <= s1 -> 1 <= s2 ->
  finite_double r -> finite_vec o -> (1 <= Rabs (real64 (vx o)) <= Raux.bpow Zaux.radix2 90)%R ->
  exists c, nth_error (visualize_sdf a s0 s1 s2 r o) 0 = Some c /\
    item a [0; 0; 0] = Some (p_distance c) /\ float_at (p_x c) (- real64 (vx o)) /\ ~ published_at r o c 0 0 0.
Proof. exact cloud_origin. Qed.
Print Assumptions C103_origin_refuted.

(** ** C104: every eighth voxel has an arrow along its gradient *)

(** The arrows of the message have different ids, so none replaces another, and
    there is one for each eighth voxel. *)
Theorem C104_ids : forall (g : ndarray binary32) s0 s1 s2 r o,
  whole g -> shape g = [s0; s1; s2; 3] -> 0 <= s0 -> 0 <= s1 -> 0 <= s2 ->
  exists l, plot_arrows g s0 s1 s2 r o = Ok l /\ NoDup (map a_id l) /\
    forall n, (nth_error l n <> None <-> Z.of_nat n * 8 < s0 * s1 * s2).
Proof. exact arrow_ids. Qed.
Print Assumptions C104_ids.

(** Full statement: the arrow of voxel [i, j, k] starts at the voxel's corner and
    reaches a fiftieth of its gradient.  Proved: it reaches that far from its
    start on all grids at the origin; it starts at the voxel if the grid is a
    single row on one of the first two axes, and with the first two coordinates
    exchanged if it is square there. *)
Theorem C104_arrows_partial : forall (g : ndarray binary32) s0 s1 s2 r o i j k n,
  whole g -> shape g = [s0; s1; s2; 3] ->
  0 <= s0 <= 2 ^ 31 -> 0 <= s1 <= 2 ^ 31 -> 0 <= s2 <= 2 ^ 31 -> ordinary_size r -> at_zero o ->
  0 <= i < s0 -> 0 <= j < s1 -> 0 <= k < s2 -> Z.of_nat n * 8 = (i * s1 + j) * s2 + k ->
  exists l ar gx gy gz, plot_arrows g s0 s1 s2 r o = Ok l /\ nth_error l n = Some ar /\
    item g [i; j; k; 0] = Some gx /\ item g [i; j; k; 1] = Some gy /\ item g [i; j; k; 2] = Some gz /\
    (moderate gx -> moderate gy -> moderate gz -> shows ar gx gy gz) /\
    (s0 = s1 -> starts_at r o ar j i k) /\ (s0 = 1 \/ s1 = 1 -> starts_at r o ar i j k).
Proof. exact arrows_right. Qed.
Print Assumptions C104_arrows_partial.

(** Refuted for every shape with nine or more voxels on the first two axes: the
    gradient of voxel [0, 8, 0] is drawn at voxel [8, 0, 0]. *)
Theorem C104_transposed_refuted : forall (g : ndarray binary32) s0 s1 s2 r o,
  whole g -> shape g = [s0; s1; s2; 3] ->
  9 <= s0 <= 2 ^ 31 -> 9 <= s1 <= 2 ^ 31 -> 1 <= s2 <= 2 ^ 31 -> ordinary_size r -> at_zero o ->
  exists l ar gx gy gz, plot_arrows g s0 s1 s2 r o = Ok l /\ nth_error l (Z.to_nat s2) = Some ar /\
    item g [0; 8; 0; 0] = Some gx /\ item g [0; 8; 0; 1] = Some gy /\ item g [0; 8; 0; 2] = Some gz /\
    (moderate gx -> moderate gy -> moderate gz -> shows ar gx gy gz) /\
    starts_at r o ar 8 0 0 /\ ~ starts_at r o ar 0 8 0.
Proof. exact arrows_wrong. Qed.
Print Assumptions C104_transposed_refuted.

(** ** The hypotheses are met *)

(** One point in the middle of voxel [1, 0, 0] of a 2 x 3 x 1 grid at the origin,
    outside a 1 x 3 x 1 grid. *)
Example cloud_nonvacuous :
  ordinary unit64 zero_vec one_point /\ inside_grid margin unit64 zero_vec one_point [2; 3; 1] /\
  inside_voxel margin unit64 zero_vec one_point [1; 0; 0] /\ ~ inside_voxel (- margin) unit64 zero_vec one_point [0; 1; 0] /\
  size_ok (D 3 2 1) /\ usable_resolution unit64 /\ ordinary_size unit64 /\ at_zero zero_vec /\
  far_outside margin unit64 zero_vec one_point [1; 3; 1].
Proof. exact one_point_case. Qed.

(** Arrays of distances and gradients of a 9 x 10 x 2 grid. *)
Example arrays_nonvacuous :
  (exists a : ndarray binary32, whole a /\ shape a = [9; 10; 2]) /\
  (exists g : ndarray binary32, whole g /\ shape g = [9; 10; 2; 3]) /\
  moderate grad_scale /\ Z.of_nat 2 * 8 = (0 * 10 + 8) * 2 + 0 /\
  finite_vec (@V ieee unit64 zero64 zero64) /\ (1 <= Rabs (real64 unit64) <= Raux.bpow Zaux.radix2 90)%R.
Proof.
  split; [|split; [|split; [|split; [|split]]]].
  - exists (ND [9; 10; 2] [20; 2; 1] (repeat zero32 180)). split; [|reflexivity].
    apply (plain_whole [9; 10; 2]); [repeat constructor; discriminate|]. split; [reflexivity|]. split; reflexivity.
  - exists (ND [9; 10; 2; 3] [60; 6; 3; 1] (repeat zero32 540)). split; [|reflexivity].
    apply (plain_whole [9; 10; 2; 3]); [repeat constructor; discriminate|]. split; [reflexivity|]. split; reflexivity.
  - exact scale_moderate.
  - reflexivity.
  - repeat split.
  - exact unit_bounds.
Qed.

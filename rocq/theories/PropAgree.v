(** C139: the answers of EstimateDistance and DistanceToBoundary on whether a point is in
    the grid, in doubles. *)
From Coq Require Import Bool Reals Lra Lia.
From Flocq Require Import Core.Core IEEE754.Binary IEEE754.Bits.
From Verif Require Import Base BaseFacts Floats FloatFacts FloatFacts2 Grid GridFacts CollisionMap SdfGen Arith SdfQuery SdfField QuerySpec QueryProofs
  QueryReal QueryThms QueryTurn QueryWitness DoubleSpec WallProject IdealSpec EstimateSpec EstimateCase Frame FrameSpec FrameCase Origin OriginSpec
  Location InsideThms AgreeThms PropInside.
Open Scope R_scope.

(** C139, in full: the two calls give the same answer on whether a point is in the grid.
    That is false on the upper faces and for large cells (below).  What holds: wherever the
    grid stands, with cells of side at most 1, if EstimateDistance finds a point in the grid, so does
    DistanceToBoundary, and the distance it reports is finite and not negative.  Both see
    the same point in the frame of the grid, but one divides it by the cell size and the
    other compares it with the rounded size of the grid. *)
Theorem C139_agree_partial : forall s T loc e,
  let d := sdf_dims s in let r := s_res s in let p := placed_by r T in
  finite_double r -> bpow radix2 (-100) <= real64 r <= 1 ->
  (nx d <= 2147483647 /\ ny d <= 2147483647 /\ nz d <= 2147483647)%Z -> usable_point (to_grid p loc) ->
  estimate_distance (sdf_field s) p loc = Ok (e, true) ->
  exists v, distance_to_boundary (sdf_field s) p loc = (v, true) /\ finite_double v /\ 0 <= real64 v.
Proof. intros s T loc e d r p Fr Rr Hd Hq. exact (found_by_both s p loc (fun _ => eq_refl) Fr Rr Hd Hq e). Qed.
Print Assumptions C139_agree_partial.

(** The other way round it holds away from the faces, for cells of every size: if
    DistanceToBoundary finds a point in the grid, at a reported distance of at least a
    fifty-thousandth of a cell from the faces, so does EstimateDistance. *)
Theorem C139_deep_partial : forall s T loc v,
  let d := sdf_dims s in let r := s_res s in let p := placed_by r T in
  finite_double r -> bpow radix2 (-100) <= real64 r <= bpow radix2 100 ->
  (0 <= nx d <= 2 ^ 30 /\ 0 <= ny d <= 2 ^ 30 /\ 0 <= nz d <= 2 ^ 30)%Z -> finite_vec (to_grid p loc) ->
  distance_to_boundary (sdf_field s) p loc = (v, true) -> real64 r / 50000 <= real64 v ->
  exists e, estimate_distance (sdf_field s) p loc = Ok (e, true).
Proof.
  intros s T loc v d r p Fr Rr (Hx & Hy & Hz) Hq. apply (deep_found s p loc v (fun _ => eq_refl) Fr Rr); [fold d; lia| |exact Hq].
  change (bpow radix2 30) with (IZR (2 ^ 30)). split; [|split]; apply IZR_le; fold d; lia.
Qed.
Print Assumptions C139_deep_partial.

(** With larger cells they can disagree: the point below the face of C137_wide_refuted is
    found by EstimateDistance but not by DistanceToBoundary. *)
Theorem C139_wide_refuted :
  (exists e, estimate_distance (sdf_field wide_field) (ieee_pose two_64) below_face = Ok (e, true)) /\
  snd (distance_to_boundary (sdf_field wide_field) (ieee_pose two_64) below_face) = false.
Proof. split; [apply flag_found|]; vm_compute; reflexivity. Qed.
Print Assumptions C139_wide_refuted.

(** The other direction is false: on an upper face DistanceToBoundary says the point is in
    the grid, EstimateDistance that it is not. *)
Theorem C139_converse_refuted :
  snd (distance_to_boundary (sdf_field block_field) (ieee_pose one64) (row 1 3 1)) = true /\
  exists e, estimate_distance (sdf_field block_field) (ieee_pose one64) (row 1 3 1) = Ok (e, false).
Proof. split; [vm_compute; reflexivity|]. exact (proj2 (proj2 (proj2 (proj2 (proj2 C137_nonvacuous))))). Qed.
Print Assumptions C139_converse_refuted.

(** Non-vacuity: a grid turned by a quarter and moved. *)
Example C139_nonvacuous :
  let p := placed_by one64 shelf_forward in
  finite_double one64 /\ bpow radix2 (-100) <= real64 one64 <= 1 /\ usable_point (to_grid p (row 9 21 31)) /\
  (exists e, estimate_distance (sdf_field block_field) p (row 9 21 31) = Ok (e, true)) /\
  exists v, distance_to_boundary (sdf_field block_field) p (row 9 21 31) = (v, true) /\ real64 one64 / 50000 <= real64 v.
Proof.
  cbv zeta. split; [reflexivity|]. split; [rewrite real_one; split; [change 1 with (bpow radix2 0); apply bpow_le; lia|lra]|].
  assert (E : to_grid (placed_by one64 shelf_forward) (row 9 21 31) = row 1 1 1).
  { set (a := to_grid _ _). assert (K : same64 (vx a) (vx (row 1 1 1)) && same64 (vy a) (vy (row 1 1 1)) && same64 (vz a) (vz (row 1 1 1)) = true)
      by (vm_compute; reflexivity).
    apply andb_prop in K. destruct K as (K & Kz). apply andb_prop in K. destruct K as (Kx & Ky).
    apply same64_eq in Kx. apply same64_eq in Ky. apply same64_eq in Kz. clearbody a. destruct a as [x y z]. cbn [vx vy vz row] in *. subst. reflexivity. }
  split; [|split].
  - rewrite E. destruct one_usable as (F & B). split; [exact (conj F (conj F F))|exact (conj B (conj B B))].
  - apply flag_found. vm_compute. reflexivity.
  - assert (K : (let a := distance_to_boundary (sdf_field block_field) (placed_by one64 shelf_forward) (row 9 21 31) in
                 same64 (fst a) one64 && snd a) = true) by (vm_compute; reflexivity).
    cbv zeta in K. destruct (distance_to_boundary _ _ _) as (v, i). cbn [fst snd] in K. apply andb_prop in K. destruct K as (K & Ki).
    apply same64_eq in K. subst v i. exists one64. split; [reflexivity|]. rewrite real_one. lra.
Qed.

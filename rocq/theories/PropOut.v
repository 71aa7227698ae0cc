(** C136: projecting out of collision in a grid that stands anywhere, in doubles. *)
From Coq Require Import Bool Reals Lra Lia.
From Flocq Require Import Core.Core IEEE754.Binary IEEE754.Bits.
From Verif Require Import Base BaseFacts Floats FloatFacts FloatFacts2 Grid GridFacts DistSpec CollisionMap SdfGen SdfSpec Arith SdfQuery SdfField
  QuerySpec QueryProofs QueryReal QueryThms QueryTurn QueryWitness AutoDiffSpec DoubleSpec WallSpec EstimateSpec EstimateMap EstimateCase
  SlopeThms IdealSpec IdealMap OuterThms ProjectThms Frame FrameSpec FrameThms FrameCase PlaceSpec PlaceThms Origin OriginSpec VolumeThms Location
  OutThms PropFrameTurn PropOrigin.
Open Scope R_scope.

(** C136: the point [w] that is returned is the place in the world of the point [c] of the
    grid at which the search ended.  If [c] is a finite point of the grid, its cell is free
    if the distance asked for is large enough; [w] is, in the exact pose, within two
    millionths of a cell of [c]; and [w] keeps the distance asked for, less the stated
    margins, from the centre of every filled cell in the world. *)
Theorem C136_clear : forall d r filled s N T P t delta eta S fuel loc md mult w,
  let p := placed_by r T in let P0 := plain_pose (real64 r) in
  let start := if in_bounds d (cell_at p loc) then loc else project_into_valid_volume (sdf_field s) p loc (b64_of_Z 0) in
  let all_exact := forall j, in_bounds d j = true -> exact_at d r filled s j in
  field_of_map d r filled s -> stands d r N T P t delta eta S -> real64 r * N <= S / 20 -> finite_double md ->
  project_out fuel (sdf_field s) p loc md mult = Finished w ->
  exists c, project_out_grid_frame fuel (sdf_field s) p (to_grid p start) md mult = Finished c /\ w = to_world p c /\
  (finite_vec c -> in_bounds d (index_of P0 (real_vec c)) = true ->
   point_within S w /\ apart_at_most (real64 r / 500000) (to_grid P (real_vec w)) (real_vec c) /\
   ((between_centers (real_field s) (real_vec c) -> 0.626 * real64 r <= real64 md -> filled (index_of P0 (real_vec c)) = false) /\
    (flat d -> 2.17 * real64 r <= real64 md -> filled (index_of P0 (real_vec c)) = false) /\
    (all_exact -> 4.21 * real64 r <= real64 md -> filled (index_of P0 (real_vec c)) = false)) /\
   forall b, in_bounds d b = true -> filled b = true -> let distance := gap (real_vec w) (world_center P b) in
    (between_centers (real_field s) (real_vec c) -> flat d -> real64 md < 1.42 * distance + 0.752 * real64 r) /\
    (between_centers (real_field s) (real_vec c) -> all_exact -> real64 md < (1 + bpow radix2 (-23)) * distance + 0.377 * real64 r) /\
    (flat d -> real64 md < 1.42 * distance + 3.301 * real64 r) /\
    (all_exact -> real64 md < (1 + bpow radix2 (-23)) * distance + 4.831 * real64 r)).
Proof.
  intros d r filled s N T P t delta eta S fuel loc md mult w p P0 start all_exact HM St HS Fm HP.
  pose proof (out_in_world d r filled s N T P t delta eta S HM St HS fuel loc md mult w Fm HP) as K.
  rewrite (proj1 (field_parts d r filled s HM)) in K. exact K.
Qed.
Print Assumptions C136_clear.

(** Non-vacuity: the row of nine cells of C123 in the turned grid of C126.  From the centre
    of the filled cell the projection to distance 3 ends in the fifth cell. *)
Definition row_start : vec ieee := apply shelf_forward wall_point.

Definition placed_row_check : bool :=
  match extract_sdf row9 one64 (fun i => Ok (only (I 0 0 0) i)) zero32 "map" with
  | Ok (s, _) =>
      let p := placed_by one64 shelf_forward in
      all_finite row9 s && in_bounds row9 (cell_at p row_start) &&
      match project_out_grid_frame 100 (sdf_field s) p (to_grid p row_start) three64 eighth with
      | Finished c => same64 (vx c) (vx end_point) && same64 (vy c) (vy end_point) && same64 (vz c) (vz end_point)
      | _ => false
      end
  | _ => false
  end.
Lemma placed_row_check_true : placed_row_check = true.
Proof. vm_compute. reflexivity. Qed.

Lemma row_stands : stands row9 one64 9 shelf_forward (shelf (real64 one64)) shelf_shift (bpow radix2 (-53)) 0 256.
Proof.
  assert (R1 : 0 < real64 one64) by (rewrite real_one; lra). destruct (shelf_pose _ R1) as (G & Rg).
  split. { rewrite real_one. change 1 with (bpow radix2 0). apply bpow_le. lia. }
  split; [cbn [nx ny nz row9]; lra|]. split. { change 256 with (bpow radix2 8). split; apply bpow_le; lia. }
  split; [exact G|]. split; [exact Rg|]. split; [split; [apply bpow_ge_0|apply bpow_le; lia]|]. split.
  - split; [apply shelf_matrix|]. split.
    + apply row_within; try lia; apply Rabs_le; lra.
    + cbn [shelf_forward shift]. rewrite (proj2 (row_real 10 20 30 ltac:(lia) ltac:(lia) ltac:(lia))).
      unfold apart_at_most, shelf_shift. cbn [vx vy vz]. split; [|split]; apply Rabs_le; lra.
  - rewrite real_one. unfold misplaced, inverse_error. change (bpow radix2 (-53)) with (/ 9007199254740992). lra.
Qed.

Example C136_nonvacuous : exists s,
  let p := placed_by one64 shelf_forward in let q := real_vec end_point in
  field_of_map row9 one64 (only (I 0 0 0)) s /\
  stands row9 one64 9 shelf_forward (shelf (real64 one64)) shelf_shift (bpow radix2 (-53)) 0 256 /\
  real64 one64 * 9 <= 256 / 20 /\ finite_double three64 /\ 2.17 * real64 one64 <= real64 three64 /\
  project_out 100 (sdf_field s) p row_start three64 eighth = Finished (to_world p end_point) /\
  in_bounds row9 (cell_at p row_start) = true /\ only (I 0 0 0) (cell_at p row_start) = true /\
  project_out_grid_frame 100 (sdf_field s) p (to_grid p row_start) three64 eighth = Finished end_point /\
  finite_vec end_point /\ in_bounds row9 (index_of (plain_pose (real64 one64)) q) = true /\ between_centers (real_field s) q /\
  flat row9 /\ (forall c, in_bounds row9 c = true -> exact_at row9 one64 (only (I 0 0 0)) s c).
Proof.
  destruct project_case as (s0 & Hs0). cbv zeta in Hs0. destruct Hs0 as (_ & _ & F3 & L3 & _ & _ & Fe & Ie & _ & Fl & _).
  pose proof placed_row_check_true as H. unfold placed_row_check in H.
  destruct (extract_sdf _ _ _ _ _) as [(s & x)| |] eqn:E; try discriminate H. cbv zeta in H.
  apply andb_prop in H. destruct H as (Fi & H). apply andb_prop in Fi. destruct Fi as (Fi & Hin).
  assert (M : field_of_map row9 one64 (only (I 0 0 0)) s).
  { apply (map_field _ _ _ x); auto. unfold size_ok. cbn. lia. }
  destruct (project_out_grid_frame _ _ _ _ _ _) as [a b c|w|why] eqn:P; try discriminate H.
  apply andb_prop in H. destruct H as (H & Hz). apply andb_prop in H. destruct H as (Hx & Hy).
  apply same64_eq in Hx. apply same64_eq in Hy. apply same64_eq in Hz.
  assert (w = end_point) by (destruct w as [wx wy wz]; unfold end_point in *; cbn [vx vy vz] in *; subst; reflexivity). subst w.
  exists s. cbv zeta. destruct (map_dims _ _ _ _ M) as (FD & FR & _). destruct (field_parts _ _ _ _ M) as (Ed & _).
  split; [exact M|]. split; [exact row_stands|]. split; [rewrite real_one; lra|]. split; [exact F3|]. split; [exact L3|].
  split.
  { unfold project_out. cbv zeta. rewrite Ed. unfold cell_at in Hin. rewrite Hin, P. reflexivity. }
  split; [exact Hin|]. split; [vm_compute; reflexivity|]. split; [exact P|]. split; [exact Fe|]. split; [exact Ie|]. split.
  { rewrite real_end. unfold between_centers, between_centers_axis. rewrite FD, FR, real_one. cbn [nx ny nz row9 vx vy vz].
    split; [right; lra|]. split; left; reflexivity. }
  split; [exact Fl|exact (row_exact s M)].
Qed.

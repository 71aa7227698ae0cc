(** C138: projecting out of collision in doubles ends at a finite point of the grid. *)
From Coq Require Import Bool Reals Lra Lia.
From Flocq Require Import Core.Core IEEE754.Binary IEEE754.Bits.
From Verif Require Import Base BaseFacts Floats FloatFacts FloatFacts2 Grid GridFacts DistSpec CollisionMap SdfGen SdfSpec Arith SdfQuery SdfField
  QuerySpec QueryProofs QueryReal QueryThms QueryTurn QueryWitness AutoDiffSpec DoubleSpec DoubleQuery WallSpec WallProject EstimateSpec EstimateMap
  EstimateCase SlopeThms IdealSpec IdealMap OuterThms ProjectThms Frame FrameSpec FrameThms FrameCase PlaceSpec PlaceThms Origin OriginSpec VolumeSpec
  VolumeThms Location OutThms InsideSpec InsideThms SearchThms PropFrameTurn PropOrigin PropOut PropInside.
Open Scope R_scope.

(** C138, in the frame of the grid: from any finite start of at most 2^800, for
    every field of a map with finite stored distances, the search does not run away: if it ends, it ends at a finite point, and this is
    a point of the grid if the cells are of side at most 1. *)
Theorem C138_ends : forall d r filled s T q md mult fuel c,
  field_of_map d r filled s -> usable_point q -> finite_double md -> Rabs (real64 md) <= bpow radix2 900 ->
  finite_double mult -> 0 <= real64 mult <= bpow radix2 100 ->
  project_out_grid_frame fuel (sdf_field s) (placed_by r T) q md mult = Finished c ->
  usable_point c /\ (real64 r <= 1 -> in_the_box 0 (far_corner d (real64 r)) (real_vec c)).
Proof.
  intros d r filled s T q md mult fuel c HM Hq Fm Bm Fk Bk H.
  assert (U := search_usable d r filled s (placed_by r T) HM (fun _ => eq_refl) md mult Fm Bm Fk Bk fuel q c Hq H).
  split; [exact U|]. intros R1. destruct (field_parts d r filled s HM) as (Ed & Er). pose proof HM as (Hs & (Fr & _) & (L & _) & _).
  pose proof (C137_search s T q fuel md mult c) as K. cbv zeta in K. change (f_dims (sdf_field s)) with (sdf_dims s) in Ed.
  change (f_res (sdf_field s)) with (s_res s) in Er. rewrite Ed, Er in K. apply K; auto. unfold size_ok in Hs. nia.
Qed.
Print Assumptions C138_ends.

(** C138, clearance: what C136 promises, with nothing assumed about the end of the search. *)
Theorem C138_clear : forall d r filled s N T P t delta eta S fuel loc md mult w,
  let p := placed_by r T in let P0 := plain_pose (real64 r) in
  let all_exact := forall j, in_bounds d j = true -> exact_at d r filled s j in
  field_of_map d r filled s -> real64 r <= 1 -> stands d r N T P t delta eta S -> N <= bpow radix2 30 -> real64 r * N <= S / 20 ->
  point_within S loc -> finite_double md -> Rabs (real64 md) <= bpow radix2 900 -> finite_double mult -> 0 <= real64 mult <= bpow radix2 100 ->
  project_out fuel (sdf_field s) p loc md mult = Finished w ->
  exists c, w = to_world p c /\ in_the_box 0 (far_corner d (real64 r)) (real_vec c) /\ point_within S w /\
  apart_at_most (real64 r / 500000) (to_grid P (real_vec w)) (real_vec c) /\
  in_bounds d (index_of P0 (real_vec c)) = true /\
  ((between_centers (real_field s) (real_vec c) -> 0.626 * real64 r <= real64 md -> filled (index_of P0 (real_vec c)) = false) /\
   (flat d -> 2.17 * real64 r <= real64 md -> filled (index_of P0 (real_vec c)) = false) /\
   (all_exact -> 4.21 * real64 r <= real64 md -> filled (index_of P0 (real_vec c)) = false)) /\
  forall b, in_bounds d b = true -> filled b = true -> let distance := gap (real_vec w) (world_center P b) in
   (between_centers (real_field s) (real_vec c) -> flat d -> real64 md < 1.42 * distance + 0.752 * real64 r) /\
   (between_centers (real_field s) (real_vec c) -> all_exact -> real64 md < (1 + bpow radix2 (-23)) * distance + 0.377 * real64 r) /\
   (flat d -> real64 md < 1.42 * distance + 3.301 * real64 r) /\
   (all_exact -> real64 md < (1 + bpow radix2 (-23)) * distance + 4.831 * real64 r).
Proof.
  intros d r filled s N T P t delta eta S fuel loc md mult w p P0 all_exact HM R1 St HN HS Hl Fm Bm Fk Bk HP.
  destruct (C136_clear d r filled s N T P t delta eta S fuel loc md mult w HM St HS Fm HP) as (c & Hc & Ew & K).
  fold p in Hc, Ew, K. exists c. split; [exact Ew|].
  destruct (field_parts d r filled s HM) as (Ed & Er). pose proof HM as (Hs & (Fr & _) & (Lr & _) & _). pose proof (r_above r (proj1 (proj2 (proj2 HM)))) as Rp.
  set (start := if in_bounds d (cell_at p loc) then loc else _) in Hc.
  assert (Pd : (0 < nx d /\ 0 < ny d /\ 0 < nz d)%Z).
  { pose proof (project_out_grid_spec (A := ieee) fuel (sdf_field s) p (to_grid p start) md mult) as G. rewrite Hc in G.
    destruct G as (e & B & _). rewrite Ed in B. apply in_bounds_spec in B. lia. }
  change (sdf_dims s = d) in Ed. change (s_res s = r) in Er.
  pose proof (seen_bounded s N T P t delta eta S) as SB. pose proof (seen_point s N T P t delta eta S) as SP.
  pose proof (projected s N T P t delta eta S) as PR. rewrite Ed, Er in SB, SP, PR.
  assert (Us : forall l, point_within S l -> usable_point (to_grid p l)).
  { intros l W. split; [exact (proj1 (SP Lr Pd St l W))|exact (SB Lr Pd St l W)]. }
  assert (Hst : usable_point (to_grid p start)).
  { unfold start. destruct (in_bounds d (cell_at p loc)); [exact (Us loc Hl)|]. apply Us. destruct zero_real as (F0 & V0).
    destruct (PR Fr Lr HN Pd St HS loc (b64_of_Z 0) Hl F0) as (W & _); [rewrite V0; lra| |exact W].
    destruct Pd as (X & Y & Z). assert (Ax : forall n, (0 < n)%Z -> real64 r * 1 <= real64 r * IZR n).
    { intros n Hn. apply Rmult_le_compat_l; [lra|]. apply IZR_le. lia. }
    pose proof (Ax _ X). pose proof (Ax _ Y). pose proof (Ax _ Z). rewrite V0. unfold room, far_corner. cbn [vx vy vz]. lra. }
  clearbody start.
  assert (U := search_usable d r filled s p HM (fun _ => eq_refl) md mult Fm Bm Fk Bk fuel _ c Hst Hc).
  pose proof (C137_search s T (to_grid p start) fuel md mult c) as G. cbv zeta in G. rewrite Ed, Er in G.
  destruct (G Fr (conj Lr R1)) as (Bx & I); [unfold size_ok in Hs; nia|exact Hc|exact U|].
  destruct (K (proj1 U) I) as (K1 & K2 & K3 & K4).
  split; [exact Bx|]. split; [exact K1|]. split; [exact K2|]. split; [exact I|]. split; [exact K3|exact K4].
Qed.
Print Assumptions C138_clear.

(** Non-vacuity: the row of cells of C136. *)
Definition row_start_place : vec ieee := @V ieee (B754_finite 53 1024 false 5348024557502464 (-49) eq_refl)
  (B754_finite 53 1024 false 5770237022568448 (-48) eq_refl) (B754_finite 53 1024 false 8584986789675008 (-48) eq_refl).

Lemma row_start_within : point_within 256 row_start.
Proof.
  assert (E : row_start = row_start_place).
  { assert (K : (same64 (vx row_start) (vx row_start_place) && same64 (vy row_start) (vy row_start_place) &&
                 same64 (vz row_start) (vz row_start_place) = true)%bool) by (vm_compute; reflexivity).
    apply andb_prop in K. destruct K as (K & Kz). apply andb_prop in K. destruct K as (Kx & Ky).
    apply same64_eq in Kx. apply same64_eq in Ky. apply same64_eq in Kz.
    destruct row_start as [a b c]. cbn [vx vy vz row_start_place] in *. subst. reflexivity. }
  rewrite E. split; [split; [reflexivity|split; reflexivity]|].
  unfold bounded_by, row_start_place, real_vec. cbn [vx vy vz]. unfold real64, B2R, F2R. cbn -[IZR Rabs]. split; [|split]; apply Rabs_le; lra.
Qed.

Lemma eighth_small : finite_double eighth /\ 0 <= real64 eighth <= bpow radix2 100.
Proof.
  assert (E : eighth = B754_finite 53 1024 false 4503599627370496 (-55) eq_refl) by (apply same64_eq; vm_compute; reflexivity).
  rewrite E. split; [reflexivity|]. assert (1 <= bpow radix2 100) by (change 1 with (bpow radix2 0); apply bpow_le; lia).
  assert (real64 (B754_finite 53 1024 false 4503599627370496 (-55) eq_refl) = 1 / 8) by (unfold real64, B2R, F2R; cbn -[IZR]; lra). lra.
Qed.

Example C138_nonvacuous : exists s,
  let p := placed_by one64 shelf_forward in
  field_of_map row9 one64 (only (I 0 0 0)) s /\ real64 one64 <= 1 /\
  stands row9 one64 9 shelf_forward (shelf (real64 one64)) shelf_shift (bpow radix2 (-53)) 0 256 /\ 9 <= bpow radix2 30 /\
  real64 one64 * 9 <= 256 / 20 /\ point_within 256 row_start /\
  finite_double three64 /\ Rabs (real64 three64) <= bpow radix2 900 /\ finite_double eighth /\ 0 <= real64 eighth <= bpow radix2 100 /\
  project_out_grid_frame 100 (sdf_field s) p (to_grid p row_start) three64 eighth = Finished end_point /\
  project_out 100 (sdf_field s) p row_start three64 eighth = Finished (to_world p end_point) /\
  flat row9 /\ 2.17 * real64 one64 <= real64 three64.
Proof.
  destruct C136_nonvacuous as (s & H). cbv zeta in H. destruct H as (M & St & HS & F3 & L3 & HP & _ & _ & HG & _ & _ & _ & Fl & _).
  exists s. cbv zeta. split; [exact M|]. split; [rewrite real_one; lra|]. split; [exact St|]. split; [change (bpow radix2 30) with 1073741824; lra|].
  split; [exact HS|]. split; [exact row_start_within|]. split; [exact F3|]. split.
  { destruct (of_Z_exact 3) as (_ & E); [lia|]. change (real64 three64 = 3) in E. rewrite E, Rabs_pos_eq by lra.
    apply Rle_trans with (bpow radix2 2); [change (bpow radix2 2) with 4; lra|apply bpow_le; lia]. }
  split; [apply eighth_small|]. split; [apply eighth_small|]. split; [exact HG|]. split; [exact HP|]. split; [exact Fl|exact L3].
Qed.

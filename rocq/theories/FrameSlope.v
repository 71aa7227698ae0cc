(** Gradients in the world frame, in extracted fields. *)
From Coq Require Import Reals Lra Lia.
From Flocq Require Import Core.Core IEEE754.Binary IEEE754.Bits.
From Verif Require Import Base BaseFacts Floats Grid GridFacts DistSpec CollisionMap SdfGen SdfSpec Arith SdfQuery SdfField QuerySpec
  QueryProofs QueryReal QueryThms QueryTurn AutoDiffSpec DoubleSpec DoubleQuery WallSpec WallExtract SmoothSpec WallDouble EstimateSpec EstimateMap
  IdealSpec IdealMap WallProject Frame FrameSpec FrameTurn.
Open Scope R_scope.

Lemma gradient_inside (f : field ieee) p i edges g : gradient f p i edges = Some g -> in_bounds (f_dims f) i = true.
Proof.
  unfold gradient. destruct (grid_aligned_gradient f i edges) as [g0|] eqn:E; [|discriminate]. intros _.
  destruct (in_bounds (f_dims f) i) eqn:N; [reflexivity|].
  rewrite (proj2 (aligned_none f i edges) (or_introl N)) in E. discriminate E.
Qed.

Lemma small_range M : 1 <= M <= 4 -> bpow radix2 (-90) <= M <= bpow radix2 90.
Proof.
  intros H. split; [apply Rle_trans with (bpow radix2 0); [apply bpow_le; lia|change (bpow radix2 0) with 1; lra]|].
  apply Rle_trans with (bpow radix2 2); [change (bpow radix2 2) with 4; lra|apply bpow_le; lia].
Qed.

Section Map.
Variables (d : dims) (r : binary64) (filled : idx -> bool) (s : sdf).
Hypothesis HM : field_of_map d r filled s.
Hypothesis HX : flat d \/ (forall c, in_bounds d c = true -> exact_at d r filled s c).

Lemma map_slopes i : in_bounds d i = true -> bounded_by 2.02 (slopes (sdf_field s) i).
Proof.
  intros B. destruct (field_parts d r filled s HM) as (Ed & Er).
  unfold bounded_by, slopes. rewrite Ed. cbn [vx vy vz]. apply in_bounds_spec in B. destruct i as [x y z]. cbn [ix iy iz] in *.
  assert (Sx : forall a, share_face (I (a + 1) y z) (I a y z)) by (intros; unfold share_face; cbn [ix iy iz]; lia).
  assert (Sy : forall a, share_face (I x (a + 1) z) (I x a z)) by (intros; unfold share_face; cbn [ix iy iz]; lia).
  assert (Sz : forall a, share_face (I x y (a + 1)) (I x y a)) by (intros; unfold share_face; cbn [ix iy iz]; lia).
  destruct (slope_bound d r filled s HM HX (nx d) x (fun t => I t y z)) as (X1 & _); [lia|intros; apply in_bounds_spec; cbn [ix iy iz]; lia|auto|].
  destruct (slope_bound d r filled s HM HX (ny d) y (fun t => I x t z)) as (Y1 & _); [lia|intros; apply in_bounds_spec; cbn [ix iy iz]; lia|auto|].
  destruct (slope_bound d r filled s HM HX (nz d) z (fun t => I x y t)) as (Z1 & _); [lia|intros; apply in_bounds_spec; cbn [ix iy iz]; lia|auto|].
  split; [exact X1|]. split; [exact Y1|exact Z1].
Qed.

Lemma map_world_gradient p P t delta i edges g :
  rigid P t -> rotation_within delta p P -> bpow radix2 (-53) <= delta <= bpow radix2 (-20) ->
  gradient (sdf_field s) p i edges = Some g ->
  finite_vec g /\
  apart_at_most ((1800 * delta + bpow radix2 (-17)) * 2.02) (real_vec g) (turn (rot_w P) (rot_v P) (slopes (sdf_field s) i)).
Proof.
  intros Rg Rw Hd E. destruct (map_dims _ _ _ _ HM) as (_ & FR & Rp). destruct (field_parts d r filled s HM) as (Ed & Er).
  pose proof HM as (Hs & (Fr & _) & (L & U) & _).
  apply (world_gradient_doubles (sdf_field s) p P t delta 2.02 i edges g); auto.
  - rewrite Er. exact Fr.
  - rewrite Er. split; [apply Rle_trans with (2 := L)|apply Rle_trans with (1 := U)]; apply bpow_le; lia.
  - intros j Hj. rewrite Ed in Hj. destruct (value_bound d r filled s HM j Hj) as (F & V). split; [exact F|].
    apply Rle_trans with (bpow radix2 16 * bpow radix2 100).
    + apply Rle_trans with (46343 * real64 r); [lra|]. apply Rmult_le_compat; try lra. change (bpow radix2 16) with 65536. lra.
    + rewrite <- bpow_plus. apply bpow_le. lia.
  - apply small_range. lra.
  - apply map_slopes. rewrite <- Ed. exact (gradient_inside _ _ _ _ _ E).
Qed.
End Map.

Lemma wall_slopes (f : field ieee) a low k N i :
  bpow radix2 (-100) <= real64 (f_res f) <= bpow radix2 80 -> double_wall f a low k -> (N <= 46340)%Z ->
  (nx (f_dims f) <= N)%Z -> (ny (f_dims f) <= N)%Z -> (nz (f_dims f) <= N)%Z -> in_bounds (f_dims f) i = true ->
  exists c, 1 <= c <= 2 /\ slopes f i = vscale (outward a low) c.
Proof.
  intros Rr Wl HN X Y Z B. destruct (slope_wall f a low k N Rr Wl HN X Y Z i B) as ((c & Hc & E) & O).
  exists c. split; [exact Hc|].
  assert (S : slopes f i = @V reals (slope_on f AlongX i) (slope_on f AlongY i) (slope_on f AlongZ i)) by reflexivity.
  rewrite S. clear S.
  destruct a; rewrite E, !O by discriminate; unfold vscale, outward, sgn; cbn [vx vy vz]; rsimp; f_equal; asR; destruct low; ring.
Qed.

Lemma wall_world_gradient a low d r oob frame is_filled k N s x p P t delta i edges g :
  extracted_wall a low d r oob frame is_filled k N s x ->
  rigid P t -> rotation_within delta p P -> bpow radix2 (-53) <= delta <= bpow radix2 (-20) ->
  gradient (sdf_field s) p i edges = Some g ->
  finite_vec g /\ exists c, 1 <= c <= 2 /\
  apart_at_most ((1800 * delta + bpow radix2 (-17)) * 2) (real_vec g) (turn (rot_w P) (rot_v P) (vscale (outward a low) c)).
Proof.
  intros (Hs & Hr & Rr & HP & Hk & Ex & He & X & Y & Z & HN) Rg Rw Hd E.
  destruct (extracted_double_wall a low d r oob frame is_filled k s x Hs Hr HP Hk Ex He) as (Wl & FD & FR).
  pose proof (gradient_inside _ _ _ _ _ E) as B. rewrite <- FD in X, Y, Z. rewrite <- FR in Rr.
  destruct (wall_slopes (sdf_field s) a low k N i Rr Wl HN X Y Z B) as (c & Hc & Es).
  destruct (world_gradient_doubles (sdf_field s) p P t delta 2 i edges g) as (F & A); auto.
  - rewrite FR. apply Hr.
  - split; [apply Rle_trans with (2 := proj1 Rr)|apply Rle_trans with (1 := proj2 Rr)]; apply bpow_le; lia.
  - intros j Hj. destruct (wall_vals (sdf_field s) a low k N Rr Wl X Y Z j Hj) as (Fv & V). split; [exact Fv|].
    assert (0 < real64 (f_res (sdf_field s))) by (apply Rlt_le_trans with (2 := proj1 Rr); apply bpow_gt_0).
    apply Rle_trans with (bpow radix2 80 * bpow radix2 16).
    + apply Rle_trans with (real64 (f_res (sdf_field s)) * IZR N); [lra|].
      assert (0 <= IZR N <= 46340).
      { apply in_bounds_spec in B. split; [|apply IZR_le; exact HN]. apply IZR_le. lia. }
      apply Rmult_le_compat; try lra. change (bpow radix2 16) with 65536. lra.
    + rewrite <- bpow_plus. apply bpow_le. lia.
  - apply small_range. lra.
  - rewrite Es. unfold bounded_by. destruct a, low; unfold vscale, outward; cbn [vx vy vz]; rsimp; repeat split; apply Rabs_le; lra.
  - split; [exact F|]. exists c. split; [exact Hc|]. rewrite <- Es. exact A.
Qed.

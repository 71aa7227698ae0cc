(** A wall in a placed grid: distance estimates and the projection, in doubles. *)
From Coq Require Import Reals Lra Lia Psatz.
From Flocq Require Import Core.Core IEEE754.Binary IEEE754.Bits.
From Verif Require Import Base BaseFacts Floats Grid GridFacts DistSpec CollisionMap SdfGen SdfSpec Arith SdfQuery SdfField QuerySpec
  QueryProofs QueryReal QueryThms QueryTurn AutoDiffSpec DoubleSpec DoubleQuery DoubleEstimate DoubleGrid WallSpec SmoothSpec WallDouble WallQuery
  IdealSpec WallProject Frame FrameSpec FrameThms.
Open Scope R_scope.

(** ** The queries work in the grid frame *)
Section Frame.
  Variables (f : field ieee) (r : binary64) (inverse forward : transform ieee) (w : dbl ieee) (v : vec ieee).
  Notation p := (placed_pose r inverse forward w v).
  Notation o := (ieee_pose r).

  Lemma placed_estimate loc : estimate_distance f p loc = estimate_distance f o (apply inverse loc).
  Proof. reflexivity. Qed.

  Lemma placed_loop md mult fuel : forall q i dist, project_loop fuel f p md mult q i dist = project_loop fuel f o md mult q i dist.
  Proof.
    induction fuel as [|fuel IH]; intros q i dist; [reflexivity|]. cbn [project_loop].
    change (project_step f p md mult q i dist) with (project_step f o md mult q i dist).
    destruct (project_step f o md mult q i dist); [apply IH|reflexivity|reflexivity].
  Qed.

  Lemma placed_project md mult fuel loc : in_bounds (f_dims f) (index_of o (apply inverse loc)) = true ->
    project_out fuel f p loc md mult =
    match project_out fuel f o (apply inverse loc) md mult with Finished q => Finished (apply forward q) | other => other end.
  Proof.
    intros Hi. unfold project_out. change (index_of p (to_grid p loc)) with (index_of o (apply inverse loc)).
    change (to_grid o (apply inverse loc)) with (apply inverse loc). rewrite Hi.
    change (to_grid p loc) with (apply inverse loc). change (to_grid o (apply inverse loc)) with (apply inverse loc).
    assert (E : project_out_grid_frame fuel f p (apply inverse loc) md mult =
                project_out_grid_frame fuel f o (apply inverse loc) md mult).
    { unfold project_out_grid_frame.
      change (estimate_from_neighbors f p (apply inverse loc) (index_of p (apply inverse loc)))
        with (estimate_from_neighbors f o (apply inverse loc) (index_of o (apply inverse loc))).
      cbv zeta. destruct (estimate_from_neighbors f o (apply inverse loc) (index_of o (apply inverse loc))); auto. apply placed_loop. }
    rewrite E. destruct (project_out_grid_frame fuel f o (apply inverse loc) md mult); reflexivity.
  Qed.
End Frame.

(** ** A wall *)
Lemma apart_axis a far (x y : rvec) : apart_at_most far x y -> Rabs (axis_of a x - axis_of a y) <= far.
Proof. intros (A & B & C). destruct a; assumption. Qed.

Lemma bounded_axis a S (x : rvec) : bounded_by S x -> Rabs (axis_of a x) <= S.
Proof. intros (A & B & C). destruct a; assumption. Qed.

Lemma component_axis a q : real64 (component a q) = axis_of a (real_vec q).
Proof. destruct a; reflexivity. Qed.

Lemma above_axis r n a low k q : above_wall r n a low k q = if low then axis_of a q - r * IZR k else r * IZR (n - k) - axis_of a q.
Proof. destruct a; reflexivity. Qed.

Lemma above_close r n a low k far x y : apart_at_most far x y -> Rabs (above_wall r n a low k x - above_wall r n a low k y) <= far.
Proof.
  intros A. apply (apart_axis a) in A. rewrite !above_axis. apply Rabs_le_inv in A. apply Rabs_le. destruct low; lra.
Qed.

Section Wall.
  Variables (a : axis_name) (low : bool) (d : dims) (r : binary64) (oob : binary32) (frame : String.string).
  Variables (is_filled : idx -> res bool) (k N : Z) (s : sdf) (x : binary64 * binary64).
  Variables (inverse forward : transform ieee) (w : dbl ieee) (v : vec ieee) (P : pose reals) (S far : R) (loc : vec ieee).
  Notation p := (placed_pose r inverse forward w v).
  Notation tol := (wall_tolerance (real64 r) N).
  Notation height q := (above_wall (real64 r) (cells_along a d) a low k (to_grid P (real_vec q))).
  Notation height_of q := (above_wall (real64 r) (cells_along a d) a low k (real_vec q)).
  Notation err := (misplaced S far).
  Hypothesis EW : extracted_wall a low d r oob frame is_filled k N s x.
  Hypothesis SB : bpow radix2 (-100) <= S <= bpow radix2 90.
  Hypothesis UI : usable_transform S inverse.
  Hypothesis FI : follows far S inverse (to_grid P).
  Hypothesis Hl : point_within S loc.
  Hypothesis Hi : in_bounds d (index_of p (to_grid p loc)) = true.

  Lemma SB' : bpow radix2 (-100) <= S <= bpow radix2 100.
  Proof using SB. clear Hi. split; [apply SB|]. apply Rle_trans with (1 := proj2 SB). apply bpow_le. lia. Qed.

  Lemma here_point : finite_vec (apply inverse loc) /\ bounded_by (8 * S) (real_vec (apply inverse loc)) /\
    apart_at_most err (real_vec (apply inverse loc)) (to_grid P (real_vec loc)).
  Proof using SB UI FI Hl r forward w v. exact (placed_point r inverse forward w v P S far SB' UI FI loc Hl). Qed.

  Lemma big_S m : 0 <= m <= bpow radix2 10 -> m * S <= bpow radix2 100.
  Proof using SB.
    clear Hi. intros Hm. replace 100%Z with (10 + 90)%Z by lia. rewrite bpow_plus.
    apply Rmult_le_compat; try lra. apply Rle_trans with (2 := proj1 SB). apply bpow_ge_0.
  Qed.

  Lemma here_usable : usable_point (apply inverse loc).
  Proof using SB UI FI Hl r forward w v.
    clear Hi EW. destruct here_point as (F & (B1 & B2 & B3) & _). split; [exact F|].
    assert (K : 8 * S <= bpow radix2 800).
    { apply Rle_trans with (bpow radix2 100); [apply big_S|apply bpow_le; lia]. change (bpow radix2 10) with 1024. lra. }
    cbn [real_vec vx vy vz] in *. lra.
  Qed.

  Lemma placed_wall : exists e, estimate_distance (sdf_field s) p loc = Ok (e, true) /\ finite_double e /\
    Rabs (real64 e - height loc) <= tol + err.
  Proof using EW SB UI FI Hl Hi.
    destruct here_usable as (F & B1 & B2 & B3). destruct here_point as (_ & _ & A).
    rewrite placed_estimate.
    destruct (extracted_estimate a low d r oob frame is_filled k N s x (apply inverse loc) EW F B1 B2 B3 Hi) as (e & E & Fe & De).
    exists e. split; [exact E|]. split; [exact Fe|].
    pose proof (above_close (real64 r) (cells_along a d) a low k _ _ _ A) as C.
    apply Rabs_le_inv in De. apply Rabs_le_inv in C. apply Rabs_le. lra.
  Qed.

  Variables (md mult : binary64) (t : rvec).
  Notation limit := (real64 md + real64 r * real64 mult / 10000 + 2 * tol).
  Hypothesis Sm : real64 r <= 3.99.
  Hypotheses (Fmd : finite_double md) (Bmd : Rabs (real64 md) <= real64 r * IZR N).
  Hypotheses (Fm : finite_double mult) (Bm : 0 < real64 mult <= 1) (Hm : 16 * tol <= real64 r * real64 mult / 10000).
  Hypothesis Fits : real64 r * IZR N <= S.
  Hypothesis UF : usable_transform (16 * S) forward.
  Hypothesis FF : follows far (16 * S) forward (to_world P).
  Hypotheses (GP : geometry (real64 r) P) (RP : rigid P t).

  Lemma placed_projection passes fuel :
    real64 md + tol + err - height loc <= INR passes * (real64 r * real64 mult - tol) -> (passes + 2 <= fuel)%nat ->
    (exists z, project_out fuel (sdf_field s) p loc md mult = Finished z /\ finite_vec z /\
       (forall b, b <> a -> Rabs (axis_of b (to_grid P (real_vec z)) - axis_of b (to_grid P (real_vec loc))) <= 33 * err) /\
       real64 md - tol - 32 * err < height z <= Rmax (height loc) limit + 33 * err) \/
    (project_out fuel (sdf_field s) p loc md mult = Failed "Index out of bounds"%string /\
     real64 r * IZR (cells_along a d - k) < limit).
  Proof.
    intros Far Fu. destruct here_point as (Fq & Bq & Ap). pose proof here_usable as Uq.
    set (q := apply inverse loc) in *.
    pose proof (above_close (real64 r) (cells_along a d) a low k _ _ _ Ap) as Ah.
    pose proof EW as (Hs & Hr & Rr & _ & Hk & _ & _ & X & Y & Z_ & HN).
    assert (R0 : 0 < real64 r) by (apply Rlt_le_trans with (2 := proj1 Rr); apply bpow_gt_0).
    assert (NR : 1 <= IZR N) by (apply IZR_le; destruct Hk; destruct a; cbn [cells_along] in *; lia).
    assert (RN : real64 r <= real64 r * IZR N) by (rewrite <- (Rmult_1_r (real64 r)) at 1; apply Rmult_le_compat_l; lra).
    assert (S0 : 0 < S) by lra.
    assert (Fd : f_dims (sdf_field s) = d).
    { destruct EW as (_ & _ & _ & HP & _ & Ex & He & _).
      apply (extracted_double_wall a low d r oob frame is_filled k s x Hs Hr HP Hk Ex He). }
    assert (F0 : 0 <= far).
    { destruct (FI (real_vec loc) (proj2 Hl)) as (A & _). apply Rle_trans with (2 := A). apply Rabs_pos. }
    assert (U0 : 0 < u) by apply bpow_gt_0.
    assert (Ev : err = 64 * u * S + far) by reflexivity.
    assert (US : 0 < u * S) by (apply Rmult_lt_0_compat; lra).
    assert (Er0 : 0 <= err) by (rewrite Ev; lra).
    assert (T0 : 0 <= tol).
    { unfold wall_tolerance. pose proof (bpow_gt_0 radix2 (-42)). pose proof (bpow_gt_0 radix2 (-53)).
      apply Rmult_le_pos; [|lra]. apply Rplus_le_le_0_compat; [lra|]. apply Rmult_le_pos; lra. }
    assert (RM : real64 r * real64 mult <= real64 r) by (rewrite <- (Rmult_1_r (real64 r)) at 2; apply Rmult_le_compat_l; lra).
    apply Rabs_le_inv in Ah. rewrite (placed_project (sdf_field s) r inverse forward w v md mult fuel loc) by (rewrite Fd; exact Hi).
    fold q.
    destruct (extracted_projection_doubles a low d r oob frame is_filled k N s x md mult q EW Sm Fmd Bmd Fm) with (passes := passes) (fuel := fuel)
      as [(z0 & E & Fz & Same & Hz)|(E & Lt)]; auto; [lra|lra| |].
    2:{ right. rewrite E. auto. }
    left. rewrite E. exists (apply forward z0). split; [reflexivity|].
    apply Rabs_le_inv in Bmd.
    assert (KS : forall m, (0 <= m <= N)%Z -> 0 <= real64 r * IZR m <= S).
    { intros m Hm'. assert (0 <= IZR m <= IZR N) by (split; apply IZR_le; lia). split; [apply Rmult_le_pos; lra|].
      apply Rle_trans with (2 := Fits). apply Rmult_le_compat_l; lra. }
    assert (Kk : 0 <= real64 r * IZR k <= S /\ 0 <= real64 r * IZR (cells_along a d - k) <= S).
    { split; apply KS; destruct a; cbn [cells_along] in *; lia. }
    assert (Hq : Rabs (height_of q) <= 9 * S).
    { apply (bounded_axis a) in Bq. rewrite above_axis. apply Rabs_le_inv in Bq. apply Rabs_le. destruct low; lra. }
    apply Rabs_le_inv in Hq.
    assert (Top : Rmax (height_of q) limit <= 9 * S) by (apply Rmax_lub; lra).
    assert (Pz : point_within (16 * S) z0).
    { split; [exact Fz|].
      assert (Q : forall b, Rabs (axis_of b (real_vec z0)) <= 16 * S).
      { intros b. assert (b = a \/ b <> a) as [->|Ne] by (destruct a, b; auto; right; discriminate).
        - rewrite above_axis in Hz. apply Rabs_le. destruct low; lra.
        - rewrite <- component_axis, (Same b Ne), component_axis. apply (bounded_axis b) in Bq. lra. }
      split; [exact (Q AlongX)|]. split; [exact (Q AlongY)|exact (Q AlongZ)]. }
    assert (SB16 : bpow radix2 (-100) <= 16 * S <= bpow radix2 100).
    { split; [lra|]. apply big_S. change (bpow radix2 10) with 1024. lra. }
    destruct (apply_close (16 * S) SB16 forward z0 UF Pz) as (Ff & Af & _). split; [exact Ff|].
    pose proof (apart_trans _ _ _ _ _ Af (FF (real_vec z0) (proj2 Pz))) as Aw.
    apply (grid_frame_close P (real64 r) t _ _ _ GP RP) in Aw. rewrite (g_there_and_back _ _ GP) in Aw.
    apply apart_more with (e2 := 32 * err) in Aw; [|rewrite Ev; lra].
    split.
    - intros b Ne. pose proof (apart_axis b _ _ _ Aw) as B1. pose proof (apart_axis b _ _ _ Ap) as B2.
      pose proof (Same b Ne) as E2. rewrite !component_axis in E2. rewrite E2 in B1.
      apply Rabs_le_inv in B1. apply Rabs_le_inv in B2. apply Rabs_le. lra.
    - pose proof (above_close (real64 r) (cells_along a d) a low k _ _ _ Aw) as Bz. apply Rabs_le_inv in Bz.
      assert (Rmax (height_of q) limit <= Rmax (height loc) limit + err).
      { apply Rmax_lub; [pose proof (Rmax_l (height loc) limit)|pose proof (Rmax_r (height loc) limit)]; lra. }
      lra.
  Qed.
End Wall.

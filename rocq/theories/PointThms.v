(** Finding the cell of a point in a placed grid, in doubles. *)
From Coq Require Import Reals Lra Lia Psatz.
From Flocq Require Import Core.Core IEEE754.Binary IEEE754.Bits.
From Verif Require Import Base BaseFacts Floats FloatFacts FloatFacts2 Grid GridFacts Arith SdfQuery SdfField QuerySpec
  QueryProofs QueryReal QueryThms DoubleSpec DoubleQuery DoubleEstimate DoubleGrid IdealSpec WallSpec WallProject Frame FrameSpec
  FrameThms PlaceSpec Origin OriginSpec OriginThms OriginPlace PointSpec Location.
Open Scope R_scope.

Lemma small_u : (bpow radix2 30 + 1) * u <= 3 / 10000000.
Proof. unfold u. change (bpow radix2 30) with 1073741824. change (bpow radix2 (-53)) with (/ 9007199254740992). lra. Qed.

Lemma axis_found (r v : binary64) (x mp N : R) (k : Z) :
  finite_double r -> 0 < real64 r -> finite_double v -> (0 <= k)%Z -> IZR k + 1 <= N -> N <= bpow radix2 30 ->
  Rabs (real64 v - x) <= mp -> mp <= real64 r / 1000000 -> inside_axis (2 * (real64 r / 1000000)) (real64 r) x k ->
  floor64 (div64 v r) = k.
Proof.
  intros Fr Pr Fv Hk HkN HN Hv Hm (Lo & Hi). apply Rabs_le_inv in Hv. set (R := real64 r) in *. pose proof u_pos as U0. pose proof small_u as SU.
  assert (K0 : 0 <= IZR k) by (apply IZR_le; lia).
  set (w := real64 v / R).
  assert (Ew : w * R = real64 v) by (unfold w; field; lra).
  assert (W : IZR k + 1 / 1000000 <= w <= IZR k + 1 - 1 / 1000000).
  { split; (apply Rmult_le_reg_r with R; [exact Pr|]); rewrite Ew; lra. }
  assert (B30 : bpow radix2 30 <= bpow radix2 1000) by (apply bpow_le; lia).
  destruct (div64_small v r Fv Fr) as (F & e & t & He & Ht & E); [fold R; lra| |].
  { fold R w. rewrite Rabs_pos_eq; lra. }
  fold R w in E.
  assert (T1 : bpow radix2 (-1075) <= u) by (apply bpow_le; lia).
  assert (We : Rabs (w * e) <= bpow radix2 30 * u).
  { rewrite Rabs_mult. apply Rmult_le_compat; try apply Rabs_pos; [|exact He]. rewrite Rabs_pos_eq; lra. }
  apply Rabs_le_inv in We. apply Rabs_le_inv in Ht.
  assert (D : IZR k <= real64 (div64 v r) < IZR k + 1) by (rewrite E; lra).
  pose proof (floor_spec _ F) as (F1 & F2). set (z := floor64 (div64 v r)) in *. clearbody z.
  assert (IZR k < IZR z + 1) by lra. assert (IZR z < IZR k + 1) by lra.
  rewrite <- (plus_IZR z 1) in H. rewrite <- (plus_IZR k 1) in H0. apply lt_IZR in H. apply lt_IZR in H0. lia.
Qed.

Lemma in_bounds_axes d i N : in_bounds d i = true -> IZR (nx d) <= N /\ IZR (ny d) <= N /\ IZR (nz d) <= N ->
  ((0 <= ix i)%Z /\ IZR (ix i) + 1 <= N) /\ ((0 <= iy i)%Z /\ IZR (iy i) + 1 <= N) /\ ((0 <= iz i)%Z /\ IZR (iz i) + 1 <= N).
Proof.
  intros Ib (A & B & C). apply in_bounds_spec in Ib.
  assert (K : forall a b : Z, (a < b)%Z -> IZR a + 1 <= IZR b).
  { intros a b H. rewrite <- (plus_IZR _ 1). apply IZR_le. lia. }
  destruct Ib as ((X0 & X) & (Y0 & Y) & (Z0 & Z)). split; [|split]; (split; [lia|]);
    (eapply Rle_trans; [apply K|]); try eassumption; lia.
Qed.

Section Found.
  Variables (d : dims) (r : binary64) (N : R) (T : transform ieee) (P : pose reals) (t : rvec) (delta eta S : R).
  Hypothesis Fr : finite_double r.
  Hypothesis Lr : bpow radix2 (-100) <= real64 r.
  Hypothesis HN : N <= bpow radix2 30.
  Hypothesis St : stands d r N T P t delta eta S.

  Lemma r_pos : 0 < real64 r.
  Proof using Lr. pose proof (bpow_gt_0 radix2 (-100)). lra. Qed.

  Lemma misplaced_le i : in_bounds d i = true -> misplaced S (inverse_error delta eta S) <= real64 r / 1000000.
  Proof using Lr St.
    intros Ib. pose proof r_pos as Pr. destruct St as (_ & Hd & SB & _ & _ & D & (_ & _ & (E & _)) & M).
    destruct (in_bounds_axes d i N Ib Hd) as ((K0 & K1) & _). apply IZR_le in K0.
    assert (E0 : 0 <= eta) by (apply Rle_trans with (2 := E); apply Rabs_pos).
    assert (S0 : 0 < S) by (pose proof (bpow_gt_0 radix2 (-100)); lra). pose proof (bpow_gt_0 radix2 (-53)) as U0.
    set (mp := misplaced S (inverse_error delta eta S)) in *.
    assert (0 <= mp).
    { unfold mp, misplaced, inverse_error. assert (0 <= bpow radix2 (-53) * S) by (apply Rmult_le_pos; lra).
      assert (0 <= delta * S) by (apply Rmult_le_pos; lra). lra. }
    apply Rle_trans with (2 := M). rewrite <- (Rmult_1_l mp) at 1. apply Rmult_le_compat_r; lra.
  Qed.

  Lemma point_found loc i : point_within S loc -> in_bounds d i = true ->
    inside_cell (2 * (real64 r / 1000000)) (real64 r) (to_grid P (real_vec loc)) i ->
    cell_at (placed_by r T) loc = i.
  Proof using Fr Lr HN St.
    intros Hl Ib (X & Y & Z). pose proof (misplaced_le i Ib) as Mp. pose proof r_pos as Pr.
    destruct St as (_ & Hd & SB & G & RP & D & Ho & _).
    destruct (in_bounds_axes d i N Ib Hd) as ((X0 & X1) & (Y0 & Y1) & (Z0 & Z1)).
    destruct (inverse_follows (real64 r) P t delta eta S T SB G RP D Ho) as (Us & Fo).
    destruct (placed_point r (inverse_of T) T (qw (quat_of T)) (qv (quat_of T)) P S _ SB Us Fo loc Hl)
      as ((Q1 & Q2 & Q3) & _ & (A1 & A2 & A3)).
    unfold cell_at, placed_by in *. set (q := to_grid (placed_pose _ _ _ _ _) loc) in *. clearbody q.
    destruct i as [i1 i2 i3]. cbn [ix iy iz] in *. destruct q as [q1 q2 q3].
    unfold real_vec in A1, A2, A3. cbn [vx vy vz] in *. unfold placed_pose, ieee_pose. cbn [index_of vx vy vz].
    f_equal; eapply axis_found; eassumption.
  Qed.

  Lemma world_point q : point_within (S / 16) q ->
    point_within S (to_world (placed_by r T) q) /\
    apart_at_most (64 * u * S + (3 * delta * S + eta)) (real_vec (to_world (placed_by r T) q)) (to_world P (real_vec q)).
  Proof using St.
    intros (Fq & Bq). destruct St as (_ & _ & SB & _ & RP & D & Ho & _).
    assert (S0 : 0 < S) by (pose proof (bpow_gt_0 radix2 (-100)); lra).
    assert (Bq' : bounded_by S (real_vec q)).
    { destruct Bq as (A & B & C). split; [|split]; eapply Rle_trans; try eassumption; lra. }
    pose proof (forward_usable P t delta eta S T SB RP D Ho) as Us.
    destruct (apply_close S SB T q Us (conj Fq Bq')) as (Fw & Aw & _).
    change (to_world (placed_by r T) q) with (apply T q).
    split.
    - split; [exact Fw|]. destruct Ho as (_ & (_ & Bs) & _). destruct Us as ((_ & Rx) & (_ & Ry) & (_ & Rz) & _).
      destruct Aw as (A1 & A2 & A3). destruct Bq as (B1 & B2 & B3).
      assert (Row : forall a b c s x y z w : R, Rabs a <= 2 -> Rabs b <= 2 -> Rabs c <= 2 -> Rabs s <= S / 4 ->
        Rabs x <= S / 16 -> Rabs y <= S / 16 -> Rabs z <= S / 16 -> Rabs (w - (a * x + b * y + c * z + s)) <= 64 * u * S -> Rabs w <= S).
      { intros a b c s x y z w Ha Hb Hc Hs Hx Hy Hz Hw.
        assert (M : forall f g, Rabs f <= 2 -> Rabs g <= S / 16 -> Rabs (f * g) <= 2 * (S / 16)).
        { intros f g Hf Hg. rewrite Rabs_mult. apply Rmult_le_compat; auto using Rabs_pos. }
        pose proof (M _ _ Ha Hx) as M1. pose proof (M _ _ Hb Hy) as M2. pose proof (M _ _ Hc Hz) as M3.
        assert (64 * u * S <= S / 8).
        { unfold u. change (bpow radix2 (-53)) with (/ 9007199254740992). lra. }
        apply Rabs_le_inv in M1. apply Rabs_le_inv in M2. apply Rabs_le_inv in M3. apply Rabs_le_inv in Hw. apply Rabs_le_inv in Hs.
        apply Rabs_le. lra. }
      revert A1 A2 A3. unfold bounded_by. unfold apply at 2 4 6. unfold apply_row, real_transform. cbn [row_x row_y row_z shift vx vy vz]. rsimp.
      destruct Rx as (Rx1 & Rx2 & Rx3). destruct Ry as (Ry1 & Ry2 & Ry3). destruct Rz as (Rz1 & Rz2 & Rz3). destruct Bs as (S1 & S2 & S3).
      intros A1 A2 A3. split; [apply Row with (8 := A1)|split; [apply Row with (8 := A2)|apply Row with (8 := A3)]]; assumption.
    - eapply apart_trans; [exact Aw|]. apply (forward_follows P t delta eta S T RP Ho S (Rlt_le _ _ S0)). exact Bq'.
  Qed.

  Lemma round_trip q i : point_within (S / 16) q -> in_bounds d i = true ->
    inside_cell (4 * (real64 r / 1000000)) (real64 r) (real_vec q) i ->
    cell_at (placed_by r T) (to_world (placed_by r T) q) = i.
  Proof using Fr Lr HN St.
    intros Hq Ib (X & Y & Z). destruct (world_point q Hq) as (Hw & Aw). apply (point_found _ _ Hw Ib).
    pose proof (misplaced_le i Ib) as Mp. destruct St as (_ & _ & SB & G & RP & D & (_ & _ & (E & _)) & _).
    assert (S0 : 0 < S) by (pose proof (bpow_gt_0 radix2 (-100)); lra). pose proof u_pos as U0.
    assert (E0 : 0 <= eta) by (apply Rle_trans with (2 := E); apply Rabs_pos).
    pose proof (grid_frame_close P _ t _ _ _ G RP Aw) as K. rewrite (g_there_and_back _ _ G) in K.
    set (g := to_grid P (real_vec (to_world (placed_by r T) q))) in *. clearbody g.
    set (far := 64 * u * S + (3 * delta * S + eta)) in *.
    assert (Fa : far <= real64 r / 1000000).
    { apply Rle_trans with (2 := Mp). unfold far, misplaced, inverse_error. fold u. assert (0 <= u * S) by (apply Rmult_le_pos; lra).
      assert (0 <= delta * S) by (apply Rmult_le_pos; lra). lra. }
    clearbody far. destruct K as (K1 & K2 & K3). apply Rabs_le_inv in K1. apply Rabs_le_inv in K2. apply Rabs_le_inv in K3.
    unfold inside_cell, inside_axis in *. lra.
  Qed.

  Lemma center_inside i : in_bounds d i = true -> finite_vec (center_of (placed_by r T) i) /\
    inside_cell (real64 r / 4) (real64 r) (real_vec (center_of (placed_by r T) i)) i.
  Proof using Fr Lr HN St.
    intros Ib. pose proof r_pos as Pr. destruct St as (Hr & Hd & _). pose proof u_pos as U0. pose proof small_u as SU.
    destruct (in_bounds_axes d i N Ib Hd) as ((X0 & X1) & (Y0 & Y1) & (Z0 & Z1)).
    assert (N0 : 0 <= N). { apply IZR_le in X0. lra. }
    assert (R2 : bpow radix2 (-100) <= real64 r <= bpow radix2 100).
    { split; [exact Lr|]. apply Rle_trans with (1 := Hr). apply bpow_le. lia. }
    assert (NU : (N + 1) * u <= 3 / 10000000).
    { apply Rle_trans with (2 := SU). apply Rmult_le_compat_r; lra. }
    assert (SN : 4 * (N + 1) * u <= 1 / 16) by lra.
    assert (Ax : forall k, (0 <= k)%Z -> IZR k + 1 <= N ->
      let c := mul64 r (add64 (b64_of_Z k) (div64 (b64_of_Z 1) (b64_of_Z 2))) in
      finite_double c /\ inside_axis (real64 r / 4) (real64 r) (real64 c) k).
    { intros k K0 K1 c. destruct (center_axis r N Fr R2 N0 SN k K0 K1) as (F & B). fold c in F, B. split; [exact F|].
      apply Rabs_le_inv in B. assert (4 * (N + 1) * u * real64 r <= 1 / 16 * real64 r) by (apply Rmult_le_compat_r; lra).
      unfold inside_axis. clearbody c. lra. }
    destruct (Ax _ X0 X1) as (F1 & A1). destruct (Ax _ Y0 Y1) as (F2 & A2). destruct (Ax _ Z0 Z1) as (F3 & A3).
    split; [exact (conj F1 (conj F2 F3))|exact (conj A1 (conj A2 A3))].
  Qed.

  Lemma center_found i : real64 r * N <= S / 16 -> in_bounds d i = true ->
    cell_at (placed_by r T) (to_world (placed_by r T) (center_of (placed_by r T) i)) = i.
  Proof using Fr Lr HN St.
    intros HS Ib. pose proof r_pos as Pr. destruct (center_inside i Ib) as (F & In). pose proof St as (_ & Hd & _).
    destruct (in_bounds_axes d i N Ib Hd) as ((X0 & X1) & (Y0 & Y1) & (Z0 & Z1)). apply round_trip; [|exact Ib|].
    - split; [exact F|]. destruct In as (A & B & C).
      assert (Ax : forall k x, (0 <= k)%Z -> IZR k + 1 <= N -> inside_axis (real64 r / 4) (real64 r) x k -> Rabs x <= S / 16).
      { intros k x K0 K1 (L & H). apply IZR_le in K0. assert (0 <= real64 r * IZR k) by (apply Rmult_le_pos; lra).
        assert (real64 r * (IZR k + 1) <= real64 r * N) by (apply Rmult_le_compat_l; lra). apply Rabs_le. lra. }
      split; [apply (Ax (ix i))|split; [apply (Ax (iy i))|apply (Ax (iz i))]]; assumption.
    - unfold inside_cell, inside_axis in *. lra.
  Qed.
End Found.

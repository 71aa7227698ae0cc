(** Resampling in placed grids, in doubles. *)
From Coq Require Import Reals Lra Lia Psatz.
From Flocq Require Import Core.Core IEEE754.Binary IEEE754.Bits.
From Verif Require Import Base BaseFacts Floats FloatFacts FloatFacts2 Grid GridFacts CollisionMap TaggedMap Arith SdfQuery SdfField QuerySpec
  QueryProofs QueryReal QueryThms DoubleSpec DoubleQuery DoubleEstimate DoubleGrid IdealSpec WallSpec WallProject Frame FrameSpec
  FrameThms PlaceSpec Origin OriginSpec OriginThms OriginPlace PointSpec PointThms Resample ResampleSpec ResampleProofs ResampleThms Location.
Open Scope R_scope.

Section Near.
  Variables (d : dims) (r : binary64) (N : R) (T : transform ieee) (P : pose reals) (t : rvec) (delta eta S : R).
  Hypothesis Fr : finite_double r.
  Hypothesis Lr : bpow radix2 (-100) <= real64 r.
  Hypothesis HN : N <= bpow radix2 30.
  Hypothesis St : stands d r N T P t delta eta S.

  Lemma center_near i : in_bounds d i = true -> 1 <= N /\
    apart_at_most (4 * (N + 1) * u * real64 r) (real_vec (center_of (placed_by r T) i)) (center_of P i).
  Proof using Fr Lr HN St.
    intros Ib. pose proof (r_pos r Lr) as Pr. destruct St as (Hr & Hd & _ & G & _). pose proof u_pos as U0. pose proof small_u as SU.
    destruct (in_bounds_axes d i N Ib Hd) as ((X0 & X1) & (Y0 & Y1) & (Z0 & Z1)).
    assert (N1 : 1 <= N). { apply IZR_le in X0. lra. } split; [exact N1|].
    assert (R2 : bpow radix2 (-100) <= real64 r <= bpow radix2 100).
    { split; [exact Lr|]. apply Rle_trans with (1 := Hr). apply bpow_le. lia. }
    assert (NU : (N + 1) * u <= 3 / 10000000).
    { apply Rle_trans with (2 := SU). apply Rmult_le_compat_r; lra. }
    assert (SN : 4 * (N + 1) * u <= 1 / 16) by lra. assert (N0 : 0 <= N) by lra.
    rewrite (g_center _ _ G). unfold apart_at_most. cbn [vx vy vz].
    split; [|split]; apply (center_axis r N Fr R2 N0 SN); assumption.
  Qed.

  Lemma center_within i : real64 r * N <= S / 16 -> in_bounds d i = true -> point_within (S / 16) (center_of (placed_by r T) i).
  Proof using Fr Lr HN St.
    intros HS Ib. pose proof (r_pos r Lr) as Pr. destruct (center_inside d r N T P t delta eta S Fr Lr HN St i Ib) as (F & (A & B & C)).
    pose proof St as (_ & Hd & _). destruct (in_bounds_axes d i N Ib Hd) as ((X0 & X1) & (Y0 & Y1) & (Z0 & Z1)).
    split; [exact F|].
    assert (Ax : forall k x, (0 <= k)%Z -> IZR k + 1 <= N -> inside_axis (real64 r / 4) (real64 r) x k -> Rabs x <= S / 16).
    { intros k x K0 K1 (L & H). apply IZR_le in K0. assert (0 <= real64 r * IZR k) by (apply Rmult_le_pos; lra).
      assert (real64 r * (IZR k + 1) <= real64 r * N) by (apply Rmult_le_compat_l; lra). apply Rabs_le. lra. }
    split; [apply (Ax (ix i))|split; [apply (Ax (iy i))|apply (Ax (iz i))]]; assumption.
  Qed.
End Near.

Section Two.
  Variables (d d' : dims) (r r' : binary64) (N N' : R) (T : transform ieee) (P P' : pose reals) (t : rvec) (delta eta S : R).
  Hypothesis Fr : finite_double r.
  Hypothesis Lr : bpow radix2 (-100) <= real64 r.
  Hypothesis HN : N <= bpow radix2 30.
  Hypothesis St : stands d r N T P t delta eta S.
  Hypothesis Fr' : finite_double r'.
  Hypothesis Lr' : bpow radix2 (-100) <= real64 r'.
  Hypothesis HN' : N' <= bpow radix2 30.
  Hypothesis St' : stands d' r' N' T P' t delta eta S.
  Hypothesis HS : real64 r * N <= S / 16.
  Hypothesis Size : real64 r * N <= bpow radix2 30 * real64 r'.

  Lemma target_found i j : in_bounds d i = true -> in_bounds d' j = true ->
    inside_cell (5 * (real64 r' / 1000000)) (real64 r') (center_of P i) j ->
    target (placed_by r T) (placed_by r' T) i = j.
  Proof using Fr Lr HN St Fr' Lr' HN' St' HS Size.
    intros Ib Jb In. destruct (center_near d r N T P t delta eta S Fr Lr HN St i Ib) as (N1 & (A1 & A2 & A3)).
    pose proof (center_within d r N T P t delta eta S Fr Lr HN St i HS Ib) as Wi. pose proof u_pos as U0.
    pose proof (r_pos r Lr) as Pr. pose proof (r_pos r' Lr') as Pr'.
    assert (Sm : 4 * (N + 1) * u * real64 r <= real64 r' / 1000000).
    { apply Rle_trans with (8 * u * (real64 r * N)).
      - replace (4 * (N + 1) * u * real64 r) with (4 * u * (real64 r * (N + 1))) by ring.
        replace (8 * u * (real64 r * N)) with (4 * u * (real64 r * (2 * N))) by ring.
        apply Rmult_le_compat_l; [lra|]. apply Rmult_le_compat_l; lra.
      - apply Rle_trans with (8 * u * (bpow radix2 30 * real64 r')); [apply Rmult_le_compat_l; [lra|exact Size]|].
        unfold u. change (bpow radix2 30) with 1073741824. change (bpow radix2 (-53)) with (/ 9007199254740992). lra. }
    change (target (placed_by r T) (placed_by r' T) i) with
      (cell_at (placed_by r' T) (to_world (placed_by r' T) (center_of (placed_by r T) i))).
    apply (round_trip d' r' N' T P' t delta eta S Fr' Lr' HN' St'); [exact Wi|exact Jb|].
    set (q := real_vec (center_of (placed_by r T) i)) in *. clearbody q. set (c := center_of P i) in *. clearbody c.
    apply Rabs_le_inv in A1. apply Rabs_le_inv in A2. apply Rabs_le_inv in A3.
    unfold inside_cell, inside_axis in *. lra.
  Qed.

  Lemma target_halved i : real64 r' = 2 * real64 r -> in_bounds d i = true ->
    in_bounds d' (I (ix i / 2) (iy i / 2) (iz i / 2)) = true ->
    target (placed_by r T) (placed_by r' T) i = I (ix i / 2) (iy i / 2) (iz i / 2).
  Proof using Fr Lr HN St Fr' Lr' HN' St' HS Size.
    intros E Ib Jb. apply target_found; [exact Ib|exact Jb|]. pose proof (r_pos r Lr) as Pr. destruct St as (_ & _ & _ & G & _).
    rewrite (g_center _ _ G), E.
    assert (Ax : forall k : Z, inside_axis (5 * (2 * real64 r / 1000000)) (2 * real64 r) (real64 r * (IZR k + 1 / 2)) (k / 2)).
    { intros k. pose proof (Z.div_mod k 2 ltac:(lia)) as DM. pose proof (Z.mod_pos_bound k 2 ltac:(lia)) as MB.
      set (h := (k / 2)%Z) in *. set (b := (k mod 2)%Z) in *. clearbody h b.
      assert (Ek : IZR k = 2 * IZR h + IZR b) by (rewrite DM, plus_IZR, mult_IZR; reflexivity).
      assert (Hb : b = 0%Z \/ b = 1%Z) by lia. unfold inside_axis. rewrite Ek. destruct Hb as [->| ->]; nra. }
    split; [apply Ax|split; apply Ax].
  Qed.
End Two.

Section Same.
  Variables (r : binary64) (N : R) (T : transform ieee) (P : pose reals) (t : rvec) (delta eta S : R).
  Hypothesis Fr : finite_double r.
  Hypothesis Lr : bpow radix2 (-100) <= real64 r.
  Hypothesis HN : N <= bpow radix2 30.
  Hypothesis HS : real64 r * N <= S / 16.

  Lemma same_grid m : stands (cm_dims m) r N T P t delta eta S -> wf_grid (cm_grid m) ->
    cm_grid (cm_resample (placed_by r T) (placed_by r T) (cm_dims m) m) = cm_grid m.
  Proof using Fr Lr HN HS.
    intros St W. set (p := placed_by r T).
    assert (Tg : forall i, in_bounds (cm_dims m) i = true -> target p p i = i)
      by (intros i Ib; exact (center_found (cm_dims m) r N T P t delta eta S Fr Lr HN St i HS Ib)).
    destruct (cm_resample_shape p p (cm_dims m) m) as (D & O & _). apply grid_ext; auto.
    - rewrite cm_resample_grid. apply writes_wf, mk_grid_wf; apply W.
    - intros i B. unfold cm_dims in D at 1. rewrite D in B.
      destruct (cm_resample_cell p p (cm_dims m) m i B) as [(k & (Kb & Kt & _) & E)|(No & _)].
      + rewrite (Tg k Kb) in Kt. subst k. unfold cm_get in E. exact E.
      + exfalso. exact (No i B (Tg i B)).
  Qed.

  Lemma tm_same_grid m : stands (tm_dims m) r N T P t delta eta S -> wf_grid (tm_grid m) ->
    tm_grid (tm_resample (placed_by r T) (placed_by r T) (tm_dims m) m) = tm_grid m.
  Proof using Fr Lr HN HS.
    intros St W. set (p := placed_by r T).
    assert (Tg : forall i, in_bounds (tm_dims m) i = true -> target p p i = i)
      by (intros i Ib; exact (center_found (tm_dims m) r N T P t delta eta S Fr Lr HN St i HS Ib)).
    destruct (tm_resample_shape p p (tm_dims m) m) as (D & O & _). apply grid_ext; auto.
    - rewrite tm_resample_grid. apply writes_wf, mk_grid_wf; apply W.
    - intros i B. unfold tm_dims in D at 1. rewrite D in B.
      destruct (tm_resample_cell p p (tm_dims m) m i B) as [(k & (Kb & Kt & _) & E)|(No & _)].
      + rewrite (Tg k Kb) in Kt. subst k. unfold tm_get in E. exact E.
      + exfalso. exact (No i B (Tg i B)).
  Qed.
End Same.

(** Cells twice as large hold the value of the last of their eight parts. *)
Lemma merged_cell m d' r r' N N' T P P' t delta eta S :
  finite_double r -> bpow radix2 (-100) <= real64 r -> N <= bpow radix2 30 -> stands (cm_dims m) r N T P t delta eta S ->
  finite_double r' -> bpow radix2 (-100) <= real64 r' -> N' <= bpow radix2 30 -> stands d' r' N' T P' t delta eta S ->
  real64 r * N <= S / 16 -> real64 r' = 2 * real64 r ->
  (nx (cm_dims m) <= 2 * nx d' /\ ny (cm_dims m) <= 2 * ny d' /\ nz (cm_dims m) <= 2 * nz d')%Z ->
  forall a b c, (0 <= a /\ 0 <= b /\ 0 <= c)%Z -> in_bounds (cm_dims m) (I (2 * a + 1) (2 * b + 1) (2 * c + 1)) = true ->
  fst (cm_get (cm_resample (placed_by r T) (placed_by r' T) d' m) (I a b c)) = fst (cm_get m (I (2 * a + 1) (2 * b + 1) (2 * c + 1))).
Proof.
  intros Fr Lr HN St Fr' Lr' HN' St' HS E (Cx & Cy & Cz) a b c (A0 & B0 & C0) Ib. pose proof (r_pos r Lr) as Pr.
  assert (Size : real64 r * N <= bpow radix2 30 * real64 r').
  { rewrite E. pose proof (bpow_gt_0 radix2 30). apply Rle_trans with (real64 r * bpow radix2 30); [apply Rmult_le_compat_l; lra|nra]. }
  assert (Jb : forall k, in_bounds (cm_dims m) k = true -> in_bounds d' (I (ix k / 2) (iy k / 2) (iz k / 2)) = true).
  { intros k Kb. apply in_bounds_spec in Kb. apply in_bounds_spec. cbn [ix iy iz].
    repeat split; try (apply Z.div_pos; lia); apply Z.div_lt_upper_bound; lia. }
  assert (Tg : forall k, in_bounds (cm_dims m) k = true -> target (placed_by r T) (placed_by r' T) k = I (ix k / 2) (iy k / 2) (iz k / 2)).
  { intros k Kb. apply (target_halved (cm_dims m) d' r r' N N' T P P' t delta eta S); auto. }
  set (l := I (2 * a + 1) (2 * b + 1) (2 * c + 1)) in *.
  assert (Hf : forall x : Z, ((2 * x + 1) / 2 = x)%Z) by (intros x; rewrite Z.mul_comm, Z.div_add_l by lia; cbn; lia).
  assert (Tl : target (placed_by r T) (placed_by r' T) l = I a b c) by (rewrite (Tg l Ib); unfold l; cbn [ix iy iz]; rewrite !Hf; reflexivity).
  assert (Lb : in_bounds d' (I a b c) = true) by (pose proof (Jb l Ib) as K; rewrite <- (Tg l Ib), Tl in K; exact K).
  destruct (cm_resample_cell (placed_by r T) (placed_by r' T) d' m (I a b c) Lb) as [(k & (Kb & Kt & Kl) & Ev)|(No & _)].
  - rewrite Ev. f_equal. f_equal. rewrite (Tg k Kb) in Kt. destruct (Kl l Ib Tl) as [<-|Lt]; [reflexivity|]. exfalso.
    injection Kt as Ex Ey Ez. unfold visited_before, l in Lt. cbn [ix iy iz] in Lt.
    pose proof (Z.div_mod (ix k) 2 ltac:(lia)). pose proof (Z.mod_pos_bound (ix k) 2 ltac:(lia)).
    pose proof (Z.div_mod (iy k) 2 ltac:(lia)). pose proof (Z.mod_pos_bound (iy k) 2 ltac:(lia)).
    pose proof (Z.div_mod (iz k) 2 ltac:(lia)). pose proof (Z.mod_pos_bound (iz k) 2 ltac:(lia)). lia.
  - exfalso. exact (No l Ib Tl).
Qed.

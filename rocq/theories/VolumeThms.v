(** The volume of a placed grid, in doubles. *)
From Coq Require Import Reals Lra Lia Psatz.
From Flocq Require Import Core.Core Relative IEEE754.Binary IEEE754.Bits.
From Verif Require Import Base BaseFacts Floats FloatFacts FloatFacts2 Grid GridFacts CollisionMap SdfGen Arith SdfQuery SdfField QuerySpec
  QueryProofs QueryReal QueryThms DoubleSpec DoubleQuery DoubleCase DoubleEstimate DoubleGrid IdealSpec WallSpec WallProject Frame FrameSpec
  FrameThms PlaceSpec Origin OriginSpec OriginThms OriginPlace PointSpec PointThms VolumeSpec Location.
Open Scope R_scope.

Lemma nearest_close x : exists e t, Rabs e <= u /\ Rabs t <= bpow radix2 (-1075) /\ nearest_double x = x * (1 + e) + t.
Proof.
  destruct (relative_error_N_FLT'_ex radix2 (-1074) 53 eq_refl (fun t => negb (Z.even t)) x) as (e & t & He & Ht & _ & E).
  exists e, t. split; [eapply Rle_trans; [exact He|apply u_small]|]. split; [|exact E].
  eapply Rle_trans; [exact Ht|]. change (-1074)%Z with (1 + -1075)%Z. rewrite bpow_plus. change (bpow radix2 1) with 2. lra.
Qed.

Lemma near_u R x e : 0 < R -> Rabs e <= u -> Rabs x <= 4 * bpow radix2 30 * R -> Rabs (x * e) <= R / 1000000.
Proof.
  intros R0 He Hx. rewrite Rabs_mult. apply Rle_trans with (4 * bpow radix2 30 * R * u).
  - apply Rmult_le_compat; auto using Rabs_pos.
  - unfold u. change (bpow radix2 30) with 1073741824. change (bpow radix2 (-53)) with (/ 9007199254740992). lra.
Qed.

Lemma tiny_near R t : bpow radix2 (-100) <= R -> Rabs t <= bpow radix2 (-1075) -> Rabs t <= R / 1000000000.
Proof.
  intros HR Ht. apply Rle_trans with (1 := Ht). pose proof (tiny_ok R) as K. assert (bpow radix2 (-900) <= R).
  { apply Rle_trans with (2 := HR). apply bpow_le. lia. }
  apply Rle_trans with (1 := K H). unfold u. change (bpow radix2 (-53)) with (/ 9007199254740992). pose proof (bpow_gt_0 radix2 (-100)). lra.
Qed.

Lemma axis_in_range (r v : binary64) (n : Z) :
  finite_double r -> 0 < real64 r -> finite_double v -> (0 <= n)%Z -> IZR n <= bpow radix2 30 ->
  real64 r / 100000 <= real64 v <= real64 r * IZR n - real64 r / 100000 ->
  (0 <= floor64 (div64 v r) < n)%Z.
Proof.
  intros Fr Pr Fv Hn HN (Lo & Hi). set (R := real64 r) in *. pose proof u_pos as U0. pose proof small_u as SU.
  set (w := real64 v / R).
  assert (Ew : w * R = real64 v) by (unfold w; field; lra).
  assert (W : 1 / 100000 <= w <= IZR n - 1 / 100000).
  { split; (apply Rmult_le_reg_r with R; [exact Pr|]); rewrite Ew; lra. }
  assert (B30 : bpow radix2 30 <= bpow radix2 1000) by (apply bpow_le; lia).
  destruct (div64_small v r Fv Fr) as (F & e & t & He & Ht & E); [fold R; lra| |].
  { fold R w. rewrite Rabs_pos_eq; lra. }
  fold R w in E.
  assert (T1 : bpow radix2 (-1075) <= u) by (apply bpow_le; lia).
  assert (We : Rabs (w * e) <= bpow radix2 30 * u).
  { rewrite Rabs_mult. apply Rmult_le_compat; try apply Rabs_pos; [|exact He]. rewrite Rabs_pos_eq; lra. }
  apply Rabs_le_inv in We. apply Rabs_le_inv in Ht. pose proof (floor_spec _ F) as (F1 & F2).
  assert (Up : real64 (div64 v r) < IZR n) by (rewrite E; lra).
  assert (Dn : 0 < real64 (div64 v r)) by (rewrite E; lra).
  set (z := floor64 (div64 v r)) in *. clearbody z.
  assert (H : IZR z < IZR n) by lra. assert (H0 : IZR 0 < IZR (z + 1)) by (rewrite plus_IZR; lra).
  apply lt_IZR in H. apply lt_IZR in H0. lia.
Qed.

Lemma cut_near lo hi x lo' hi' x' e : Rabs (lo - lo') <= e -> Rabs (hi - hi') <= e -> Rabs (x - x') <= e ->
  Rabs (cut lo hi x - cut lo' hi' x') <= e.
Proof.
  intros A B C. apply Rabs_le_inv in A. apply Rabs_le_inv in B. apply Rabs_le_inv in C. unfold cut, Rmin, Rmax.
  apply Rabs_le. repeat destruct (Rle_dec _ _); lra.
Qed.

Lemma nearest_is_cut lo hi x c : lo <= hi -> lo <= c <= hi -> Rabs (c - x) <= Rabs (cut lo hi x - x) -> c = cut lo hi x.
Proof.
  intros L H. unfold cut, Rmin, Rmax, Rabs. repeat destruct (Rle_dec _ _); repeat destruct (Rcase_abs _); lra.
Qed.

Lemma cut_in lo hi x : lo <= hi -> lo <= cut lo hi x <= hi.
Proof. intros L. unfold cut, Rmin, Rmax. repeat destruct (Rle_dec _ _); lra. Qed.

(** The least of two lists that are close. *)
Lemma least_exists (l : list R) : l <> [] -> exists m, In m l /\ forall w, In w l -> m <= w.
Proof.
  induction l as [|a l IH]; intros H; [contradiction|]. destruct l as [|b l].
  - exists a. split; [left; reflexivity|]. intros w [->|[]]. apply Rle_refl.
  - destruct IH as (m & Im & Hm); [discriminate|]. destruct (Rle_or_lt a m) as [L|L].
    + exists a. split; [left; reflexivity|]. intros w [->|Hw]; [apply Rle_refl|]. apply Rle_trans with (1 := L). auto.
    + exists m. split; [right; exact Im|]. intros w [->|Hw]; [lra|auto].
Qed.

Lemma partner_left (e : R) l l' : Forall2 (fun a b => Rabs (a - b) <= e) l l' -> forall a, In a l -> exists b, In b l' /\ Rabs (a - b) <= e.
Proof.
  induction 1 as [|x y l l' Hxy H IH]; intros a Ha; [destruct Ha|]. destruct Ha as [->|Ha].
  - exists y. split; [left; reflexivity|exact Hxy].
  - destruct (IH a Ha) as (b & Hb & K). exists b. split; [right; exact Hb|exact K].
Qed.

Lemma partner_right (e : R) l l' : Forall2 (fun a b => Rabs (a - b) <= e) l l' -> forall b, In b l' -> exists a, In a l /\ Rabs (a - b) <= e.
Proof.
  induction 1 as [|x y l l' Hxy H IH]; intros b Hb; [destruct Hb|]. destruct Hb as [->|Hb].
  - exists x. split; [left; reflexivity|exact Hxy].
  - destruct (IH b Hb) as (a & Ha & K). exists a. split; [right; exact Ha|exact K].
Qed.

Lemma close_least (e : R) l l' m : Forall2 (fun a b => Rabs (a - b) <= e) l l' -> In m l -> (forall w, In w l -> m <= w) ->
  exists m', In m' l' /\ (forall w, In w l' -> m' <= w) /\ Rabs (m - m') <= e.
Proof.
  intros F Im Hm. assert (Ne : l' <> []).
  { destruct (partner_left e l l' F m Im) as (b & Hb & _). intros ->. destruct Hb. }
  destruct (least_exists l' Ne) as (m' & Im' & Hm'). exists m'. split; [exact Im'|]. split; [exact Hm'|].
  destruct (partner_left e l l' F m Im) as (b & Hb & Kb). destruct (partner_right e l l' F m' Im') as (a & Ha & Ka).
  pose proof (Hm a Ha). pose proof (Hm' b Hb). apply Rabs_le_inv in Kb. apply Rabs_le_inv in Ka. apply Rabs_le. lra.
Qed.

Section Volume.
  Variables (s : sdf) (N : R) (T : transform ieee) (P : pose reals) (t : rvec) (delta eta S : R).
  Let d := sdf_dims s.
  Let r := s_res s.
  Let p := placed_by r T.
  Hypothesis Fr : finite_double r.
  Hypothesis Lr : bpow radix2 (-100) <= real64 r.
  Hypothesis HN : N <= bpow radix2 30.
  Hypothesis Pd : (0 < nx d /\ 0 < ny d /\ 0 < nz d)%Z.
  Hypothesis St : stands d r N T P t delta eta S.
  Hypothesis HS : real64 r * N <= S / 20.

  Let size := real_vec (f_size (sdf_field s)).
  Let R := real64 r.
  Let corner := far_corner d R.

  Lemma R_pos : 0 < R.
  Proof using Lr. exact (r_pos r Lr). Qed.

  Lemma axes_ok : (0 < IZR (nx d) <= N) /\ (0 < IZR (ny d) <= N) /\ (0 < IZR (nz d) <= N).
  Proof using Pd St.
    destruct St as (_ & (A & B & C) & _). destruct Pd as (X & Y & Z). apply IZR_lt in X. apply IZR_lt in Y. apply IZR_lt in Z. lra.
  Qed.

  Lemma size_axis n : (0 < n)%Z -> IZR n <= N -> finite_double (mul64 r (b64_of_Z n)) /\
    Rabs (real64 (mul64 r (b64_of_Z n)) - R * IZR n) <= R / 900000.
  Proof using Fr Lr HN St.
    intros N0 Hn. pose proof R_pos as R0. destruct St as (Hr & _). fold R in Hr.
    destruct (of_Z_exact n) as (Fn & En).
    { rewrite Z.abs_eq by lia. apply le_IZR. change (IZR (2 ^ 53)) with (bpow radix2 53).
      apply Rle_trans with (bpow radix2 30); [lra|apply bpow_le; lia]. }
    change (B2R64 (b64_of_Z n)) with (real64 (b64_of_Z n)) in En. apply IZR_lt in N0.
    assert (Bd : R * IZR n <= bpow radix2 30 * R) by (rewrite (Rmult_comm _ R); apply Rmult_le_compat_l; lra).
    assert (P0 : 0 <= R * IZR n) by (apply Rmult_le_pos; lra).
    destruct (mul64_small r (b64_of_Z n) Fr Fn) as (F & e & x & He & Hx & E).
    { rewrite En. fold R. rewrite Rabs_pos_eq by exact P0. apply Rle_trans with (1 := Bd).
      apply Rle_trans with (bpow radix2 30 * bpow radix2 80); [apply Rmult_le_compat_l; [apply bpow_ge_0|exact Hr]|].
      rewrite <- bpow_plus. apply bpow_le. lia. }
    split; [exact F|]. rewrite E, En. fold R. pose proof (tiny_near R x Lr Hx) as Hx'.
    assert (K : Rabs (R * IZR n * e) <= R / 1000000). { apply near_u; [exact R0|exact He|]. rewrite Rabs_pos_eq by exact P0. pose proof (bpow_gt_0 radix2 30). nra. }
    apply Rabs_le_inv in K. apply Rabs_le_inv in Hx'. apply Rabs_le. lra.
  Qed.

  Lemma size_near : finite_vec (f_size (sdf_field s)) /\ apart_at_most (R / 900000) size corner.
  Proof using Fr Lr HN Pd St.
    destruct axes_ok as ((X0 & X1) & (Y0 & Y1) & (Z0 & Z1)). destruct Pd as (X & Y & Z).
    destruct (size_axis _ X X1) as (F1 & A1). destruct (size_axis _ Y Y1) as (F2 & A2). destruct (size_axis _ Z Z1) as (F3 & A3).
    split; [exact (conj F1 (conj F2 F3))|exact (conj A1 (conj A2 A3))].
  Qed.

  Lemma origin_cell : in_bounds d (I 0 0 0) = true.
  Proof using Pd. apply in_bounds_spec. cbn [ix iy iz]. lia. Qed.

  Lemma seen_point loc : point_within S loc ->
    finite_vec (to_grid p loc) /\ apart_at_most (R / 1000000) (real_vec (to_grid p loc)) (to_grid P (real_vec loc)).
  Proof using Lr Pd St.
    intros Hl. pose proof (misplaced_le d r N T P t delta eta S Lr St _ origin_cell) as Mp.
    destruct St as (_ & _ & SB & G & RP & D & Ho & _).
    destruct (inverse_follows (real64 r) P t delta eta S T SB G RP D Ho) as (Us & Fo).
    destruct (placed_point r (inverse_of T) T (qw (quat_of T)) (qv (quat_of T)) P S _ SB Us Fo loc Hl) as (F & _ & A).
    split; [exact F|]. exact (apart_more _ _ _ _ Mp A).
  Qed.

  Lemma back_again c : point_within (S / 16) c ->
    point_within S (to_world p c) /\ apart_at_most (2 * (R / 1000000)) (to_grid P (real_vec (to_world p c))) (real_vec c).
  Proof using Lr Pd St.
    intros Hc. destruct (world_point d r N T P t delta eta S St c Hc) as (Hw & Aw). fold p in Hw, Aw. split; [exact Hw|].
    pose proof (misplaced_le d r N T P t delta eta S Lr St _ origin_cell) as Mp. fold R in Mp.
    destruct St as (_ & _ & SB & G & RP & D & (_ & _ & (E & _)) & _).
    assert (S0 : 0 < S) by (pose proof (bpow_gt_0 radix2 (-100)); lra). pose proof u_pos as U0.
    assert (E0 : 0 <= eta) by (apply Rle_trans with (2 := E); apply Rabs_pos).
    pose proof (grid_frame_close P _ t _ _ _ G RP Aw) as K. rewrite (g_there_and_back _ _ G) in K.
    refine (apart_more _ _ _ _ _ K). apply Rmult_le_compat_l; [lra|]. apply Rle_trans with (2 := Mp).
    unfold misplaced, inverse_error. fold u. assert (0 <= u * S) by (apply Rmult_le_pos; lra).
    assert (0 <= delta * S) by (apply Rmult_le_pos; lra). lra.
  Qed.

  (** The distance to the boundary. *)
  Lemma boundary_placed loc v inside : point_within S loc -> distance_to_boundary (sdf_field s) p loc = (v, inside) ->
    let q := to_grid P (real_vec loc) in
    (in_box (3 * (R / 1000000)) corner q -> inside = true) /\
    (inside = true -> in_box (- (3 * (R / 1000000))) corner q) /\
    (inside = true -> finite_double v /\ exists D, In D (face_distances corner q) /\ (forall w, In w (face_distances corner q) -> D <= w) /\
       Rabs (real64 v - D) <= 4 * (R / 1000000)).
  Proof using Fr Lr HN Pd St.
    intros Hl E q. pose proof R_pos as R0. destruct (seen_point loc Hl) as (Fq & (A1 & A2 & A3)). destruct size_near as (Fs & (C1 & C2 & C3)).
    pose proof (boundary_double (sdf_field s) p loc Fq Fs) as K. rewrite E in K. cbv zeta in K. fold size in K. destruct K as (Ki & Kv).
    fold q in A1, A2, A3. set (g := real_vec (to_grid p loc)) in *.
    apply Rabs_le_inv in A1 as A1'. apply Rabs_le_inv in A2 as A2'. apply Rabs_le_inv in A3 as A3'.
    apply Rabs_le_inv in C1 as C1'. apply Rabs_le_inv in C2 as C2'. apply Rabs_le_inv in C3 as C3'.
    split; [|split].
    - intros B. apply Ki. unfold in_box in *. lra.
    - intros B. apply Ki in B. unfold in_box in *. lra.
    - intros B. destruct (Kv B) as (Fv & D0 & I0 & L0 & Ev). split; [exact Fv|]. apply Ki in B.
      assert (F2 : Forall2 (fun a b => Rabs (a - b) <= 5 / 2 * (R / 1000000)) (face_distances size g) (face_distances corner q)).
      { unfold face_distances. repeat apply Forall2_cons; try apply Forall2_nil; apply Rabs_le; lra. }
      destruct (close_least _ _ _ _ F2 I0 L0) as (D1 & I1 & L1 & Near). exists D1. split; [exact I1|]. split; [exact L1|].
      assert (Bd : Rabs D0 <= 2 * bpow radix2 30 * R).
      { pose proof (L0 (vx g) (or_introl eq_refl)) as Up. pose proof axes_ok as ((X0 & X1) & _). unfold in_box in B.
        assert (0 <= D0).
        { destruct I0 as [<-|[<-|[<-|[<-|[<-|[<-|[]]]]]]]; lra. }
        rewrite Rabs_pos_eq by assumption. apply Rle_trans with (vx size); [lra|].
        assert (Hc : vx corner = R * IZR (nx d)) by reflexivity. rewrite Hc in C1'.
        assert (R * IZR (nx d) <= R * bpow radix2 30) by (apply Rmult_le_compat_l; lra).
        assert (1 <= bpow radix2 30) by (change 1 with (bpow radix2 0); apply bpow_le; lia). nra. }
      rewrite Ev. destruct (nearest_close D0) as (e & x & He & Hx & ->).
      assert (K1 : Rabs (D0 * e) <= R / 1000000).
      { apply near_u; [exact R0|exact He|]. pose proof (bpow_gt_0 radix2 30). apply Rle_trans with (1 := Bd).
        assert (0 <= bpow radix2 30 * R) by (apply Rmult_le_pos; lra). lra. }
      pose proof (tiny_near R x Lr Hx) as Hx'. apply Rabs_le_inv in K1. apply Rabs_le_inv in Hx'. apply Rabs_le_inv in Near. apply Rabs_le. lra.
  Qed.

  (** The margin of the projection into the volume. *)
  Lemma margin_near md : finite_double md -> 0 <= real64 md -> real64 md <= bpow radix2 30 * R ->
    let m := add64 md (mul64 r (div64 (b64_of_Z 1) (b64_of_Z 10000))) in
    finite_double m /\ Rabs (real64 m - (real64 md + R / 10000)) <= 2 * (R / 1000000).
  Proof using Fr Lr St.
    intros Fm M0 M1. cbv zeta. pose proof R_pos as R0. destruct St as (Hr & _). fold R in Hr. pose proof u_pos as U0.
    assert (B80 : bpow radix2 80 <= bpow radix2 1000) by (apply bpow_le; lia).
    assert (B110 : bpow radix2 30 * R <= bpow radix2 110).
    { apply Rle_trans with (bpow radix2 30 * bpow radix2 80); [apply Rmult_le_compat_l; [apply bpow_ge_0|exact Hr]|].
      rewrite <- bpow_plus. apply bpow_le. lia. }
    assert (B1000 : bpow radix2 110 + bpow radix2 110 <= bpow radix2 1000).
    { apply Rle_trans with (bpow radix2 111); [|apply bpow_le; lia]. change 111%Z with (1 + 110)%Z. rewrite bpow_plus. change (bpow radix2 1) with 2. lra. }
    assert (Bp : 1 <= bpow radix2 30) by (change 1 with (bpow radix2 0); apply bpow_le; lia).
    destruct (of_Z_exact 1) as (F1 & E1); [lia|]. destruct (of_Z_exact 10000) as (F2 & E2); [lia|].
    change (B2R64 (b64_of_Z 1)) with (real64 (b64_of_Z 1)) in E1. change (B2R64 (b64_of_Z 10000)) with (real64 (b64_of_Z 10000)) in E2.
    destruct (div64_small (b64_of_Z 1) (b64_of_Z 10000) F1 F2) as (F3 & e & x & He & Hx & E3); [rewrite E2; lra| |].
    { rewrite E1, E2. rewrite Rabs_pos_eq by lra. apply Rle_trans with (bpow radix2 0); [change (bpow radix2 0) with 1; lra|apply bpow_le; lia]. }
    rewrite E1, E2 in E3. set (l := div64 _ _) in *. clearbody l.
    assert (Ux : u <= 1 / 1000000000) by (unfold u; change (bpow radix2 (-53)) with (/ 9007199254740992); lra).
    assert (Tx : bpow radix2 (-1075) <= 1 / 1000000000).
    { apply Rle_trans with (bpow radix2 (-30)); [apply bpow_le; lia|]. change (bpow radix2 (-30)) with (/ 1073741824). lra. }
    apply Rabs_le_inv in He. apply Rabs_le_inv in Hx.
    assert (El : Rabs (real64 l - 1 / 10000) <= 2 / 1000000000). { rewrite E3. apply Rabs_le. nra. }
    apply Rabs_le_inv in El.
    assert (Bl : 0 <= R * real64 l <= R) by (split; [apply Rmult_le_pos; lra|rewrite <- (Rmult_1_r R) at 2; apply Rmult_le_compat_l; lra]).
    destruct (mul64_small r l Fr F3) as (F4 & e1 & x1 & He1 & Hx1 & E4).
    { fold R. rewrite Rabs_pos_eq by apply Bl. lra. }
    fold R in E4. set (k := mul64 r l) in *. clearbody k.
    assert (K1 : Rabs (R * real64 l * e1) <= R / 1000000000).
    { rewrite Rabs_mult, (Rabs_pos_eq (R * real64 l)) by apply Bl.
      apply Rle_trans with (R * (1 / 1000000000)); [|lra]. apply Rmult_le_compat; [apply Bl|apply Rabs_pos|apply Bl|lra]. }
    pose proof (tiny_near R x1 Lr Hx1) as K2. apply Rabs_le_inv in K1. apply Rabs_le_inv in K2.
    assert (Rl : R * (1 / 10000 - 2 / 1000000000) <= R * real64 l <= R * (1 / 10000 + 2 / 1000000000)) by (split; apply Rmult_le_compat_l; lra).
    assert (Ek : Rabs (real64 k - R / 10000) <= R / 200000000). { rewrite E4. apply Rabs_le. lra. }
    apply Rabs_le_inv in Ek.
    destruct (add64_small md k Fm F4) as (F5 & e2 & He2 & E5).
    { rewrite Rabs_pos_eq by lra. assert (R <= bpow radix2 30 * R) by nra. lra. }
    split; [exact F5|]. rewrite E5.
    assert (K3 : Rabs ((real64 md + real64 k) * e2) <= R / 1000000).
    { apply near_u; [exact R0|exact He2|]. rewrite Rabs_pos_eq by lra. assert (R <= bpow radix2 30 * R) by nra. lra. }
    apply Rabs_le_inv in K3. apply Rabs_le. lra.
  Qed.

  Lemma projected loc md : point_within S loc -> finite_double md -> 0 <= real64 md -> room (real64 md + R / 5000) corner ->
    let w := project_into_valid_volume (sdf_field s) p loc md in
    point_within S w /\
    apart_at_most (R / 100000) (to_grid P (real_vec w)) (cut_into (real64 md + R / 10000) corner (to_grid P (real_vec loc))) /\
    in_bounds d (cell_at p w) = true.
  Proof using Fr Lr HN Pd St HS.
    intros Hl Fm M0 (Rm1 & Rm2 & Rm3) w. pose proof R_pos as R0. destruct (seen_point loc Hl) as (Fq & Aq). destruct size_near as (Fs & As).
    pose proof axes_ok as ((X0 & X1) & (Y0 & Y1) & (Z0 & Z1)).
    assert (CX : vx corner = R * IZR (nx d)) by reflexivity. assert (CY : vy corner = R * IZR (ny d)) by reflexivity.
    assert (CZ : vz corner = R * IZR (nz d)) by reflexivity.
    assert (Bax : forall n, 0 < n <= N -> 0 < R * n <= bpow radix2 30 * R /\ R * n <= S / 20).
    { intros n (Q0 & Q1). split; [split; [apply Rmult_lt_0_compat; lra|rewrite (Rmult_comm _ R); apply Rmult_le_compat_l; lra]|].
      apply Rle_trans with (2 := HS). fold R. apply Rmult_le_compat_l; lra. }
    destruct (Bax _ (conj X0 X1)) as ((QX0 & QX1) & QX2). destruct (Bax _ (conj Y0 Y1)) as ((QY0 & QY1) & QY2).
    destruct (Bax _ (conj Z0 Z1)) as ((QZ0 & QZ1) & QZ2). clear Bax.
    assert (M1 : real64 md <= bpow radix2 30 * R) by lra.
    destruct (margin_near md Fm M0 M1) as (Fmm & Am). set (m := add64 md _) in *.
    assert (Em : m = add64 md (mul64 (f_res (sdf_field s)) (div64 (b64_of_Z 1) (b64_of_Z 10000)))) by reflexivity. clearbody m.
    destruct As as (S1 & S2 & S3). apply Rabs_le_inv in S1. apply Rabs_le_inv in S2. apply Rabs_le_inv in S3. apply Rabs_le_inv in Am as Am'.
    assert (Cp : cuts_off p) by exact (ieee_pose_cuts r).
    destruct (projection_double (sdf_field s) p loc md m Cp Em Fmm) as (c & Fc & Bc & Wc & _ & Nc & _); try assumption;
      try (change (real_vec (f_size (sdf_field s))) with size; fold size); try lra;
      try (change (real64 (vx (f_size (sdf_field s)))) with (vx size); lra);
      try (change (real64 (vy (f_size (sdf_field s)))) with (vy size); lra);
      try (change (real64 (vz (f_size (sdf_field s)))) with (vz size); lra).
    fold w in Wc. fold size in Bc, Nc.
    (* the upper limits as rounded *)
    assert (Nd : forall n sz, 0 < R * n <= bpow radix2 30 * R -> - (R / 900000) <= sz - R * n <= R / 900000 ->
      2 * (real64 md + R / 5000) <= R * n -> Rabs (nearest_double (sz - real64 m) - (R * n - (real64 md + R / 10000))) <= 5 * (R / 1000000)).
    { intros n sz Q Hz Rm. destruct (nearest_close (sz - real64 m)) as (e & x & He & Hx & ->).
      assert (K1 : Rabs ((sz - real64 m) * e) <= R / 1000000).
      { apply near_u; [exact R0|exact He|]. assert (1 <= bpow radix2 30) by (change 1 with (bpow radix2 0); apply bpow_le; lia).
        assert (R <= bpow radix2 30 * R) by nra. apply Rabs_le. lra. }
      pose proof (tiny_near R x Lr Hx) as K2. apply Rabs_le_inv in K1. apply Rabs_le_inv in K2. apply Rabs_le. lra. }
    pose proof (Nd (IZR (nx d)) (vx size) (conj QX0 QX1) ltac:(lra) ltac:(lra)) as HX.
    pose proof (Nd (IZR (ny d)) (vy size) (conj QY0 QY1) ltac:(lra) ltac:(lra)) as HY.
    pose proof (Nd (IZR (nz d)) (vz size) (conj QZ0 QZ1) ltac:(lra) ltac:(lra)) as HZ. clear Nd.
    unfold in_double_box in Bc, Nc. set (ux := nearest_double (vx size - real64 m)) in *. set (uy := nearest_double (vy size - real64 m)) in *.
    set (uz := nearest_double (vz size - real64 m)) in *. clearbody ux uy uz.
    apply Rabs_le_inv in HX as HX'. apply Rabs_le_inv in HY as HY'. apply Rabs_le_inv in HZ as HZ'.
    set (q := to_grid p loc) in *.
    assert (Lx : real64 m <= ux) by lra. assert (Ly : real64 m <= uy) by lra. assert (Lz : real64 m <= uz) by lra.
    (* the point is the one cut off *)
    assert (Ec : real_vec c = @V reals (cut (real64 m) ux (real64 (vx q))) (cut (real64 m) uy (real64 (vy q))) (cut (real64 m) uz (real64 (vz q)))).
    { destruct (Nc (@V reals (cut (real64 m) ux (real64 (vx q))) (cut (real64 m) uy (real64 (vy q))) (cut (real64 m) uz (real64 (vz q))))) as (N1 & N2 & N3).
      { cbn [vx vy vz]. split; [|split]; apply cut_in; assumption. }
      cbn [vx vy vz] in N1, N2, N3. destruct Bc as (B1 & B2 & B3). unfold real_vec in *. cbn [vx vy vz] in *.
      f_equal; apply nearest_is_cut; assumption. }
    assert (Ac : apart_at_most (5 * (R / 1000000)) (real_vec c) (cut_into (real64 md + R / 10000) corner (to_grid P (real_vec loc)))).
    { rewrite Ec. unfold apart_at_most, cut_into. cbn [vx vy vz]. destruct Aq as (A1 & A2 & A3).
      change (vx (real_vec q)) with (real64 (vx q)) in A1. change (vy (real_vec q)) with (real64 (vy q)) in A2. change (vz (real_vec q)) with (real64 (vz q)) in A3.
      rewrite CX, CY, CZ.
      split; [|split]; apply cut_near; lra. }
    assert (Cb : point_within (S / 16) c).
    { split; [exact Fc|]. destruct Bc as (B1 & B2 & B3). split; [|split]; apply Rabs_le; lra. }
    destruct (back_again c Cb) as (Wb & Wa).
    (* the point found when asked for again *)
    assert (In : forall g : vec ieee, finite_vec g -> apart_at_most (3 * (R / 1000000)) (real_vec g) (real_vec c) -> in_bounds d (index_of p g) = true).
    { intros g (G1 & G2 & G3) (D1 & D2 & D3). destruct Bc as (B1 & B2 & B3).
      apply Rabs_le_inv in D1. apply Rabs_le_inv in D2. apply Rabs_le_inv in D3.
      change (vx (real_vec g)) with (real64 (vx g)) in D1. change (vy (real_vec g)) with (real64 (vy g)) in D2. change (vz (real_vec g)) with (real64 (vz g)) in D3.
      destruct Pd as (P1 & P2 & P3).
      pose proof (axis_in_range r (vx g) (nx d) Fr R0 G1 ltac:(lia) ltac:(lra)) as Hx. fold R in Hx.
      pose proof (axis_in_range r (vy g) (ny d) Fr R0 G2 ltac:(lia) ltac:(lra)) as Hy. fold R in Hy.
      pose proof (axis_in_range r (vz g) (nz d) Fr R0 G3 ltac:(lia) ltac:(lra)) as Hz. fold R in Hz.
      change (index_of p g) with (I (floor64 (div64 (vx g) r)) (floor64 (div64 (vy g) r)) (floor64 (div64 (vz g) r))).
      apply in_bounds_spec. cbn [ix iy iz]. split; [apply Hx; lra|]. split; [apply Hy; lra|apply Hz; lra]. }
    destruct Wc as [(Ew & Eq)|Ew].
    - split; [rewrite Ew; exact Hl|]. split.
      + rewrite Ew. apply (apart_more (R / 1000000 + 5 * (R / 1000000))); [lra|]. apply apart_trans with (real_vec c); [|exact Ac].
        rewrite Eq. destruct Aq as (A1 & A2 & A3). split; [|split]; rewrite Rabs_minus_sym; assumption.
      + rewrite Ew. unfold cell_at. fold q. rewrite <- Eq. apply In; [exact Fc|].
        split; [|split]; unfold Rminus; rewrite Rplus_opp_r, Rabs_R0; lra.
    - split; [rewrite Ew; exact Wb|]. split.
      + rewrite Ew. apply (apart_more (2 * (R / 1000000) + 5 * (R / 1000000))); [lra|]. apply apart_trans with (real_vec c); assumption.
      + rewrite Ew. unfold cell_at. destruct (seen_point _ Wb) as (Fg & Ag). apply In; [exact Fg|].
        apply (apart_more (R / 1000000 + 2 * (R / 1000000))); [lra|].
        apply apart_trans with (1 := Ag). exact Wa.
  Qed.
End Volume.

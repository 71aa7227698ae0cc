(** The two tests of whether a point is in the grid, in doubles. *)
From Coq Require Import Bool List Reals Lra Lia.
From Flocq Require Import Core.Core IEEE754.Binary IEEE754.Bits.
From Verif Require Import Base BaseFacts Floats FloatFacts FloatFacts2 Grid GridFacts SdfGen Arith SdfQuery SdfField QuerySpec QueryReal QueryThms
  DoubleSpec DoubleQuery DoubleEstimate IdealSpec EstimateSpec Location PointThms VolumeThms InsideThms.
Open Scope R_scope.

Local Instance prec53 : Prec_gt_0 53 := eq_refl.

Lemma size_value (r : binary64) n : finite_double r -> 0 <= real64 r <= 1 -> (0 <= n <= 2147483647)%Z ->
  finite_double (mul64 r (b64_of_Z n)) /\ real64 (mul64 r (b64_of_Z n)) = nearest_double (real64 r * IZR n).
Proof.
  intros Fr Rr Hn. destruct (of_Z_exact n) as (Fn & En); [lia|]. change (B2R64 (b64_of_Z n)) with (real64 (b64_of_Z n)) in En.
  destruct (mult_xr 53 1024 eq_refl eq_refl binop_nan_pl64 r (b64_of_Z n) Fr Fn) as (N & X).
  destruct (finite_of_round (mul64 r (b64_of_Z n)) (real64 r * real64 (b64_of_Z n)) N X) as (F & V).
  - rewrite En. assert (N0 : 0 <= IZR n <= 2147483647) by (split; apply IZR_le; lia). rewrite Rabs_pos_eq by (apply Rmult_le_pos; lra).
    apply Rle_trans with (1 * 2147483647); [apply Rmult_le_compat; lra|]. apply Rle_trans with (bpow radix2 31); [cbn; lra|apply bpow_le; lia].
  - split; [exact F|]. rewrite V, En. reflexivity.
Qed.

Section Agree.
  Variables (s : sdf) (p : pose ieee) (loc : vec ieee).
  Let d := sdf_dims s.
  Let r := s_res s.
  Hypothesis Hp : forall q, index_of p q = index_of (ieee_pose r) q.
  Hypotheses (Fr : finite_double r) (Rr : bpow radix2 (-100) <= real64 r <= 1)
    (Hd : (nx d <= 2147483647 /\ ny d <= 2147483647 /\ nz d <= 2147483647)%Z) (Hq : usable_point (to_grid p loc)).

  Lemma found_by_both e : estimate_distance (sdf_field s) p loc = Ok (e, true) ->
    exists v, distance_to_boundary (sdf_field s) p loc = (v, true) /\ finite_double v /\ 0 <= real64 v.
  Proof using All.
    intros H. apply flag_true in H. unfold cell_at in H. rewrite Hp in H. change (f_dims (sdf_field s)) with d in H.
    destruct (found_inside d r _ Fr Rr Hd Hq H) as (((Lx & Ux) & (Ly & Uy) & (Lz & Uz)) & _).
    pose proof (bpow_gt_0 radix2 (-100)) as P. assert (R0 : 0 <= real64 r <= 1) by lra.
    apply in_bounds_spec in H. destruct H as (Hx & Hy & Hz).
    destruct (size_value r (nx d) Fr R0 ltac:(lia)) as (Fx & Vx). destruct (size_value r (ny d) Fr R0 ltac:(lia)) as (Fy & Vy).
    destruct (size_value r (nz d) Fr R0 ltac:(lia)) as (Fz & Vz).
    pose proof (boundary_double (sdf_field s) p loc (proj1 Hq) (conj Fx (conj Fy Fz))) as B.
    destruct (distance_to_boundary (sdf_field s) p loc) as (v, inside). cbv zeta in B. destruct B as (I & V).
    assert (Up : forall x : binary64, forall t, real64 x < t -> real64 x <= nearest_double t).
    { intros x t Ht. rewrite <- (nearest_id x). apply nearest_le. lra. }
    assert (Bx : in_box 0 (real_vec (f_size (sdf_field s))) (real_vec (to_grid p loc))).
    { unfold in_box, real_vec, sdf_field, grid_size. cbn [f_size vx vy vz]. fold d r. rewrite Vx, Vy, Vz.
      pose proof (Up _ _ Ux). pose proof (Up _ _ Uy). pose proof (Up _ _ Uz). lra. }
    assert (Ei : inside = true) by (apply I; exact Bx). exists v. split; [rewrite Ei; reflexivity|].
    destruct (V Ei) as (Fv & D & ID & _ & EV). split; [exact Fv|]. rewrite EV, <- nearest_0. apply nearest_le.
    unfold in_box in Bx. destruct ID as [<-|[<-|[<-|[<-|[<-|[<-|[]]]]]]]; lra.
  Qed.
End Agree.

(** A reported distance of a fifty-thousandth of a cell or more leaves room at both faces. *)
Section Deep.
  Variable r : binary64.
  Hypotheses (Fr : finite_double r) (Rr : bpow radix2 (-100) <= real64 r <= bpow radix2 100).

  Lemma tiny_below : bpow radix2 (-1075) <= real64 r / 10000000.
  Proof using Rr.
    apply Rle_trans with (bpow radix2 (-24) * real64 r).
    - apply Rle_trans with (bpow radix2 (-24) * bpow radix2 (-100)); [rewrite <- bpow_plus; apply bpow_le; lia|].
      apply Rmult_le_compat_l; [apply bpow_ge_0|lra].
    - pose proof (bpow_gt_0 radix2 (-100)). assert (bpow radix2 (-24) <= 1 / 10000000) by (cbn; lra). nra.
  Qed.

  Lemma deep_distance x : 0 <= x -> real64 r / 50000 <= nearest_double x -> real64 r / 60000 <= x.
  Proof using Rr.
    intros X H. pose proof tiny_below as T. destruct (nearest_close x) as (e & t & He & Ht & E). apply Rabs_le_inv in He. apply Rabs_le_inv in Ht.
    assert (U : u <= 1 / 1000) by (unfold u; cbn; lra). assert (x * (1 + e) <= x * (1001 / 1000)) by (apply Rmult_le_compat_l; lra). lra.
  Qed.

  Lemma deep_size n : (0 <= n)%Z -> IZR n <= bpow radix2 30 ->
    finite_double (mul64 r (b64_of_Z n)) /\ real64 (mul64 r (b64_of_Z n)) <= real64 r * IZR n + real64 r / 1000000.
  Proof using All.
    intros Hn HN. pose proof tiny_below as T. pose proof (bpow_gt_0 radix2 (-100)) as P. pose proof small_u as SU. pose proof (bpow_gt_0 radix2 (-53)) as U0. fold u in U0.
    assert (N31 : (n <= 2 ^ 30)%Z) by (apply le_IZR; exact HN).
    destruct (of_Z_exact n) as (Fn & En); [lia|]. change (B2R64 (b64_of_Z n)) with (real64 (b64_of_Z n)) in En.
    assert (N0 : 0 <= IZR n) by (apply IZR_le; lia).
    destruct (mul64_small r (b64_of_Z n) Fr Fn) as (F & e & t & He & Ht & E).
    - rewrite En, Rabs_pos_eq by (apply Rmult_le_pos; lra). apply Rle_trans with (bpow radix2 100 * bpow radix2 30); [apply Rmult_le_compat; lra|].
      rewrite <- bpow_plus. apply bpow_le. lia.
    - split; [exact F|]. rewrite E, En. apply Rabs_le_inv in He. apply Rabs_le_inv in Ht.
      assert (A : IZR n * e <= 3 / 10000000).
      { apply Rle_trans with (IZR n * u); [apply Rmult_le_compat_l; lra|]. apply Rle_trans with (2 := SU). apply Rmult_le_compat_r; lra. }
      assert (real64 r * (IZR n * e) <= real64 r * (3 / 10000000)) by (apply Rmult_le_compat_l; lra). lra.
  Qed.
End Deep.

Lemma deep_found s (p : pose ieee) loc v :
  let d := sdf_dims s in let r := s_res s in
  (forall q, index_of p q = index_of (ieee_pose r) q) -> finite_double r -> bpow radix2 (-100) <= real64 r <= bpow radix2 100 ->
  (0 <= nx d /\ 0 <= ny d /\ 0 <= nz d)%Z -> IZR (nx d) <= bpow radix2 30 /\ IZR (ny d) <= bpow radix2 30 /\ IZR (nz d) <= bpow radix2 30 ->
  finite_vec (to_grid p loc) ->
  distance_to_boundary (sdf_field s) p loc = (v, true) -> real64 r / 50000 <= real64 v ->
  exists e, estimate_distance (sdf_field s) p loc = Ok (e, true).
Proof.
  intros d r Hp Fr Rr (Zx & Zy & Zz) (Nx & Ny & Nz) Hq HB Hv. apply flag_found. change (f_dims (sdf_field s)) with d.
  pose proof (bpow_gt_0 radix2 (-100)) as P. assert (R0 : 0 < real64 r) by lra.
  destruct (deep_size r Fr Rr (nx d) Zx Nx) as (Fx & Vx). destruct (deep_size r Fr Rr (ny d) Zy Ny) as (Fy & Vy).
  destruct (deep_size r Fr Rr (nz d) Zz Nz) as (Fz & Vz).
  pose proof (boundary_double (sdf_field s) p loc Hq (conj Fx (conj Fy Fz))) as B. rewrite HB in B. cbv zeta in B. destruct B as (I & V).
  pose proof (proj1 I eq_refl) as Bx. destruct (V eq_refl) as (_ & D & ID & Least & EV). rewrite EV in Hv.
  assert (D0 : 0 <= D). { unfold in_box in Bx. destruct ID as [<-|[<-|[<-|[<-|[<-|[<-|[]]]]]]]; lra. }
  pose proof (deep_distance r Rr D D0 Hv) as LD.
  assert (L : forall w, In w (face_distances (real_vec (f_size (sdf_field s))) (real_vec (to_grid p loc))) -> real64 r / 60000 <= w).
  { intros w Hw. pose proof (Least w Hw). lra. }
  unfold face_distances, real_vec, sdf_field, grid_size in L. cbn [f_size vx vy vz] in L. fold d r in L. destruct Hq as (Qx & Qy & Qz).
  unfold cell_at. rewrite Hp. apply in_bounds_spec. split; [|split].
  - pose proof (L _ (or_introl eq_refl)). pose proof (L _ (or_intror (or_introl eq_refl))).
    apply (axis_in_range r (vx (to_grid p loc)) (nx d) Fr R0 Qx Zx Nx). lra.
  - pose proof (L _ (or_intror (or_intror (or_introl eq_refl)))). pose proof (L _ (or_intror (or_intror (or_intror (or_introl eq_refl))))).
    apply (axis_in_range r (vy (to_grid p loc)) (ny d) Fr R0 Qy Zy Ny). lra.
  - pose proof (L _ (or_intror (or_intror (or_intror (or_intror (or_introl eq_refl)))))).
    pose proof (L _ (or_intror (or_intror (or_intror (or_intror (or_intror (or_introl eq_refl))))))).
    apply (axis_in_range r (vz (to_grid p loc)) (nz d) Fr R0 Qz Zz Nz). lra.
Qed.

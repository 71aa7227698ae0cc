(** What the projection into the volume achieves in a turned grid with rounding. *)
From Coq Require Import Lia Reals Lra.
From Flocq Require Import Core.Core IEEE754.Binary IEEE754.Bits.
From Verif Require Import Base BaseFacts Floats Grid GridFacts CollisionMap SdfGen Arith SdfQuery SdfField QuerySpec QueryReal QueryThms QueryTurn
  DoubleSpec IdealSpec IdealMap Frame FrameSpec PlaceSpec Origin OriginSpec PointSpec PointThms VolumeSpec VolumeThms Location.
Open Scope R_scope.

Lemma cut_keeps lo hi x : lo <= x <= hi -> cut lo hi x = x.
Proof. intros H. unfold cut, Rmin, Rmax. repeat destruct (Rle_dec _ _); lra. Qed.

Lemma cut_nearest lo hi x z : lo <= z <= hi -> Rabs (cut lo hi x - x) <= Rabs (z - x).
Proof. intros H. unfold cut, Rmin, Rmax, Rabs. repeat destruct (Rle_dec _ _); repeat destruct (Rcase_abs _); lra. Qed.

(** A point near the range is near its own cut. *)
Lemma cut_again lo hi x y e : lo <= hi -> Rabs (y - cut lo hi x) <= e -> Rabs (cut lo hi y - y) <= e.
Proof.
  intros L H. apply Rle_trans with (1 := cut_nearest lo hi y (cut lo hi x) (cut_in lo hi x L)). rewrite Rabs_minus_sym. exact H.
Qed.

Section Depth.
  Variables (s : sdf) (N : R) (T : transform ieee) (P : pose reals) (t : rvec) (delta eta S : R).
  Let d := sdf_dims s.
  Let r := s_res s.
  Let p := placed_by r T.
  Hypothesis Fr : finite_double r.
  Hypothesis Lr : bpow radix2 (-100) <= real64 r.
  Hypothesis HN : N <= bpow radix2 30.
  Hypothesis Pd : (0 < nx d /\ 0 < ny d /\ 0 < nz d)%Z.
  Hypothesis St : stands d r N T P t delta eta S.
  Hypothesis HS : real64 r * N <= S / 20.
  Variables (loc : vec ieee) (md : binary64).
  Hypothesis Hl : point_within S loc.
  Hypothesis Fm : finite_double md.
  Hypothesis M0 : 0 <= real64 md.
  Let R := real64 r.
  Let corner := far_corner d R.
  Hypothesis Rm : room (real64 md + R / 5000) corner.
  Let w := project_into_valid_volume (sdf_field s) p loc md.
  Let g := to_grid P (real_vec w).
  Let q := to_grid P (real_vec loc).
  Let m := real64 md + R / 10000.

  Lemma Rp : 0 < R.
  Proof using Lr. apply Rlt_le_trans with (2 := Lr). apply bpow_gt_0. Qed.

  Lemma w_near : point_within S w /\ apart_at_most (R / 100000) g (cut_into m corner q) /\ in_bounds d (cell_at p w) = true.
  Proof using All. exact (projected s N T P t delta eta S Fr Lr HN Pd St HS loc md Hl Fm M0 Rm). Qed.

  Lemma ranges : m <= vx corner - m /\ m <= vy corner - m /\ m <= vz corner - m.
  Proof using All. pose proof Rp as R0. destruct Rm as (A & B & C). unfold m. lra. Qed.

  Lemma w_in : in_box (m - R / 100000) corner g.
  Proof using All.
    destruct w_near as (_ & (A & B & C) & _). destruct ranges as (X & Y & Z). unfold cut_into in A, B, C. cbn [vx vy vz] in A, B, C.
    apply Rabs_le_inv in A. apply Rabs_le_inv in B. apply Rabs_le_inv in C.
    pose proof (cut_in _ _ (vx q) X). pose proof (cut_in _ _ (vy q) Y). pose proof (cut_in _ _ (vz q) Z). unfold in_box. lra.
  Qed.

  Lemma deep : exists v, distance_to_boundary (sdf_field s) p w = (v, true) /\ finite_double v /\ real64 md + R / 12500 <= real64 v.
  Proof using All.
    pose proof Rp as R0. destruct w_near as (W & _ & _). pose proof w_in as B.
    destruct (distance_to_boundary (sdf_field s) p w) as [v i] eqn:E.
    destruct (boundary_placed s N T P t delta eta S Fr Lr HN Pd St w v i W E) as (K1 & _ & K2). fold d r R corner g in K1, K2.
    assert (i = true) as ->. { apply K1. unfold in_box in *. unfold m in B. lra. }
    destruct (K2 eq_refl) as (Fv & D & I & _ & Ev). exists v. split; [reflexivity|]. split; [exact Fv|].
    apply Rabs_le_inv in Ev. unfold in_box, m in B.
    assert (real64 md + R / 10000 - R / 100000 <= D).
    { destruct I as [<-|[<-|[<-|[<-|[<-|[<-|[]]]]]]]; lra. }
    lra.
  Qed.

  Lemma kept : in_box m corner q -> apart_at_most (R / 100000) g q.
  Proof using All.
    intros (X & Y & Z). destruct w_near as (_ & A & _). unfold cut_into in A. rewrite !cut_keeps in A by assumption. exact A.
  Qed.

  Lemma moved_least z : in_box m corner z ->
    Rabs (vx g - vx q) <= Rabs (vx z - vx q) + R / 100000 /\
    Rabs (vy g - vy q) <= Rabs (vy z - vy q) + R / 100000 /\
    Rabs (vz g - vz q) <= Rabs (vz z - vz q) + R / 100000.
  Proof using All.
    intros (X & Y & Z). destruct w_near as (_ & (A & B & C) & _). unfold cut_into in A, B, C. cbn [vx vy vz] in A, B, C.
    assert (K : forall a b c e x, Rabs (a - b) <= e -> Rabs (b - c) <= x -> Rabs (a - c) <= x + e).
    { intros a b c e x H1 H2. apply Rabs_le_inv in H1. apply Rabs_le_inv in H2. apply Rabs_le. lra. }
    split; [|split]; (eapply K; [eassumption|apply cut_nearest; assumption]).
  Qed.

  Lemma again : apart_at_most (R / 50000) (to_grid P (real_vec (project_into_valid_volume (sdf_field s) p w md))) g.
  Proof using All.
    destruct w_near as (W & (A & B & C) & _). destruct ranges as (X & Y & Z).
    destruct (projected s N T P t delta eta S Fr Lr HN Pd St HS w md W Fm M0 Rm) as (_ & (A2 & B2 & C2) & _).
    fold d r p R corner m g in A2, B2, C2. set (g2 := to_grid P (real_vec (project_into_valid_volume (sdf_field s) p w md))) in *.
    unfold cut_into in A, B, C, A2, B2, C2. cbn [vx vy vz] in A, B, C, A2, B2, C2.
    assert (K : forall a b c, Rabs (a - b) <= R / 100000 -> Rabs (b - c) <= R / 100000 -> Rabs (a - c) <= R / 50000).
    { intros a b c H1 H2. apply Rabs_le_inv in H1. apply Rabs_le_inv in H2. apply Rabs_le. lra. }
    split; [|split].
    - exact (K _ _ _ A2 (cut_again _ _ _ _ _ X A)).
    - exact (K _ _ _ B2 (cut_again _ _ _ _ _ Y B)).
    - exact (K _ _ _ C2 (cut_again _ _ _ _ _ Z C)).
  Qed.
End Depth.

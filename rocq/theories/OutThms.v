(** Where points projected out of collision end up in the world, in doubles. *)
From Coq Require Import Bool Reals Lra Lia.
From Flocq Require Import Core.Core IEEE754.Binary IEEE754.Bits.
From Verif Require Import Base BaseFacts Floats FloatFacts FloatFacts2 Grid GridFacts DistSpec CollisionMap SdfGen SdfSpec Arith SdfQuery SdfField
  QuerySpec QueryProofs QueryReal QueryThms QueryTurn QueryWitness AutoDiffSpec DoubleSpec WallSpec EstimateSpec EstimateMap EstimateCase
  SlopeThms IdealSpec IdealMap OuterThms ProjectThms Frame FrameSpec FrameThms PlaceSpec PlaceThms Origin OriginSpec VolumeThms Location.
Open Scope R_scope.

Lemma estimate_centers {A} (f : field A) (p p' : pose A) q i : center_of p = center_of p' ->
  estimate_from_neighbors f p q i = estimate_from_neighbors f p' q i.
Proof. intros E. unfold estimate_from_neighbors. rewrite E. reflexivity. Qed.

(** The estimate at the end is above the minimum distance, so the projection leaves the
    point where it is in the grid frame. *)
Lemma stays {A} (f : field A) p c e md mult : in_bounds (f_dims f) (index_of p c) = true -> to_grid p c = c -> to_world p c = c ->
  estimate_from_neighbors f p c (index_of p c) = Ok e -> dle A e md = false -> project_out 1 f p c md mult = Finished c.
Proof.
  intros B Eg Ew E L. unfold project_out. rewrite Eg, B. cbv zeta. rewrite Eg. unfold project_out_grid_frame. rewrite E.
  cbn [project_loop]. unfold project_step. rewrite L, Ew. reflexivity.
Qed.

Lemma gap_apart e a b c : apart_at_most e a b -> gap b c <= gap a c + 2 * e.
Proof.
  intros (X & Y & Z). assert (E0 : 0 <= e) by (apply Rle_trans with (2 := X); apply Rabs_pos).
  apply Rle_trans with (1 := gap_triangle b a c). assert (gap b a <= 2 * e); [|lra].
  unfold gap. apply Rabs_le_inv in X. apply Rabs_le_inv in Y. apply Rabs_le_inv in Z.
  rewrite <- (sqrt_square (2 * e)) by lra. apply sqrt_le_1_alt. nra.
Qed.

Section Out.
  Variables (d : dims) (r : binary64) (filled : idx -> bool) (s : sdf).
  Variables (N : R) (T : transform ieee) (P : pose reals) (t : rvec) (delta eta S : R).
  Hypothesis HM : field_of_map d r filled s.
  Hypothesis St : stands d r N T P t delta eta S.
  Hypothesis HS : real64 r * N <= S / 20.
  Variables (fuel : nat) (loc : vec ieee) (md mult : binary64) (w : vec ieee).
  Hypothesis Fmd : finite_double md.
  Let p := placed_by r T.
  Hypothesis HP : project_out fuel (sdf_field s) p loc md mult = Finished w.
  Let P0 := plain_pose (real64 r).

  (** Where the search starts: at the point, or, if that is outside, at its projection into
      the volume. *)
  Let start := if in_bounds (f_dims (sdf_field s)) (cell_at p loc) then loc else project_into_valid_volume (sdf_field s) p loc (b64_of_Z 0).

  Lemma grid_end : exists c, project_out_grid_frame fuel (sdf_field s) p (to_grid p start) md mult = Finished c /\
    w = to_world p c /\ project_out 1 (sdf_field s) (ieee_pose r) c md mult = Finished c.
  Proof using HP.
    unfold project_out in HP. cbv zeta in HP. change (if in_bounds _ _ then _ else _) with start in HP. set (l1 := start) in *. clearbody l1.
    pose proof (project_out_grid_spec (A := ieee) fuel (sdf_field s) p (to_grid p l1) md mult) as H.
    destruct (project_out_grid_frame fuel (sdf_field s) p (to_grid p l1) md mult) as [a b c|c|why]; try discriminate HP.
    injection HP as <-. destruct H as (e & B & E & L). exists c. split; [reflexivity|]. split; [reflexivity|].
    apply (stays _ _ _ e); [exact B|reflexivity|reflexivity| |exact L].
    rewrite (estimate_centers _ _ p); [exact E|reflexivity].
  Qed.

  Lemma end_world c : w = to_world p c -> finite_vec c -> in_bounds d (index_of P0 (real_vec c)) = true ->
    point_within S w /\ apart_at_most (real64 r / 500000) (to_grid P (real_vec w)) (real_vec c).
  Proof using HM St HS.
    intros Ew Fc HI. destruct (map_dims _ _ _ _ HM) as (_ & _ & Rp). pose proof (plain_ok d r filled s HM) as G. fold P0 in G.
    destruct (field_parts d r filled s HM) as (Ed & Er). pose proof HM as (Hs & _ & (Lr & _) & _).
    pose proof HI as B. apply in_bounds_spec in B. destruct B as (Bx & By & Bz).
    pose proof St as (_ & (Nx & Ny & Nz) & _).
    assert (K : forall v i n, real64 r * IZR i <= v < real64 r * (IZR i + 1) -> (0 <= i < n)%Z -> IZR n <= N -> Rabs v <= S / 16).
    { intros v i n Hv Hi Hn. assert (0 <= IZR i) by (apply IZR_le; lia).
      assert (IZR i + 1 <= IZR n) by (rewrite <- plus_IZR; apply IZR_le; lia).
      assert (0 <= real64 r * IZR i) by (apply Rmult_le_pos; lra).
      assert (real64 r * (IZR i + 1) <= real64 r * N) by (apply Rmult_le_compat_l; lra). rewrite Rabs_pos_eq; lra. }
    assert (Hc : point_within (S / 16) c).
    { split; [exact Fc|]. split; [|split].
      - exact (K _ _ _ (g_index_x _ _ G (real_vec c)) Bx Nx).
      - exact (K _ _ _ (g_index_y _ _ G (real_vec c)) By Ny).
      - exact (K _ _ _ (g_index_z _ _ G (real_vec c)) Bz Nz). }
    assert (Pd : (0 < nx d /\ 0 < ny d /\ 0 < nz d)%Z) by lia.
    change (sdf_dims s = d) in Ed. change (s_res s = r) in Er.
    pose proof (back_again s N T P t delta eta S) as BA. rewrite Ed, Er in BA.
    destruct (BA Lr Pd St c Hc) as (W & A). fold p in W, A. rewrite <- Ew in W, A.
    split; [exact W|]. refine (apart_more _ _ _ _ _ A). lra.
  Qed.

  Lemma end_gap c b : w = to_world p c -> finite_vec c -> in_bounds d (index_of P0 (real_vec c)) = true ->
    gap (real_vec c) (center_of P0 b) <= gap (real_vec w) (world_center P b) + real64 r / 250000.
  Proof using HM St HS.
    intros Ew Fc HI. destruct (end_world c Ew Fc HI) as (_ & A). pose proof St as (_ & _ & _ & G & Rg & _).
    pose proof (gap_apart _ _ _ (center_of P0 b) A) as K. unfold world_center.
    rewrite <- (g_back_and_there _ _ G (real_vec w)), (rigid_gap _ _ _ _ Rg).
    replace (center_of P b) with (center_of P0 b); [lra|]. rewrite (g_center _ _ G). unfold P0. rewrite (g_center _ _ (plain_ok d r filled s HM)). reflexivity.
  Qed.

  Lemma out_in_world : exists c, project_out_grid_frame fuel (sdf_field s) p (to_grid p start) md mult = Finished c /\
    w = to_world p c /\ (finite_vec c -> in_bounds d (index_of P0 (real_vec c)) = true ->
    point_within S w /\ apart_at_most (real64 r / 500000) (to_grid P (real_vec w)) (real_vec c) /\
    ((between_centers (real_field s) (real_vec c) -> 0.626 * real64 r <= real64 md -> filled (index_of P0 (real_vec c)) = false) /\
     (flat d -> 2.17 * real64 r <= real64 md -> filled (index_of P0 (real_vec c)) = false) /\
     ((forall j, in_bounds d j = true -> exact_at d r filled s j) -> 4.21 * real64 r <= real64 md -> filled (index_of P0 (real_vec c)) = false)) /\
    forall b, in_bounds d b = true -> filled b = true ->
    (between_centers (real_field s) (real_vec c) -> flat d ->
     real64 md < 1.42 * gap (real_vec w) (world_center P b) + 0.752 * real64 r) /\
    (between_centers (real_field s) (real_vec c) -> (forall j, in_bounds d j = true -> exact_at d r filled s j) ->
     real64 md < (1 + bpow radix2 (-23)) * gap (real_vec w) (world_center P b) + 0.377 * real64 r) /\
    (flat d -> real64 md < 1.42 * gap (real_vec w) (world_center P b) + 3.301 * real64 r) /\
    ((forall j, in_bounds d j = true -> exact_at d r filled s j) ->
     real64 md < (1 + bpow radix2 (-23)) * gap (real_vec w) (world_center P b) + 4.831 * real64 r)).
  Proof using HM St HS Fmd HP.
    destruct grid_end as (c & Hg & Ew & Hc). exists c. split; [exact Hg|]. split; [exact Ew|]. intros Fc HI. destruct (end_world c Ew Fc HI) as (W & A).
    split; [exact W|]. split; [exact A|]. pose proof St as (Sm & _). destruct (map_dims _ _ _ _ HM) as (_ & _ & Rp).
    split; [exact (out_free_doubles d r filled s HM Sm 1 c md mult c Fmd Hc Fc HI)|].
    intros b Hb Fb. destruct (out_clear_doubles d r filled s HM Sm 1 c md mult c Fmd Hc Fc HI b Hb Fb) as (K1 & K2 & K3 & K4).
    fold P0 in K1, K2, K3, K4. pose proof (end_gap c b Ew Fc HI) as Gp.
    assert (U : 0 < bpow radix2 (-23) <= 0.01) by (split; [apply bpow_gt_0|cbn; lra]).
    set (g := gap (real_vec c) (center_of P0 b)) in *. set (g' := gap (real_vec w) (world_center P b)) in *.
    assert (M : (1 + bpow radix2 (-23)) * g <= (1 + bpow radix2 (-23)) * g' + 0.001 * real64 r).
    { apply Rle_trans with ((1 + bpow radix2 (-23)) * (g' + real64 r / 250000)); [apply Rmult_le_compat_l; lra|].
      rewrite Rmult_plus_distr_l. apply Rplus_le_compat_l. apply Rle_trans with (1.01 * (real64 r / 250000)); [|lra].
      apply Rmult_le_compat_r; lra. }
    clearbody g g'.
    split; [|split; [|split]].
    - intros C Fl. specialize (K1 C Fl). lra.
    - intros C X. specialize (K2 C (fun j Bj _ => X j Bj)). lra.
    - intros Fl. specialize (K3 Fl). lra.
    - intros X. specialize (K4 X). lra.
  Qed.
End Out.

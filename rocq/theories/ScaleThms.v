(** Queries of the same grid in two units of length. *)
From Coq Require Import Reals Lra Psatz.
From Verif Require Import Base BaseFacts Floats Grid GridFacts Arith SdfQuery QuerySpec QueryProofs QueryReal QueryThms
  WallSpec WallThms ScaleSpec.
Open Scope R_scope.

Section Scale.
Variables (l : R) (f f' : rfield) (p p' : pose reals).
Hypothesis Hl : 0 < l.
Hypothesis S : rescaled l f f' p p'.

Lemma dlt_scaled a b : dlt reals (l * a) (l * b) = dlt reals a b.
Proof. rsimp. destruct (Rlt_dec (l * a) (l * b)), (Rlt_dec a b); auto; exfalso; nra. Qed.
Lemma dle_scaled a b : dle reals (l * a) (l * b) = dle reals a b.
Proof. rsimp. destruct (Rle_dec (l * a) (l * b)), (Rle_dec a b); auto; exfalso; nra. Qed.
Lemma deq_scaled a b : deq reals (l * a) (l * b) = deq reals a b.
Proof. rsimp. destruct (Req_EM_T (l * a) (l * b)), (Req_EM_T a b); auto; exfalso; nra. Qed.
Lemma dle0_scaled a : dle reals (of_int reals 0) (l * a) = dle reals (of_int reals 0) a.
Proof. pose proof (dle_scaled 0 a) as E. rewrite Rmult_0_r in E. exact E. Qed.
Lemma dlt0_scaled a : dlt reals (of_int reals 0) (l * a) = dlt reals (of_int reals 0) a.
Proof. pose proof (dlt_scaled 0 a) as E. rewrite Rmult_0_r in E. exact E. Qed.
Lemma dmin_scaled a b : dmin (A := reals) (l * a) (l * b) = l * dmin (A := reals) a b.
Proof. unfold dmin. rewrite dlt_scaled. destruct (dlt reals b a); reflexivity. Qed.
Lemma dabs_scaled a : dabs reals (l * a) = l * dabs reals a.
Proof. rsimp. rewrite Rabs_mult, (Rabs_right l) by lra. reflexivity. Qed.

Lemma value_scaled i : value f' i = l * value f i.
Proof.
  destruct (in_bounds (f_dims f) i) eqn:B; [apply (sc_value _ _ _ _ _ S); auto|].
  unfold value. rewrite !get_eq. change (gdims (f_grid f')) with (f_dims f'). change (gdims (f_grid f)) with (f_dims f).
  rewrite (sc_dims _ _ _ _ _ S), B. cbn [fst]. rewrite !gget_oob; [apply (sc_default _ _ _ _ _ S)| |];
  [change (gdims (f_grid f)) with (f_dims f); auto|change (gdims (f_grid f')) with (f_dims f'); rewrite (sc_dims _ _ _ _ _ S); auto].
Qed.

Lemma central_scaled u v : central (A := reals) f' u v = central (A := reals) f u v.
Proof.
  unfold central. rsimp. rewrite !value_scaled, (sc_res _ _ _ _ _ S).
  destruct (Req_dec (f_res f) 0) as [E|E].
  - rewrite E, !Rmult_0_r. unfold Rdiv. rewrite Rinv_0. asR. ring.
  - asR. field. lra.
Qed.

Lemma one_sided_scaled lo hi at_ : one_sided (A := reals) f' lo hi at_ = one_sided (A := reals) f lo hi at_.
Proof.
  unfold one_sided. cbv zeta. rewrite (sc_res _ _ _ _ _ S), !value_scaled.
  replace (dmul reals (of_int reals (hi - lo)) (l * f_res f)) with (l * dmul reals (of_int reals (hi - lo)) (f_res f)) by (rsimp; ring).
  rewrite dlt0_scaled. destruct (dlt reals _ (dmul reals _ (f_res f))) eqn:E; [|reflexivity]. rsimp.
  destruct (Rlt_dec 0 (IZR (hi - lo) * f_res f)) as [L|]; [|discriminate]. asR. field. split; nra.
Qed.

Lemma aligned_scaled i e : grid_aligned_gradient f' i e = grid_aligned_gradient f i e.
Proof.
  unfold grid_aligned_gradient. rewrite (sc_dims _ _ _ _ _ S). destruct i as [x y z].
  rewrite !central_scaled, !one_sided_scaled. reflexivity.
Qed.

Lemma gradient_scaled i e : gradient f' p' i e = gradient f p i e.
Proof.
  unfold gradient. rewrite aligned_scaled. unfold rotate. rewrite (sc_rot_w _ _ _ _ _ S), (sc_rot_v _ _ _ _ _ S). reflexivity.
Qed.

Lemma gradient_at_scaled v e : gradient_at f' p' (times l v) e = gradient_at f p v e.
Proof.
  unfold gradient_at. rewrite (sc_to_grid _ _ _ _ _ S), (sc_index _ _ _ _ _ S), (sc_dims _ _ _ _ _ S), gradient_scaled. reflexivity.
Qed.

Definition rmul (m : res R) : res R := match m with Ok v => Ok (l * v) | Throw w => Throw w | UB w => UB w end.

Lemma corrected_scaled i : corrected_center_distance f' i = rmul (corrected_center_distance f i).
Proof.
  destruct (in_bounds (f_dims f) i) eqn:B.
  2: { rewrite !corrected_oob; auto. rewrite (sc_dims _ _ _ _ _ S). auto. }
  rewrite !corrected_centered by (rewrite ?(sc_dims _ _ _ _ _ S); auto). cbn [rmul]. f_equal. unfold centered_value.
  rewrite value_scaled, (sc_res _ _ _ _ _ S). destruct (Rle_dec 0 (l * value f i)), (Rle_dec 0 (value f i)); try (asR; field; fail); exfalso; nra.
Qed.

Lemma bilinear_scaled l1 h1 l2 h2 q1 q2 a b c d : h1 <> l1 -> h2 <> l2 ->
  bilinear (A := reals) (l * l1) (l * h1) (l * l2) (l * h2) (l * q1) (l * q2) (l * a) (l * b) (l * c) (l * d) =
  l * bilinear (A := reals) l1 h1 l2 h2 q1 q2 a b c d.
Proof. intros N1 N2. unfold bilinear. rsimp. asR. field. repeat split; try lra; intros E; nra. Qed.

Lemma trilinear_scaled r c q a1 a2 a3 a4 a5 a6 a7 a8 : r <> 0 ->
  trilinear (A := reals) (l * r) (times l c) (times l q) (l * a1) (l * a2) (l * a3) (l * a4) (l * a5) (l * a6) (l * a7) (l * a8) =
  l * trilinear (A := reals) r c q a1 a2 a3 a4 a5 a6 a7 a8.
Proof.
  intros N. unfold trilinear, bilinear_xy, times. cbn [vx vy vz].
  replace (dadd reals (l * vx c) (l * r)) with (l * (vx c + r)) by (rsimp; ring).
  replace (dadd reals (l * vy c) (l * r)) with (l * (vy c + r)) by (rsimp; ring).
  assert (Nx : vx c + r <> vx c) by (intros E; apply N; change (dbl reals) with R in *; lra).
  assert (Ny : vy c + r <> vy c) by (intros E; apply N; change (dbl reals) with R in *; lra).
  rewrite !bilinear_scaled by auto.
  change (dadd reals (vx c) r) with (vx c + r). change (dadd reals (vy c) r) with (vy c + r).
  set (b1 := bilinear _ _ _ _ _ _ _ _ _ _). set (b2 := bilinear _ _ _ _ _ _ _ _ _ _). rsimp. asR. field. split; lra.
Qed.

Hypothesis Hr : f_res f <> 0.

Lemma neighbors_scaled q i : estimate_from_neighbors f' p' (times l q) i = rmul (estimate_from_neighbors f p q i).
Proof.
  unfold estimate_from_neighbors. rewrite (sc_dims _ _ _ _ _ S), (sc_center _ _ _ _ _ S), (sc_res _ _ _ _ _ S).
  assert (Hax : forall i0 n v, axis_interpolation_indices (A := reals) i0 n (l * v) = axis_interpolation_indices (A := reals) i0 n v).
  { intros i0 n v. unfold axis_interpolation_indices. rewrite dle0_scaled. reflexivity. }
  replace (vsub (times l q) (times l (center_of p i))) with (times l (vsub q (center_of p i)))
    by (unfold times, vsub; cbn [vx vy vz]; rsimp; apply vec_ext; cbn [vx vy vz]; asR; ring).
  set (o := vsub q (center_of p i)). unfold times at 1 2 3. cbn [vx vy vz]. rewrite !Hax.
  destruct (axis_interpolation_indices (ix i) _ _) as [xl xu].
  destruct (axis_interpolation_indices (iy i) _ _) as [yl yu].
  destruct (axis_interpolation_indices (iz i) _ _) as [zl zu].
  rewrite !corrected_scaled, (sc_center _ _ _ _ _ S).
  destruct (corrected_center_distance f (I xl yl zl)); cbn [rmul bind]; try reflexivity.
  destruct (corrected_center_distance f (I xl yl zu)); cbn [rmul bind]; try reflexivity.
  destruct (corrected_center_distance f (I xl yu zl)); cbn [rmul bind]; try reflexivity.
  destruct (corrected_center_distance f (I xl yu zu)); cbn [rmul bind]; try reflexivity.
  destruct (corrected_center_distance f (I xu yl zl)); cbn [rmul bind]; try reflexivity.
  destruct (corrected_center_distance f (I xu yl zu)); cbn [rmul bind]; try reflexivity.
  destruct (corrected_center_distance f (I xu yu zl)); cbn [rmul bind]; try reflexivity.
  destruct (corrected_center_distance f (I xu yu zu)); cbn [rmul bind]; try reflexivity.
  rewrite trilinear_scaled by auto. reflexivity.
Qed.

Lemma estimate_scaled v : estimate_distance f' p' (times l v) = scaled_estimate l (estimate_distance f p v).
Proof.
  unfold estimate_distance. rewrite (sc_to_grid _ _ _ _ _ S), (sc_index _ _ _ _ _ S), (sc_dims _ _ _ _ _ S).
  destruct (in_bounds (f_dims f) (index_of p (to_grid p v))).
  - rewrite neighbors_scaled. destruct (estimate_from_neighbors f p (to_grid p v) _); reflexivity.
  - cbn [scaled_estimate]. apply (f_equal (fun v : R => Ok (v, false))). exact (sc_default _ _ _ _ _ S).
Qed.

Lemma axis_smooth_scaled (pt mi pl : R * bool) v a b : (a <> v /\ b <> v /\ a <> b) ->
  axis_smooth_gradient (A := reals) (l * fst pt, snd pt) (l * fst mi, snd mi) (l * fst pl, snd pl) (l * v) (l * a) (l * b) =
  axis_smooth_gradient (A := reals) pt mi pl v a b.
Proof.
  intros (N1 & N2 & N3). destruct pt as [e1 o1], mi as [e2 o2], pl as [e3 o3]. unfold axis_smooth_gradient. cbn [fst snd]. rsimp.
  destruct o1, o2, o3; cbn [andb]; try reflexivity; f_equal; asR; field; repeat split; try lra; intros E; nra.
Qed.

Lemma smooth_scaled v w : w <> 0 -> smooth_gradient f' p' (times l v) (l * w) = smooth_gradient f p v w.
Proof.
  intros Nw. unfold smooth_gradient. rewrite dabs_scaled. assert (A0 : 0 < dabs reals w) by (rsimp; apply Rabs_pos_lt; auto).
  set (a := dabs reals w) in *. rewrite (sc_to_grid _ _ _ _ _ S), (sc_index _ _ _ _ _ S), (sc_dims _ _ _ _ _ S).
  destruct v as [x y z]. unfold times. cbn [vx vy vz].
  assert (Sp : forall u0 u, dadd reals (l * u0) (l * u) = l * dadd reals u0 u) by (intros; rsimp; asR; ring).
  assert (Sm : forall u0 u, dsub reals (l * u0) (l * u) = l * dsub reals u0 u) by (intros; rsimp; asR; ring).
  rewrite !Sp, !Sm.
  assert (Es : forall x0 y0 z0, estimate_distance f' p' (@V reals (l * x0) (l * y0) (l * z0)) = scaled_estimate l (estimate_distance f p (@V reals x0 y0 z0))).
  { intros. rewrite <- estimate_scaled. reflexivity. }
  rewrite !Es.
  assert (Ax : forall e1 o1 e2 o2 e3 o3 t, axis_smooth_gradient (A := reals) (l * e1, o1) (l * e2, o2) (l * e3, o3)
     (l * t) (l * dsub reals t a) (l * dadd reals t a) =
     axis_smooth_gradient (A := reals) (e1, o1) (e2, o2) (e3, o3) t (dsub reals t a) (dadd reals t a)).
  { intros. apply (axis_smooth_scaled (e1, o1) (e2, o2) (e3, o3)). rsimp. repeat split; lra. }
  destruct (in_bounds (f_dims f) (index_of p (to_grid p (@V reals x y z)))); [|reflexivity].
  repeat match goal with |- context [estimate_distance f p ?u] => destruct (estimate_distance f p u) as [[? ?]| |]; cbn [scaled_estimate bind]; try reflexivity end.
  rewrite !Ax.
  reflexivity.
Qed.

Lemma min_index_scaled a b c : min_index (A := reals) (l * a) (l * b) (l * c) = min_index (A := reals) a b c.
Proof. unfold min_index. rewrite dlt_scaled. destruct (dlt reals b a); cbv iota beta; rewrite dlt_scaled; reflexivity. Qed.

Lemma boundary_scaled v :
  distance_to_boundary f' p' (times l v) = (l * fst (distance_to_boundary f p v), snd (distance_to_boundary f p v)).
Proof.
  unfold distance_to_boundary. rewrite (sc_to_grid _ _ _ _ _ S), (sc_size _ _ _ _ _ S). unfold times. cbn [vx vy vz].
  assert (Sm : forall u0 u, dsub reals (l * u0) (l * u) = l * dsub reals u0 u) by (intros; rsimp; asR; ring).
  rewrite !Sm, !dmin_scaled, !dle0_scaled, !dabs_scaled, !min_index_scaled.
  set (k := min_index _ _ _). cbn [fst snd]. destruct (k =? 0)%Z; [|destruct (k =? 1)%Z]; reflexivity.
Qed.

Lemma into_scaled v md : project_into_valid_volume f' p' (times l v) (l * md) = times l (project_into_valid_volume f p v md).
Proof.
  unfold project_into_valid_volume. rewrite (sc_to_grid _ _ _ _ _ S), (sc_size _ _ _ _ _ S), (sc_res _ _ _ _ _ S).
  replace (dadd reals (l * md) (dmul reals (l * f_res f) (lit reals 1 10000))) with
    (l * dadd reals md (dmul reals (f_res f) (lit reals 1 10000))) by (rsimp; unfold lit; rsimp; asR; ring).
  set (mg := dadd reals md _). assert (Sm : forall u0 u, dsub reals (l * u0) (l * u) = l * dsub reals u0 u) by (intros; rsimp; asR; ring).
  assert (Tx : forall u, vx (times l u) = l * vx u) by reflexivity.
  assert (Ty : forall u, vy (times l u) = l * vy u) by reflexivity.
  assert (Tz : forall u, vz (times l u) = l * vz u) by reflexivity.
  rewrite !Tx, !Ty, !Tz, !Sm, !(sc_clamp _ _ _ _ _ S), !deq_scaled.
  match goal with |- context [if ?b then to_world p _ else v] => destruct b end; [|reflexivity].
  rewrite <- (sc_to_world _ _ _ _ _ S). reflexivity.
Qed.

(** ** Projection out of collision *)
Definition flat_gradient : string := "Encountered flat gradient - stuck".
Definition is_stuck (s : step_result reals) : Prop := s = Failed flat_gradient.

Lemma step_scaled md mult q i e :
  same_outcome l (project_step f p md mult q i e) (project_step f' p' (l * md) mult (times l q) i (l * e)) \/
  is_stuck (project_step f p md mult q i e) \/ is_stuck (project_step f' p' (l * md) mult (times l q) i (l * e)).
Proof.
  unfold project_step. rewrite dle_scaled, aligned_scaled.
  destruct (dle reals e md); [|left; reflexivity].
  destruct (grid_aligned_gradient f i true) as [g|]; [|left; reflexivity].
  destruct (dlt reals (dmul reals (f_res f) (lit reals 1 4)) (norm g)); [|right; left; reflexivity].
  destruct (dlt reals (dmul reals (f_res f') (lit reals 1 4)) (norm g)); [|right; right; reflexivity].
  left. rewrite (sc_res _ _ _ _ _ S).
  replace (dsub reals (dadd reals (l * md) (dmul reals (dmul reals (l * f_res f) mult) (lit reals 1 10000))) (l * e))
    with (l * dsub reals (dadd reals md (dmul reals (dmul reals (f_res f) mult) (lit reals 1 10000))) e) by (rsimp; unfold lit; rsimp; asR; ring).
  replace (dmul reals (l * f_res f) mult) with (l * dmul reals (f_res f) mult) by (rsimp; asR; ring).
  rewrite dmin_scaled. set (st := dmin _ _).
  replace (vadd (times l q) (vscale (normalized g) (l * st))) with (times l (vadd q (vscale (normalized g) st)))
    by (apply vec_ext; unfold times, vadd, vscale; cbn [vx vy vz]; rsimp; asR; ring).
  set (q1 := vadd q _). rewrite (sc_index _ _ _ _ _ S), neighbors_scaled.
  destruct (estimate_from_neighbors f p q1 (index_of p q1)); cbn [rmul same_outcome]; auto.
Qed.

Lemma loop_scaled md mult fuel : forall q i e,
  same_outcome l (project_loop fuel f p md mult q i e) (project_loop fuel f' p' (l * md) mult (times l q) i (l * e)) \/
  is_stuck (project_loop fuel f p md mult q i e) \/ is_stuck (project_loop fuel f' p' (l * md) mult (times l q) i (l * e)).
Proof.
  induction fuel as [|fuel IH]; intros q i e; cbn [project_loop]; [left; cbn; auto|].
  pose proof (step_scaled md mult q i e) as H.
  destruct (project_step f p md mult q i e) as [q1 i1 e1|q1|w1], (project_step f' p' (l * md) mult (times l q) i (l * e)) as [q2 i2 e2|q2|w2];
    cbn [same_outcome] in H.
  - destruct H as [(-> & -> & ->)|[H|H]]; [apply IH|discriminate H|discriminate H].
  - destruct H as [[]|[H|H]]; discriminate H.
  - destruct H as [[]|[H|H]]; [discriminate H|]. right. right. exact H.
  - destruct H as [[]|[H|H]]; discriminate H.
  - destruct H as [->|[H|H]]; [left; reflexivity|discriminate H|discriminate H].
  - destruct H as [[]|[H|H]]; [discriminate H|]. right. right. exact H.
  - destruct H as [[]|[H|H]]; [|discriminate H]. right. left. exact H.
  - destruct H as [[]|[H|H]]; [|discriminate H]. right. left. exact H.
  - destruct H as [->|[H|H]]; [left; reflexivity|right; left; exact H|right; right; exact H].
Qed.

Lemma out_scaled md mult fuel v :
  same_outcome l (project_out fuel f p v md mult) (project_out fuel f' p' (times l v) (l * md) mult) \/
  is_stuck (project_out fuel f p v md mult) \/ is_stuck (project_out fuel f' p' (times l v) (l * md) mult).
Proof.
  unfold project_out. rewrite (sc_to_grid _ _ _ _ _ S), (sc_index _ _ _ _ _ S), (sc_dims _ _ _ _ _ S).
  assert (E : (if in_bounds (f_dims f) (index_of p (to_grid p v)) then times l v else project_into_valid_volume f' p' (times l v) (of_int reals 0)) =
    times l (if in_bounds (f_dims f) (index_of p (to_grid p v)) then v else project_into_valid_volume f p v (of_int reals 0))).
  { destruct (in_bounds (f_dims f) (index_of p (to_grid p v))); [reflexivity|]. rewrite <- into_scaled. f_equal. rsimp. asR. ring. }
  rewrite E. set (v1 := if in_bounds _ _ then _ else _). rewrite (sc_to_grid _ _ _ _ _ S).
  unfold project_out_grid_frame. rewrite (sc_index _ _ _ _ _ S), neighbors_scaled.
  destruct (estimate_from_neighbors f p (to_grid p v1) (index_of p (to_grid p v1))) as [e| |]; cbn [rmul]; try (left; reflexivity).
  pose proof (loop_scaled md mult fuel (to_grid p v1) (index_of p (to_grid p v1)) e) as H.
  destruct (project_loop fuel f p md mult _ _ e) as [q1 i1 e1|q1|w1], (project_loop fuel f' p' (l * md) mult _ _ (l * e)) as [q2 i2 e2|q2|w2];
    cbn [same_outcome] in *; try (destruct H as [[]|[H|H]]; discriminate H); auto.
  - destruct H as [->|[H|H]]; [|discriminate H|discriminate H]. left. apply (sc_to_world _ _ _ _ _ S).
  - destruct H as [[]|[H|H]]; [discriminate H|]. right. right. exact H.
  - destruct H as [[]|[H|H]]; [|discriminate H]. right. left. exact H.
Qed.
End Scale.

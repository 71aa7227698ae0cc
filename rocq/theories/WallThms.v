(** Projection out of collision in the field of a flat wall. *)
From Coq Require Import Reals Lra Psatz.
From Verif Require Import Base BaseFacts Floats Grid GridFacts Arith SdfQuery QuerySpec QueryProofs QueryReal QueryThms WallSpec.
Open Scope R_scope.

Definition moved (q n : rvec) (t : R) : rvec := vadd q (vscale n t).

(** The locations whose index is in the grid. *)
Lemma in_volume r p d q : 0 < r -> geometry r p ->
  (in_bounds d (index_of p q) = true <->
   0 <= vx q < r * IZR (nx d) /\ 0 <= vy q < r * IZR (ny d) /\ 0 <= vz q < r * IZR (nz d)).
Proof.
  intros Hr G. rewrite in_bounds_spec.
  assert (K : forall i n v, r * IZR i <= v < r * (IZR i + 1) -> ((0 <= i < n)%Z <-> 0 <= v < r * IZR n)).
  { intros i n v (V1 & V2). split; intros (A & B).
    - apply IZR_le in A. assert (i + 1 <= n)%Z as B' by lia. apply IZR_le in B'. rewrite plus_IZR in B'. split; nra.
    - split.
      + assert (IZR 0 < IZR (i + 1)) as L; [|apply lt_IZR in L; lia]. rewrite plus_IZR.
        apply Rmult_lt_reg_l with r; auto. lra.
      + apply lt_IZR. apply Rmult_lt_reg_l with r; auto. lra. }
  rewrite (K _ (nx d) _ (g_index_x _ _ G q)), (K _ (ny d) _ (g_index_y _ _ G q)), (K _ (nz d) _ (g_index_z _ _ G q)).
  tauto.
Qed.

Lemma in_volume_between r p d q n s t : 0 < r -> geometry r p ->
  in_bounds d (index_of p q) = true -> in_bounds d (index_of p (moved q n t)) = true -> 0 <= s <= t ->
  in_bounds d (index_of p (moved q n s)) = true.
Proof.
  intros Hr G. rewrite !(in_volume r p d) by auto. unfold moved, vadd, vscale. cbn [vx vy vz]. rsimp.
  intros (X & Y & Z0) (X' & Y' & Z') S.
  assert (K : forall v w h, 0 <= v < h -> 0 <= v + w * t < h -> 0 <= v + w * s < h).
  { intros v w h A B. destruct (Rle_dec 0 w); split; nra. }
  split; [|split]; eapply K; eauto.
Qed.

Lemma archimed_cor v : exists m : nat, v <= INR (S m).
Proof.
  exists (Z.to_nat (up v)). pose proof (archimed v) as (U & _). rewrite S_INR.
  destruct (Z.le_gt_cases 0 (up v)) as [P|P].
  - rewrite INR_IZR_INZ, Z2Nat.id by auto. lra.
  - apply IZR_lt in P. pose proof (pos_INR (Z.to_nat (up v))). lra.
Qed.

Lemma moved_moved q n s t : moved (moved q n s) n t = moved q n (s + t).
Proof. unfold moved, vadd, vscale. cbn [vx vy vz]. rsimp. apply vec_ext; cbn [vx vy vz]; asR; ring. Qed.

Section Slope.
Variables (f : rfield) (p : pose reals) (n : rvec) (c : R).
Let r := f_res f.
Let d := f_dims f.
Hypothesis Hr : 0 < r.
Hypothesis G : geometry r p.
Hypothesis Hn : length_squared n = 1.
Hypothesis Haxes : (nx d = 1%Z -> vx n = 0) /\ (ny d = 1%Z -> vy n = 0) /\ (nz d = 1%Z -> vz n = 0).
Hypothesis Hc : forall j, in_bounds d j = true -> centered_value f j = c + dot n (center_of p j).
Hypothesis Hg : forall j, in_bounds d j = true -> exists g, r / 4 < g /\ grid_aligned_gradient f j true = Some (vscale n g).

Let height (q : rvec) : R := c + dot n q.

Lemma slope_estimate q : in_bounds d (index_of p q) = true ->
  estimate_from_neighbors f p q (index_of p q) = Ok (height q).
Proof.
  intros B. destruct Haxes as (A1 & A2 & A3).
  pose proof (estimate_affine f p q c (vx n) (vy n) (vz n) Hr G B A1 A2 A3) as E.
  assert (H : forall j, in_bounds (f_dims f) j = true -> centered_value f j =
     c + vx n * vx (center_of p j) + vy n * vy (center_of p j) + vz n * vz (center_of p j)).
  { intros j Hj. rewrite (Hc j Hj). unfold dot. ring. }
  specialize (E H). unfold estimate_distance in E. rewrite (g_there_and_back _ _ G) in E. fold d in E. rewrite B in E.
  destruct (estimate_from_neighbors f p q (index_of p q)) as [e| |]; try discriminate.
  cbn [bind] in E. injection E as E. rewrite E. f_equal. unfold height, dot. asR. ring.
Qed.

Lemma height_moved q t : height (moved q n t) = height q + t.
Proof.
  unfold height, moved, vadd, vscale, dot. cbn [vx vy vz]. rsimp. pose proof Hn as N. unfold length_squared in N.
  replace (c + (vx n * (vx q + vx n * t) + vy n * (vy q + vy n * t) + vz n * (vz q + vz n * t)))
    with (c + (vx n * vx q + vy n * vy q + vz n * vz q) + (vx n * vx n + vy n * vy n + vz n * vz n) * t) by ring.
  rewrite N. ring.
Qed.

Lemma norm_scaled g : 0 < g -> norm (vscale n g) = g.
Proof.
  intros H. unfold norm, squared_norm, vscale. cbn [vx vy vz]. rsimp. pose proof Hn as N. unfold length_squared in N.
  replace (vx n * g * (vx n * g) + (vy n * g * (vy n * g) + vz n * g * (vz n * g)))
    with ((vx n * vx n + vy n * vy n + vz n * vz n) * (g * g)) by ring.
  rewrite N, Rmult_1_l. apply sqrt_square. lra.
Qed.

Lemma normalized_scaled g : 0 < g -> normalized (vscale n g) = n.
Proof.
  intros H. pose proof (norm_scaled g H) as E. unfold norm in E. unfold normalized. rsimp.
  assert (P : 0 < squared_norm (vscale n g)).
  { destruct (Rle_lt_dec (squared_norm (vscale n g)) 0) as [L|L]; [|exact L]. rewrite sqrt_neg_0 in E by auto. lra. }
  destruct (Rlt_dec 0 (squared_norm (vscale n g))) as [_|N]; [|contradiction].
  rewrite E. apply vec_ext; cbn [vx vy vz vscale]; rsimp; asR; field; lra.
Qed.

Section Loop.
Variables (md mult : R).
Hypothesis Hm : 0 < mult.

Definition step_size (h : R) : R := Rmin (r * mult) (md + r * mult / 10000 - h).

Lemma slope_step q : in_bounds d (index_of p q) = true -> height q <= md ->
  project_step f p md mult q (index_of p q) (height q) =
  (let q' := moved q n (step_size (height q)) in
   if in_bounds d (index_of p q') then Running q' (index_of p q') (height q') else Failed "Index out of bounds").
Proof.
  intros B Hd. unfold project_step. rsimp. destruct (Rle_dec (height q) md) as [_|]; [|contradiction].
  destruct (Hg _ B) as (g & Gg & ->). assert (0 < g) by lra.
  rewrite norm_scaled, normalized_scaled by auto. unfold lit. rsimp.
  destruct (Rlt_dec (f_res f * (1 / 4)) g) as [_|N]; [|exfalso; apply N; fold r; lra].
  replace (md + f_res f * mult * (1 / 10000)) with (md + r * mult / 10000) by (unfold r; field).
  rewrite dmin_real. fold r. fold (step_size (height q)). fold (moved q n (step_size (height q))). cbv zeta.
  destruct (in_bounds d (index_of p (moved q n (step_size (height q))))) eqn:B'.
  - rewrite slope_estimate by auto. reflexivity.
  - rewrite (estimate_inb f p _ _ B'). reflexivity.
Qed.

Lemma slope_loop m : forall q, in_bounds d (index_of p q) = true -> height q <= md ->
  md + r * mult / 10000 - height q <= INR (S m) * (r * mult) ->
  exists t, md < height q + t <= md + r * mult / 10000 /\
    forall fuel, (m + 2 <= fuel)%nat ->
      project_loop fuel f p md mult q (index_of p q) (height q) =
      if in_bounds d (index_of p (moved q n t)) then Finished (moved q n t) else Failed "Index out of bounds".
Proof.
  assert (Hrm : 0 < r * mult) by nra.
  assert (Done : forall fuel q, md < height q -> project_loop (S fuel) f p md mult q (index_of p q) (height q) = Finished q).
  { intros fuel q H. cbn [project_loop]. unfold project_step. rsimp. destruct (Rle_dec (height q) md); [lra|]. reflexivity. }
  induction m as [|m IH]; intros q B Hd Hm'.
  - exists (step_size (height q)). assert (E : step_size (height q) = md + r * mult / 10000 - height q).
    { unfold step_size. apply Rmin_right. cbn [INR] in Hm'. lra. }
    split; [rewrite E; lra|]. intros [|fuel] Hf; [lia|]. cbn [project_loop]. rewrite slope_step by auto. cbv zeta.
    destruct (in_bounds d (index_of p (moved q n (step_size (height q))))); [|reflexivity].
    destruct fuel; [lia|]. apply Done. rewrite height_moved, E. lra.
  - set (s := step_size (height q)).
    assert (Hs : 0 < s /\ (s = r * mult \/ s = md + r * mult / 10000 - height q) /\ s <= md + r * mult / 10000 - height q).
    { unfold s, step_size. unfold Rmin. destruct (Rle_dec _ _); repeat split; auto; lra. }
    destruct Hs as (Hs & Cs & Ls). pose proof (height_moved q s) as Hh.
    destruct (in_bounds d (index_of p (moved q n s))) eqn:B'.
    + destruct (Rle_lt_dec (height (moved q n s)) md) as [L|L].
      * destruct (IH (moved q n s) B' L) as (t & Ht & Hf).
        { rewrite Hh. destruct Cs as [Cs|Cs].
          - rewrite Cs. rewrite S_INR in Hm'. lra.
          - rewrite Hh, Cs in L. lra. }
        exists (s + t). split; [rewrite Hh in Ht; lra|]. intros [|fuel] F; [lia|]. cbn [project_loop].
        rewrite slope_step by auto. cbv zeta. fold s. rewrite B'. rewrite Hf by lia. rewrite moved_moved. reflexivity.
      * exists s. split; [rewrite Hh in L; lra|]. intros [|fuel] F; [lia|]. cbn [project_loop].
        rewrite slope_step by auto. cbv zeta. fold s. rewrite B'. destruct fuel; [lia|]. apply Done. exact L.
    + exists (md + r * mult / 10000 - height q). split; [lra|]. intros [|fuel] F; [lia|]. cbn [project_loop].
      rewrite slope_step by auto. cbv zeta. fold s. rewrite B'.
      destruct (in_bounds d (index_of p (moved q n (md + r * mult / 10000 - height q)))) eqn:B2; [|reflexivity].
      exfalso. assert (in_bounds d (index_of p (moved q n s)) = true); [|congruence].
      apply (in_volume_between r p d q n s (md + r * mult / 10000 - height q)); auto. lra.
Qed.

Lemma slope_projection loc e : estimate_distance f p loc = Ok (e, true) -> e <= md ->
  exists t passes, md < e + t <= md + r * mult / 10000 /\
    forall fuel, (passes <= fuel)%nat ->
      project_out fuel f p loc md mult =
      if in_bounds d (index_of p (moved (to_grid p loc) n t))
      then Finished (to_world p (moved (to_grid p loc) n t)) else Failed "Index out of bounds".
Proof.
  intros E He. assert (Hrm : 0 < r * mult) by nra.
  unfold estimate_distance in E. fold d in E. destruct (in_bounds d (index_of p (to_grid p loc))) eqn:B; [|discriminate].
  rewrite slope_estimate in E by auto. cbn [bind] in E. injection E as E.
  destruct (archimed_cor (( md + r * mult / 10000 - e) / (r * mult))) as (m & Hm').
  destruct (slope_loop m (to_grid p loc) B) as (t & Ht & Hf).
  { lra. }
  { rewrite E. apply (Rmult_le_compat_r (r * mult)) in Hm'; [|lra]. unfold Rdiv in Hm'. rewrite Rmult_assoc, Rinv_l in Hm' by lra. lra. }
  exists t, (m + 2)%nat. split; [lra|]. intros fuel F. unfold project_out. fold d. rewrite B.
  unfold project_out_grid_frame. rewrite slope_estimate by auto. rewrite Hf by auto.
  destruct (in_bounds d (index_of p (moved (to_grid p loc) n t))); reflexivity.
Qed.
End Loop.
End Slope.

(** ** The field of a wall *)

Lemma wall_value_step r k lo hi : 0 < r -> (lo <= hi)%Z ->
  r * IZR (hi - lo) <= wall_value r k hi - wall_value r k lo <= r * IZR (hi - lo) + r.
Proof.
  intros Hr L. unfold wall_value. destruct (Z.ltb_spec hi k), (Z.ltb_spec lo k); try lia;
    rewrite ?minus_IZR, ?plus_IZR; nra.
Qed.

Lemma wall_centered (f : rfield) p a low k : 0 < f_res f -> geometry (f_res f) p -> wall_field f a low k ->
  exists c, forall j, in_bounds (f_dims f) j = true -> centered_value f j = c + dot (outward a low) (center_of p j).
Proof.
  intros Hr G (Hk & Hv).
  exists (f_res f * (if low then - IZR k else IZR (cells_along a (f_dims f)) - IZR k)). intros j Hj.
  assert (E : centered_value f j = f_res f * (IZR (depth a low (f_dims f) j) + 1/2 - IZR k)).
  { unfold centered_value. rewrite (Hv j Hj). unfold wall_value. destruct (Z.ltb_spec (depth a low (f_dims f) j) k) as [L|L].
    - apply IZR_lt in L. rewrite minus_IZR. destruct (Rle_dec _ _) as [N|_]; [exfalso; nra|]. field.
    - apply IZR_le in L. rewrite minus_IZR, plus_IZR. destruct (Rle_dec _ _) as [_|N]; [field|exfalso; apply N; nra]. }
  rewrite E, (g_center _ _ G). unfold dot, outward, depth.
  destruct a, low; cbn [coordinate cells_along vx vy vz]; rewrite ?minus_IZR; field.
Qed.

Lemma wall_central (f : rfield) u v g : 0 < f_res f -> value f u - value f v = g * (2 * f_res f) ->
  central (A := reals) f u v = g.
Proof. intros Hr E. unfold central. rsimp. rewrite E. field. lra. Qed.

Lemma wall_one_sided (f : rfield) lo hi at_ g : 0 < f_res f -> (lo < hi)%Z ->
  value f (at_ hi) - value f (at_ lo) = g * (IZR (hi - lo) * f_res f) -> one_sided (A := reals) f lo hi at_ = g.
Proof.
  intros Hr L E. unfold one_sided. rsimp. rewrite E. assert (0 < IZR (hi - lo)) by (apply IZR_lt; lia).
  destruct (Rlt_dec _ _) as [_|N]; [|exfalso; apply N; nra]. field. split; lra.
Qed.

Lemma wall_one_sided_flat (f : rfield) lo hi at_ : 0 < f_res f ->
  value f (at_ hi) = value f (at_ lo) -> one_sided (A := reals) f lo hi at_ = 0.
Proof. intros Hr E. unfold one_sided. rsimp. rewrite E. destruct (Rlt_dec _ _); [ring|reflexivity]. Qed.

Lemma wall_pair (f : rfield) a low k u v : 0 < f_res f -> wall_field f a low k ->
  in_bounds (f_dims f) u = true -> in_bounds (f_dims f) v = true -> (coordinate a v < coordinate a u)%Z ->
  exists g, 1 <= g <= 2 /\
    value f u - value f v = (if low then g else - g) * (IZR (coordinate a u - coordinate a v) * f_res f).
Proof.
  intros Hr (Hk & Hv) Bu Bv L. rewrite (Hv u Bu), (Hv v Bv). set (m := (coordinate a u - coordinate a v)%Z).
  assert (Hm : 1 <= IZR m) by (apply (IZR_le 1); lia).
  assert (St : exists w, f_res f * IZR m <= w <= f_res f * IZR m + f_res f /\
     wall_value (f_res f) k (depth a low (f_dims f) u) - wall_value (f_res f) k (depth a low (f_dims f) v) = (if low then w else - w)).
  { unfold depth. destruct low.
    - pose proof (wall_value_step (f_res f) k (coordinate a v) (coordinate a u) Hr ltac:(lia)) as S. fold m in S.
      eexists. split; [exact S|reflexivity].
    - pose proof (wall_value_step (f_res f) k (cells_along a (f_dims f) - 1 - coordinate a u)
        (cells_along a (f_dims f) - 1 - coordinate a v) Hr ltac:(lia)) as S.
      replace (cells_along a (f_dims f) - 1 - coordinate a v - (cells_along a (f_dims f) - 1 - coordinate a u))%Z with m in S by (unfold m; ring).
      eexists. split; [exact S|]. ring. }
  destruct St as (w & Hw & ->). exists (w / (IZR m * f_res f)).
  assert (P : 0 < IZR m * f_res f) by nra. split.
  - split.
    + apply Rmult_le_reg_r with (IZR m * f_res f); auto. unfold Rdiv. rewrite Rmult_assoc, Rinv_l by lra. lra.
    + apply Rmult_le_reg_r with (IZR m * f_res f); auto. unfold Rdiv. rewrite Rmult_assoc, Rinv_l by lra. nra.
  - destruct low; field; split; lra.
Qed.

Lemma wall_flat (f : rfield) a low k u v : wall_field f a low k ->
  in_bounds (f_dims f) u = true -> in_bounds (f_dims f) v = true -> coordinate a v = coordinate a u -> value f u = value f v.
Proof. intros (Hk & Hv) Bu Bv E. rewrite (Hv u Bu), (Hv v Bv). unfold depth. rewrite E. reflexivity. Qed.

Lemma wall_gradient (f : rfield) a low k j : 0 < f_res f -> wall_field f a low k -> in_bounds (f_dims f) j = true ->
  exists g, 1 <= g <= 2 /\ grid_aligned_gradient f j true = Some (vscale (outward a low) g).
Proof.
  intros Hr W B. pose proof W as (Hk & _). unfold grid_aligned_gradient. destruct j as [x y z]. rewrite B.
  apply in_bounds_spec in B. cbn [ix iy iz] in B.
  assert (In_ : forall s t w, (0 <= s < nx (f_dims f) -> 0 <= t < ny (f_dims f) -> 0 <= w < nz (f_dims f) -> in_bounds (f_dims f) (I s t w) = true)%Z).
  { intros. apply in_bounds_spec. cbn. auto. }
  assert (Z2 : IZR 2 = 2) by reflexivity.
  destruct (interior (f_dims f) (I x y z)) eqn:Ei.
  - apply interior_spec in Ei. unfold strictly_inside in Ei. cbn [ix iy iz] in Ei.
    assert (Fl : forall u v, value f u = value f v -> central (A := reals) f u v = 0).
    { intros u v E. apply wall_central; auto. rewrite E. ring. }
    destruct a.
    + destruct (wall_pair f AlongX low k (I (x + 1) y z) (I (x - 1) y z) Hr W) as (g & Hg & E); try (apply In_; lia); [cbn; lia|].
      exists g. split; [exact Hg|]. f_equal. cbn [coordinate ix] in E. replace (x + 1 - (x - 1))%Z with 2%Z in E by lia.
      rewrite (wall_central f _ _ _ Hr E), !Fl by (apply (wall_flat f AlongX low k); auto; apply In_; lia).
      apply vec_ext; destruct low; cbn [vx vy vz vscale outward]; rsimp; asR; ring.
    + destruct (wall_pair f AlongY low k (I x (y + 1) z) (I x (y - 1) z) Hr W) as (g & Hg & E); try (apply In_; lia); [cbn; lia|].
      exists g. split; [exact Hg|]. f_equal. cbn [coordinate iy] in E. replace (y + 1 - (y - 1))%Z with 2%Z in E by lia.
      rewrite (wall_central f _ _ _ Hr E), !Fl by (apply (wall_flat f AlongY low k); auto; apply In_; lia).
      apply vec_ext; destruct low; cbn [vx vy vz vscale outward]; rsimp; asR; ring.
    + destruct (wall_pair f AlongZ low k (I x y (z + 1)) (I x y (z - 1)) Hr W) as (g & Hg & E); try (apply In_; lia); [cbn; lia|].
      exists g. split; [exact Hg|]. f_equal. cbn [coordinate iz] in E. replace (z + 1 - (z - 1))%Z with 2%Z in E by lia.
      rewrite (wall_central f _ _ _ Hr E), !Fl by (apply (wall_flat f AlongZ low k); auto; apply In_; lia).
      apply vec_ext; destruct low; cbn [vx vy vz vscale outward]; rsimp; asR; ring.
  - unfold low_index, high_index. destruct a; cbn [cells_along] in Hk.
    + destruct (wall_pair f AlongX low k (I (Z.min (nx (f_dims f) - 1) (x + 1)) y z) (I (Z.max 0 (x - 1)) y z) Hr W) as (g & Hg & E);
        try (apply In_; lia); [cbn; lia|].
      exists g. split; [exact Hg|]. f_equal. cbn [coordinate ix] in E.
      rewrite (wall_one_sided f (Z.max 0 (x - 1)) (Z.min (nx (f_dims f) - 1) (x + 1)) (fun x' => I x' y z) _ Hr ltac:(lia) E),
        !wall_one_sided_flat by (auto; apply (wall_flat f AlongX low k); auto; apply In_; lia).
      apply vec_ext; destruct low; cbn [vx vy vz vscale outward]; rsimp; asR; ring.
    + destruct (wall_pair f AlongY low k (I x (Z.min (ny (f_dims f) - 1) (y + 1)) z) (I x (Z.max 0 (y - 1)) z) Hr W) as (g & Hg & E);
        try (apply In_; lia); [cbn; lia|].
      exists g. split; [exact Hg|]. f_equal. cbn [coordinate iy] in E.
      rewrite (wall_one_sided f (Z.max 0 (y - 1)) (Z.min (ny (f_dims f) - 1) (y + 1)) (fun y' => I x y' z) _ Hr ltac:(lia) E),
        !wall_one_sided_flat by (auto; apply (wall_flat f AlongY low k); auto; apply In_; lia).
      apply vec_ext; destruct low; cbn [vx vy vz vscale outward]; rsimp; asR; ring.
    + destruct (wall_pair f AlongZ low k (I x y (Z.min (nz (f_dims f) - 1) (z + 1))) (I x y (Z.max 0 (z - 1))) Hr W) as (g & Hg & E);
        try (apply In_; lia); [cbn; lia|].
      exists g. split; [exact Hg|]. f_equal. cbn [coordinate iz] in E.
      rewrite (wall_one_sided f (Z.max 0 (z - 1)) (Z.min (nz (f_dims f) - 1) (z + 1)) (fun z' => I x y z') _ Hr ltac:(lia) E),
        !wall_one_sided_flat by (auto; apply (wall_flat f AlongZ low k); auto; apply In_; lia).
      apply vec_ext; destruct low; cbn [vx vy vz vscale outward]; rsimp; asR; ring.
Qed.

Lemma outward_unit a low : length_squared (outward a low) = 1.
Proof. destruct a, low; unfold length_squared, outward; cbn [vx vy vz]; ring. Qed.

Lemma outward_axes (f : rfield) a low k : wall_field f a low k ->
  (nx (f_dims f) = 1%Z -> vx (outward a low) = 0) /\ (ny (f_dims f) = 1%Z -> vy (outward a low) = 0) /\
  (nz (f_dims f) = 1%Z -> vz (outward a low) = 0).
Proof. intros (Hk & _). destruct a; cbn [cells_along outward vx vy vz] in *; repeat split; auto; intros; lia. Qed.

(** With cells of side below 4 the projection out of a wall ends, just beyond the
    distance asked for, straight out of the wall. *)
Lemma wall_projection (f : rfield) p a low k loc md mult e :
  0 < f_res f < 4 -> geometry (f_res f) p -> wall_field f a low k -> 0 < mult ->
  estimate_distance f p loc = Ok (e, true) -> e <= md ->
  exists t passes, md < e + t <= md + f_res f * mult / 10000 /\
    forall fuel, (passes <= fuel)%nat ->
      project_out fuel f p loc md mult =
      let target := vadd (to_grid p loc) (vscale (outward a low) t) in
      if in_bounds (f_dims f) (index_of p target) then Finished (to_world p target) else Failed "Index out of bounds".
Proof.
  intros (Hr & H4) G W Hm E He. destruct (wall_centered f p a low k Hr G W) as (c & Hc).
  apply (slope_projection f p (outward a low) c Hr G (outward_unit a low) (outward_axes f a low k W) Hc); auto.
  intros j Hj. destruct (wall_gradient f a low k j Hr W Hj) as (g & Hg & Eg). exists g. split; [lra|exact Eg].
Qed.

(** With cells of side 8 or more it fails from every point it should move. *)
Lemma wall_stuck (f : rfield) p a low k loc md mult e fuel :
  8 <= f_res f -> geometry (f_res f) p -> wall_field f a low k ->
  estimate_distance f p loc = Ok (e, true) -> e <= md ->
  project_out (S fuel) f p loc md mult = Failed "Encountered flat gradient - stuck".
Proof.
  intros H8 G W E He. unfold estimate_distance in E.
  destruct (in_bounds (f_dims f) (index_of p (to_grid p loc))) eqn:B; [|discriminate].
  unfold project_out. rewrite B. unfold project_out_grid_frame.
  destruct (estimate_from_neighbors f p (to_grid p loc) (index_of p (to_grid p loc))) as [v| |]; try discriminate.
  cbn [bind] in E. injection E as ->. cbn [project_loop]. unfold project_step. rsimp.
  destruct (Rle_dec e md) as [_|]; [|contradiction].
  destruct (wall_gradient f a low k _ ltac:(lra) W B) as (g & Hg & ->).
  rewrite (norm_scaled (outward a low) (outward_unit a low) g) by lra. unfold lit. rsimp.
  destruct (Rlt_dec _ _) as [L|_]; [exfalso; lra|]. reflexivity.
Qed.

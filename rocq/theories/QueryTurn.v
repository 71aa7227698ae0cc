(** Gradients in the world frame. *)
From Coq Require Import Lia Reals Lra.
From Verif Require Import Base BaseFacts Grid GridFacts Arith SdfQuery QuerySpec QueryProofs QueryReal QueryThms.
Open Scope R_scope.

Ltac vunfold := unfold dot, vadd, turn, length_squared, rotate, qmul, qinv in *.

Lemma rotate_turn (p : pose reals) g :
  rot_w p * rot_w p + length_squared (rot_v p) = 1 -> rotate p g = turn (rot_w p) (rot_v p) g.
Proof.
  vunfold. destruct (rot_v p) as [x y z]. destruct g as [a b c]. generalize (rot_w p) as w. intros w.
  cbn [vx vy vz qv qw]. rsimp. cbn [vx vy vz qv qw]. intros H.
  assert (E : x * x + y * y + z * z + w * w = 1) by lra. rewrite E.
  destruct (Rlt_dec 0 1); [|lra]. cbn [vx vy vz qv qw].
  assert (W : w * w = 1 - x * x - y * y - z * z) by lra.
  f_equal; asR; unfold Rdiv; rewrite Rinv_1; ring_simplify;
    replace (w ^ 2) with (1 - x * x - y * y - z * z) by (rewrite <- W; ring); ring.
Qed.

(** The components of [n] along the turned axes. *)
Definition along (p : pose reals) (n : rvec) : rvec :=
  @V reals (dot n (turn (rot_w p) (rot_v p) (@V reals 1 0 0)))
           (dot n (turn (rot_w p) (rot_v p) (@V reals 0 1 0)))
           (dot n (turn (rot_w p) (rot_v p) (@V reals 0 0 1))).

Lemma turn_along (p : pose reals) n :
  rot_w p * rot_w p + length_squared (rot_v p) = 1 -> turn (rot_w p) (rot_v p) (along p n) = n.
Proof.
  unfold along. vunfold. destruct (rot_v p) as [x y z]. destruct n as [a b c]. generalize (rot_w p) as w. intros w.
  cbn [vx vy vz]. rsimp. intros H.
  assert (W : w * w = 1 - x * x - y * y - z * z) by lra.
  assert (W2 : w ^ 2 = 1 - x * x - y * y - z * z) by (rewrite <- W; ring).
  assert (W3 : forall t : R, w * (w * t) = (1 - x * x - y * y - z * z) * t) by (intros; rewrite <- W; ring).
  f_equal; asR; ring_simplify; rewrite W2; ring.
Qed.

Lemma dot_world (p : pose reals) t n q : rigid p t ->
  dot n (to_world p q) = dot n t + dot (along p n) q.
Proof.
  intros [_ Hw]. rewrite Hw. unfold along. vunfold. destruct (rot_v p) as [x y z], n as [a b c], q as [u v w'], t as [t1 t2 t3].
  generalize (rot_w p) as w. intros w. cbn [vx vy vz]. rsimp. ring.
Qed.

Lemma world_gradient (f : rfield) p t c n i edges :
  0 < f_res f -> geometry (f_res f) p -> rigid p t -> within_axes (f_dims f) p n ->
  (forall j, in_bounds (f_dims f) j = true -> value f j = c + dot n (to_world p (center_of p j))) ->
  in_bounds (f_dims f) i = true -> edges = true \/ strictly_inside (f_dims f) i ->
  gradient f p i edges = Some n.
Proof.
  intros Hr G Rg Ax H B E.
  set (m := along p n). set (r := f_res f) in *.
  assert (Af : affine_values f (c + dot n t + (vx m + vy m + vz m) * r / 2) (vx m * r) (vy m * r) (vz m * r)).
  { intros j Bj. rewrite (H j Bj), (dot_world p t n _ Rg), (g_center _ _ G). fold m. unfold dot. cbn [vx vy vz].
    rsimp. field. }
  unfold gradient. rewrite (affine_gradient f _ _ _ _ i edges Hr Af B E).
  rewrite (rotate_turn p _ (rigid_unit _ _ Rg)). f_equal.
  rewrite <- (turn_along p n (rigid_unit _ _ Rg)). f_equal. fold m.
  destruct Ax as (A1 & A2 & A3). fold r.
  assert (K : forall v, v * r / r = v) by (intros; field; lra). unfold slope. rewrite !K.
  assert (M1 : nx (f_dims f) = 1%Z -> vx m = 0) by exact A1.
  assert (M2 : ny (f_dims f) = 1%Z -> vy m = 0) by exact A2.
  assert (M3 : nz (f_dims f) = 1%Z -> vz m = 0) by exact A3.
  destruct m as [m1 m2 m3]. cbn [vx vy vz] in *.
  destruct (Z.eqb_spec (nx (f_dims f)) 1) as [e1|_]; [rewrite (M1 e1)|];
  (destruct (Z.eqb_spec (ny (f_dims f)) 1) as [e2|_]; [rewrite (M2 e2)|]);
  (destruct (Z.eqb_spec (nz (f_dims f)) 1) as [e3|_]; [rewrite (M3 e3)|]); reflexivity.
Qed.

Lemma world_estimate (f : rfield) p t c n loc :
  0 < f_res f -> geometry (f_res f) p -> rigid p t -> within_axes (f_dims f) p n ->
  (forall j, in_bounds (f_dims f) j = true -> centered_value f j = c + dot n (to_world p (center_of p j))) ->
  in_bounds (f_dims f) (index_of p (to_grid p loc)) = true ->
  estimate_distance f p loc = Ok (c + dot n loc, true).
Proof.
  intros Hr G Rg (A1 & A2 & A3) H B.
  rewrite <- (g_back_and_there _ _ G loc) at 1.
  rewrite (estimate_affine f p (to_grid p loc) (c + dot n t) (vx (along p n)) (vy (along p n)) (vz (along p n))); auto.
  - apply f_equal, f_equal2; auto.
    transitivity (c + dot n (to_world p (to_grid p loc))); [|rewrite (g_back_and_there _ _ G); reflexivity].
    rewrite (dot_world p t n _ Rg). unfold dot at 3. rsimp. ring.
  - intros j Bj. rewrite (H j Bj), (dot_world p t n _ Rg). unfold dot at 2. rsimp. ring.
Qed.

Lemma axis_smooth_affine (pt mi pl : R * bool) v vm vp k g :
  snd pt = true -> vm < v < vp ->
  (snd mi = true -> fst pt - fst mi = k * (v - vm)) ->
  (snd pl = true -> fst pl - fst pt = k * (vp - v)) ->
  axis_smooth_gradient (A := reals) pt mi pl v vm vp = Ok g -> g = k.
Proof.
  destruct pt as [e0 []], mi as [e1 b1], pl as [e2 b2]; cbn [fst snd]; intros Hp V H1 H2; [|discriminate Hp].
  unfold axis_smooth_gradient. cbn [fst snd andb]. rsimp.
  destruct b1, b2; cbn [andb].
  - intros [= <-]. specialize (H1 eq_refl). specialize (H2 eq_refl).
    replace (e2 - e1) with (k * (vp - vm)) by lra. field. lra.
  - intros [= <-]. rewrite (H1 eq_refl). field. lra.
  - intros [= <-]. rewrite (H2 eq_refl). field. lra.
  - discriminate.
Qed.

Lemma smooth_affine (f : rfield) p t c n loc w g :
  0 < f_res f -> geometry (f_res f) p -> rigid p t -> within_axes (f_dims f) p n ->
  (forall j, in_bounds (f_dims f) j = true -> centered_value f j = c + dot n (to_world p (center_of p j))) ->
  w <> 0 -> smooth_gradient f p loc w = Ok (Some g) -> g = n.
Proof.
  intros Hr G Rg Ax H Hw. destruct loc as [x y z]. unfold smooth_gradient.
  assert (Hb : 0 < Rabs w) by (apply Rabs_pos_lt; exact Hw).
  change (dabs reals w) with (Rabs w). set (a := Rabs w) in *.
  destruct (in_bounds (f_dims f) (index_of p (to_grid p (@V reals x y z)))) eqn:B; [|discriminate].
  assert (K : forall loc, exists e, estimate_distance f p loc = Ok e /\ (snd e = true -> fst e = c + dot n loc)).
  { intros l. destruct (estimate_distance_spec f p l) as (S1 & S2).
    destruct (in_bounds (f_dims f) (index_of p (to_grid p l))) eqn:Bl.
    - exists (c + dot n l, true). split; auto. apply (world_estimate f p t c n); auto.
    - exists (widen reals (goob (f_grid f)), false). split; auto. discriminate. }
  rewrite (world_estimate f p t c n (@V reals x y z) Hr G Rg Ax H B). cbn [bind].
  destruct (K (@V reals (x - a) y z)) as (e1 & E1 & F1).
  destruct (K (@V reals (x + a) y z)) as (e2 & E2 & F2).
  destruct (K (@V reals x (y - a) z)) as (e3 & E3 & F3).
  destruct (K (@V reals x (y + a) z)) as (e4 & E4 & F4).
  destruct (K (@V reals x y (z - a))) as (e5 & E5 & F5).
  destruct (K (@V reals x y (z + a))) as (e6 & E6 & F6).
  change (dsub reals) with Rminus. change (dadd reals) with Rplus.
  rewrite E1, E2, E3, E4, E5, E6. cbn [bind].
  destruct (axis_smooth_gradient _ e1 e2 x (x - a) (x + a)) as [gx|?|?] eqn:X; try (cbn; discriminate). cbn [bind].
  destruct (axis_smooth_gradient _ e3 e4 y (y - a) (y + a)) as [gy|?|?] eqn:Y; try (cbn; discriminate). cbn [bind].
  destruct (axis_smooth_gradient _ e5 e6 z (z - a) (z + a)) as [gz|?|?] eqn:Z; try (cbn; discriminate). cbn [bind].
  intros [= <-]. destruct n as [n1 n2 n3]. unfold dot in *. cbn [vx vy vz] in *. rsimp.
  apply axis_smooth_affine with (k := n1) in X; [|reflexivity|lra| |];
    [|intros T; cbn [fst]; rewrite (F1 T); ring|intros T; cbn [fst]; rewrite (F2 T); ring].
  apply axis_smooth_affine with (k := n2) in Y; [|reflexivity|lra| |];
    [|intros T; cbn [fst]; rewrite (F3 T); ring|intros T; cbn [fst]; rewrite (F4 T); ring].
  apply axis_smooth_affine with (k := n3) in Z; [|reflexivity|lra| |];
    [|intros T; cbn [fst]; rewrite (F5 T); ring|intros T; cbn [fst]; rewrite (F6 T); ring].
  subst. reflexivity.
Qed.

(** ** A turned grid *)
Definition turned_pose (r w : R) (u t : rvec) : pose reals := Pose (A := reals)
  (fun q => turn w (@V reals (- vx u) (- vy u) (- vz u)) (vsub q t)) (fun q => vadd t (turn w u q))
  (index_of (plain_pose r)) (center_of (plain_pose r)) (clamp (plain_pose r)) w u.

Lemma turn_back w (u q : rvec) : w * w + length_squared u = 1 ->
  turn w (@V reals (- vx u) (- vy u) (- vz u)) (turn w u q) = q /\
  turn w u (turn w (@V reals (- vx u) (- vy u) (- vz u)) q) = q.
Proof.
  vunfold. destruct u as [x y z]. destruct q as [a b c]. cbn [vx vy vz]. rsimp. intros H.
  assert (W : w * w = 1 - x * x - y * y - z * z) by lra.
  assert (W2 : w ^ 2 = 1 - x * x - y * y - z * z) by (rewrite <- W; ring).
  split; f_equal; asR; ring_simplify; rewrite W2; ring.
Qed.

Lemma turned_ok r w u t : 0 < r -> w * w + length_squared u = 1 ->
  geometry r (turned_pose r w u t) /\ rigid (turned_pose r w u t) t.
Proof.
  intros Hr Hu. destruct (plain_geometry r Hr) as [G1 G2 G3 G4 _ _ G7]. split.
  - constructor; auto; intros q; cbn [turned_pose to_grid to_world].
    + transitivity (turn w (@V reals (- vx u) (- vy u) (- vz u)) (turn w u q)); [f_equal|apply (proj1 (turn_back w u q Hu))].
      destruct (turn w u q) as [a b c], t as [t1 t2 t3]. unfold vsub, vadd. cbn [vx vy vz]. rsimp. f_equal; asR; ring.
    + rewrite (proj2 (turn_back w u _ Hu)). destruct q as [a b c], t as [t1 t2 t3]. unfold vsub, vadd. cbn [vx vy vz].
      rsimp. f_equal; asR; ring.
  - constructor; auto.
Qed.

(** Two cells in a row, values 1 and 3, turned a quarter about z: the values grow
    along the world's y axis. *)
Lemma turned_case :
  let s := sqrt (1 / 2) in
  let p := turned_pose 1 s (@V reals 0 0 s) (@V reals 0 0 0) in
  let n := @V reals 0 2 0 in
  geometry (f_res two_cells) p /\ rigid p (@V reals 0 0 0) /\ within_axes (f_dims two_cells) p n /\
  (forall j, in_bounds (f_dims two_cells) j = true -> value two_cells j = 0 + dot n (to_world p (center_of p j))) /\
  (forall j, in_bounds (f_dims two_cells) j = true -> centered_value two_cells j = - (1 / 2) + dot n (to_world p (center_of p j))) /\
  gradient two_cells p (I 0 0 0) true = Some n.
Proof.
  intros s p n.
  assert (Hs : s * s = 1 / 2) by (apply sqrt_sqrt; lra).
  assert (U : s * s + length_squared (@V reals 0 0 s) = 1) by (unfold length_squared; cbn [vx vy vz]; rsimp; lra).
  destruct (turned_ok 1 s (@V reals 0 0 s) (@V reals 0 0 0) Rlt_0_1 U) as (G & Rg). fold p in G, Rg.
  assert (Ax : within_axes (f_dims two_cells) p n).
  { unfold within_axes, dot, turn, n, p. cbn [turned_pose rot_w rot_v vx vy vz]. rsimp. split; [intros Hd; discriminate Hd|split; intros _; nra]. }
  assert (J : forall j, in_bounds (f_dims two_cells) j = true -> j = I 0 0 0 \/ j = I 1 0 0).
  { intros [x y z] B. apply in_bounds_spec in B. cbn in B.
    assert (y = 0 /\ z = 0 /\ (x = 0 \/ x = 1))%Z as (-> & -> & [Hx|Hx]) by lia; subst x; auto. }
  assert (Y : forall i, dot n (to_world p (center_of p i)) = 2 * (IZR (ix i) + 1 / 2)).
  { intros [x y z]. unfold dot, n, p, turn, vadd. cbn [turned_pose to_world center_of plain_pose vx vy vz ix iy iz]. rsimp.
    unfold turn, vadd. cbn [vx vy vz]. rsimp.
    transitivity (2 * (2 * (s * s) * (IZR x + 1 / 2)) + 2 * (1 - 2 * (s * s)) * (IZR y + 1 / 2)); [ring|rewrite Hs; field]. }
  assert (Va : forall j, in_bounds (f_dims two_cells) j = true -> value two_cells j = 0 + dot n (to_world p (center_of p j))).
  { intros j B. rewrite Y. destruct (J j B); subst j.
    - change (value two_cells (I 0 0 0)) with 1. cbn [ix]. lra.
    - change (value two_cells (I 1 0 0)) with 3. cbn [ix]. lra. }
  change (f_res two_cells) with 1. split; [exact G|]. split; [exact Rg|]. split; [exact Ax|]. split; [exact Va|]. split.
  - intros j B. unfold centered_value. rewrite (Va j B), Y. change (f_res two_cells) with 1.
    destruct (J j B); subst j; cbn [ix]; destruct (Rle_dec _ _); lra.
  - apply (world_gradient two_cells p (@V reals 0 0 0) 0 n); auto. change (f_res two_cells) with 1. lra.
Qed.

(** The automatically differentiated estimate is the derivative of the estimate. *)
From Coq Require Import Lia Reals Lra Psatz.
From Verif Require Import Base BaseFacts Grid GridFacts Arith SdfQuery QuerySpec QueryProofs QueryReal QueryThms
  QueryTurn AutoDiff AutoDiffSpec AutoDiffProofs.
Open Scope R_scope.

Lemma auto_available {A : arith} (f : field A) p loc :
  if in_bounds (f_dims f) (index_of p (to_grid p loc))
  then exists g, auto_diff_gradient f p loc = Ok (Some g)
  else auto_diff_gradient f p loc = Ok None.
Proof.
  unfold auto_diff_gradient. destruct (in_bounds _ _) eqn:B; auto.
  destruct (estimate_distance_spec (dual_field f) (dual_pose p) (seeded loc)) as (H & _).
  change (f_dims (dual_field f)) with (f_dims f) in H.
  assert (Ei : index_of (dual_pose p) (to_grid (dual_pose p) (seeded loc)) = index_of p (to_grid p loc)).
  { cbn [dual_pose index_of to_grid]. f_equal. unfold values, dual_map, seeded.
    destruct loc as [x y z]. cbn [vx vy vz fst snd]. unfold values. cbn [vx vy vz fst snd].
    destruct (to_grid p (V x y z)); reflexivity. }
  rewrite Ei in H. destruct (H B) as (e & He). unfold estimate_distance in He. rewrite Ei in He.
  change (f_dims (dual_field f)) with (f_dims f) in He. rewrite B in He.
  destruct (estimate_from_neighbors _ _ _ _) as [e'|?|?]; cbn [bind] in *; try discriminate.
  exists (snd e'). reflexivity.
Qed.

Definition pairs (f : rfield) (i : idx) (q : rvec) : (Z * Z) * (Z * Z) * (Z * Z) :=
  let r := f_res f in
  (axis_interpolation_indices (A := reals) (ix i) (nx (f_dims f)) (vx q - r * (IZR (ix i) + 1/2)),
   axis_interpolation_indices (A := reals) (iy i) (ny (f_dims f)) (vy q - r * (IZR (iy i) + 1/2)),
   axis_interpolation_indices (A := reals) (iz i) (nz (f_dims f)) (vz q - r * (IZR (iz i) + 1/2))).

Definition cells (f : rfield) : Z -> Z -> Z -> R := fun x y z => centered_value f (I x y z).

Lemma estimate_poly (f : rfield) p q xl xu yl yu zl zu :
  0 < f_res f -> geometry (f_res f) p -> in_bounds (f_dims f) (index_of p q) = true ->
  pairs f (index_of p q) q = (xl, xu, (yl, yu), (zl, zu)) ->
  estimate_from_neighbors f p q (index_of p q) = Ok (poly (cells f) (f_res f) xl xu yl yu zl zu q).
Proof.
  intros Hr G B E. unfold estimate_from_neighbors.
  pose proof B as B'. apply in_bounds_spec in B'. destruct B' as (Bx & By & Bz).
  rewrite (g_center _ _ G). unfold vsub. cbn [vx vy vz].
  unfold pairs in E. change (dsub reals) with Rminus. injection E as Ex Ey Ez. rewrite Ex, Ey, Ez.
  apply axis_real in Ex; auto; [|apply (g_index_x _ _ G)].
  apply axis_real in Ey; auto; [|apply (g_index_y _ _ G)].
  apply axis_real in Ez; auto; [|apply (g_index_z _ _ G)].
  pose proof (ax_range _ _ _ _ _ _ Ex). pose proof (ax_pair _ _ _ _ _ _ Ex).
  pose proof (ax_range _ _ _ _ _ _ Ey). pose proof (ax_pair _ _ _ _ _ _ Ey).
  pose proof (ax_range _ _ _ _ _ _ Ez). pose proof (ax_pair _ _ _ _ _ _ Ez).
  rewrite !corrected_centered by (apply in_bounds_spec; cbn [ix iy iz]; lia). cbn [bind].
  rewrite trilinear_lerp by auto. rewrite (g_center _ _ G). reflexivity.
Qed.

Lemma dual_corrected (f : rfield) i : in_bounds (f_dims f) i = true ->
  corrected_center_distance (dual_field f) i = Ok (constant (A := reals) (centered_value f i)).
Proof.
  intros B. unfold corrected_center_distance, centered_value, value.
  change (get (f_grid (dual_field f)) i) with (@get (flt reals) (f_grid f) i). rewrite get_eq.
  unfold f_dims in B. rewrite B. cbn [fst]. apply f_equal.
  change (f_res (dual_field f)) with (constant (A := reals) (f_res f)).
  change (widen (duals reals) (gget (f_grid f) i)) with (constant (A := reals) (gget (f_grid f) i)).
  generalize (gget (f_grid f) i), (f_res f). intros v r. change (flt reals) with R in v.
  change (dbl reals) with R in r. unfold lit. rewrite !con_int, con_div, con_mul, con_add, con_sub.
  cbn [dle duals constant fst]. unfold constant. cbn [fst]. rsimp.
  destruct (Rle_dec 0 v); f_equal; asR; field.
Qed.

Lemma dual_poly (f : rfield) p (Q : vec (duals reals)) xl xu yl yu zl zu :
  0 < f_res f -> geometry (f_res f) p -> in_bounds (f_dims f) (index_of p (values Q)) = true ->
  pairs f (index_of p (values Q)) (values Q) = (xl, xu, (yl, yu), (zl, zu)) ->
  exists v, estimate_from_neighbors (dual_field f) (dual_pose p) Q (index_of p (values Q)) = Ok (v,
    let s := poly_slope (cells f) (f_res f) xl xu yl yu zl zu (values Q) in
    let col (k : rvec -> R) := @V reals (k (snd (vx Q))) (k (snd (vy Q))) (k (snd (vz Q))) in
    @V reals (dot s (col vx)) (dot s (col vy)) (dot s (col vz))).
Proof.
  intros Hr G B E. unfold estimate_from_neighbors.
  pose proof B as B'. apply in_bounds_spec in B'. destruct B' as (Bx & By & Bz).
  unfold pairs in E. set (qv := values Q) in *.
  pose proof (f_equal (fun t => fst (fst t)) E) as Ex. pose proof (f_equal (fun t => snd (fst t)) E) as Ey.
  pose proof (f_equal snd E) as Ez. cbn [fst snd] in Ex, Ey, Ez.
  set (i := index_of p qv) in *.
  assert (K : forall j m (o : dbl (duals reals)),
    axis_interpolation_indices (A := duals reals) j m o = axis_interpolation_indices (A := reals) j m (fst o)) by reflexivity.
  rewrite !K. change (f_dims (dual_field f)) with (f_dims f).
  assert (Ox : fst (vx (vsub Q (center_of (dual_pose p) i))) = vx qv - f_res f * (IZR (ix i) + 1/2)).
  { cbn [dual_pose center_of constants vsub vx]. rewrite (g_center _ _ G). reflexivity. }
  assert (Oy : fst (vy (vsub Q (center_of (dual_pose p) i))) = vy qv - f_res f * (IZR (iy i) + 1/2)).
  { cbn [dual_pose center_of constants vsub vy]. rewrite (g_center _ _ G). reflexivity. }
  assert (Oz : fst (vz (vsub Q (center_of (dual_pose p) i))) = vz qv - f_res f * (IZR (iz i) + 1/2)).
  { cbn [dual_pose center_of constants vsub vz]. rewrite (g_center _ _ G). reflexivity. }
  rewrite Ox, Oy, Oz, Ex, Ey, Ez.
  apply axis_real in Ex; auto; [|apply (g_index_x _ _ G)].
  apply axis_real in Ey; auto; [|apply (g_index_y _ _ G)].
  apply axis_real in Ez; auto; [|apply (g_index_z _ _ G)].
  pose proof (ax_range _ _ _ _ _ _ Ex). pose proof (ax_pair _ _ _ _ _ _ Ex).
  pose proof (ax_range _ _ _ _ _ _ Ey). pose proof (ax_pair _ _ _ _ _ _ Ey).
  pose proof (ax_range _ _ _ _ _ _ Ez). pose proof (ax_pair _ _ _ _ _ _ Ez).
  rewrite !dual_corrected by (apply in_bounds_spec; cbn [ix iy iz]; lia). cbn [bind].
  change (f_res (dual_field f)) with (constant (A := reals) (f_res f)).
  change (center_of (dual_pose p) (I xl yl zl)) with (constants (center_of p (I xl yl zl))).
  rewrite dual_trilinear by auto. rewrite (g_center _ _ G). eexists. reflexivity.
Qed.

(** ** The frame *)
Lemma turn_add w (u a b : rvec) : turn w u (vadd a b) = vadd (turn w u a) (turn w u b).
Proof. destruct u as [u1 u2 u3], a as [a1 a2 a3], b as [b1 b2 b3]. vunfold. cbn [vx vy vz]. rsimp. f_equal; asR; ring. Qed.

Lemma vadd_assoc (a b c : rvec) : vadd a (vadd b c) = vadd (vadd a b) c.
Proof. destruct a as [a1 a2 a3], b as [b1 b2 b3], c as [c1 c2 c3]. unfold vadd. cbn [vx vy vz]. rsimp. f_equal; asR; ring. Qed.

Lemma grid_step (p : pose reals) r t loc h : geometry r p -> rigid p t ->
  to_grid p (vadd loc h) = vadd (to_grid p loc) (along p h).
Proof.
  intros G Rg. rewrite <- (g_there_and_back _ _ G (vadd (to_grid p loc) (along p h))). f_equal.
  rewrite (rigid_world _ _ Rg), turn_add, vadd_assoc, <- (rigid_world _ _ Rg), (g_back_and_there _ _ G).
  rewrite (turn_along p h (rigid_unit _ _ Rg)). reflexivity.
Qed.

Lemma turn_length (p : pose reals) q : rot_w p * rot_w p + length_squared (rot_v p) = 1 ->
  length_squared (turn (rot_w p) (rot_v p) q) = length_squared q.
Proof. intros H. rewrite <- rotate_turn by auto. apply rotate_length. lra. Qed.

Lemma along_length (p : pose reals) h : rot_w p * rot_w p + length_squared (rot_v p) = 1 ->
  length_squared (along p h) = length_squared h.
Proof. intros H. rewrite <- (turn_length p (along p h) H), turn_along by auto. reflexivity. Qed.

Lemma le_len (a b c : R) : Rabs a <= sqrt (a * a + b * b + c * c).
Proof.
  rewrite <- sqrt_Rsqr_abs. apply sqrt_le_1_alt. unfold Rsqr. nra.
Qed.
Lemma coords_le (u : rvec) : Rabs (vx u) <= len u /\ Rabs (vy u) <= len u /\ Rabs (vz u) <= len u.
Proof.
  unfold len, length_squared. destruct u as [a b c]. cbn [vx vy vz]. rsimp. split; [apply le_len|split].
  - replace (a * a + b * b + c * c) with (b * b + a * a + c * c) by ring. apply le_len.
  - replace (a * a + b * b + c * c) with (c * c + a * a + b * b) by ring. apply le_len.
Qed.

(** The gradient in the world, given its components in the grid's frame. *)
Lemma auto_value (f : rfield) p t loc xl xu yl yu zl zu :
  0 < f_res f -> geometry (f_res f) p -> rigid p t ->
  let q := to_grid p loc in
  in_bounds (f_dims f) (index_of p q) = true ->
  pairs f (index_of p q) q = (xl, xu, (yl, yu), (zl, zu)) ->
  exists g, auto_diff_gradient f p loc = Ok (Some g) /\
    forall h, dot g h = dot (poly_slope (cells f) (f_res f) xl xu yl yu zl zu q) (along p h).
Proof.
  intros Hr G Rg q B E. unfold auto_diff_gradient. fold q. rewrite B.
  set (Q := to_grid (dual_pose p) (seeded loc)).
  assert (EQ : values Q = q).
  { unfold Q. cbn [dual_pose to_grid]. unfold values, dual_map, seeded. cbn [vx vy vz fst snd].
    unfold q. destruct loc as [a b c]. cbn [vx vy vz]. unfold values. cbn [vx vy vz fst].
    destruct (to_grid p (V a b c)); reflexivity. }
  rewrite <- EQ in B, E |- *.
  destruct (dual_poly f p Q xl xu yl yu zl zu Hr G B E) as (v & Hv). rewrite Hv. cbn [bind snd].
  eexists. split; [reflexivity|]. intros h.
  assert (Col : forall e, vsub (to_grid p e) (to_grid p (no_change (A := reals))) = along p e).
  { intros e. pose proof (grid_step p _ t no_change e G Rg) as S.
    replace (vadd no_change e) with e in S.
    2:{ destruct e as [a b c]. unfold vadd, no_change. cbn [vx vy vz]. rsimp. f_equal; asR; ring. }
    rewrite S. destruct (to_grid p no_change) as [a b c], (along p e) as [a' b' c']. unfold vsub, vadd.
    cbn [vx vy vz]. rsimp. f_equal; asR; ring. }
  assert (Cx : @V reals (vx (snd (vx Q))) (vx (snd (vy Q))) (vx (snd (vz Q))) = along p (@V reals 1 0 0)).
  { rewrite <- Col. unfold Q. cbn [dual_pose to_grid]. unfold dual_map, seeded. cbn [vx vy vz fst snd].
    destruct (vsub _ _); reflexivity. }
  assert (Cy : @V reals (vy (snd (vx Q))) (vy (snd (vy Q))) (vy (snd (vz Q))) = along p (@V reals 0 1 0)).
  { rewrite <- Col. unfold Q. cbn [dual_pose to_grid]. unfold dual_map, seeded. cbn [vx vy vz fst snd].
    destruct (vsub _ _); reflexivity. }
  assert (Cz : @V reals (vz (snd (vx Q))) (vz (snd (vy Q))) (vz (snd (vz Q))) = along p (@V reals 0 0 1)).
  { rewrite <- Col. unfold Q. cbn [dual_pose to_grid]. unfold dual_map, seeded. cbn [vx vy vz fst snd].
    destruct (vsub _ _); reflexivity. }
  cbv beta zeta. rewrite Cx, Cy, Cz.
  destruct (poly_slope _ _ _ _ _ _ _ _ _) as [s1 s2 s3]. destruct h as [a b c].
  unfold along. destruct (turn _ _ (@V reals 1 0 0)) as [u1 u2 u3], (turn _ _ (@V reals 0 1 0)) as [v1 v2 v3],
    (turn _ _ (@V reals 0 0 1)) as [w1 w2 w3]. unfold dot. cbn [vx vy vz]. rsimp. ring.
Qed.

(** ** The derivative *)
Lemma auto_derivative (f : rfield) p t loc (towards : rvec -> Prop) :
  0 < f_res f -> geometry (f_res f) p -> rigid p t ->
  in_bounds (f_dims f) (index_of p (to_grid p loc)) = true ->
  (forall h, towards h -> forward p loc h) \/ off_levels f (to_grid p loc) ->
  exists g, auto_diff_gradient f p loc = Ok (Some g) /\ derivative_towards towards (estimated f p) loc g.
Proof.
  intros Hr G Rg B T. set (q := to_grid p loc) in *. set (i := index_of p q) in *.
  destruct (pairs f i q) as [[[xl xu] [yl yu]] [zl zu]] eqn:E.
  destruct (auto_value f p t loc xl xu yl yu zl zu Hr G Rg B E) as (g & Hg & Dg). fold q in Dg.
  exists g. split; auto.
  pose proof B as B'. apply in_bounds_spec in B'. destruct B' as (Bx & By & Bz).
  unfold pairs in E. injection E as Ex Ey Ez.
  destruct (axis_stable (f_res f) (ix i) _ (vx q) xl xu Hr Bx (g_index_x _ _ G q) Ex) as (dx & Hdx & Sx).
  destruct (axis_stable (f_res f) (iy i) _ (vy q) yl yu Hr By (g_index_y _ _ G q) Ey) as (dy & Hdy & Sy).
  destruct (axis_stable (f_res f) (iz i) _ (vz q) zl zu Hr Bz (g_index_z _ _ G q) Ez) as (dz & Hdz & Sz).
  set (P := poly (cells f) (f_res f) xl xu yl yu zl zu) in *.
  assert (E0 : estimated f p loc = P q).
  { unfold estimated, estimate_distance. fold q. fold i. rewrite B. unfold i.
    rewrite (estimate_poly f p q xl xu yl yu zl zu); auto. unfold pairs. fold i. rewrite Ex, Ey, Ez. reflexivity. }
  destruct (poly_error (cells f) (f_res f) xl xu yl yu zl zu Hr q) as (K & HK & PE). fold P in PE.
  intros eps Heps.
  pose (d1 := Rmin dx (Rmin dy dz)). pose (d2 := Rmin 1 (eps / (K + 1))).
  assert (Hq : 0 < eps / (K + 1)) by (apply Rdiv_lt_0_compat; lra).
  assert (A1 : d1 <= dx) by apply Rmin_l.
  assert (A2 : d1 <= dy) by (eapply Rle_trans; [apply Rmin_r|apply Rmin_l]).
  assert (A3 : d1 <= dz) by (eapply Rle_trans; [apply Rmin_r|apply Rmin_r]).
  assert (A4 : d2 <= 1) by apply Rmin_l.
  assert (A5 : d2 <= eps / (K + 1)) by apply Rmin_r.
  exists (Rmin d1 d2). split.
  { apply Rmin_pos; [apply Rmin_pos; [auto|apply Rmin_pos; auto]|apply Rmin_pos; lra]. }
  intros h Th Lh.
  assert (L1 : len h < d1) by (eapply Rlt_le_trans; [exact Lh|apply Rmin_l]).
  assert (L2 : len h < d2) by (eapply Rlt_le_trans; [exact Lh|apply Rmin_r]).
  clearbody d1 d2.
  set (u := along p h).
  assert (Lu : len u = len h) by (unfold len, u; rewrite (along_length p h (rigid_unit _ _ Rg)); reflexivity).
  destruct (coords_le u) as (Ux & Uy & Uz). rewrite Lu in Ux, Uy, Uz.
  assert (Q' : to_grid p (vadd loc h) = vadd q u) by (apply (grid_step p (f_res f) t); auto).
  set (q' := vadd q u) in *.
  assert (Vx : vx q' - vx q = vx u) by (unfold q', vadd; cbn [vx]; rsimp; ring).
  assert (Vy : vy q' - vy q = vy u) by (unfold q', vadd; cbn [vy]; rsimp; ring).
  assert (Vz : vz q' - vz q = vz u) by (unfold q', vadd; cbn [vz]; rsimp; ring).
  set (i' := index_of p q').
  assert (F : forall a b c, (a = vx q /\ b = vx q' /\ c = between_levels (f_res f) (nx (f_dims f)) (vx q)) \/
              (a = vy q /\ b = vy q' /\ c = between_levels (f_res f) (ny (f_dims f)) (vy q)) \/
              (a = vz q /\ b = vz q' /\ c = between_levels (f_res f) (nz (f_dims f)) (vz q)) -> a <= b \/ c).
  { intros a b c Habc. destruct T as [T|(T1 & T2 & T3)].
    - left. specialize (T h Th). unfold forward in T. rewrite Q' in T. fold q in T. cbv zeta in T.
      destruct T as (F1 & F2 & F3). destruct Habc as [(Ha & Hb & _)|[(Ha & Hb & _)|(Ha & Hb & _)]]; rewrite Ha, Hb; assumption.
    - right. destruct Habc as [(_ & _ & Hc)|[(_ & _ & Hc)|(_ & _ & Hc)]]; rewrite Hc; assumption. }
  destruct (Sx (vx q') (ix i')) as (Rx & Ex').
  { rewrite Vx. lra. } { apply F. auto. } { apply (g_index_x _ _ G). }
  destruct (Sy (vy q') (iy i')) as (Ry & Ey').
  { rewrite Vy. lra. } { apply F. auto. } { apply (g_index_y _ _ G). }
  destruct (Sz (vz q') (iz i')) as (Rz & Ez').
  { rewrite Vz. lra. } { apply F. auto. } { apply (g_index_z _ _ G). }
  assert (B2 : in_bounds (f_dims f) i' = true) by (apply in_bounds_spec; auto).
  assert (E1 : estimated f p (vadd loc h) = P q').
  { unfold estimated, estimate_distance. rewrite Q'. fold i'. rewrite B2. unfold i'.
    rewrite (estimate_poly f p q' xl xu yl yu zl zu); auto. unfold pairs. fold i'. rewrite Ex', Ey', Ez'. reflexivity. }
  rewrite E0, E1, Dg. fold u.
  eapply Rle_trans; [apply (PE u (len h)); lra|].
  assert (0 <= len h) by (unfold len; apply sqrt_pos).
  rewrite <- Rmult_assoc. apply Rmult_le_compat_r; auto.
  apply Rle_trans with ((K + 1) * (eps / (K + 1))); [|right; field; lra].
  apply Rmult_le_compat; lra.
Qed.

Lemma turn_zero w (u : rvec) : turn w u (@V reals 0 0 0) = @V reals 0 0 0.
Proof. destruct u as [x y z]. unfold turn. rsimp. f_equal; asR; ring. Qed.

Lemma along_turn (p : pose reals) q :
  rot_w p * rot_w p + length_squared (rot_v p) = 1 -> along p (turn (rot_w p) (rot_v p) q) = q.
Proof.
  unfold along. vunfold. destruct (rot_v p) as [x y z]. destruct q as [a b c]. generalize (rot_w p) as w. intros w.
  cbn [vx vy vz]. rsimp. intros H.
  assert (W : w * w = 1 - x * x - y * y - z * z) by lra.
  assert (W2 : w ^ 2 = 1 - x * x - y * y - z * z) by (rewrite <- W; ring).
  f_equal; asR; ring_simplify; rewrite W2; ring.
Qed.

(** Two derivatives along the forward displacements are the same. *)
Lemma scale_len (s : R) (e : rvec) : 0 <= s -> len (vscale e s) = s * len e.
Proof.
  intros Hs. unfold len. replace (length_squared (vscale e s)) with (s * s * length_squared e).
  2:{ destruct e as [a b c]. unfold length_squared, vscale. cbn [vx vy vz]. rsimp. ring. }
  rewrite sqrt_mult_alt by nra. rewrite sqrt_square by auto. reflexivity.
Qed.

Lemma forward_unique p r t (e : rvec -> R) loc n n' : geometry r p -> rigid p t ->
  derivative_towards (forward p loc) e loc n -> derivative_towards (forward p loc) e loc n' -> n = n'.
Proof.
  intros G Rg H H'.
  assert (K : forall k, (k = @V reals 1 0 0 \/ k = @V reals 0 1 0 \/ k = @V reals 0 0 1) ->
    dot n (turn (rot_w p) (rot_v p) k) = dot n' (turn (rot_w p) (rot_v p) k)).
  { intros k Hk. set (a := turn (rot_w p) (rot_v p) k).
    assert (La : len a = 1).
    { unfold len, a. rewrite turn_length by apply (rigid_unit _ _ Rg).
      destruct Hk as [->|[->| ->]]; unfold length_squared; cbn [vx vy vz]; rsimp;
        (replace (_ + _ + _) with 1 by ring); apply sqrt_1. }
    apply Rminus_diag_uniq. destruct (Req_dec (dot n a - dot n' a) 0) as [Z|Z]; auto. exfalso.
    set (eps := Rabs (dot n a - dot n' a) / 4).
    assert (He : 0 < eps) by (unfold eps; pose proof (Rabs_pos_lt _ Z); lra).
    destruct (H eps He) as (d & Hd & D). destruct (H' eps He) as (d' & Hd' & D').
    set (s := Rmin d d' / 2).
    assert (Hm : 0 < Rmin d d') by (apply Rmin_pos; auto).
    assert (M1 : Rmin d d' <= d) by apply Rmin_l. assert (M2 : Rmin d d' <= d') by apply Rmin_r.
    assert (Hs : 0 < s) by (unfold s; lra).
    assert (Ls : len (vscale a s) = s) by (rewrite scale_len, La by lra; ring).
    assert (Fw : forward p loc (vscale a s)).
    { unfold forward. rewrite (grid_step p r t loc _ G Rg).
      replace (along p (vscale a s)) with (vscale k s).
      2:{ rewrite <- (along_turn p (vscale k s) (rigid_unit _ _ Rg)). f_equal. unfold a.
          destruct k as [k1 k2 k3], (rot_v p) as [x y z]. unfold vscale, turn. cbn [vx vy vz]. rsimp.
          f_equal; asR; ring. }
      unfold vadd, vscale. cbn [vx vy vz]. rsimp.
      destruct Hk as [->|[->| ->]]; cbn [vx vy vz]; repeat split; lra. }
    assert (X1 : len (vscale a s) < d) by (rewrite Ls; unfold s; lra).
    assert (X2 : len (vscale a s) < d') by (rewrite Ls; unfold s; lra).
    specialize (D _ Fw X1). specialize (D' _ Fw X2). rewrite Ls in D, D'.
    assert (S1 : forall m : rvec, dot m (vscale a s) = s * dot m a).
    { intros m. unfold dot, vscale. cbn [vx vy vz]. rsimp. ring. }
    rewrite S1 in D, D'. set (w := e (vadd loc (vscale a s)) - e loc) in *.
    assert (T1 : Rabs (s * (dot n a - dot n' a)) <= 2 * eps * s).
    { replace (s * (dot n a - dot n' a)) with ((w - s * dot n' a) + - (w - s * dot n a)) by ring.
      eapply Rle_trans; [apply Rabs_triang|]. rewrite Rabs_Ropp. lra. }
    rewrite Rabs_mult, (Rabs_pos_eq s) in T1 by lra.
    replace (2 * eps * s) with (s * (2 * eps)) in T1 by ring. apply Rmult_le_reg_l in T1; auto.
    unfold eps in T1. pose proof (Rabs_pos_lt _ Z). lra. }
  rewrite <- (turn_along p n (rigid_unit _ _ Rg)), <- (turn_along p n' (rigid_unit _ _ Rg)). f_equal.
  unfold along. rewrite !K by auto. reflexivity.
Qed.

Lemma auto_gradient_if_any (f : rfield) p t loc n :
  0 < f_res f -> geometry (f_res f) p -> rigid p t ->
  in_bounds (f_dims f) (index_of p (to_grid p loc)) = true ->
  is_gradient (estimated f p) loc n -> auto_diff_gradient f p loc = Ok (Some n).
Proof.
  intros Hr G Rg B H.
  destruct (auto_derivative f p t loc (forward p loc) Hr G Rg B (or_introl (fun h x => x))) as (g & Hg & Dg).
  rewrite Hg. do 2 f_equal. apply (forward_unique p (f_res f) t (estimated f p) loc); auto.
  intros eps He. destruct (H eps He) as (d & Hd & D). exists d. split; auto.
Qed.

(** ** At the centres *)
Lemma auto_turn (f : rfield) p t loc xl xu yl yu zl zu :
  0 < f_res f -> geometry (f_res f) p -> rigid p t ->
  let q := to_grid p loc in
  in_bounds (f_dims f) (index_of p q) = true ->
  pairs f (index_of p q) q = (xl, xu, (yl, yu), (zl, zu)) ->
  auto_diff_gradient f p loc =
    Ok (Some (turn (rot_w p) (rot_v p) (poly_slope (cells f) (f_res f) xl xu yl yu zl zu q))).
Proof.
  intros Hr G Rg q B E. destruct (auto_value f p t loc xl xu yl yu zl zu Hr G Rg B E) as (g & Hg & Dg).
  rewrite Hg. fold q in Dg. do 2 f_equal. rewrite <- (turn_along p g (rigid_unit _ _ Rg)). f_equal.
  unfold along at 1. rewrite !Dg, !(along_turn p _ (rigid_unit _ _ Rg)).
  destruct (poly_slope _ _ _ _ _ _ _ _ _) as [a b c]. unfold dot. cbn [vx vy vz]. rsimp. f_equal; asR; ring.
Qed.

Lemma auto_of_cell (f : rfield) p t i :
  0 < f_res f -> geometry (f_res f) p -> rigid p t -> in_bounds (f_dims f) i = true ->
  auto_diff_gradient_of_cell f p i = Ok (Some (turn (rot_w p) (rot_v p) (@V reals
    (step_slope (f_res f) (nx (f_dims f)) (ix i) (fun k => centered_value f (I k (iy i) (iz i))))
    (step_slope (f_res f) (ny (f_dims f)) (iy i) (fun k => centered_value f (I (ix i) k (iz i))))
    (step_slope (f_res f) (nz (f_dims f)) (iz i) (fun k => centered_value f (I (ix i) (iy i) k)))))).
Proof.
  intros Hr G Rg B. destruct (estimate_at_center f p i Hr G B) as (Ei & _).
  unfold auto_diff_gradient_of_cell. set (q := center_of p i) in *.
  assert (Eq : to_grid p (to_world p q) = q) by apply (g_there_and_back _ _ G).
  destruct (pairs f i q) as [[[xl xu] [yl yu]] [zl zu]] eqn:E.
  rewrite (auto_turn f p t (to_world p q) xl xu yl yu zl zu Hr G Rg) by (rewrite Eq, Ei; auto). rewrite Eq.
  do 3 f_equal.
  pose proof B as B'. apply in_bounds_spec in B'. destruct B' as (Bx & By & Bz).
  unfold pairs in E. injection E as Ex Ey Ez.
  assert (A : forall j n l u v, (0 <= j < n)%Z -> v = f_res f * (IZR j + 1/2) ->
    axis_interpolation_indices (A := reals) j n (v - f_res f * (IZR j + 1/2)) = (l, u) ->
    forall (c : Z -> R), (c u - c l) / f_res f = step_slope (f_res f) n j c /\
      forall d : Z -> R, lerp (local (f_res f) l v) (d l) (d u) = d j).
  { intros j n l u v Hj -> Ax c. pose proof (axis_real (f_res f) j n (f_res f * (IZR j + 1/2)) Hr Hj) as Ao.
    assert (Hv : f_res f * IZR j <= f_res f * (IZR j + 1 / 2) < f_res f * (IZR j + 1)).
    { split; [apply Rmult_le_compat_l|apply Rmult_lt_compat_l]; lra. }
    specialize (Ao Hv l u Ax). split.
    - unfold axis_interpolation_indices in Ax. rsimp. unfold step_slope.
      destruct (Rle_dec 0 _) as [_|N]; [|exfalso; apply N; lra].
      destruct (Z.leb_spec n (j + 1)), (Z.ltb_spec (j + 1) n), (Z.ltb_spec (j - 1) 0), (Z.ltb_spec 0 j); try lia;
        injection Ax as <- <-; try reflexivity; unfold Rdiv; ring.
    - intros d. destruct (ax_center _ _ _ _ _ _ Ao eq_refl) as [(L1 & L2)|(L1 & L2)]; unfold local; rewrite L2, <- L1;
        unfold lerp; ring. }
  assert (Qx : vx q = f_res f * (IZR (ix i) + 1/2)) by (unfold q; rewrite (g_center _ _ G); reflexivity).
  assert (Qy : vy q = f_res f * (IZR (iy i) + 1/2)) by (unfold q; rewrite (g_center _ _ G); reflexivity).
  assert (Qz : vz q = f_res f * (IZR (iz i) + 1/2)) by (unfold q; rewrite (g_center _ _ G); reflexivity).
  pose proof (A _ _ _ _ _ Bx Qx Ex) as AX. pose proof (A _ _ _ _ _ By Qy Ey) as AY. pose proof (A _ _ _ _ _ Bz Qz Ez) as AZ.
  unfold poly_slope, cells. cbv zeta.
  f_equal; asR.
  - rewrite (proj2 (AZ (fun _ => 0)) (fun z => lerp (local (f_res f) yl (vy q))
      ((centered_value f (I xu yl z) - centered_value f (I xl yl z)) / f_res f)
      ((centered_value f (I xu yu z) - centered_value f (I xl yu z)) / f_res f))).
    rewrite (proj2 (AY (fun _ => 0)) (fun y => (centered_value f (I xu y (iz i)) - centered_value f (I xl y (iz i))) / f_res f)).
    apply (AX (fun k => centered_value f (I k (iy i) (iz i)))).
  - rewrite (proj2 (AZ (fun _ => 0)) (fun z => lerp (local (f_res f) xl (vx q))
      ((centered_value f (I xl yu z) - centered_value f (I xl yl z)) / f_res f)
      ((centered_value f (I xu yu z) - centered_value f (I xu yl z)) / f_res f))).
    rewrite (proj2 (AX (fun _ => 0)) (fun x => (centered_value f (I x yu (iz i)) - centered_value f (I x yl (iz i))) / f_res f)).
    apply (AY (fun k => centered_value f (I (ix i) k (iz i)))).
  - rewrite (proj2 (AY (fun _ => 0)) (fun y => lerp (local (f_res f) xl (vx q))
      ((centered_value f (I xl y zu) - centered_value f (I xl y zl)) / f_res f)
      ((centered_value f (I xu y zu) - centered_value f (I xu y zl)) / f_res f))).
    rewrite (proj2 (AX (fun _ => 0)) (fun x => (centered_value f (I x (iy i) zu) - centered_value f (I x (iy i) zl)) / f_res f)).
    apply (AZ (fun k => centered_value f (I (ix i) (iy i) k))).
Qed.

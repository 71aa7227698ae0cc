From Coq Require Import Reals Lra Psatz.
From Verif Require Import Base BaseFacts Floats Grid GridFacts Arith SdfQuery QuerySpec QueryProofs QueryReal.
Open Scope R_scope.

Ltac rcase := match goal with
  | |- context [Rlt_dec ?a ?b] => destruct (Rlt_dec a b)
  | |- context [Rle_dec ?a ?b] => destruct (Rle_dec a b)
  end.

(** ** Projection into the valid volume *)
Definition margin (f : rfield) (md : R) : R := md + f_res f / 10000.

Lemma clamp_box (f : rfield) p v m s : geometry (f_res f) p -> m <= s - m ->
  let c := clamp p v m (s - m) in
  m <= c <= s - m /\ (m <= v <= s - m -> c = v) /\
  (forall w, m <= w <= s - m -> Rabs (c - v) <= Rabs (w - v)).
Proof.
  intros G H c. subst c. rewrite (g_clamp _ _ G) by auto.
  unfold Rmin, Rmax. destruct (Rle_dec v m), (Rle_dec _ _); (split; [lra|split; [intros; lra|]]);
    intros w Hw; unfold Rabs; destruct (Rcase_abs _), (Rcase_abs _); lra.
Qed.

Lemma vec_ext (a b : rvec) : vx a = vx b -> vy a = vy b -> vz a = vz b -> a = b.
Proof. destruct a, b; cbn. congruence. Qed.

Lemma project_into_spec (f : rfield) p loc md :
  geometry (f_res f) p ->
  2 * margin f md <= vx (f_size f) -> 2 * margin f md <= vy (f_size f) ->
  2 * margin f md <= vz (f_size f) ->
  let q := to_grid p loc in
  let w := project_into_valid_volume f p loc md in
  in_box (margin f md) (f_size f) (to_grid p w) /\
  (in_box (margin f md) (f_size f) q -> w = loc) /\
  (forall b, in_box (margin f md) (f_size f) b ->
     Rabs (vx (to_grid p w) - vx q) <= Rabs (vx b - vx q) /\
     Rabs (vy (to_grid p w) - vy q) <= Rabs (vy b - vy q) /\
     Rabs (vz (to_grid p w) - vz q) <= Rabs (vz b - vz q)) /\
  project_into_valid_volume f p w md = w.
Proof.
  intros G Hx Hy Hz.
  assert (K : forall l, let q := to_grid p l in let w := project_into_valid_volume f p l md in
    in_box (margin f md) (f_size f) (to_grid p w) /\
    (in_box (margin f md) (f_size f) q -> w = l) /\
    (forall b, in_box (margin f md) (f_size f) b ->
      Rabs (vx (to_grid p w) - vx q) <= Rabs (vx b - vx q) /\
      Rabs (vy (to_grid p w) - vy q) <= Rabs (vy b - vy q) /\
      Rabs (vz (to_grid p w) - vz q) <= Rabs (vz b - vz q))).
  { intros l q w. remember w as w' eqn:Hw. subst w.
    unfold project_into_valid_volume in Hw. cbv zeta in Hw. fold q in Hw.
    assert (Em : dadd reals md (dmul reals (f_res f) (lit reals 1 10000)) = margin f md).
    { unfold margin, lit. rsimp. asR. field. }
    rewrite Em in Hw. change (dsub reals) with Rminus in Hw.
    set (m := margin f md) in *.
    destruct (clamp_box f p (vx q) m (vx (f_size f)) G) as (X1 & X2 & X3); [lra|].
    destruct (clamp_box f p (vy q) m (vy (f_size f)) G) as (Y1 & Y2 & Y3); [lra|].
    destruct (clamp_box f p (vz q) m (vz (f_size f)) G) as (Z1 & Z2 & Z3); [lra|].
    set (cx := clamp p (vx q) m (vx (f_size f) - m)) in *.
    set (cy := clamp p (vy q) m (vy (f_size f) - m)) in *.
    set (cz := clamp p (vz q) m (vz (f_size f) - m)) in *.
    assert (Ew : to_grid p w' = @V reals cx cy cz /\ (cx = vx q -> cy = vy q -> cz = vz q -> w' = l)).
    { subst w'. rsimp. destruct (Req_EM_T cx (vx q)) as [Ex|Ex], (Req_EM_T cy (vy q)) as [Ey|Ey],
        (Req_EM_T cz (vz q)) as [Ez|Ez]; cbn [negb orb]; rewrite ?(g_there_and_back _ _ G); split; auto;
        try (intros; congruence).
      apply vec_ext; cbn [vx vy vz]; auto. }
    destruct Ew as (Ew & El). rewrite Ew. unfold in_box. cbn [vx vy vz].
    split; [auto|]. split.
    - intros (Bx & By & Bz). apply El; auto.
    - intros b (Bx & By & Bz). auto. }
  intros q w. destruct (K loc) as (K1 & K2 & K3). fold q w in K1, K2, K3.
  split; auto. split; auto. split; auto.
  destruct (K w) as (_ & L2 & _). apply L2. auto.
Qed.

(** ** Projection out of collision *)
Lemma project_out_real fuel (f : rfield) p loc md mult :
  geometry (f_res f) p ->
  match project_out fuel f p loc md mult with
  | Finished w => exists e, estimate_distance f p w = Ok (e, true) /\ md < e
  | Failed why => why = "Encountered flat gradient - stuck"%string \/ why = "Index out of bounds"%string
  | Running _ _ _ => True
  end.
Proof.
  intros G. unfold project_out. set (l1 := if in_bounds _ _ then _ else _).
  pose proof (project_out_grid_spec fuel f p (to_grid p l1) md mult) as H.
  destruct (project_out_grid_frame fuel f p (to_grid p l1) md mult) as [q i d|q|why]; auto.
  destruct H as (d & B & E & Hd). exists d. unfold estimate_distance.
  rewrite (g_there_and_back _ _ G), B, E. split; auto.
  rsimp. destruct (Rle_dec d md); [discriminate|lra].
Qed.

Lemma project_out_unchanged fuel (f : rfield) p loc md mult e :
  geometry (f_res f) p -> estimate_distance f p loc = Ok (e, true) -> md < e ->
  project_out (S fuel) f p loc md mult = Finished loc.
Proof.
  intros G E Hlt. unfold estimate_distance in E. unfold project_out, project_out_grid_frame.
  destruct (in_bounds (f_dims f) (index_of p (to_grid p loc))) eqn:B; [|discriminate].
  destruct (estimate_from_neighbors f p (to_grid p loc) (index_of p (to_grid p loc))) as [e'| |];
    try discriminate.
  cbn [bind] in E. injection E as ->. cbn [project_loop]. unfold project_step. rsimp.
  destruct (Rle_dec e md); [lra|]. rewrite (g_back_and_there _ _ G). auto.
Qed.

(** A point outside the grid is moved to the nearest point inside first. *)
Lemma project_out_outside fuel (f : rfield) p loc md mult :
  let r := f_res f in let m := r / 10000 in
  0 < r -> geometry r p -> (1 <= nx (f_dims f) /\ 1 <= ny (f_dims f) /\ 1 <= nz (f_dims f))%Z ->
  f_size f = @V reals (r * IZR (nx (f_dims f))) (r * IZR (ny (f_dims f))) (r * IZR (nz (f_dims f))) ->
  let q := to_grid p loc in in_bounds (f_dims f) (index_of p q) = false ->
  exists w, in_box m (f_size f) (to_grid p w) /\
    (forall b, in_box m (f_size f) b ->
       Rabs (vx (to_grid p w) - vx q) <= Rabs (vx b - vx q) /\
       Rabs (vy (to_grid p w) - vy q) <= Rabs (vy b - vy q) /\
       Rabs (vz (to_grid p w) - vz q) <= Rabs (vz b - vz q)) /\
    in_bounds (f_dims f) (index_of p (to_grid p w)) = true /\
    project_out fuel f p loc md mult = project_out fuel f p w md mult.
Proof.
  intros r m Hr G (Nx & Ny & Nz) Hs q Out.
  apply IZR_le in Nx, Ny, Nz.
  assert (Em : margin f 0 = m) by (unfold margin; fold r; unfold m; lra).
  assert (Sz : 2 * m <= r * 1) by (unfold m; lra).
  assert (K : forall n, 1 <= IZR n -> 2 * m <= r * IZR n).
  { intros n Hn. apply Rle_trans with (1 := Sz). apply Rmult_le_compat_l; lra. }
  destruct (project_into_spec f p loc 0 G) as (Bx & _ & Near & _); try (rewrite Em, Hs; cbn [vx vy vz]; auto).
  rewrite Em in Bx, Near. set (w := project_into_valid_volume f p loc 0) in *.
  assert (In_ : in_bounds (f_dims f) (index_of p (to_grid p w)) = true).
  { apply in_bounds_spec. destruct Bx as (X & Y & Z). rewrite Hs in X, Y, Z. cbn [vx vy vz] in X, Y, Z.
    assert (M0 : 0 < m) by (unfold m; lra).
    assert (A : forall a n v, r * IZR a <= v < r * (IZR a + 1) -> m <= v <= r * IZR n - m -> (0 <= a < n)%Z).
    { intros a n v (A1 & A2) (B1 & B2).
      assert (C1 : r * 0 < r * (IZR a + 1)) by lra. apply Rmult_lt_reg_l in C1; auto.
      assert (C2 : r * IZR a < r * IZR n) by lra. apply Rmult_lt_reg_l in C2; auto.
      split; [|apply lt_IZR; auto]. assert (-1 < a)%Z by (apply lt_IZR; cbn; lra). lia. }
    split; [|split]; eapply A; eauto; apply G. }
  exists w. split; [exact Bx|]. split; [exact Near|]. split; [exact In_|].
  unfold project_out. fold q. rewrite Out, In_. reflexivity.
Qed.

(** Each pass moves the point by at most resolution * multiplier. *)
Lemma normalized_length (g : rvec) : 0 < length_squared g -> length_squared (normalized g) = 1.
Proof.
  unfold length_squared, normalized, squared_norm. destruct g as [x y z]. cbn [vx vy vz]. rsimp.
  intros H. assert (H' : 0 < x * x + (y * y + z * z)) by lra.
  destruct (Rlt_dec 0 (x * x + (y * y + z * z))) as [_|N]; [|lra]. cbn [vx vy vz].
  pose proof (sqrt_lt_R0 _ H') as Hs. pose proof (sqrt_sqrt _ (Rlt_le _ _ H')) as E.
  set (s := sqrt _) in *. replace (x / s * (x / s) + y / s * (y / s) + z / s * (z / s))
    with ((x * x + y * y + z * z) / (s * s)) by (field; lra).
  rewrite E. field. lra.
Qed.

Lemma project_step_length (f : rfield) p md mult q i d q' i' d' :
  0 < f_res f -> 0 < mult -> d <= md ->
  project_step f p md mult q i d = Running q' i' d' ->
  length_squared (vsub q' q) <= (f_res f * mult) * (f_res f * mult).
Proof.
  intros Hr Hm Hd E. unfold project_step in E. destruct (dle reals d md); [|discriminate].
  destruct (grid_aligned_gradient f i true) as [g|]; [|discriminate].
  destruct (dlt reals _ (norm g)) eqn:Hn; [|discriminate].
  set (st := dmin _ _) in E.
  assert (Hst : 0 < st <= f_res f * mult).
  { subst st. unfold dmin, lit. rsimp. assert (0 < f_res f * mult) by nra.
    match goal with |- context [Rlt_dec ?a ?b] => destruct (Rlt_dec a b) end; lra. }
  destruct (estimate_from_neighbors f p _ _); try discriminate. injection E as <- <- <-.
  assert (Hg : 0 < length_squared g).
  { unfold norm, squared_norm, lit in Hn. rsimp. destruct (Rlt_dec _ _) as [L|]; [|discriminate].
    unfold length_squared. assert (0 < sqrt (vx g * vx g + (vy g * vy g + vz g * vz g))) by lra.
    destruct (Rle_lt_dec (vx g * vx g + (vy g * vy g + vz g * vz g)) 0) as [K|K].
    - rewrite sqrt_neg_0 in H by auto. lra.
    - lra. }
  apply normalized_length in Hg.
  replace (length_squared (vsub (vadd q (vscale (normalized g) st)) q))
    with (length_squared (normalized g) * (st * st)).
  - rewrite Hg. nra.
  - unfold length_squared, vsub, vadd, vscale. cbn [vx vy vz]. rsimp. ring.
Qed.

(** ** Distance to the boundary *)
Lemma dmin_real a b : dmin (A := reals) a b = Rmin a b.
Proof.
  unfold dmin. rsimp. unfold Rmin. destruct (Rlt_dec b a), (Rle_dec a b); lra.
Qed.

Lemma min_index_real (a b c : R) :
  let k := min_index (A := reals) a b c in
  let v := if (k =? 0)%Z then a else if (k =? 1)%Z then b else c in
  (k = 0 \/ k = 1 \/ k = 2)%Z /\ v <= a /\ v <= b /\ v <= c.
Proof.
  unfold min_index. rsimp. destruct (Rlt_dec b a), (Rlt_dec _ _); cbn; (split; [lia|lra]).
Qed.

Lemma boundary_inside (f : rfield) p loc :
  let (v, inside) := distance_to_boundary f p loc in
  let q := to_grid p loc in
  (inside = true <-> in_box 0 (f_size f) q) /\
  (inside = true -> In v (face_distances (f_size f) q) /\
     forall w, In w (face_distances (f_size f) q) -> v <= w).
Proof.
  unfold distance_to_boundary. set (q := to_grid p loc).
  rewrite !dmin_real. rsimp.
  set (dx := Rmin (vx q) (vx (f_size f) - vx q)).
  set (dy := Rmin (vy q) (vy (f_size f) - vy q)).
  set (dz := Rmin (vz q) (vz (f_size f) - vz q)).
  assert (Ex : 0 <= dx <-> 0 <= vx q <= vx (f_size f) - 0).
  { unfold dx, Rmin. rcase; lra. }
  assert (Ey : 0 <= dy <-> 0 <= vy q <= vy (f_size f) - 0).
  { unfold dy, Rmin. rcase; lra. }
  assert (Ez : 0 <= dz <-> 0 <= vz q <= vz (f_size f) - 0).
  { unfold dz, Rmin. rcase; lra. }
  split.
  - unfold in_box. rewrite <- Ex, <- Ey, <- Ez.
    destruct (Rle_dec 0 dx), (Rle_dec 0 dy), (Rle_dec 0 dz); cbn; split; intros; try discriminate; tauto.
  - intros H.
    assert (P : 0 <= dx /\ 0 <= dy /\ 0 <= dz).
    { destruct (Rle_dec 0 dx), (Rle_dec 0 dy), (Rle_dec 0 dz); cbn in H; try discriminate. auto. }
    destruct P as (Px & Py & Pz).
    rewrite (Rabs_pos_eq dx), (Rabs_pos_eq dy), (Rabs_pos_eq dz) by auto.
    destruct (min_index_real dx dy dz) as (Hk & H1 & H2 & H3).
    set (k := min_index (A := reals) dx dy dz) in *.
    set (v := if (k =? 0)%Z then dx else if (k =? 1)%Z then dy else dz) in *.
    assert (Lx : dx <= vx q /\ dx <= vx (f_size f) - vx q) by (unfold dx, Rmin; rcase; lra).
    assert (Ly : dy <= vy q /\ dy <= vy (f_size f) - vy q) by (unfold dy, Rmin; rcase; lra).
    assert (Lz : dz <= vz q /\ dz <= vz (f_size f) - vz q) by (unfold dz, Rmin; rcase; lra).
    split.
    + assert (Mx : dx = vx q \/ dx = vx (f_size f) - vx q) by (unfold dx, Rmin; rcase; auto).
      assert (My : dy = vy q \/ dy = vy (f_size f) - vy q) by (unfold dy, Rmin; rcase; auto).
      assert (Mz : dz = vz q \/ dz = vz (f_size f) - vz q) by (unfold dz, Rmin; rcase; auto).
      unfold face_distances, v. cbn [In].
      destruct (k =? 0)%Z; [intuition auto|]. destruct (k =? 1)%Z; intuition auto.
    + intros w Hw. unfold face_distances in Hw. cbn [In] in Hw.
      repeat (destruct Hw as [Hw|Hw]; [subst w; lra|]). destruct Hw.
Qed.

(** ** A concrete geometry *)
Definition plain_pose (r : R) : pose reals := Pose (A := reals)
  (fun q => q) (fun q => q)
  (fun q => I (Int_part (vx q / r)) (Int_part (vy q / r)) (Int_part (vz q / r)))
  (fun i => @V reals (r * (IZR (ix i) + 1/2)) (r * (IZR (iy i) + 1/2)) (r * (IZR (iz i) + 1/2)))
  (fun v lo hi => Rmin (Rmax v lo) hi)
  1 (@V reals 0 0 0).

Lemma plain_geometry r : 0 < r -> geometry r (plain_pose r).
Proof.
  intros Hr.
  assert (K : forall v, r * IZR (Int_part (v / r)) <= v < r * (IZR (Int_part (v / r)) + 1)).
  { intros v. destruct (base_Int_part (v / r)) as (H1 & H2).
    assert (E : v = r * (v / r)) by (field; lra).
    split.
    - rewrite E at 2. apply Rmult_le_compat_l; lra.
    - rewrite E at 1. apply Rmult_lt_compat_l; lra. }
  constructor; intros; cbn [plain_pose center_of index_of to_grid to_world clamp ix iy iz]; auto.
Qed.

Lemma Int_part_unique v n : IZR n <= v < IZR n + 1 -> Int_part v = n.
Proof.
  intros H. destruct (base_Int_part v) as (H1 & H2).
  assert (IZR (Int_part v) < IZR (n + 1)) by (rewrite plus_IZR; lra).
  assert (IZR n < IZR (Int_part v + 1)) by (rewrite plus_IZR; lra).
  apply lt_IZR in H0. apply lt_IZR in H3. lia.
Qed.

(** Two cells in a row with values 1 and 3, cell size 1. *)
Definition two_cells : rfield := F (A := reals) (G (D 2 1 1) [1; 3] 0) 1 (@V reals 2 1 1).

Lemma estimate_extrapolates :
  exists (f : rfield) p q e, 0 < f_res f /\ geometry (f_res f) p /\
    in_bounds (f_dims f) (index_of p q) = true /\
    estimate_distance f p (to_world p q) = Ok (e, true) /\
    forall j, in_bounds (f_dims f) j = true -> e < centered_value f j.
Proof.
  exists two_cells, (plain_pose 1), (@V reals (1/4) (1/2) (1/2)), 0.
  assert (G : geometry (f_res two_cells) (plain_pose 1)) by (apply plain_geometry; cbn; lra).
  assert (Ei : index_of (plain_pose 1) (@V reals (1/4) (1/2) (1/2)) = I 0 0 0).
  { cbn [index_of plain_pose vx vy vz]. f_equal; apply Int_part_unique; lra. }
  assert (C0 : centered_value two_cells (I 0 0 0) = 1/2).
  { unfold centered_value. change (value two_cells (I 0 0 0)) with 1. change (f_res two_cells) with 1.
    destruct (Rle_dec 0 1); lra. }
  assert (C1 : centered_value two_cells (I 1 0 0) = 5/2).
  { unfold centered_value. change (value two_cells (I 1 0 0)) with 3. change (f_res two_cells) with 1.
    destruct (Rle_dec 0 3); lra. }
  assert (J : forall j, in_bounds (f_dims two_cells) j = true -> j = I 0 0 0 \/ j = I 1 0 0).
  { intros [x y z] B. apply in_bounds_spec in B. cbn in B.
    assert (y = 0 /\ z = 0 /\ (x = 0 \/ x = 1))%Z as (-> & -> & [Hx|Hx]) by lia; subst x; auto. }
  split; [cbn; lra|]. split; auto. split; [rewrite Ei; reflexivity|]. split.
  - rewrite (estimate_affine two_cells (plain_pose 1) _ (-1/2) 2 0 0); auto.
    + cbn [vx vy vz]. apply f_equal, f_equal2; auto. lra.
    + cbn; lra.
    + rewrite Ei. reflexivity.
    + cbn. discriminate.
    + intros j Hj. cbn [plain_pose center_of vx vy vz]. destruct (J j Hj); subst j;
        rewrite ?C0, ?C1; cbn [ix iy iz]; lra.
  - intros j Hj. destruct (J j Hj); subst j; rewrite ?C0, ?C1; lra.
Qed.

(** A point outside the box whose reported boundary distance is positive. *)
Lemma boundary_outside_positive :
  exists (f : rfield) p loc v, 0 < f_res f /\ geometry (f_res f) p /\
    distance_to_boundary f p loc = (v, false) /\ 0 < v.
Proof.
  exists two_cells, (plain_pose 1), (@V reals (-3) (1/2) (1/2)), (1/2).
  split; [cbn; lra|]. split; [apply plain_geometry; cbn; lra|]. split; [|lra].
  unfold distance_to_boundary. rewrite !dmin_real. cbn [plain_pose to_grid two_cells f_size vx vy vz].
  rsimp.
  assert (Ex : Rmin (-3) (2 - -3) = -3) by (unfold Rmin; rcase; lra).
  assert (Ey : Rmin (1/2) (1 - 1/2) = 1/2) by (unfold Rmin; rcase; lra).
  rewrite Ex, Ey. apply f_equal2.
  - unfold min_index. rsimp. rewrite (Rabs_left (-3)) by lra. rewrite (Rabs_right (1/2)) by lra.
    destruct (Rlt_dec (1/2) (- -3)); [|lra]. destruct (Rlt_dec (1/2) (1/2)); [lra|]. reflexivity.
  - destruct (Rle_dec 0 (-3)); [lra|]. reflexivity.
Qed.

Lemma gradient_length (f : rfield) (p : pose reals) i edges g :
  rot_w p * rot_w p + length_squared (rot_v p) <> 0 ->
  grid_aligned_gradient f i edges = Some g ->
  exists w, gradient f p i edges = Some w /\ length_squared w = length_squared g.
Proof.
  intros H E. unfold gradient. rewrite E. exists (rotate p g). split; [reflexivity|].
  apply rotate_length. exact H.
Qed.

Lemma full_gradient_get {A : arith} (f : field A) (g : idx -> option (vec A)) i :
  wf_grid (f_grid f) -> in_bounds (f_dims f) i = true ->
  get (full_gradient f g) i = (g i, true).
Proof.
  intros W B. pose proof (full_gradient_spec f g i W B) as E.
  assert (Ed : gdims (full_gradient f g) = f_dims f).
  { unfold full_gradient. set (m := mk_grid _ _ _). change (f_dims f) with (gdims m) at 2.
    generalize (sweep (f_dims f)) as l, m as a. induction l as [|j l IH]; intros a; cbn [fold_left]; auto.
    rewrite IH. unfold set. cbn [fst]. apply gset_dims. }
  rewrite get_eq, Ed, B, E. reflexivity.
Qed.

Lemma outside_case :
  0 < f_res two_cells /\ (1 <= nx (f_dims two_cells) /\ 1 <= ny (f_dims two_cells) /\ 1 <= nz (f_dims two_cells))%Z /\
  f_size two_cells = @V reals (f_res two_cells * IZR (nx (f_dims two_cells))) (f_res two_cells * IZR (ny (f_dims two_cells)))
    (f_res two_cells * IZR (nz (f_dims two_cells))) /\
  in_bounds (f_dims two_cells) (index_of (plain_pose 1) (@V reals 7 (1/2) (1/2))) = false.
Proof.
  split; [change (f_res two_cells) with 1; lra|]. split; [cbn; lia|]. split.
  - change (f_res two_cells) with 1. change (nx (f_dims two_cells)) with 2%Z. change (ny (f_dims two_cells)) with 1%Z.
    change (nz (f_dims two_cells)) with 1%Z. unfold two_cells. cbn [f_size]. apply vec_ext; cbn [vx vy vz]; lra.
  - replace (index_of (plain_pose 1) (@V reals 7 (1/2) (1/2))) with (I 7 0 0); [reflexivity|].
    cbn [index_of plain_pose vx vy vz]. f_equal; symmetry; apply Int_part_unique; lra.
Qed.

Lemma query_case :
  geometry 1 (plain_pose 1) /\ affine_values two_cells 1 2 0 0 /\
  between_centers two_cells (@V reals 1 (1/2) (1/2)) /\
  in_bounds (f_dims two_cells) (index_of (plain_pose 1) (@V reals 1 (1/2) (1/2))) = true /\
  2 * (0 + f_res two_cells / 10000) <= vy (f_size two_cells) /\
  estimate_distance two_cells (plain_pose 1) (@V reals 1 (1/2) (1/2)) = Ok (3/2, true).
Proof.
  assert (G : geometry 1 (plain_pose 1)) by (apply plain_geometry; lra).
  assert (Ei : index_of (plain_pose 1) (@V reals 1 (1/2) (1/2)) = I 1 0 0).
  { cbn [index_of plain_pose vx vy vz]. f_equal; apply Int_part_unique; lra. }
  assert (Hc : forall j, in_bounds (f_dims two_cells) j = true -> j = I 0 0 0 \/ j = I 1 0 0).
  { intros [a b c] B. apply in_bounds_spec in B. cbn [f_dims two_cells f_grid gdims ix iy iz nx ny nz] in B.
    assert (b = 0%Z) by lia. assert (c = 0%Z) by lia. assert (a = 0%Z \/ a = 1%Z) as [H1|H1] by lia; subst; auto. }
  split; [exact G|]. split.
  { intros j B. destruct (Hc j B); subst j.
    - change (value two_cells (I 0 0 0)) with 1. cbn [ix iy iz]. lra.
    - change (value two_cells (I 1 0 0)) with 3. cbn [ix iy iz]. lra. }
  split.
  { unfold between_centers, between_centers_axis. change (f_res two_cells) with 1.
    change (nx (f_dims two_cells)) with 2%Z. change (ny (f_dims two_cells)) with 1%Z.
    change (nz (f_dims two_cells)) with 1%Z. cbn [vx vy vz].
    split; [right; lra|split; left; reflexivity]. }
  split; [rewrite Ei; reflexivity|].
  split; [change (f_res two_cells) with 1; change (vy (f_size two_cells)) with 1; lra|].
  change (@V reals 1 (1/2) (1/2)) with (to_world (plain_pose 1) (@V reals 1 (1/2) (1/2))).
  rewrite (estimate_affine two_cells (plain_pose 1) (@V reals 1 (1/2) (1/2)) (-(1/2)) 2 0 0).
  - cbn [vx vy vz]. apply f_equal. apply f_equal2; [lra|reflexivity].
  - change (f_res two_cells) with 1. lra.
  - exact G.
  - rewrite Ei. reflexivity.
  - intros H. discriminate H.
  - auto.
  - auto.
  - intros j B. destruct (Hc j B); subst j; unfold centered_value; change (f_res two_cells) with 1;
      cbn [center_of plain_pose vx vy vz ix iy iz].
    + change (value two_cells (I 0 0 0)) with 1. destruct (Rle_dec 0 1); lra.
    + change (value two_cells (I 1 0 0)) with 3. destruct (Rle_dec 0 3); lra.
Qed.

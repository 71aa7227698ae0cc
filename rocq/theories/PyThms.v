(** What the Python helpers return. *)
From Coq Require Import Lia.
From Verif Require Import Base BaseFacts Floats Grid GridFacts DistSpec CollisionMap SdfGen SdfSpec
  Arith SdfQuery SdfField Python PySpec PyProofs.
Local Open Scope Z_scope.

Lemma whole_3d env d x y z : env_3d env d -> in_bounds d (I x y z) = true -> exists v, item env [y; x; z] = Some v.
Proof.
  intros (W & S) B. apply bounds_of in B as (B1 & B2 & B3). apply W. rewrite S. repeat constructor; lia.
Qed.

Lemma whole_2d env w h x y : env_2d env w h -> 0 <= x < w -> 0 <= y < h -> exists v, item env [y; x] = Some v.
Proof. intros (W & S) B1 B2. apply W. rewrite S. repeat constructor; lia. Qed.

Lemma get_of s x y z v : sdf_get s (I x y z) = (v, true) -> gget (s_grid s) (I x y z) = v.
Proof. intros E. unfold gget. unfold sdf_get in E. rewrite E. auto. Qed.

Lemma sdf_3d env d r : env_3d env d -> size_ok d -> usable_resolution r ->
  exists s, compute_sdf_3d env r = Ok s /\ wf_grid (s_grid s) /\ sdf_dims s = d /\
    forall x y z, in_bounds d (I x y z) = true -> exists v, sdf_get s (I x y z) = (v, true) /\ is_nan 24 128 v = false /\
      (item env [y; x; z] = Some 1 -> lt32 v zero32 = true) /\
      (item env [y; x; z] <> Some 1 -> gt32 v zero32 = true).
Proof.
  intros He Hs Hr. pose proof He as (_ & S).
  destruct (env_sdf_ok env (fun i => [iy i; ix i; iz i]) d "world" r Hs Hr) as (s & E & W & Ds & _ & _ & K).
  { intros [x y z] B. eapply whole_3d; eauto. }
  exists s. split; [|split; [auto|split; [auto|]]].
  - unfold compute_sdf_3d, axis. rewrite S. cbn [nth_error bind]. destruct d; auto.
  - intros x y z B. destruct (K _ B) as (v & V1 & V2 & V3 & V4). exists v. do 2 (split; [auto|]).
    unfold marked in *. cbn [ix iy iz] in *. destruct (item env [y; x; z]) as [n|] eqn:En.
    + destruct (Z.eqb_spec n 1) as [->|Hn]; split; intros H; auto; congruence.
    + split; intros H; auto; discriminate.
Qed.

Lemma sdf_2d env w h r frame : env_2d env w h -> size_ok (D w h 1) -> usable_resolution r ->
  exists s, compute_sdf_2d env r frame = Ok s /\ wf_grid (s_grid s) /\ sdf_dims s = D w h 1 /\
    forall x y, 0 <= x < w -> 0 <= y < h -> exists v, sdf_get s (I x y 0) = (v, true) /\ is_nan 24 128 v = false /\
      (item env [y; x] = Some 1 -> lt32 v zero32 = true) /\
      (item env [y; x] <> Some 1 -> gt32 v zero32 = true).
Proof.
  intros He Hs Hr. pose proof He as (_ & S).
  destruct (env_sdf_ok env (fun i => [iy i; ix i]) (D w h 1) frame r Hs Hr) as (s & E & W & Ds & _ & _ & K).
  { intros [x y z] B. apply bounds_of in B as (B1 & B2 & _). eapply whole_2d; eauto. }
  exists s. split; [|split; [auto|split; [auto|]]].
  - unfold compute_sdf_2d, axis. rewrite S. cbn [nth_error bind]. auto.
  - intros x y B1 B2. destruct (K (I x y 0)) as (v & V1 & V2 & V3 & V4); [apply bounds_of; cbn [nx ny nz]; lia|].
    exists v. do 2 (split; [auto|]).
    unfold marked in *. cbn [ix iy iz] in *. destruct (item env [y; x]) as [n|] eqn:En.
    + destruct (Z.eqb_spec n 1) as [->|Hn]; split; intros H; auto; congruence.
    + split; intros H; auto; discriminate.
Qed.

(** The two arrays made from one field. *)
Lemma arrays_3d s p : wf_grid (s_grid s) -> 0 < ncells (sdf_dims s) ->
  exists a g, sdf_array_3d s = Ok a /\ gradient_array_3d s p = Ok g /\
    shape a = [ny (sdf_dims s); nx (sdf_dims s); nz (sdf_dims s)] /\
    shape g = [ny (sdf_dims s); nx (sdf_dims s); nz (sdf_dims s); 3] /\
    forall x y z, in_bounds (sdf_dims s) (I x y z) = true ->
      (forall v, sdf_get s (I x y z) = (v, true) -> is_nan 24 128 v = false -> item a [y; x; z] = Some v) /\
      exists v, gradient (sdf_field s) p (I x y z) true = Some v /\
        item g [y; x; z; 0] = Some (b32_of_b64 (vx v)) /\
        item g [y; x; z; 1] = Some (b32_of_b64 (vy v)) /\
        item g [y; x; z; 2] = Some (b32_of_b64 (vz v)).
Proof.
  intros W P. destruct (gradient_grid_facts s p W) as (W2 & D2 & G2).
  unfold sdf_array_3d, gradient_array_3d, raw_values.
  rewrite (raw_reshape (s_grid s) b64_of_b32 W) by (unfold sdf_dims, ncells, prod; cbn [fold_right]; ring).
  rewrite (raw_gradient_ok (gradient_grid s p) (gradient_of s p) W2) by (rewrite D2; auto).
  cbn [bind axis shape nth_error].
  rewrite (gradient_reshape (gradient_grid s p) (gradient_of s p) W2)
    by (rewrite ?D2; auto; unfold ncells, prod; cbn [fold_right]; ring).
  cbn [bind]. eexists _, _. split; [reflexivity|]. split; [reflexivity|]. split; [reflexivity|].
  split; [rewrite D2; reflexivity|]. intros x y z B. split.
  - intros v Ev Nv. rewrite item_astype. unfold sdf_dims in *.
    rewrite (item_yxz (s_grid s) b64_of_b32 W) by auto. cbn [option_map].
    rewrite (get_of _ _ _ _ _ Ev), widen_back; auto.
  - exists (gradient_of s p (I x y z)). split; [apply gradient_of_spec; auto|].
    assert (K : forall k, 0 <= k < 3 -> item (astype b32_of_b64 (transpose [1%nat; 0%nat; 2%nat; 3%nat]
       (ND [nx (gdims (gradient_grid s p)); ny (gdims (gradient_grid s p)); nz (gdims (gradient_grid s p)); 3]
          (row_major [nx (gdims (gradient_grid s p)); ny (gdims (gradient_grid s p)); nz (gdims (gradient_grid s p)); 3])
          (concat (map vec_list (gdata (gradient_grid s p))))))) [y; x; z; k] =
       Some (b32_of_b64 (component (gradient_of s p (I x y z)) k))).
    { intros k Hk. rewrite item_astype, (gradient_yxz _ (gradient_of s p) W2); auto; rewrite D2; auto. }
    split; [|split]; apply K; lia.
Qed.

Lemma planar_facts s p : wf_grid (s_grid s) -> nz (sdf_dims s) = 1 -> 0 < ncells (sdf_dims s) ->
  exists g, planar_gradient s p = Ok g /\ shape g = [nx (sdf_dims s); ny (sdf_dims s); 2] /\
    shape (transpose [1; 0; 2]%nat g) = [ny (sdf_dims s); nx (sdf_dims s); 2] /\
    forall x y, in_bounds (sdf_dims s) (I x y 0) = true ->
      exists v, gradient (sdf_field s) p (I x y 0) true = Some v /\
        item g [x; y; 0] = Some (vx v) /\ item g [x; y; 1] = Some (vy v) /\
        item (transpose [1; 0; 2]%nat g) [y; x; 0] = Some (vx v) /\
        item (transpose [1; 0; 2]%nat g) [y; x; 1] = Some (vy v).
Proof.
  intros W E P. destruct (gradient_grid_facts s p W) as (W2 & D2 & G2).
  unfold planar_gradient. rewrite (raw_gradient_ok (gradient_grid s p) (gradient_of s p) W2) by (rewrite D2; auto).
  cbn [bind axis shape nth_error].
  rewrite (gradient_reshape (gradient_grid s p) (gradient_of s p) W2)
    by (rewrite ?D2; auto; unfold ncells, prod; cbn [fold_right]; rewrite E; ring).
  cbn [bind]. eexists. split; [reflexivity|]. split; [rewrite D2; reflexivity|]. split; [rewrite D2; reflexivity|].
  intros x y B. exists (gradient_of s p (I x y 0)). split; [apply gradient_of_spec; auto|].
  assert (G3 : forall i, in_bounds (gdims (gradient_grid s p)) i = true ->
    gget (gradient_grid s p) i = Some (gradient_of s p i)) by (rewrite D2; auto).
  assert (E2 : nz (gdims (gradient_grid s p)) = 1) by (rewrite D2; auto).
  assert (B2 : in_bounds (gdims (gradient_grid s p)) (I x y 0) = true) by (rewrite D2; auto).
  split; [|split; [|split]].
  - apply (gradient_xy _ (gradient_of s p) W2 G3 x y 0); auto; lia.
  - apply (gradient_xy _ (gradient_of s p) W2 G3 x y 1); auto; lia.
  - apply (gradient_yx _ (gradient_of s p) W2 G3 x y 0); auto; lia.
  - apply (gradient_yx _ (gradient_of s p) W2 G3 x y 1); auto; lia.
Qed.

Lemma python_3d env d r p : env_3d env d -> size_ok d -> 0 < ncells d -> usable_resolution r ->
  exists s a g, compute_sdf_3d env r = Ok s /\ compute_sdf_and_gradient_3d env r p = Ok (a, g) /\ sdf_dims s = d /\
    shape a = [ny d; nx d; nz d] /\ shape g = [ny d; nx d; nz d; 3] /\
    forall x y z, in_bounds d (I x y z) = true ->
      exists v w, sdf_get s (I x y z) = (v, true) /\ item a [y; x; z] = Some v /\
        (item env [y; x; z] = Some 1 -> lt32 v zero32 = true) /\
        (item env [y; x; z] <> Some 1 -> gt32 v zero32 = true) /\
        gradient (sdf_field s) p (I x y z) true = Some w /\
        item g [y; x; z; 0] = Some (b32_of_b64 (vx w)) /\
        item g [y; x; z; 1] = Some (b32_of_b64 (vy w)) /\
        item g [y; x; z; 2] = Some (b32_of_b64 (vz w)).
Proof.
  intros He Hs P Hr. destruct (sdf_3d env d r He Hs Hr) as (s & E & W & Ds & K). subst d.
  destruct (arrays_3d s p W P) as (a & g & Ea & Eg & Sa & Sg & L).
  exists s, a, g. split; auto. unfold compute_sdf_and_gradient_3d. rewrite E. cbn [bind]. rewrite Ea. cbn [bind].
  rewrite Eg. cbn [bind]. do 4 (split; [auto|]). intros x y z B.
  destruct (K x y z B) as (v & V1 & V2 & V3 & V4). destruct (L x y z B) as (L1 & w & L2 & L3 & L4 & L5).
  exists v, w. do 7 (split; [auto|]). auto.
Qed.

Lemma array_2d s : wf_grid (s_grid s) -> nz (sdf_dims s) = 1 ->
  exists a b, sdf_array_2d s = Ok a /\ sdf_to_np s = Ok b /\
    shape a = [ny (sdf_dims s); nx (sdf_dims s)] /\ shape b = [nx (sdf_dims s); ny (sdf_dims s)] /\
    forall x y v, in_bounds (sdf_dims s) (I x y 0) = true -> sdf_get s (I x y 0) = (v, true) ->
      (is_nan 24 128 v = false -> item a [y; x] = Some v) /\ item b [x; y] = Some (b64_of_b32 v).
Proof.
  intros W E. unfold sdf_array_2d, sdf_to_np, raw_values. unfold sdf_dims in *.
  rewrite (raw_reshape (s_grid s) b64_of_b32 W) by (unfold ncells, prod; cbn [fold_right]; rewrite E; ring).
  cbn [bind]. eexists _, _. do 2 (split; [reflexivity|]). do 2 (split; [reflexivity|]).
  intros x y v B Ev. split.
  - intros Nv. rewrite item_astype, (item_yx (s_grid s) b64_of_b32 W) by auto. cbn [option_map].
    rewrite (get_of _ _ _ _ _ Ev), widen_back; auto.
  - rewrite (item_xy (s_grid s) b64_of_b32 W) by auto. rewrite (get_of _ _ _ _ _ Ev). auto.
Qed.

Lemma python_2d env w h r p frame : env_2d env w h -> size_ok (D w h 1) -> 0 < w -> 0 < h -> usable_resolution r ->
  exists s a g, compute_sdf_2d env r frame = Ok s /\ compute_sdf_and_gradient_2d env r p frame = Ok (a, g) /\
    sdf_dims s = D w h 1 /\ shape a = [h; w] /\ shape g = [h; w; 2] /\
    forall x y, 0 <= x < w -> 0 <= y < h ->
      exists v u, sdf_get s (I x y 0) = (v, true) /\ item a [y; x] = Some v /\
        (item env [y; x] = Some 1 -> lt32 v zero32 = true) /\
        (item env [y; x] <> Some 1 -> gt32 v zero32 = true) /\
        gradient (sdf_field s) p (I x y 0) true = Some u /\
        item g [y; x; 0] = Some (b32_of_b64 (vx u)) /\
        item g [y; x; 1] = Some (b32_of_b64 (vy u)).
Proof.
  intros He Hs Pw Ph Hr. destruct (sdf_2d env w h r frame He Hs Hr) as (s & E & W & Ds & K).
  assert (Nz : nz (sdf_dims s) = 1) by (rewrite Ds; auto).
  assert (P : 0 < ncells (sdf_dims s)) by (rewrite Ds; unfold ncells; cbn [nx ny nz]; nia).
  destruct (array_2d s W Nz) as (a & b & Ea & _ & Sa & _ & L).
  destruct (planar_facts s p W Nz P) as (g & Eg & _ & Sg & M).
  exists s, a, (astype b32_of_b64 (transpose [1; 0; 2]%nat g)). split; auto.
  unfold compute_sdf_and_gradient_2d. rewrite E. cbn [bind]. rewrite Ea. cbn [bind].
  rewrite Eg. cbn [bind]. rewrite Ds in *. cbn [nx ny nz] in *.
  do 3 (split; [auto|]). split; [exact Sg|]. intros x y B1 B2.
  assert (B : in_bounds (D w h 1) (I x y 0) = true) by (apply bounds_of; cbn [nx ny nz]; lia).
  destruct (K x y B1 B2) as (v & V1 & V2 & V3 & V4). destruct (M x y B) as (u & M1 & _ & _ & M2 & M3).
  exists v, u. destruct (L x y v B V1) as (L1 & _). rewrite !item_astype, M2, M3.
  do 6 (split; [auto|]). auto.
Qed.

(** The helpers that do not transpose. *)
Lemma untransposed_2d s p : wf_grid (s_grid s) -> nz (sdf_dims s) = 1 -> 0 < ncells (sdf_dims s) ->
  exists a g, sdf_to_np s = Ok a /\ compute_gradient s p = Ok (a, g) /\
    shape a = [nx (sdf_dims s); ny (sdf_dims s)] /\ shape g = [nx (sdf_dims s); ny (sdf_dims s); 2] /\
    forall x y, in_bounds (sdf_dims s) (I x y 0) = true ->
      item a [x; y] = Some (b64_of_b32 (fst (sdf_get s (I x y 0)))) /\
      exists v, gradient (sdf_field s) p (I x y 0) true = Some v /\
        item g [x; y; 0] = Some (vx v) /\ item g [x; y; 1] = Some (vy v).
Proof.
  intros W E P. destruct (array_2d s W E) as (a & b & _ & Eb & _ & Sb & L).
  destruct (planar_facts s p W E P) as (g & Eg & Sg & _ & M).
  exists b, g. split; auto. unfold compute_gradient. unfold sdf_to_np in Eb. rewrite Eb. cbn [bind]. rewrite Eg. cbn [bind].
  do 3 (split; [auto|]). intros x y B. destruct (M x y B) as (v & M1 & M2 & M3 & _).
  split; [|exists v; auto]. apply L; auto. unfold sdf_get. rewrite get_eq. unfold sdf_dims in B. rewrite B. auto.
Qed.

Lemma untransposed_3d s p : wf_grid (s_grid s) -> 0 < ncells (sdf_dims s) ->
  exists g, get_gradient_3d s p = Ok g /\ shape g = [nx (sdf_dims s); ny (sdf_dims s); nz (sdf_dims s); 3] /\
    forall x y z, in_bounds (sdf_dims s) (I x y z) = true ->
      exists v, gradient (sdf_field s) p (I x y z) true = Some v /\
        item g [x; y; z; 0] = Some (vx v) /\ item g [x; y; z; 1] = Some (vy v) /\ item g [x; y; z; 2] = Some (vz v).
Proof.
  intros W P. destruct (gradient_grid_facts s p W) as (W2 & D2 & G2).
  unfold get_gradient_3d.
  rewrite (raw_gradient_ok (gradient_grid s p) (gradient_of s p) W2) by (rewrite D2; auto).
  cbn [bind axis shape nth_error].
  rewrite (gradient_reshape (gradient_grid s p) (gradient_of s p) W2)
    by (rewrite ?D2; auto; unfold ncells, prod; cbn [fold_right]; ring).
  eexists. split; [reflexivity|]. split; [rewrite D2; reflexivity|]. intros x y z B.
  exists (gradient_of s p (I x y z)). split; [apply gradient_of_spec; auto|].
  assert (G3 : forall i, in_bounds (gdims (gradient_grid s p)) i = true ->
    gget (gradient_grid s p) i = Some (gradient_of s p i)) by (rewrite D2; auto).
  assert (B2 : in_bounds (gdims (gradient_grid s p)) (I x y z) = true) by (rewrite D2; auto).
  split; [|split].
  - apply (gradient_xyz _ (gradient_of s p) W2 G3 x y z 0); auto; lia.
  - apply (gradient_xyz _ (gradient_of s p) W2 G3 x y z 1); auto; lia.
  - apply (gradient_xyz _ (gradient_of s p) W2 G3 x y z 2); auto; lia.
Qed.

(** to_np fails on the gradient of every field that has cells. *)
Lemma to_np_fails s p : wf_grid (s_grid s) -> 0 < ncells (sdf_dims s) ->
  gradient_to_np (gradient_grid s p) = Throw "ValueError" /\ is_ok (to_np s (gradient_grid s p)) = false.
Proof.
  intros W P. destruct (gradient_grid_facts s p W) as (W2 & D2 & G2).
  assert (E : gradient_to_np (gradient_grid s p) = Throw "ValueError").
  { apply (gradient_to_np_fails _ (gradient_of s p) W2); rewrite D2; auto. }
  split; auto. unfold to_np. destruct (sdf_to_np s); cbn [bind]; auto. rewrite E. auto.
Qed.

(** Fields with several layers have no 2D array. *)
Lemma sdf_to_np_layers s : wf_grid (s_grid s) -> 0 < ncells (sdf_dims s) -> nz (sdf_dims s) <> 1 ->
  sdf_to_np s = Throw "ValueError".
Proof.
  intros W P N. apply (raw_reshape_fails (s_grid s) b64_of_b32 W). cbn [prod fold_right]. rewrite Z.mul_1_r.
  change (gdims (s_grid s)) with (sdf_dims s). pose proof W as (H1 & H2 & H3 & _).
  change (gdims (s_grid s)) with (sdf_dims s) in *.
  unfold ncells in *. assert (Q : 0 <= nx (sdf_dims s) * ny (sdf_dims s)) by (apply Z.mul_nonneg_nonneg; auto).
  intros E. assert (T : nx (sdf_dims s) * ny (sdf_dims s) * (nz (sdf_dims s) - 1) = 0) by lia.
  apply Z.mul_eq_0 in T. destruct T as [T|T]; [rewrite T in P; lia|lia].
Qed.

(** A field without cells has no gradient array. *)
Lemma no_cells s p : wf_grid (s_grid s) -> ncells (sdf_dims s) = 0 -> gradient_array_3d s p = Throw "IndexError".
Proof.
  intros W P. destruct (gradient_grid_facts s p W) as (W2 & D2 & G2).
  unfold gradient_array_3d. rewrite raw_gradient_empty by (auto; rewrite D2; auto). reflexivity.
Qed.

(** ** grid_to_np *)
Lemma pairs_in w h i j : In (i, j) (flat_map (fun i => map (fun j => (i, j)) (zrange h)) (zrange w)) <->
  0 <= i < w /\ 0 <= j < h.
Proof.
  rewrite in_flat_map. split.
  - intros (x & Hx & H). apply in_map_iff in H as (y & E & Hy). injection E as -> ->.
    apply zrange_in in Hx, Hy. auto.
  - intros (H1 & H2). exists i. rewrite zrange_in. split; auto. apply in_map_iff. exists j. rewrite zrange_in. auto.
Qed.

Lemma grid_to_np_ok m : wf_grid (cm_grid m) ->
  shape (grid_to_np m) = [nx (cm_dims m); ny (cm_dims m)] /\
  forall x y, 0 <= x < nx (cm_dims m) -> 0 <= y < ny (cm_dims m) ->
    item (grid_to_np m) [x; y] = Some (Some (c_occ (fst (cm_get m (I x y 0))))).
Proof.
  intros (H1 & H2 & _). unfold grid_to_np. change (gdims (cm_grid m)) with (cm_dims m) in *.
  set (w := nx (cm_dims m)) in *. set (h := ny (cm_dims m)) in *.
  set (step := fun (a : ndarray (option binary32)) (ij : Z * Z) => _).
  set (l := flat_map _ _).
  set (b0 := ND [w; h] _ _).
  assert (K : forall pre post, l = pre ++ post ->
    let a := fold_left step pre b0 in
    shape a = [w; h] /\ strides a = [h; 1] /\ length (buffer a) = Z.to_nat (w * h) /\
    forall x y, 0 <= x < w -> 0 <= y < h -> In (x, y) pre ->
      nth_error (buffer a) (Z.to_nat (x * h + y)) = Some (Some (c_occ (fst (cm_get m (I x y 0)))))).
  { induction pre as [|q pre IH] using rev_ind; intros post E; cbn zeta.
    - cbn [fold_left]. unfold b0. cbn [shape strides buffer row_major prod fold_right].
      split; auto. split; [f_equal; ring|]. split; [rewrite repeat_length; f_equal; ring|]. intros x y _ _ [].
    - rewrite <- app_assoc in E. destruct (IH _ E) as (A1 & A2 & A3 & A4). clear IH.
      rewrite fold_left_app. cbn [fold_left]. set (a := fold_left step pre b0) in *.
      assert (Hq : In q l) by (rewrite E; apply in_or_app; right; left; auto).
      destruct q as [i j]. unfold l in Hq. apply pairs_in in Hq as (Q1 & Q2).
      assert (Es : step a (i, j) = ND [w; h] [h; 1] (upd (Z.to_nat (i * h + j))
        (Some (c_occ (fst (cm_get m (I i j 0))))) (buffer a))).
      { unfold step. rewrite A1, A2. cbn [fst snd offset]. rewrite !in_range by lia.
        replace (i * h + (j * 1 + 0)) with (i * h + j) by ring. auto. }
      rewrite Es. cbn [shape strides buffer]. split; auto. split; auto. split; [rewrite upd_length; auto|].
      intros x y X Y Hin.
      assert (R : i * h + j < w * h) by nia. assert (R0 : 0 <= i * h) by (apply Z.mul_nonneg_nonneg; lia).
      assert (R1 : 0 <= x * h) by (apply Z.mul_nonneg_nonneg; lia).
      destruct (Z.eq_dec (i * h + j) (x * h + y)) as [Eo|No].
      + assert (i = x) by nia. assert (j = y) by lia. subst i j. rewrite upd_same; auto. rewrite A3. lia.
      + rewrite upd_other by lia. apply A4; auto. apply in_app_or in Hin as [Hin|[Hin|[]]]; auto.
        injection Hin as -> ->. contradiction. }
  destruct (K l []) as (A1 & A2 & A3 & A4); [rewrite app_nil_r; auto|]. split; auto.
  intros x y X Y. unfold item. rewrite A1, A2. cbn [offset]. rewrite !in_range by lia.
  replace (x * h + (y * 1 + 0)) with (x * h + y) by ring. apply A4; auto. unfold l. apply pairs_in; auto.
Qed.

Lemma empty_3d env d r p : env_3d env d -> size_ok d -> ncells d = 0 -> usable_resolution r ->
  exists s, compute_sdf_3d env r = Ok s /\ compute_sdf_and_gradient_3d env r p = Throw "IndexError".
Proof.
  intros He Hs P Hr. destruct (sdf_3d env d r He Hs Hr) as (s & E & W & Ds & _). subst d.
  exists s. split; auto. unfold compute_sdf_and_gradient_3d. rewrite E. cbn [bind].
  unfold sdf_array_3d, raw_values.
  rewrite (raw_reshape (s_grid s) b64_of_b32 W) by (unfold sdf_dims, ncells, prod; cbn [fold_right]; ring).
  cbn [bind]. rewrite no_cells by auto. reflexivity.
Qed.

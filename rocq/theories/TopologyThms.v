(** When ComputeComponentTopology throws, and concrete maps. *)
From Coq Require Import Permutation Lia Sorted.
From Verif Require Import Base BaseFacts Floats Grid GridFacts TopoSpec SurfaceSpec CollisionMap
  ComponentSpec CollisionMapProofs TaggedMap TaggedSpec TaggedProofs Surfaces VertexProofs HoleProofs
  SurfaceProofs TopologyProofs.

Section Flat.
  Variables (d : dims) (get : idx -> Z) (surf : idx -> bool) (c x y z : Z).
  Hypothesis outside : forall i, in_bounds d i = false -> get i <> c.
  Hypothesis lateral : forall a b e a', get (I a b e) = c -> a' = a - 1 \/ a' = a + 1 ->
    get (I a' b e) <> c -> surf (I a b e) = true.
  Hypothesis top : forall i j, i = 0 \/ i = 1 -> j = 0 \/ j = 1 ->
    get (I (x + i) (y + j) z) = c /\ get (I (x + i) (y + j) (z - 1)) = c /\
    get (I (x + i) (y + j) (z + 1)) <> c.
  Variable s : list idx.
  Hypothesis cells : forall i, In i s <-> in_bounds d i = true /\ surf i = true /\ get i = c.

  Let V (k : nat) := I (x + Z.of_nat k) (y + 1) (z + 1).
  Let S := surface_vertices c get s.
  Let flat (k : nat) := get (I (x + Z.of_nat k) y z) = c /\ get (I (x + Z.of_nat k) (y + 1) z) = c /\
    get (I (x + Z.of_nat k) y (z + 1)) <> c /\ get (I (x + Z.of_nat k) (y + 1) (z + 1)) <> c.

  Lemma inside i : get i = c -> in_bounds d i = true.
  Proof. intros H. destruct (in_bounds d i) eqn:B; auto. exfalso. apply (outside i); auto. Qed.

  Lemma member a b e a' : get (I a b e) = c -> a' = a - 1 \/ a' = a + 1 ->
    get (I a' b e) <> c -> In (I a b e) s.
  Proof. intros H1 H2 H3. apply cells. split; [apply inside; auto|]. split; [eapply lateral; eauto|auto]. Qed.

  Lemma first_missing : ~ In (V 1) S.
  Proof.
    unfold S. rewrite vertices_in. intros ([a b e] & Hi & Hv). apply cells in Hi. destruct Hi as (_ & _ & Hc).
    apply voxel_vertices_in in Hv. destruct Hv as (p & q & r & Hp & Hq & Hr & E & H).
    unfold V in E. injection E as E1 E2 E3.
    assert (Ea : a = x + (1 - p)) by lia. assert (Eb : b = y + (1 - q)) by lia.
    subst a b. assert (r = 1) as ->.
    { destruct Hr as [->| ->]; auto. exfalso.
      destruct (top (1 - p) (1 - q)) as (_ & _ & T); try lia. apply T. rewrite <- Hc. f_equal. f_equal. lia. }
    assert (e = z) as -> by lia.
    destruct H as [H|[H|H]]; apply H.
    - apply top; lia.
    - replace (y + (1 - q) - 1 + 2 * q) with (y + q) by lia. apply top; lia.
    - replace (x + (1 - p) - 1 + 2 * p) with (x + p) by lia. apply top; lia.
  Qed.

  Lemma flat_next k : flat k -> ~ In (V (Datatypes.S k)) S -> flat (Datatypes.S k).
  Proof.
    intros (A & B & C & D) N. unfold S in N. rewrite vertices_in in N.
    assert (X : x + Z.of_nat (Datatypes.S k) = x + Z.of_nat k + 1) by lia.
    unfold flat. rewrite X. unfold V in N. rewrite X in N. set (u := x + Z.of_nat k) in *.
    split; [|split; [|split]].
    - destruct (Z.eq_dec (get (I (u + 1) y z)) c) as [|F]; auto. exfalso. apply N.
      exists (I u y z). split; [apply (member _ _ _ (u + 1)); auto|].
      apply voxel_vertices_in. exists 1, 1, 1. repeat (split; [auto|]).
      right. right. replace (u - 1 + 2 * 1) with (u + 1) by lia. auto.
    - destruct (Z.eq_dec (get (I (u + 1) (y + 1) z)) c) as [|F]; auto. exfalso. apply N.
      exists (I u (y + 1) z). split; [apply (member _ _ _ (u + 1)); auto|].
      apply voxel_vertices_in. exists 1, 0, 1. do 3 (split; [auto|]).
      split; [f_equal; lia|]. right. right. replace (u - 1 + 2 * 1) with (u + 1) by lia. auto.
    - intros F. apply N. exists (I (u + 1) y (z + 1)). split.
      + apply (member _ _ _ u); auto; [lia].
      + apply voxel_vertices_in. exists 0, 1, 0. do 3 (split; [auto|]).
        split; [f_equal; lia|]. right. right. replace (u + 1 - 1 + 2 * 0) with u by lia. auto.
    - intros F. apply N. exists (I (u + 1) (y + 1) (z + 1)). split.
      + apply (member _ _ _ u); auto; [lia].
      + apply voxel_vertices_in. exists 0, 0, 0. do 3 (split; [auto|]).
        split; [f_equal; lia|]. right. right. replace (u + 1 - 1 + 2 * 0) with u by lia. auto.
  Qed.

  Lemma flat_one : flat 1.
  Proof.
    destruct (top 1 0) as (A & _ & B); auto. destruct (top 1 1) as (C & _ & D); auto.
    rewrite Z.add_0_r in A, B. unfold flat. change (Z.of_nat 1) with 1. auto.
  Qed.

  Lemma flat_end : exists k, flat k /\ ~ In (V k) S /\ In (V (Datatypes.S k)) S.
  Proof.
    assert (H : forall n, (exists k, flat k /\ ~ In (V k) S /\ In (V (Datatypes.S k)) S) \/
                          (flat (Datatypes.S n) /\ ~ In (V (Datatypes.S n)) S)).
    { induction n as [|n [IH|(F & N)]]; auto.
      - right. split; [apply flat_one|apply first_missing].
      - destruct (in_dec idx_eq_dec (V (Datatypes.S (Datatypes.S n))) S) as [Hin|Hout].
        + left. exists (Datatypes.S n). auto.
        + right. split; auto. apply flat_next; auto. }
    destruct (H (Z.to_nat (nx d - x))) as [|(F & _)]; auto. exfalso.
    destruct F as (F & _). apply inside, in_bounds_spec in F. cbn [ix iy iz] in F.
    assert (B0 : get (I x y z) = c) by (rewrite <- (Z.add_0_r x), <- (Z.add_0_r y); apply top; auto).
    apply inside, in_bounds_spec in B0. cbn [ix iy iz] in B0. lia.
  Qed.

  Lemma flat_throws order : any_order order -> holes_in_surface order c s get = Throw "out_of_range".
  Proof.
    intros P. destruct flat_end as (k & (A & B & C & D) & N & Hin).
    assert (E : add (V (Datatypes.S k)) (direction 4) = V k).
    { unfold V, add, direction. cbn [ix iy iz fst snd]. f_equal; lia. }
    apply (holes_dangling order c s get (V (Datatypes.S k)) 4); auto; [lia| |rewrite E; auto].
    unfold edge, V, vertex_edges. change (Z.to_nat 4) with 4%nat. cbn [nth].
    replace (x + Z.of_nat (Datatypes.S k) - 1) with (x + Z.of_nat k) by lia.
    replace (y + 1 - 1) with y by lia. replace (z + 1 - 1) with z by lia. rewrite A, B.
    unfold exposed. rewrite Z.eqb_refl. cbn [negb orb andb].
    destruct (Z.eqb_spec c (get (I (x + Z.of_nat k) y (z + 1)))); [congruence|]. reflexivity.
  Qed.
End Flat.

(** ** On maps *)
(** A labelled map with a flat top on some component throws, whatever the labels. *)
Lemma flat_top_topology order e m c x y z :
  any_order order -> 0 <= c ->
  (e = true -> forall i, in_bounds (cm_dims m) i = true -> component_at m i = c ->
     gt32 (occupancy_at m i) half32 = true) ->
  flat_top (cm_dims m) (component_at m) c x y z ->
  cm_topology order e false m = Throw "out_of_range".
Proof.
  intros P Hc He Ht. unfold cm_topology. cbn [bind].
  set (g := cm_grid m) in *.
  assert (L : forall i, in_bounds (cm_dims m) i = true -> component_or_outside c_comp g i = component_at m i).
  { intros i B. rewrite outside_label. unfold cm_dims in B. fold g in B. rewrite B.
    unfold component_at. rewrite cm_get_eq. reflexivity. }
  assert (O : forall i, in_bounds (cm_dims m) i = false -> component_or_outside c_comp g i = -1).
  { intros i B. rewrite outside_label. unfold cm_dims in B. fold g in B. rewrite B. reflexivity. }
  assert (T : forall i j, i = 0 \/ i = 1 -> j = 0 \/ j = 1 ->
    component_or_outside c_comp g (I (x + i) (y + j) z) = c /\
    component_or_outside c_comp g (I (x + i) (y + j) (z - 1)) = c /\
    component_or_outside c_comp g (I (x + i) (y + j) (z + 1)) <> c).
  { intros i j Hi Hj. destruct (Ht i j Hi Hj) as (A & B & C & D & F).
    rewrite (L _ A), (L _ C). split; [auto|]. split; [auto|].
    destruct (in_bounds (cm_dims m) (I (x + i) (y + j) (z + 1))) eqn:Bt.
    - rewrite (L _ Bt). auto.
    - rewrite (O _ Bt). lia. }
  assert (Lat : forall a b f a', component_or_outside c_comp g (I a b f) = c -> a' = a - 1 \/ a' = a + 1 ->
    component_or_outside c_comp g (I a' b f) <> c -> cm_surface e g (I a b f) = true).
  { intros a b f a' H1 H2 H3.
    assert (B : in_bounds (cm_dims m) (I a b f) = true).
    { destruct (in_bounds (cm_dims m) (I a b f)) eqn:B; auto. rewrite (O _ B) in H1. lia. }
    unfold cm_surface. apply andb_true_iff. split.
    - destruct e; auto. rewrite (L _ B) in H1. specialize (He eq_refl _ B H1).
      unfold occupancy_at, cm_get in He. exact He.
    - apply (component_surface_lateral c_comp g a b f a'); auto.
      intros B'. rewrite outside_label in H1, H3. unfold cm_dims in B. fold g in B.
      rewrite B in H1. rewrite B' in H3. congruence. }
  assert (Out : forall i, in_bounds (cm_dims m) i = false -> component_or_outside c_comp g i <> c).
  { intros i B. rewrite (O _ B). lia. }
  assert (K : In c (map fst (component_surfaces (cm_dims m) (component_or_outside c_comp g) (cm_surface e g)))).
  { apply surface_keys.
    (* some cell of the component has a lateral neighbour outside: walk to the end of a row *)
    assert (W : forall n : nat, (exists i, in_bounds (cm_dims m) i = true /\ cm_surface e g i = true /\
                                     component_or_outside c_comp g i = c) \/
                          component_or_outside c_comp g (I (x + Z.of_nat n) y z) = c).
    { induction n as [|n [IH|IH]]; auto.
      - right. change (Z.of_nat 0) with 0. destruct (T 0 0) as (A & _); auto.
        rewrite Z.add_0_r in *. rewrite Z.add_0_r in A. exact A.
      - destruct (Z.eq_dec (component_or_outside c_comp g (I (x + Z.of_nat (S n)) y z)) c) as [|N]; auto.
        left. exists (I (x + Z.of_nat n) y z). split.
        + destruct (in_bounds (cm_dims m) (I (x + Z.of_nat n) y z)) eqn:B; auto. exfalso. apply (Out _ B). auto.
        + split; auto. apply (Lat _ _ _ (x + Z.of_nat (S n))); auto. right. lia. }
    destruct (W (Z.to_nat (nx (cm_dims m) - x))) as [|F]; auto. exfalso.
    assert (B0 : in_bounds (cm_dims m) (I x y z) = true).
    { destruct (Ht 0 0) as (A & _); auto. rewrite !Z.add_0_r in A. auto. }
    apply in_bounds_spec in B0. cbn [ix iy iz] in B0.
    assert (B1 : in_bounds (cm_dims m) (I (x + Z.of_nat (Z.to_nat (nx (cm_dims m) - x))) y z) = false).
    { apply not_true_iff_false. intros B. apply in_bounds_spec in B. cbn [ix iy iz] in B. lia. }
    apply (Out _ B1). auto. }
  apply in_map_iff in K. destruct K as ([c' s] & E & K). cbn [fst] in E. subst c'.
  assert (Th : component_topology order (cm_dims m) (component_or_outside c_comp g) (cm_surface e g) =
               Throw "out_of_range").
  { unfold component_topology. apply (topology_throws order _ _ (c, s) P K). cbn [fst snd].
    apply (flat_throws (cm_dims m) (component_or_outside c_comp g) (cm_surface e g) c x y z); auto.
    apply (surface_entry _ _ _ _ _ K). }
  change (cm_grid m) with g. rewrite Th. reflexivity.
Qed.

(** Occupied flat top: the whole call, labelling included, throws. *)
Lemma topology_recompute order e m m' n : cm_update m = Ok (m', n) ->
  cm_topology order e true m = cm_topology order e false m'.
Proof. intros E. unfold cm_topology. rewrite E. reflexivity. Qed.

Lemma same_kind_component m n : components_right m n -> forall a b,
  in_bounds (cm_dims m) a = true -> in_bounds (cm_dims m) b = true ->
  component_at m a = component_at m b ->
  gt32 (occupancy_at m a) half32 = gt32 (occupancy_at m b) half32.
Proof.
  intros ((_ & _ & _ & _ & R) & _) a b Ba Bb E. apply R in E; auto.
  induction E as [|a b c J IH F B _ L]; auto.
  assert (Bb' : in_bounds (cm_dims m) b = true) by (destruct J; auto).
  rewrite IH; auto. unfold same_kind in L. apply Bool.eqb_prop in L. auto.
Qed.

Lemma adjacent_component m n : components_right m n -> forall a b,
  in_bounds (cm_dims m) a = true -> in_bounds (cm_dims m) b = true -> face_adjacent a b ->
  gt32 (occupancy_at m a) half32 = gt32 (occupancy_at m b) half32 ->
  component_at m a = component_at m b.
Proof.
  intros ((_ & _ & _ & _ & R) & _) a b Ba Bb F E. apply R; auto.
  eapply joined_step; [apply joined_refl; auto|exact F|auto|auto|].
  unfold same_kind. rewrite E. apply Bool.eqb_reflx.
Qed.

Lemma occupied_flat_top_throws order e m x y z :
  any_order order -> sound m -> occupied_flat_top m x y z ->
  cm_topology order e true m = Throw "out_of_range".
Proof.
  intros P Hs Ht. destruct (update_sound m Hs) as (m' & n & E & Ok' & (D & _ & _ & Occ) & R & _).
  rewrite (topology_recompute order e m m' n E).
  unfold occupied_flat_top in Ht. rewrite <- D in Ht.
  assert (Ht' : forall i j, (i = 0 \/ i = 1) -> (j = 0 \/ j = 1) ->
    in_bounds (cm_dims m') (I (x + i) (y + j) z) = true /\
    gt32 (occupancy_at m' (I (x + i) (y + j) z)) half32 = true /\
    in_bounds (cm_dims m') (I (x + i) (y + j) (z - 1)) = true /\
    gt32 (occupancy_at m' (I (x + i) (y + j) (z - 1))) half32 = true /\
    (in_bounds (cm_dims m') (I (x + i) (y + j) (z + 1)) = true ->
     gt32 (occupancy_at m' (I (x + i) (y + j) (z + 1))) half32 = false)).
  { intros i j Hi Hj. rewrite !Occ. apply Ht; auto. }
  clear Ht. rename Ht' into Ht.
  set (c := component_at m' (I x y z)).
  assert (B0 : in_bounds (cm_dims m') (I x y z) = true /\ gt32 (occupancy_at m' (I x y z)) half32 = true).
  { destruct (Ht 0 0) as (A & B & _); auto. rewrite !Z.add_0_r in A, B. auto. }
  destruct B0 as (B0 & O0).
  assert (C : forall i j, (i = 0 \/ i = 1) -> (j = 0 \/ j = 1) ->
    component_at m' (I (x + i) (y + j) z) = c /\ component_at m' (I (x + i) (y + j) (z - 1)) = c).
  { assert (Row : forall i j, (i = 0 \/ i = 1) -> (j = 0 \/ j = 1) ->
              component_at m' (I (x + i) (y + j) z) = c).
    { assert (Row0 : forall i, (i = 0 \/ i = 1) -> component_at m' (I (x + i) y z) = c).
      { intros i Hi. destruct Hi as [->| ->]; [rewrite Z.add_0_r; reflexivity|].
        destruct (Ht 1 0) as (A & B & _); auto. rewrite Z.add_0_r in A, B.
        apply (adjacent_component m' n R); auto.
        - unfold face_adjacent. cbn [ix iy iz]. lia.
        - congruence. }
      intros i j Hi Hj. destruct Hj as [->| ->]; [rewrite Z.add_0_r; auto|].
      rewrite <- (Row0 i Hi).
      destruct (Ht i 0) as (A & B & _); auto. rewrite Z.add_0_r in A, B.
      destruct (Ht i 1) as (A' & B' & _); auto.
      apply (adjacent_component m' n R); auto.
      - unfold face_adjacent. cbn [ix iy iz]. lia.
      - congruence. }
    intros i j Hi Hj. split; auto. rewrite <- (Row i j Hi Hj).
    destruct (Ht i j Hi Hj) as (A & B & A' & B' & _).
    apply (adjacent_component m' n R); auto.
    - unfold face_adjacent. cbn [ix iy iz]. lia.
    - congruence. }
  apply (flat_top_topology order e m' c x y z); auto.
  - destruct R as ((_ & R & _) & _). specialize (R _ B0 eq_refl). fold c in R. lia.
  - intros _ i Bi Ei. rewrite (same_kind_component m' n R i (I x y z)); auto.
  - intros i j Hi Hj. destruct (Ht i j Hi Hj) as (A & B & A' & B' & F). destruct (C i j Hi Hj) as (C1 & C2).
    repeat (split; [auto|]). intros Bt Et. specialize (F Bt).
    rewrite (same_kind_component m' n R (I (x + i) (y + j) (z + 1)) (I x y z)) in F; auto. congruence.
Qed.

(** Solid maps. *)
Lemma solid_flat_top m : 2 <= nx (cm_dims m) -> 2 <= ny (cm_dims m) -> 2 <= nz (cm_dims m) ->
  (forall i, in_bounds (cm_dims m) i = true -> gt32 (occupancy_at m i) half32 = true) ->
  occupied_flat_top m 0 0 (nz (cm_dims m) - 1).
Proof.
  intros Hx Hy Hz H i j Hi Hj.
  assert (B : in_bounds (cm_dims m) (I (0 + i) (0 + j) (nz (cm_dims m) - 1)) = true)
    by (apply in_bounds_spec; cbn [ix iy iz]; lia).
  assert (B' : in_bounds (cm_dims m) (I (0 + i) (0 + j) (nz (cm_dims m) - 1 - 1)) = true)
    by (apply in_bounds_spec; cbn [ix iy iz]; lia).
  do 4 (split; [auto|]). intros F. apply in_bounds_spec in F. cbn [ix iy iz] in F. lia.
Qed.

(** The answer never depends on the order of iteration. *)
Lemma topology_order_free o o' d get surf : any_order o -> any_order o' ->
  component_topology o d get surf = component_topology o' d get surf.
Proof.
  intros P P'. unfold component_topology. apply topology_same.
  assert (F : forall l : list (Z * list idx), Forall2 (fun e e' => fst e = fst e' /\
             holes_in_surface o (fst e) (snd e) get = holes_in_surface o' (fst e') (snd e') get) l l).
  { induction l as [|e l IH]; constructor; auto. split; auto. apply holes_order_free; auto. }
  apply F.
Qed.

Lemma cm_topology_order_free o o' e r m : any_order o -> any_order o' ->
  cm_topology o e r m = cm_topology o' e r m.
Proof.
  intros P P'. unfold cm_topology.
  destruct (if r then _ else Ok m) as [m1|w|w]; cbn [bind]; auto.
  rewrite (topology_order_free o o'); auto.
Qed.

Lemma tm_topology_order_free o o' e r m : any_order o -> any_order o' ->
  tm_topology o e r m = tm_topology o' e r m.
Proof.
  intros P P'. unfold tm_topology.
  destruct (if r then _ else Ok m) as [m1|w|w]; cbn [bind]; auto.
  rewrite (topology_order_free o o'); auto.
Qed.

Definition insertion (l : list idx) : list idx := l.
Lemma insertion_order : any_order insertion.
Proof. intros l. apply Permutation_refl. Qed.

(** ** Concrete maps *)
Definition build (d : dims) (filled : idx -> bool) : cmap :=
  CM (G d (map (fun i => CC (if filled i then one32 else zero32) 0) (sweep d)) (CC half32 0)) 0
     "map"%string false.

Lemma build_get d filled i : 0 <= nx d -> 0 <= ny d -> 0 <= nz d ->
  cm_get (build d filled) i =
  if in_bounds d i then (CC (if filled i then one32 else zero32) 0, true) else (CC half32 0, false).
Proof.
  intros X Y Z. unfold cm_get, get, build. cbn [cm_grid gdims gdata goob].
  destruct (in_bounds d i) eqn:B; auto. f_equal.
  set (f := fun i => CC (if filled i then one32 else zero32) 0).
  change (CC (if filled i then one32 else zero32) 0) with (f i).
  assert (E : nth (Z.to_nat (data_index d i)) (sweep d) i = i) by (apply sweep_nth; auto).
  rewrite <- E at 2. rewrite <- (map_nth f). apply nth_indep. rewrite map_length, sweep_length by auto.
  pose proof (data_index_range d i B). lia.
Qed.

Lemma build_sound d filled : 0 <= nx d -> 0 <= ny d -> 0 <= nz d -> ncells d < 4294967296 ->
  sound (build d filled).
Proof.
  intros X Y Z N. split; [|discriminate]. unfold map_ok, wf_grid, cm_dims.
  cbn [build cm_grid gdims gdata goob].
  split; [|split; [auto|split; [unfold cell_ok; cbn; lia|]]].
  - repeat (split; [auto|]). rewrite map_length. apply sweep_length; auto.
  - intros i. change (CM _ _ _ _) with (build d filled).
    rewrite build_get by auto. destruct (in_bounds d i); unfold cell_ok; cbn; lia.
Qed.

Definition block (i : idx) : bool :=
  (1 <=? ix i) && (ix i <=? 2) && (1 <=? iy i) && (iy i <=? 2) && (1 <=? iz i) && (iz i <=? 2).
(** A 2 x 2 x 2 block with one more voxel on top. *)
Definition knobbed (i : idx) : bool := block i || idx_eqb i (I 1 1 3).
Definition kd : dims := D 4 4 5.
Definition knobbed_map : cmap := build kd knobbed.
Definition knobbed_mirror : cmap := build kd (fun i => knobbed (mirror_z kd i)).

Lemma knobbed_mirrored : mirrored mirror_z (cm_grid knobbed_map) (cm_grid knobbed_mirror).
Proof.
  split; [reflexivity|]. split; [reflexivity|]. intros i B.
  change (in_bounds kd i = true) in B.
  change (gget (cm_grid knobbed_mirror) i) with (fst (cm_get knobbed_mirror i)).
  change (gget (cm_grid knobbed_map) (mirror_z (gdims (cm_grid knobbed_map)) i))
    with (fst (cm_get knobbed_map (mirror_z kd i))).
  unfold knobbed_map, knobbed_mirror. rewrite !build_get by (cbn; lia). rewrite B.
  replace (in_bounds kd (mirror_z kd i)) with true; [reflexivity|].
  symmetry. apply in_bounds_spec in B. apply in_bounds_spec.
  unfold mirror_z, kd in *. cbn [ix iy iz nx ny nz] in *. lia.
Qed.

Lemma knobbed_answer o : any_order o -> answer (cm_topology o true true knobbed_map) = Ok [(2, (1, 1))].
Proof.
  intros P. rewrite (cm_topology_order_free o insertion) by auto using insertion_order.
  vm_compute. reflexivity.
Qed.

Lemma knobbed_mirror_answer o : any_order o ->
  cm_topology o true true knobbed_mirror = Throw "out_of_range".
Proof.
  intros P. apply (occupied_flat_top_throws o true knobbed_mirror 1 1 3 P).
  - apply build_sound; vm_compute; congruence.
  - intros i j [->| ->] [->| ->]; vm_compute; repeat split; congruence.
Qed.

(** The object has no cavity. *)
Definition knobbed_labelled : cmap :=
  match cm_update knobbed_map with Ok (m, _) => m | _ => knobbed_map end.

Lemma knobbed_update : exists n, cm_update knobbed_map = Ok (knobbed_labelled, n).
Proof.
  destruct (update_sound knobbed_map) as (m' & n & E & _).
  - apply build_sound; vm_compute; congruence.
  - exists n. unfold knobbed_labelled. rewrite E. reflexivity.
Qed.

Lemma knobbed_labels : forallb (fun i => negb ((ix i =? 0) || (ix i =? 3)) ||
    negb (component_at knobbed_labelled i =? 2)) (sweep kd) = true.
Proof. vm_compute. reflexivity. Qed.

Lemma knobbed_solid : ~ has_cavity kd (component_at knobbed_labelled) 2.
Proof.
  assert (Side : forall x y z, in_bounds kd (I x y z) = true -> x = 0 \/ x = 3 ->
            component_at knobbed_labelled (I x y z) <> 2).
  { intros x y z B H E. pose proof knobbed_labels as K. rewrite forallb_forall in K.
    specialize (K (I x y z) (proj2 (sweep_in kd _) B)). cbn [ix] in K. rewrite E in K.
    change (2 =? 2) with true in K. lia. }
  assert (Out : forall x y z, x < 0 \/ 4 <= x -> escapes kd (component_at knobbed_labelled) 2 (I x y z)).
  { intros x y z H. apply escapes_out. apply not_true_iff_false. intros B.
    apply in_bounds_spec in B. cbn in B. lia. }
  assert (Edge : forall x y z, in_bounds kd (I x y z) = true -> x = 0 \/ x = 3 ->
            escapes kd (component_at knobbed_labelled) 2 (I x y z)).
  { intros x y z B H. specialize (Side x y z B H).
    destruct H as [->| ->].
    - apply escapes_step with (j := I (-1) y z); auto; [unfold face_adjacent; cbn [ix iy iz]; lia|apply Out; lia].
    - apply escapes_step with (j := I 4 y z); auto; [unfold face_adjacent; cbn [ix iy iz]; lia|apply Out; lia]. }
  intros ([x y z] & B & L & N). apply N. clear N.
  pose proof B as B'. apply in_bounds_spec in B'. cbn in B'.
  destruct (Z.eq_dec x 0) as [->|N0]; [apply Edge; auto|].
  destruct (Z.eq_dec x 3) as [->|N3]; [apply Edge; auto|].
  destruct (Z.eq_dec x 1) as [->|N1].
  - apply escapes_step with (j := I 0 y z);
      [exact L|unfold face_adjacent; cbn [ix iy iz]; lia|].
    apply Edge; [apply in_bounds_spec; cbn; lia|auto].
  - assert (x = 2) as -> by lia.
    apply escapes_step with (j := I 3 y z);
      [exact L|unfold face_adjacent; cbn [ix iy iz]; lia|].
    apply Edge; [apply in_bounds_spec; cbn; lia|auto].
Qed.

(** One occupied cell, in both kinds of map. *)
Definition lone (i : idx) : bool := idx_eqb i (I 2 1 3).
Definition ld : dims := D 5 5 5.
Definition lone_map : cmap := build ld lone.
Definition lone_tagged : tmap :=
  TM (G ld (map (fun i => TC (if lone i then one32 else zero32) 0 0 0) (sweep ld)) (TC half32 0 0 0))
     0 0 "map"%string false (Some false).

Lemma lone_answers o o' : any_order o -> any_order o' ->
  answer (cm_topology o true true lone_map) = Ok [(2, (0, 0))] /\
  answer (tm_topology o' 1 true lone_tagged) = Ok [].
Proof.
  intros P P'. rewrite (cm_topology_order_free o insertion), (tm_topology_order_free o' insertion)
    by auto using insertion_order. split; vm_compute; reflexivity.
Qed.

Lemma lone_same_occupancy : cm_dims lone_map = tm_dims lone_tagged /\
  forall i, in_bounds ld i = true -> occupancy_at lone_map i = t_occ (fst (tm_get lone_tagged i)).
Proof.
  split; [reflexivity|]. intros i B.
  assert (K : forallb (fun i => eq32 (occupancy_at lone_map i) (t_occ (fst (tm_get lone_tagged i)))) (sweep ld) = true)
    by (vm_compute; reflexivity).
  assert (K2 : map (occupancy_at lone_map) (sweep ld) = map (fun i => t_occ (fst (tm_get lone_tagged i))) (sweep ld))
    by (vm_compute; reflexivity).
  assert (H : forall l, map (occupancy_at lone_map) l = map (fun i => t_occ (fst (tm_get lone_tagged i))) l ->
                In i l -> occupancy_at lone_map i = t_occ (fst (tm_get lone_tagged i))).
  { induction l as [|a l IH]; [intros _ []|]. cbn [map]. intros E. injection E as E1 E2.
    intros [->|Hl]; auto. }
  apply (H _ K2). apply sweep_in. auto.
Qed.

(** ** The vertex graph in any order *)
Lemma points_permutation c1 c2 v w : Permutation c1 c2 -> points_at c1 v w -> points_at c2 v w.
Proof.
  intros P (b & k & H & R). exists b, k. split; auto. eapply Permutation_in; eauto.
Qed.

Lemma components_permutation c1 c2 : NoDup (map fst c1) -> graph_symmetric c1 -> Permutation c1 c2 ->
  surface_vertex_components c1 = surface_vertex_components c2.
Proof.
  intros N S P.
  assert (K : forall v, In v (map fst c1) <-> In v (map fst c2)).
  { intros v. split; apply Permutation_in, Permutation_map; auto using Permutation_sym. }
  assert (N2 : NoDup (map fst c2)) by (eapply Permutation_NoDup; [apply Permutation_map; exact P|auto]).
  assert (Q : forall v w, points_at c1 v w <-> points_at c2 v w).
  { intros v w. split; apply points_permutation; auto using Permutation_sym. }
  assert (S2 : graph_symmetric c2).
  { intros v w H L. apply Q. apply S; [apply K|apply Q]; auto. }
  assert (Dg : has_dangling_bit c1 <-> has_dangling_bit c2).
  { split; intros (v & w & H & F); exists v, w; (split; [apply Q; auto|intros G; apply F, K; auto]). }
  destruct (components_ok c1 N S) as [(n & E & C & D1)|(E & D1)];
  destruct (components_ok c2 N2 S2) as [(m & E' & C' & D2)|(E' & D2)]; rewrite E, E'; try tauto.
  f_equal. apply Nat.le_antisymm.
  - apply (count_le (map fst c1) (points_at c1) (map fst c2) (points_at c2) (fun v => v) n m); auto using symmetric_links.
    + intros v. apply K.
    + intros x x' _ _ R. induction R; [apply reaches_refl|]. eapply reaches_step; eauto. apply Q. auto.
  - apply (count_le (map fst c2) (points_at c2) (map fst c1) (points_at c1) (fun v => v) m n); auto using symmetric_links.
    + intros v. apply K.
    + intros x x' _ _ R. induction R; [apply reaches_refl|]. eapply reaches_step; eauto. apply Q. auto.
Qed.

From Coq Require Import Reals Lra.
From Verif Require Import Base BaseFacts Floats Grid GridFacts CCModel CollisionMap ComponentSpec
  CollisionMapProofs TaggedMap TaggedSpec TaggedProofs SdfGen SdfLock SdfLockThms Surfaces
  Arith SdfQuery QuerySpec QueryThms Location LocationSpec.
Open Scope Z_scope.

(** ** Which cell a location names *)

Lemma same_cell_number (r : R) (v : R) (a b : Z) : (0 < r)%R ->
  (r * IZR a <= v < r * (IZR a + 1))%R -> (r * IZR b <= v < r * (IZR b + 1))%R -> a = b.
Proof.
  intros Hr Ha Hb.
  assert (H1 : (r * IZR a < r * IZR (b + 1))%R) by (rewrite plus_IZR; lra).
  assert (H2 : (r * IZR b < r * IZR (a + 1))%R) by (rewrite plus_IZR; lra).
  apply Rmult_lt_reg_l in H1; auto. apply Rmult_lt_reg_l in H2; auto.
  apply lt_IZR in H1. apply lt_IZR in H2. lia.
Qed.

Lemma cell_at_cube r (p : pose reals) loc i : (0 < r)%R -> QuerySpec.geometry r p ->
  (cell_at p loc = i <-> in_cube r p i loc).
Proof.
  intros Hr G. unfold cell_at, in_cube. split.
  - intros <-. split; [apply (g_index_x _ _ G)|]. split; [apply (g_index_y _ _ G)|apply (g_index_z _ _ G)].
  - intros (Hx & Hy & Hz).
    pose proof (g_index_x _ _ G (to_grid p loc)) as Gx.
    pose proof (g_index_y _ _ G (to_grid p loc)) as Gy.
    pose proof (g_index_z _ _ G (to_grid p loc)) as Gz.
    destruct (index_of p (to_grid p loc)) as [a b c]. destruct i as [a' b' c']. cbn [ix iy iz] in *.
    f_equal; eapply same_cell_number; eauto.
Qed.

Lemma axis_volume (r : R) (v : R) (a n : Z) : (0 < r)%R ->
  (r * IZR a <= v < r * (IZR a + 1))%R ->
  (0 <= a < n <-> (0 <= v < r * IZR n)%R).
Proof.
  intros Hr Ha. split.
  - intros [H0 Hn]. apply IZR_le in H0. assert (H1 : a + 1 <= n) by lia. apply IZR_le in H1.
    rewrite plus_IZR in H1. split.
    + eapply Rle_trans; [|apply Ha]. apply Rmult_le_pos; lra.
    + eapply Rlt_le_trans; [apply Ha|]. apply Rmult_le_compat_l; lra.
  - intros [H0 Hn]. split.
    + assert (H1 : (r * IZR 0 < r * IZR (a + 1))%R) by (rewrite plus_IZR, Rmult_0_r; lra).
      apply Rmult_lt_reg_l in H1; auto. apply lt_IZR in H1. lia.
    + assert (H1 : (r * IZR a < r * IZR n)%R) by lra.
      apply Rmult_lt_reg_l in H1; auto. apply lt_IZR in H1. lia.
Qed.

Lemma cell_at_volume r (p : pose reals) loc d : (0 < r)%R -> QuerySpec.geometry r p ->
  (in_bounds d (cell_at p loc) = true <-> in_volume r p d loc).
Proof.
  intros Hr G. unfold in_volume. rewrite in_bounds_spec. unfold cell_at.
  rewrite <- (axis_volume r _ _ (nx d) Hr (g_index_x _ _ G (to_grid p loc))).
  rewrite <- (axis_volume r _ _ (ny d) Hr (g_index_y _ _ G (to_grid p loc))).
  rewrite <- (axis_volume r _ _ (nz d) Hr (g_index_z _ _ G (to_grid p loc))).
  tauto.
Qed.

(** ** One call *)

Section Calls.
  Variable A : arith.
  Variable p : pose A.

  Lemma cm_set_at_eq m loc v : cm_set_at p m loc v = cm_set m (cell_at p loc) v.
  Proof. unfold cm_set_at, cm_set. destruct (in_bounds _ _); auto. Qed.
  Lemma cm_get_mutable_at_eq m loc : cm_get_mutable_at p m loc = cm_get_mutable m (cell_at p loc).
  Proof. unfold cm_get_mutable_at, cm_get_mutable. destruct (in_bounds _ _); auto. Qed.
  Lemma tm_set_at_eq m loc v : tm_set_at p m loc v = tm_set m (cell_at p loc) v.
  Proof. unfold tm_set_at, tm_set. destruct (in_bounds _ _); auto. Qed.
  Lemma tm_get_mutable_at_eq m loc : tm_get_mutable_at p m loc = tm_get_mutable m (cell_at p loc).
  Proof. unfold tm_get_mutable_at, tm_get_mutable. destruct (in_bounds _ _); auto. Qed.
  Lemma sdf_set_at_eq s loc v : sdf_set_at p s loc v = sdf_set s (cell_at p loc) v.
  Proof. unfold sdf_set_at, sdf_set. destruct (in_bounds _ _); auto. Qed.
  Lemma sdf_get_mutable_at_eq s loc : sdf_get_mutable_at p s loc = sdf_get_mutable s (cell_at p loc).
  Proof. unfold sdf_get_mutable_at, sdf_get_mutable. destruct (in_bounds _ _); auto. Qed.

  (** What a write at [loc] does to the read at [loc']. *)
  Lemma cm_set_at_spec m loc v m' ok : wf_grid (cm_grid m) -> cm_set_at p m loc v = (m', ok) ->
    ok = in_bounds (cm_dims m) (cell_at p loc) /\
    (ok = true -> cm_components_valid m' = false /\
       forall loc', cell_at p loc' = cell_at p loc -> cm_get_at p m' loc' = (v, true)) /\
    (forall loc', cell_at p loc' <> cell_at p loc -> cm_get_at p m' loc' = cm_get_at p m loc') /\
    (ok = false -> m' = m).
  Proof.
    intros W. rewrite cm_set_at_eq. unfold cm_set.
    destruct (in_bounds (cm_dims m) (cell_at p loc)) eqn:B; intros [= <- <-];
      (split; [auto|]); (split; [|split]); try discriminate; auto.
    - intros _. split; [reflexivity|]. intros loc' E. unfold cm_get_at, cm_get.
      cbn [cm_grid]. rewrite E. apply get_set_same; auto.
    - intros loc' N. unfold cm_get_at, cm_get. cbn [cm_grid]. apply get_set_other; auto.
  Qed.

  Lemma tm_set_at_spec m loc v m' ok : wf_grid (tm_grid m) -> tm_set_at p m loc v = (m', ok) ->
    ok = in_bounds (tm_dims m) (cell_at p loc) /\
    (ok = true -> tm_components_valid m' = false /\
       forall loc', cell_at p loc' = cell_at p loc -> tm_get_at p m' loc' = (v, true)) /\
    (forall loc', cell_at p loc' <> cell_at p loc -> tm_get_at p m' loc' = tm_get_at p m loc') /\
    (ok = false -> m' = m).
  Proof.
    intros W. rewrite tm_set_at_eq. unfold tm_set.
    destruct (in_bounds (tm_dims m) (cell_at p loc)) eqn:B; intros [= <- <-];
      (split; [auto|]); (split; [|split]); try discriminate; auto.
    - intros _. split; [reflexivity|]. intros loc' E. unfold tm_get_at, tm_get.
      cbn [tm_grid]. rewrite E. apply get_set_same; auto.
    - intros loc' N. unfold tm_get_at, tm_get. cbn [tm_grid]. apply get_set_other; auto.
  Qed.

  Lemma sdf_set_at_spec s loc v s' ok : wf_grid (s_grid s) -> sdf_set_at p s loc v = (s', ok) ->
    ok = in_bounds (sdf_dims s) (cell_at p loc) && negb (s_locked s) /\
    (ok = true -> forall loc', cell_at p loc' = cell_at p loc -> sdf_get_at p s' loc' = (v, true)) /\
    (forall loc', cell_at p loc' <> cell_at p loc -> sdf_get_at p s' loc' = sdf_get_at p s loc') /\
    (ok = false -> s' = s).
  Proof.
    intros W. rewrite sdf_set_at_eq. unfold sdf_set.
    destruct (in_bounds (sdf_dims s) (cell_at p loc)) eqn:B, (s_locked s) eqn:L; cbn [andb negb];
      intros [= <- <-]; (split; [auto|]); (split; [|split]); try discriminate; auto.
    - intros _ loc' E. unfold sdf_get_at, sdf_get. cbn [s_grid]. rewrite E. apply get_set_same; auto.
    - intros loc' N. unfold sdf_get_at, sdf_get. cbn [s_grid]. apply get_set_other; auto.
  Qed.

  (** Writing at once through the reference to a location is setting its value. *)
  Lemma cm_ref_at m loc v m' r ok : cm_get_mutable_at p m loc = (m', r, ok) ->
    ok = in_bounds (cm_dims m) (cell_at p loc) /\
    (ok = true -> cm_write_ref m' r v = fst (cm_set_at p m loc v)) /\
    (ok = false -> m' = m).
  Proof.
    rewrite cm_get_mutable_at_eq, cm_set_at_eq. unfold cm_get_mutable, cm_set.
    destruct (in_bounds _ _); intros [= <- <- <-]; (split; [auto|]); split; try discriminate; auto.
  Qed.

  Lemma tm_ref_at m loc v m' r ok : tm_get_mutable_at p m loc = (m', r, ok) ->
    ok = in_bounds (tm_dims m) (cell_at p loc) /\
    (ok = true -> tm_write_ref m' r v = fst (tm_set_at p m loc v)) /\
    (ok = false -> m' = m).
  Proof.
    rewrite tm_get_mutable_at_eq, tm_set_at_eq. unfold tm_get_mutable, tm_set.
    destruct (in_bounds _ _); intros [= <- <- <-]; (split; [auto|]); split; try discriminate; auto.
  Qed.

  Lemma sdf_ref_at s loc v r ok : sdf_get_mutable_at p s loc = (r, ok) ->
    ok = in_bounds (sdf_dims s) (cell_at p loc) && negb (s_locked s) /\
    (ok = true -> sdf_write_ref s r v = fst (sdf_set_at p s loc v)).
  Proof.
    rewrite sdf_get_mutable_at_eq, sdf_set_at_eq. unfold sdf_get_mutable, sdf_set.
    destruct (_ && _); intros [= <- <-]; (split; [auto|]); try discriminate; auto.
  Qed.

  Lemma cm_corner_at_eq m loc : cm_corner_at p m loc = candidate_corner c_comp (cm_grid m) (cell_at p loc).
  Proof.
    unfold cm_corner_at. destruct (in_bounds (cm_dims m) (cell_at p loc)) eqn:B; auto.
    unfold candidate_corner. rewrite get_eq. unfold cm_dims in B. rewrite B. auto.
  Qed.

  Lemma tm_corner_at_eq m loc : tm_corner_at p m loc = candidate_corner t_comp (tm_grid m) (cell_at p loc).
  Proof.
    unfold tm_corner_at. destruct (in_bounds (tm_dims m) (cell_at p loc)) eqn:B; auto.
    unfold candidate_corner. rewrite get_eq. unfold tm_dims in B. rewrite B. auto.
  Qed.

  (** ** Histories *)

  Lemma cm_calls_eq l : forall st, foldM (cm_call_step p) l st = foldM cm_step (map (cm_by_index p) l) st.
  Proof.
    induction l as [|c l IH]; intros st; [reflexivity|]. cbn [map foldM].
    replace (cm_call_step p st c) with (cm_step st (cm_by_index p c)).
    - destruct (cm_step st (cm_by_index p c)); cbn [bind]; auto.
    - destruct st as [m refs], c as [[i|loc] v|[i|loc]|k v| |]; cbn [cm_step cm_call_step cm_by_index place_index];
        rewrite ?cm_set_at_eq, ?cm_get_mutable_at_eq; auto.
  Qed.

  Lemma tm_calls_eq g l : forall st,
    foldM (tm_call_step p g) l st = foldM (tm_step g) (map (tm_by_index p) l) st.
  Proof.
    induction l as [|c l IH]; intros st; [reflexivity|]. cbn [map foldM].
    replace (tm_call_step p g st c) with (tm_step g st (tm_by_index p c)).
    - destruct (tm_step g st (tm_by_index p c)); cbn [bind]; auto.
    - destruct st as [m refs], c as [[i|loc] v|[i|loc]|k v| |t b]; cbn [tm_step tm_call_step tm_by_index place_index];
        rewrite ?tm_set_at_eq, ?tm_get_mutable_at_eq; auto.
  Qed.

  Lemma sdf_calls_eq l : forall st, sdf_calls p st l = sdf_run st (map (sdf_by_index p) l).
  Proof.
    unfold sdf_calls, sdf_run.
    induction l as [|c l IH]; intros st; [reflexivity|]. cbn [map foldM].
    replace (sdf_call_step p st c) with (sdf_step st (sdf_by_index p c)).
    - destruct (sdf_step st (sdf_by_index p c)); cbn [bind]; auto.
    - destruct st as [s refs], c as [[i|loc] v|[i|loc]|k v| | |f]; cbn [sdf_step sdf_call_step sdf_by_index place_index];
        rewrite ?sdf_set_at_eq, ?sdf_get_mutable_at_eq; auto.
  Qed.

  Lemma cm_calls_run m l : cm_calls p m l = cm_run m (map (cm_by_index p) l).
  Proof. apply cm_calls_eq. Qed.

  Lemma tm_calls_run g m l : tm_calls p g m l = tm_run g m (map (tm_by_index p) l).
  Proof. apply tm_calls_eq. Qed.

  Lemma cm_calls_sound frame d def oob l :
    0 <= nx d -> 0 <= ny d -> 0 <= nz d -> ncells d < 4294967296 ->
    cell_ok def -> cell_ok oob ->
    let ops := map (cm_by_index p) l in
    Forall op_ok ops -> refs_not_kept 0 [] ops ->
    exists m refs, cm_calls p (cm_new frame d def oob) l = Ok (m, refs) /\ map_ok m /\
      cm_dims m = d /\ (cm_components_valid m = true -> components_right m (cm_ncomp m)).
  Proof. intros. rewrite cm_calls_run. apply history_sound; auto. Qed.

  Lemma tm_calls_sound g frame d def oob l :
    0 <= nx d -> 0 <= ny d -> 0 <= nz d -> ncells d < 4294967296 -> geometry_ok d g ->
    tcell_ok def -> tcell_ok oob ->
    let ops := map (tm_by_index p) l in
    Forall top_ok ops -> trefs_not_kept 0 [] ops ->
    exists m refs, tm_calls p g (tm_new frame d def oob) l = Ok (m, refs) /\ tmap_ok m /\
      tm_dims m = d /\ (tm_components_valid m = true -> tcomponents_right m (tm_ncomp m)).
  Proof. intros. rewrite tm_calls_run. apply thistory_sound; auto. Qed.

  Lemma sdf_calls_locked s refs l s' refs' :
    wf_grid (s_grid s) -> s_locked s = true -> ~ In FUnlock l ->
    (forall k v, In (FWriteRef k v) l -> (length refs <= k)%nat) ->
    sdf_calls p (s, refs) l = Ok (s', refs') ->
    forall loc, in_bounds (sdf_dims s) (cell_at p loc) = true ->
      sdf_get_at p s' loc = sdf_get_at p s loc /\
      (forall v, sdf_set_at p s' loc v = (s', false)) /\
      snd (sdf_get_mutable_at p s' loc) = false.
  Proof.
    intros W L Hu Hw E loc B. rewrite sdf_calls_eq in E.
    destruct (locked_unchanged s refs (map (sdf_by_index p) l) s' refs') as (L' & Hg & Hs & Hm); auto.
    - intros Hi. apply in_map_iff in Hi. destruct Hi as ([[]|[]| | | |] & E1 & Hi); try discriminate. auto.
    - intros k v Hi. apply in_map_iff in Hi.
      destruct Hi as ([[]|[]|k' v'| | |] & E1 & Hi); try discriminate.
      injection E1 as -> ->. eauto.
    - split; [apply Hg; auto|]. split.
      + intros v. rewrite sdf_set_at_eq. destruct (Hs (cell_at p loc) v) as [H1 H2].
        destruct (sdf_set s' (cell_at p loc) v); cbn in *; congruence.
      + rewrite sdf_get_mutable_at_eq. auto.
  Qed.
End Calls.

(** ** Real arithmetic: cubes instead of indices *)

Section Space.
  Variable r : R.
  Variable p : pose reals.
  Hypothesis Hr : (0 < r)%R.
  Hypothesis G : QuerySpec.geometry r p.

  Let same i loc loc' : in_cube r p i loc -> in_cube r p i loc' -> cell_at p loc' = cell_at p loc.
  Proof. intros H H'. apply (cell_at_cube r p) in H; auto. apply (cell_at_cube r p) in H'; auto. congruence. Qed.
  Let other i loc loc' : in_cube r p i loc -> ~ in_cube r p i loc' -> cell_at p loc' <> cell_at p loc.
  Proof. intros H N E. apply N. apply (cell_at_cube r p); auto. rewrite E. apply (cell_at_cube r p); auto. Qed.

  Lemma cm_write_in_space m loc v m' ok : wf_grid (cm_grid m) -> cm_set_at p m loc v = (m', ok) ->
    (ok = true <-> in_volume r p (cm_dims m) loc) /\
    (ok = true -> cm_components_valid m' = false) /\
    (ok = true -> forall i loc', in_cube r p i loc -> in_cube r p i loc' -> cm_get_at p m' loc' = (v, true)) /\
    (forall i loc', in_cube r p i loc -> ~ in_cube r p i loc' -> cm_get_at p m' loc' = cm_get_at p m loc') /\
    (ok = false -> m' = m).
  Proof.
    intros W E. destruct (cm_set_at_spec _ p m loc v m' ok W E) as (-> & H1 & H2 & H3).
    split; [apply cell_at_volume; auto|]. split; [intros O; apply H1; auto|].
    split; [intros O i loc' Hi Hi'; apply H1; eauto|]. split; eauto.
  Qed.

  Lemma tm_write_in_space m loc v m' ok : wf_grid (tm_grid m) -> tm_set_at p m loc v = (m', ok) ->
    (ok = true <-> in_volume r p (tm_dims m) loc) /\
    (ok = true -> tm_components_valid m' = false) /\
    (ok = true -> forall i loc', in_cube r p i loc -> in_cube r p i loc' -> tm_get_at p m' loc' = (v, true)) /\
    (forall i loc', in_cube r p i loc -> ~ in_cube r p i loc' -> tm_get_at p m' loc' = tm_get_at p m loc') /\
    (ok = false -> m' = m).
  Proof.
    intros W E. destruct (tm_set_at_spec _ p m loc v m' ok W E) as (-> & H1 & H2 & H3).
    split; [apply cell_at_volume; auto|]. split; [intros O; apply H1; auto|].
    split; [intros O i loc' Hi Hi'; apply H1; eauto|]. split; eauto.
  Qed.

  Lemma sdf_write_in_space s loc v s' ok : wf_grid (s_grid s) -> sdf_set_at p s loc v = (s', ok) ->
    (ok = true <-> in_volume r p (sdf_dims s) loc /\ s_locked s = false) /\
    (ok = true -> forall i loc', in_cube r p i loc -> in_cube r p i loc' -> sdf_get_at p s' loc' = (v, true)) /\
    (forall i loc', in_cube r p i loc -> ~ in_cube r p i loc' -> sdf_get_at p s' loc' = sdf_get_at p s loc') /\
    (ok = false -> s' = s).
  Proof.
    intros W E. destruct (sdf_set_at_spec _ p s loc v s' ok W E) as (-> & H1 & H2 & H3).
    split; [rewrite andb_true_iff, negb_true_iff, (cell_at_volume r p); auto; tauto|].
    split; [intros O i loc' Hi Hi'; apply H1; eauto|]. split; eauto.
  Qed.

  (** The centre of a cell names that cell. *)
  Lemma center_in_cube i : in_cube r p i (to_world p (center_of p i)).
  Proof.
    unfold in_cube. rewrite (g_there_and_back _ _ G), (g_center _ _ G). cbn [vx vy vz].
    repeat split; nra.
  Qed.
End Space.

(** ** A case *)

Definition pair_map : cmap := cm_new "world" (D 2 1 1) (CC zero32 0) (CC half32 0).

Lemma location_case :
  let p := plain_pose 1 in
  let a := (@V reals (3 / 2) (1 / 2) (1 / 2))%R in
  let b := (@V reals 1 (3 / 4) (1 / 4))%R in
  let c := (@V reals (1 / 2) (1 / 2) (1 / 2))%R in
  QuerySpec.geometry 1 p /\ wf_grid (cm_grid pair_map) /\
  in_cube 1 p (I 1 0 0) a /\ in_cube 1 p (I 1 0 0) b /\ ~ in_cube 1 p (I 1 0 0) c /\
  in_volume 1 p (cm_dims pair_map) a /\
  let m' := fst (cm_set_at p pair_map a (CC one32 0)) in
  cm_get_at p m' b = (CC one32 0, true) /\ cm_get_at p m' c = (CC zero32 0, true) /\
  cm_calls p pair_map [CSet (Spot a) (CC one32 0); CGetRef (Cell (I 0 0 0)); CWriteRef 0 (CC half32 0); CUpdate]
  = cm_run pair_map [SetCell (I 1 0 0) (CC one32 0); GetRef (I 0 0 0); WriteRef 0 (CC half32 0); UpdateCC].
Proof.
  intros p a b c.
  assert (G : QuerySpec.geometry 1 p) by (apply plain_geometry; lra).
  assert (W : wf_grid (cm_grid pair_map)) by (unfold wf_grid; vm_compute; intuition congruence).
  assert (Ha : in_cube 1 p (I 1 0 0) a) by (unfold in_cube; cbn [p plain_pose to_grid a vx vy vz ix iy iz]; lra).
  assert (Hb : in_cube 1 p (I 1 0 0) b) by (unfold in_cube; cbn [p plain_pose to_grid b vx vy vz ix iy iz]; lra).
  assert (Hc : in_cube 1 p (I 0 0 0) c) by (unfold in_cube; cbn [p plain_pose to_grid c vx vy vz ix iy iz]; lra).
  assert (Nc : ~ in_cube 1 p (I 1 0 0) c) by (unfold in_cube; cbn [p plain_pose to_grid c vx vy vz ix iy iz]; lra).
  assert (Va : in_volume 1 p (cm_dims pair_map) a).
  { unfold in_volume. cbn [p plain_pose to_grid a vx vy vz pair_map cm_new cm_dims cm_grid mk_grid gdims nx ny nz]. lra. }
  repeat (split; [assumption|]). cbv zeta.
  destruct (cm_set_at p pair_map a (CC one32 0)) as [m' ok] eqn:E.
  pose proof E as E'. apply (cm_write_in_space 1 p ltac:(lra) G) in E'; auto.
  destruct E' as (H1 & _ & H2 & H3 & _). cbn [fst].
  assert (O : ok = true) by (apply H1; auto).
  split; [apply (H2 O (I 1 0 0)); auto|]. split.
  - rewrite (H3 (I 1 0 0)); auto. unfold cm_get_at.
    replace (cell_at p c) with (I 0 0 0) by (symmetry; apply (cell_at_cube 1 p); auto; lra). reflexivity.
  - rewrite cm_calls_run. cbn [map cm_by_index place_index].
    replace (cell_at p a) with (I 1 0 0) by (symmetry; apply (cell_at_cube 1 p); auto; lra). reflexivity.
Qed.

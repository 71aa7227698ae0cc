From Verif Require Import Base BaseFacts Floats Grid GridFacts TopoSpec CCModel CCProofs
  CollisionMap ComponentSpec.

Lemma cm_get_eq m i : cm_get m i = (gget (cm_grid m) i, in_bounds (cm_dims m) i).
Proof. apply get_eq. Qed.

Lemma cm_mark_eq m i c :
  cm_mark m i c =
    if in_bounds (cm_dims m) i
    then CM (gset (cm_grid m) i (CC (occupancy_at m i) c)) (cm_ncomp m) (cm_frame m) false
    else m.
Proof.
  unfold cm_mark, cm_get_mutable. destruct (in_bounds (cm_dims m) i) eqn:E; auto.
  unfold cm_set, cm_dims in *; cbn [cm_grid]. rewrite E. reflexivity.
Qed.

(** States the labelling of [m0] goes through. *)
Definition good (m0 m : cmap) : Prop :=
  map_ok m /\ same_but_labels m0 m.

Lemma map_ok_set m i v :
  map_ok m -> cell_ok v ->
  map_ok (CM (gset (cm_grid m) i v) (cm_ncomp m) (cm_frame m) false).
Proof.
  intros (W & N & O & C) Hv. unfold map_ok, cm_dims, cm_get in *; cbn [cm_grid].
  rewrite gset_dims, gset_oob. split; [apply gset_wf; auto|]. split; auto. split; auto.
  intros j. destruct (in_bounds (gdims (cm_grid m)) i) eqn:E.
  - rewrite get_eq; cbn [fst]. rewrite gget_gset by auto.
    destruct (idx_eqb i j); auto. apply C.
  - rewrite gset_oob_id by auto. apply C.
Qed.

Lemma occ_mark m i c j : map_ok m -> occupancy_at (cm_mark m i c) j = occupancy_at m j.
Proof.
  intros (W & _). rewrite cm_mark_eq. destruct (in_bounds (cm_dims m) i) eqn:E; auto.
  unfold occupancy_at at 1. rewrite cm_get_eq; cbn [fst cm_grid].
  rewrite gget_gset by auto. destruct (idx_eqb_spec i j) as [<-|]; auto.
Qed.

Lemma comp_mark m i c j : map_ok m -> in_bounds (cm_dims m) i = true ->
  component_at (cm_mark m i c) j = if idx_eqb i j then c else component_at m j.
Proof.
  intros (W & _) E. rewrite cm_mark_eq, E.
  unfold component_at at 1. rewrite cm_get_eq; cbn [fst cm_grid].
  rewrite gget_gset by auto. destruct (idx_eqb_spec i j) as [<-|]; auto.
Qed.

Lemma good_mark m0 m i c : good m0 m -> 0 <= c < 4294967296 -> good m0 (cm_mark m i c).
Proof.
  intros (O & D1 & F1 & B1 & P1) Hc. split.
  - rewrite cm_mark_eq. destruct (in_bounds (cm_dims m) i); auto. apply map_ok_set; auto.
  - assert (E : cm_dims (cm_mark m i c) = cm_dims m /\ cm_frame (cm_mark m i c) = cm_frame m /\
                goob (cm_grid (cm_mark m i c)) = goob (cm_grid m)).
    { rewrite cm_mark_eq. destruct (in_bounds (cm_dims m) i); auto.
      unfold cm_dims; cbn [cm_grid cm_frame]. rewrite gset_dims, gset_oob. auto. }
    destruct E as (E1 & E2 & E3).
    split; [congruence|]. split; [congruence|]. split; [congruence|].
    intros j. rewrite occ_mark by auto. apply P1.
Qed.

Lemma same_kind_sym m a b : same_kind m a b = same_kind m b a.
Proof. unfold same_kind. destruct (gt32 _ _), (gt32 _ _); auto. Qed.

Lemma same_kind_same m m' a b : same_but_labels m m' -> same_kind m' a b = same_kind m a b.
Proof. intros (_ & _ & _ & P). unfold same_kind. rewrite !P. auto. Qed.

Lemma joined_ext d el lk lk' a b :
  (forall x y, in_bounds d x = true -> in_bounds d y = true -> lk x y = lk' x y) ->
  joined d el lk a b -> joined d el lk' a b.
Proof.
  intros E H. induction H as [a Ha He|a b c Hab IH Hadj Hc He Hl]; [constructor; auto|].
  eapply joined_step; [exact IH|exact Hadj|exact Hc|exact He|].
  rewrite <- E; auto. apply (joined_inb _ _ _ _ _ IH).
Qed.

Lemma regions_numbered_ext2 d el lk lk' lab lab' n :
  (forall x y, in_bounds d x = true -> in_bounds d y = true -> lk x y = lk' x y) ->
  (forall x, in_bounds d x = true -> lab x = lab' x) ->
  regions_numbered d el lk lab n -> regions_numbered d el lk' lab' n.
Proof.
  intros E El (R0 & R1 & R2 & R3 & R4). split; auto.
  split; [intros a Ha He; rewrite <- El; auto|].
  split; [intros a Ha He; rewrite <- El; auto|].
  split.
  - intros k Hk. destruct (R3 k Hk) as (a & Ha & He & Hl). exists a. rewrite <- El; auto.
  - intros a b Ha Hb Hae Hbe. rewrite <- !El by auto. rewrite (R4 a b Ha Hb Hae Hbe).
    split; apply joined_ext; auto. intros; symmetry; auto.
Qed.

Lemma regions_numbered_ext d el lk lk' lab n :
  (forall a b, lk a b = lk' a b) -> regions_numbered d el lk lab n -> regions_numbered d el lk' lab n.
Proof. intros E. apply regions_numbered_ext2; auto. Qed.

Lemma update_fresh m :
  map_ok m -> cm_valid m = false ->
  exists m' n, cm_update m = Ok (m', n) /\ map_ok m' /\ same_but_labels m m' /\
    components_right m' n /\ cm_ncomp m' = n /\ cm_valid m' = true /\ n <= ncells (cm_dims m).
Proof.
  intros Hok Hv. unfold cm_update. rewrite Hv.
  pose proof Hok as ((H1 & H2 & H3 & L) & N & _ & _).
  assert (Hg : good m m) by (split; auto; repeat split; auto).
  destruct (compute_correct (cm_dims m) cm_connected cm_component cm_mark (good m)
    (fun _ => true) (same_kind m) component_at) with (s := m) as (m' & n & E & G' & Hn & R & O); auto.
  - intros s i c G _ Hc. apply good_mark; auto.
  - intros s i c j (G & D1 & _) Hi Hc Hj. apply comp_mark; auto. rewrite D1; auto.
  - intros s i (G & _) _. destruct G as (_ & _ & _ & C). apply C.
  - intros s i (G & D1 & _). rewrite andb_true_r. unfold cm_component, component_at.
    rewrite cm_get_eq, D1. destruct (in_bounds (cm_dims m) i); auto.
  - intros s a b (G & S) _ _ _ _. rewrite <- (same_kind_same m s a b S). reflexivity.
  - intros a b. apply same_kind_sym.
  - rewrite E. cbn [bind]. destruct G' as (G' & S').
    eexists _, n. split; [reflexivity|]. split; [exact G'|]. split; [exact S'|].
    split; [|auto]. pose proof S' as (D1 & _ & _ & P).
    split.
    + change (cm_dims (CM (cm_grid m') n (cm_frame m') true)) with (cm_dims m').
      rewrite D1. apply (regions_numbered_ext _ _ (same_kind m)); [|exact R].
      intros a b. symmetry. apply (same_kind_same m m' a b S').
    + change (cm_dims (CM (cm_grid m') n (cm_frame m') true)) with (cm_dims m').
      rewrite D1. exact O.
Qed.

(** Two maps with equal payload and right components are equal cell by cell. *)
Lemma components_unique m m' n n' :
  map_ok m -> map_ok m' -> same_but_labels m m' ->
  components_right m n -> components_right m' n' -> n = n' /\ cm_grid m = cm_grid m'.
Proof.
  intros Hm Hm' S (R & O) (R' & O').
  assert (D1 : cm_dims m' = cm_dims m) by apply S. rewrite D1 in *.
  destruct (labels_unique (cm_dims m) (fun _ => true) (same_kind m) (component_at m) n
              (component_at m') n') as (En & El); auto.
  { eapply regions_numbered_ext; [|exact R']. intros; apply same_kind_same; auto. }
  split; auto. pose proof S as (_ & _ & Eo & P). apply grid_ext; auto; try apply Hm; try apply Hm'.
  intros i Hi. specialize (El i Hi). specialize (P i).
  unfold component_at, occupancy_at in El, P. rewrite !cm_get_eq in El, P. cbn [fst] in El, P.
  destruct (gget (cm_grid m) i), (gget (cm_grid m') i); cbn in *. congruence.
Qed.

Definition sound (m : cmap) : Prop :=
  map_ok m /\ (cm_valid m = true -> components_right m (cm_ncomp m)).

Lemma update_sound m :
  sound m ->
  exists m' n, cm_update m = Ok (m', n) /\ map_ok m' /\ same_but_labels m m' /\
    components_right m' n /\ cm_ncomp m' = n /\ cm_valid m' = true /\
    (cm_valid m = true -> m' = m).
Proof.
  intros (Hok & Hs). destruct (cm_valid m) eqn:Ev.
  - exists m, (cm_ncomp m). unfold cm_update. rewrite Ev.
    split; auto. split; auto. split; [repeat split; auto|]. auto.
  - destruct (update_fresh m Hok Ev) as (m' & n & E & H1 & H2 & H3 & H4 & H5 & _).
    exists m', n. intuition congruence.
Qed.

(** ** ExtractConnectedComponents *)

Lemma nth_error_repeat {A} (a : A) n k :
  nth_error (repeat a n) k = if (k <? n)%nat then Some a else None.
Proof.
  revert k; induction n as [|n IH]; intros [|k]; cbn; auto. rewrite IH. reflexivity.
Qed.

Definition rows_ok (m : cmap) (n : Z) (pre : list idx) (l : list (list idx)) : Prop :=
  List.length l = Z.to_nat n /\
  forall k, (k < Z.to_nat n)%nat ->
    nth_error l k = Some (filter (fun i => component_at m i =? Z.of_nat k + 1) pre).

Lemma extract_rows m n :
  0 <= n -> n < 4294967296 ->
  (forall i, in_bounds (cm_dims m) i = true -> 1 <= component_at m i <= n) ->
  exists l, foldM (fun l i => at_push l (wrap_u32 (c_comp (fst (cm_get m i)) - 1)) i)
              (sweep (cm_dims m)) (repeat [] (Z.to_nat n)) = Ok l /\
    rows_ok m n (sweep (cm_dims m)) l.
Proof.
  intros Hn Hn2 Hr. apply foldM_inv_prefix with (I := rows_ok m n).
  - split; [apply repeat_length|]. intros k Hk. rewrite nth_error_repeat.
    destruct (Nat.ltb_spec k (Z.to_nat n)); [reflexivity|lia].
  - intros pre a post l El (L & H).
    assert (Ha : in_bounds (cm_dims m) a = true).
    { apply sweep_in. rewrite El. apply in_app_iff; right; left; auto. }
    specialize (Hr a Ha). unfold component_at in Hr.
    rewrite wrap_u32_id by lia. unfold at_push.
    set (c := c_comp (fst (cm_get m a))) in *.
    rewrite H by lia. eexists; split; [reflexivity|]. split.
    + rewrite upd_length; auto.
    + intros k Hk. rewrite filter_app. cbn [filter].
      destruct (Nat.eq_dec k (Z.to_nat (c - 1))) as [->|Hne].
      * rewrite upd_same by lia.
        replace (component_at m a =? Z.of_nat (Z.to_nat (c - 1)) + 1) with true; auto.
        unfold component_at. fold c. lia.
      * rewrite upd_other by auto. rewrite H by auto.
        replace (component_at m a =? Z.of_nat k + 1) with false.
        -- rewrite app_nil_r; auto.
        -- unfold component_at. fold c. lia.
Qed.

Lemma extract_sound m :
  sound m ->
  exists m' rows n, cm_extract_components m = Ok (m', rows) /\
    map_ok m' /\ same_but_labels m m' /\ components_right m' n /\ cm_ncomp m' = n /\
    cm_valid m' = true /\ (cm_valid m = true -> m' = m) /\
    Z.of_nat (List.length rows) = n /\
    forall k row, nth_error rows k = Some row ->
      row = filter (fun i => component_at m' i =? Z.of_nat k + 1) (sweep (cm_dims m)).
Proof.
  intros Hs. destruct (update_sound m Hs) as (m' & n & E & H1 & H2 & H3 & H4 & H5 & H6).
  unfold cm_extract_components.
  assert (E1 : (if cm_valid m then Ok m else let* (m'0, _) := cm_update m in Ok m'0) = Ok m').
  { destruct (cm_valid m) eqn:Ev; [rewrite H6; auto|rewrite E; reflexivity]. }
  rewrite E1. cbn [bind]. rewrite H4.
  pose proof H3 as ((R0 & R1 & _ & R3 & _) & _).
  assert (Hn2 : n < 4294967296).
  { destruct (Z.eq_dec n 0) as [->|]; [lia|].
    destruct (R3 n ltac:(lia)) as (a & Ha & _ & Hal).
    destruct H1 as (_ & _ & _ & C). specialize (C a). unfold cell_ok in C.
    unfold component_at in Hal. lia. }
  destruct (extract_rows m' n) as (l & El & L & Hrows); auto.
  rewrite El. cbn [bind]. exists m', l, n. split; auto. split; auto. split; auto.
  split; auto. split; auto. split; auto. split; auto. split; [lia|].
  intros k row Hk. assert (Hkn : (k < Z.to_nat n)%nat).
  { rewrite <- L. apply nth_error_Some. congruence. }
  rewrite Hrows in Hk by auto. injection Hk as <-.
  destruct H2 as (D1 & _). rewrite D1. auto.
Qed.

(** ** Histories *)

Record hist_inv (m0 : cmap) (live : list nat) (st : cmap * list cref) : Prop := {
  HI_sound : sound (fst st);
  HI_dims : cm_dims (fst st) = cm_dims m0;
  HI_live : forall k, In k live -> (k < List.length (snd st))%nat;
  HI_refs : forall k i, In k live -> nth_error (snd st) k = Some (RCell i) ->
              cm_valid (fst st) = false
}.

Lemma map_ok_oob m v :
  map_ok m -> cell_ok v -> map_ok (cm_write_ref m ROob v).
Proof.
  intros ((W1 & W2 & W3 & W4) & N & O & C) Hv. unfold map_ok, cm_write_ref, cm_dims, cm_get in *.
  cbn [cm_grid gdims gdata goob]. split; [repeat split; auto|]. split; auto. split; auto.
  intros i. specialize (C i). unfold get in *. cbn [gdims gdata goob].
  destruct (in_bounds (gdims (cm_grid m)) i) eqn:Hi; cbn [fst] in *; auto.
  rewrite (nth_indep _ v (goob (cm_grid m))); auto.
  rewrite W4. pose proof (data_index_range _ _ Hi). unfold cm_dims in *. lia.
Qed.

Lemma write_oob_get m v i : map_ok m -> in_bounds (cm_dims m) i = true ->
  cm_get (cm_write_ref m ROob v) i = cm_get m i.
Proof.
  intros ((W1 & W2 & W3 & W4) & _) Hi. unfold cm_get, get, cm_write_ref, cm_dims in *.
  cbn [cm_grid gdims gdata goob]. rewrite Hi. f_equal. apply nth_indep.
  rewrite W4. pose proof (data_index_range _ _ Hi). lia.
Qed.

Lemma sweep_order_ext d el lab lab' :
  (forall x, in_bounds d x = true -> lab x = lab' x) ->
  numbered_in_sweep_order d el lab -> numbered_in_sweep_order d el lab'.
Proof.
  intros E O pre a post Es He.
  assert (Hin : forall x, In x (pre ++ [a]) -> in_bounds d x = true).
  { intros x Hx. apply sweep_in. rewrite Es. apply in_app_iff in Hx. apply in_app_iff.
    cbn in *; tauto. }
  rewrite <- (E a) by (apply Hin, in_app_iff; cbn; auto).
  destruct (O pre a post Es He) as [|(b & Hb & Hbe & Hl)]; auto.
  right. exists b. rewrite <- (E b); auto. apply Hin, in_app_iff; auto.
Qed.

Lemma hist_step m0 live count o st ops :
  op_ok o -> hist_inv m0 live st -> count = List.length (snd st) ->
  refs_not_kept count live (o :: ops) ->
  exists st' live', cm_step st o = Ok st' /\ hist_inv m0 live' st' /\
    refs_not_kept (List.length (snd st')) live' ops.
Proof.
  intros Hop [Hs Hd Hl Hr] Hc Hk. destruct st as [m refs]. cbn [fst snd] in *.
  destruct o as [i v|i|k v| |]; cbn [cm_step refs_not_kept op_ok] in *; subst count.
  - exists (fst (cm_set m i v), refs), live. split; auto. split; auto.
    unfold cm_set. destruct (in_bounds (cm_dims m) i); cbn [fst].
    + constructor; cbn [fst snd cm_valid]; auto.
      * split; [apply map_ok_set; [apply Hs|auto]|discriminate].
      * rewrite <- Hd. unfold cm_dims; cbn [cm_grid]. apply gset_dims.
    + constructor; auto.
  - unfold cm_get_mutable. destruct (in_bounds (cm_dims m) i).
    + exists (CM (cm_grid m) (cm_ncomp m) (cm_frame m) false, refs ++ [RCell i]),
             (List.length refs :: live).
      split; auto. split.
      * constructor; cbn [fst snd cm_valid]; auto.
        -- split; [apply Hs|discriminate].
        -- intros k [<-|Hin]; rewrite app_length; cbn; [lia|]. specialize (Hl k Hin). lia.
      * cbn [snd]. rewrite app_length. cbn. rewrite Nat.add_1_r. auto.
    + exists (m, refs ++ [ROob]), (List.length refs :: live). split; auto. split.
      * constructor; cbn [fst snd]; auto.
        -- intros k [<-|Hin]; rewrite app_length; cbn; [lia|]. specialize (Hl k Hin). lia.
        -- intros k j [<-|Hin].
           ++ rewrite nth_error_app2, Nat.sub_diag by auto. discriminate.
           ++ rewrite nth_error_app1 by auto. apply Hr; auto.
      * cbn [snd]. rewrite app_length. cbn. rewrite Nat.add_1_r. auto.
  - destruct Hk as (Hk & Hk'). pose proof (Hl k Hk) as Hlt.
    destruct (nth_error refs k) as [r|] eqn:Er.
    2:{ apply nth_error_None in Er. lia. }
    exists (cm_write_ref m r v, refs), live. split; auto. split; auto.
    destruct r as [i|].
    + pose proof (Hr k i Hk Er) as Hv. constructor; cbn [fst snd]; auto.
      * split; [|intros Hv'; cbn in Hv'; congruence].
        unfold cm_write_ref. rewrite Hv. apply map_ok_set; auto. apply Hs.
      * rewrite <- Hd. unfold cm_dims, cm_write_ref; cbn [cm_grid]. apply gset_dims.
    + constructor; cbn [fst snd]; auto.
      destruct Hs as (Hok & Hv0). split; [apply map_ok_oob; auto|].
      intros Hv. cbn [cm_write_ref cm_valid] in Hv. specialize (Hv0 Hv).
      change (cm_ncomp (cm_write_ref m ROob v)) with (cm_ncomp m).
      destruct Hv0 as (R & O). split.
      * change (cm_dims (cm_write_ref m ROob v)) with (cm_dims m).
        eapply regions_numbered_ext2; [| |exact R].
        -- intros x y Hx Hy. unfold same_kind, occupancy_at. rewrite !write_oob_get; auto.
        -- intros x Hx. unfold component_at. rewrite write_oob_get; auto.
      * change (cm_dims (cm_write_ref m ROob v)) with (cm_dims m).
        eapply sweep_order_ext; [|exact O].
        intros x Hx. unfold component_at. rewrite write_oob_get; auto.
  - destruct (update_sound m Hs) as (m' & n & E & H1 & H2 & H3 & H4 & H5 & H6).
    rewrite E. cbn [bind]. exists (m', refs), []. split; auto. split; auto.
    constructor; cbn [fst snd].
    + split; auto. intros _. rewrite H4. auto.
    + rewrite <- Hd. apply H2.
    + intros k [].
    + intros k i [].
  - destruct (extract_sound m Hs) as (m' & rows & n & E & H1 & H2 & H3 & H4 & H5 & H6 & _).
    rewrite E. cbn [bind]. exists (m', refs), []. split; auto. split; auto.
    constructor; cbn [fst snd].
    + split; auto. intros _. rewrite H4. auto.
    + rewrite <- Hd. apply H2.
    + intros k [].
    + intros k i [].
Qed.

Lemma hist_run m0 ops : forall live st,
  Forall op_ok ops -> hist_inv m0 live st ->
  refs_not_kept (List.length (snd st)) live ops ->
  exists st' live', foldM cm_step ops st = Ok st' /\ hist_inv m0 live' st'.
Proof.
  induction ops as [|o ops IH]; intros live st Ho Hi Hk.
  - exists st, live. auto.
  - inversion Ho; subst.
    destruct (hist_step m0 live (List.length (snd st)) o st ops) as (st' & live' & E & Hi' & Hk'); auto.
    cbn [foldM]. rewrite E. cbn [bind]. eapply IH; eauto.
Qed.

Lemma new_ok frame d def oob :
  0 <= nx d -> 0 <= ny d -> 0 <= nz d -> ncells d < 4294967296 ->
  cell_ok def -> cell_ok oob -> map_ok (cm_new frame d def oob).
Proof.
  intros H1 H2 H3 H4 H5 H6. unfold map_ok, cm_new, cm_dims, cm_get; cbn [cm_grid gdims mk_grid goob].
  split; [apply mk_grid_wf; auto|]. split; auto. split; auto.
  intros i. rewrite get_eq; cbn [fst]. destruct (in_bounds d i) eqn:E.
  - rewrite gget_mk_grid; auto.
  - rewrite gget_oob; auto.
Qed.

(** The main history theorem. *)
Lemma history_sound frame d def oob ops :
  0 <= nx d -> 0 <= ny d -> 0 <= nz d -> ncells d < 4294967296 ->
  cell_ok def -> cell_ok oob -> Forall op_ok ops -> refs_not_kept 0 [] ops ->
  exists m refs, cm_run (cm_new frame d def oob) ops = Ok (m, refs) /\ map_ok m /\
    cm_dims m = d /\ (cm_components_valid m = true -> components_right m (cm_ncomp m)).
Proof.
  intros H1 H2 H3 H4 H5 H6 Ho Hk. unfold cm_run.
  destruct (hist_run (cm_new frame d def oob) ops [] (cm_new frame d def oob, []))
    as ((m & refs) & live & E & Hi); auto.
  - constructor; cbn [fst snd].
    + split; [apply new_ok; auto|]. discriminate.
    + reflexivity.
    + intros k [].
    + intros k i [].
  - exists m, refs. split; auto. destruct Hi as [Hs Hd _ _]. cbn [fst] in *.
    split; [apply Hs|]. split; auto. apply Hs.
Qed.

(** Recomputation depends on the occupancies alone. *)
Lemma update_determined m1 m2 :
  sound m1 -> sound m2 -> same_but_labels m1 m2 ->
  exists m1' m2' n, cm_update m1 = Ok (m1', n) /\ cm_update m2 = Ok (m2', n) /\
    cm_grid m1' = cm_grid m2' /\ cm_update m1' = Ok (m1', n).
Proof.
  intros S1 S2 (D & F & B & P).
  destruct (update_sound m1 S1) as (m1' & n1 & E1 & O1 & (D1 & F1 & B1 & P1) & R1 & N1 & V1 & _).
  destruct (update_sound m2 S2) as (m2' & n2 & E2 & O2 & (D2 & F2 & B2 & P2) & R2 & N2 & V2 & _).
  destruct (components_unique m1' m2' n1 n2) as (En & Eg); auto.
  { split; [congruence|]. split; [congruence|]. split; [congruence|].
    intros i. rewrite P1, P2, P; auto. }
  exists m1', m2', n1. split; auto. split; [congruence|]. split; auto.
  unfold cm_update. rewrite V1, N1; auto.
Qed.

(** A reference kept across the computation. *)
Definition stale_ops : list cm_op :=
  [GetRef (I 0 0 0); UpdateCC; WriteRef 0 (CC one32 1)].

Lemma kept_reference_breaks :
  exists d ops m refs,
    cm_run (cm_new "" d (CC zero32 0) (CC zero32 0)) ops = Ok (m, refs) /\
    Forall op_ok ops /\ map_ok m /\ cm_components_valid m = true /\
    forall n, ~ components_right m n.
Proof.
  exists (D 2 1 1), stale_ops.
  destruct (cm_run (cm_new "" (D 2 1 1) (CC zero32 0) (CC zero32 0)) stale_ops)
    as [[m refs]| |] eqn:E; vm_compute in E; try discriminate.
  injection E as <- <-. eexists _, _. split; [reflexivity|]. split.
  { unfold stale_ops. repeat constructor; cbn; lia. }
  split.
  { split; [unfold wf_grid; vm_compute; intuition congruence|]. split; [vm_compute; auto|].
    split; [vm_compute; intuition congruence|]. intros i. unfold cm_get, get; cbn [cm_grid].
    destruct (in_bounds _ i); [|vm_compute; intuition congruence]. cbn [fst gdata goob].
    destruct (Z.to_nat _) as [|[|k]]; [vm_compute; intuition congruence..|].
    destruct k; vm_compute; intuition congruence. }
  split; [reflexivity|].
  intros n ((_ & _ & _ & _ & R) & _).
  specialize (R (I 0 0 0) (I 1 0 0) eq_refl eq_refl eq_refl eq_refl).
  assert (H : joined (D 2 1 1) (fun _ => true)
     (same_kind (CM (G (D 2 1 1) [CC one32 1; CC zero32 1] (CC zero32 0)) 1 "" true)) (I 0 0 0) (I 1 0 0)).
  { apply R. reflexivity. }
  assert (G : forall a b, joined (D 2 1 1) (fun _ => true)
     (same_kind (CM (G (D 2 1 1) [CC one32 1; CC zero32 1] (CC zero32 0)) 1 "" true)) a b ->
     a = I 0 0 0 -> b = I 0 0 0).
  { intros a b Hab. induction Hab as [a Ha Hae|a b c Hab IH Hadj Hc Hce Hl]; intros Ea; auto.
    specialize (IH Ea). subst b. apply in_bounds_spec in Hc. cbn in Hc.
    destruct c as [x y z]; cbn in Hc. assert (Hx : x = 0 \/ x = 1) by lia.
    assert (y = 0) by lia. assert (z = 0) by lia. subst y z.
    destruct Hx as [Hx|Hx]; subst x; auto. vm_compute in Hl. discriminate. }
  specialize (G _ _ H eq_refl). discriminate.
Qed.

Lemma update_payload m m' n :
  map_ok m -> cm_update m = Ok (m', n) -> same_but_labels m m'.
Proof.
  intros Hok E. destruct (cm_valid m) eqn:Ev.
  - unfold cm_update in E. rewrite Ev in E. injection E as <- <-. repeat split; auto.
  - destruct (update_fresh m Hok Ev) as (m2 & n2 & E2 & _ & S & _). congruence.
Qed.

(** The extracted rows partition the grid. *)
Lemma rows_partition m' rows n d :
  Z.of_nat (List.length rows) = n ->
  (forall i, In i (sweep d) -> 1 <= component_at m' i <= n) ->
  (forall k, 1 <= k <= n -> exists i, In i (sweep d) /\ component_at m' i = k) ->
  (forall k row, nth_error rows k = Some row ->
      row = filter (fun i => component_at m' i =? Z.of_nat k + 1) (sweep d)) ->
  NoDup (concat rows) /\ (forall i, In i (concat rows) <-> In i (sweep d)) /\
  (forall row, In row rows -> row <> []).
Proof.
  intros L Hr He Hrow. split; [|split].
  - assert (G : forall rs off,
       (forall k row, nth_error rs k = Some row ->
          row = filter (fun i => component_at m' i =? Z.of_nat (k + off) + 1) (sweep d)) ->
       NoDup (concat rs) /\ forall i, In i (concat rs) -> Z.of_nat off < component_at m' i).
    { induction rs as [|r rs IH]; intros off H.
      - split; [constructor|intros i []].
      - destruct (IH (S off)) as (N1 & G1).
        { intros k row Hk. rewrite (H (S k) row Hk). f_equal.
          replace (k + S off)%nat with (S k + off)%nat by lia. reflexivity. }
        pose proof (H 0%nat r eq_refl) as Er. cbn [Nat.add] in Er.
        cbn [concat]. split.
        + apply NoDup_app_intro; auto.
          * rewrite Er. apply NoDup_filter. apply sweep_nodup.
          * intros i Hi Hi'. specialize (G1 i Hi'). rewrite Er in Hi.
            apply filter_In in Hi. lia.
        + intros i Hi. apply in_app_iff in Hi. destruct Hi as [Hi|Hi].
          * rewrite Er in Hi. apply filter_In in Hi. lia.
          * specialize (G1 i Hi). lia. }
    apply (G rows 0%nat). intros k row Hk. rewrite (Hrow k row Hk). rewrite Nat.add_0_r. auto.
  - intros i. rewrite in_concat. split.
    + intros (row & Hin & Hi). apply In_nth_error in Hin. destruct Hin as (k & Hk).
      rewrite (Hrow k row Hk) in Hi. apply filter_In in Hi. apply Hi.
    + intros Hi. pose proof (Hr i Hi) as Hc.
      destruct (nth_error rows (Z.to_nat (component_at m' i - 1))) as [row|] eqn:E.
      * exists row. split; [eapply nth_error_In; eauto|].
        rewrite (Hrow _ _ E). apply filter_In. split; auto. lia.
      * apply nth_error_None in E. lia.
  - intros row Hin Hnil. apply In_nth_error in Hin. destruct Hin as (k & Hk).
    assert (Hlt : (k < List.length rows)%nat) by (apply nth_error_Some; congruence).
    destruct (He (Z.of_nat k + 1) ltac:(lia)) as (i & Hi & Hc).
    assert (Hf : In i row) by (rewrite (Hrow k row Hk); apply filter_In; split; auto; lia).
    rewrite Hnil in Hf. destruct Hf.
Qed.

Lemma extract_partition m :
  sound m ->
  exists m' rows n, cm_extract_components m = Ok (m', rows) /\
    same_but_labels m m' /\ components_right m' n /\ cm_ncomp m' = n /\
    cm_valid m' = true /\ (cm_valid m = true -> m' = m) /\
    Z.of_nat (List.length rows) = n /\
    (forall k row, nth_error rows k = Some row ->
      row = filter (fun i => component_at m' i =? Z.of_nat k + 1) (sweep (cm_dims m))) /\
    NoDup (concat rows) /\
    (forall i, In i (concat rows) <-> in_bounds (cm_dims m) i = true) /\
    (forall row, In row rows -> row <> []).
Proof.
  intros Hs. destruct (extract_sound m Hs)
    as (m' & rows & n & E & H1 & H2 & H3 & H4 & H5 & H6 & H7 & H8).
  exists m', rows, n. split; auto. split; auto. split; auto. split; auto. split; auto.
  split; auto. split; auto. split; auto.
  pose proof H3 as ((R0 & R1 & R2 & R3 & R4) & _). pose proof H2 as (D1 & _).
  rewrite D1 in *.
  destruct (rows_partition m' rows n (cm_dims m)) as (A & B & C); auto.
  - intros i Hi. apply R1; auto. apply sweep_in; auto.
  - intros k Hk. destruct (R3 k Hk) as (a & Ha & _ & Hl). exists a. split; auto. apply sweep_in; auto.
  - split; auto. split; auto. intros i. rewrite B. apply sweep_in.
Qed.

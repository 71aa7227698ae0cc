(** Collision maps and tagged maps with the same occupancies. *)
From Coq Require Import FunctionalExtensionality.
From Verif Require Import Base BaseFacts Floats Grid GridFacts TopoSpec CCModel CCProofs CollisionMap ComponentSpec
  CollisionMapProofs TaggedMap TaggedSpec TaggedProofs Surfaces SurfaceSpec TopologyThms.

Section Agree.
Variables (m : cmap) (t : tmap).
Hypothesis (Sm : sound m) (St : tsound t) (Dm : tm_dims t = cm_dims m).
Hypothesis (Oc : forall i, in_bounds (cm_dims m) i = true -> tocc t i = occupancy_at m i).

Lemma same_numbers : exists m' t' n, cm_update m = Ok (m', n) /\ tm_update t = Ok (t', n) /\
  forall i, in_bounds (cm_dims m) i = true -> tcomp t' i = component_at m' i.
Proof.
  destruct (update_sound m Sm) as (m' & n & E & _ & (D1 & _ & _ & O1) & (R1 & Q1) & _).
  destruct (tupdate_sound t St) as (t' & n' & E' & _ & ((D2 & _ & _ & O2 & _) & _) & (R2 & Q2) & _).
  rewrite D1 in R1, Q1. rewrite D2, Dm in R2, Q2.
  assert (R2' : regions_numbered (cm_dims m) (fun _ => true) (same_kind m') (tcomp t') n').
  { apply (regions_ext_elig (cm_dims m) (fun _ => true) (tsame_kind t')); auto.
    intros a b Ha Hb _ _. unfold tsame_kind, same_kind. rewrite !O2, !O1, !Oc; auto. }
  destruct (labels_unique _ _ _ _ _ _ _ R1 Q1 R2' Q2) as (En & El). subst n'.
  exists m', t', n. split; auto. split; auto. intros i Hi. symmetry. auto.
Qed.
End Agree.

(** The surface test for labels that agree. *)
Lemma component_surface_ext {A B} (f : A -> Z) (h : B -> Z) (g : grid A) (k : grid B) i :
  gdims k = gdims g -> f (goob g) = h (goob k) ->
  (forall j, in_bounds (gdims g) j = true -> f (fst (get g j)) = h (fst (get k j))) ->
  is_component_surface f g i = is_component_surface h k i.
Proof.
  intros D O E.
  assert (E' : forall j, f (fst (get g j)) = h (fst (get k j))).
  { intros j. destruct (in_bounds (gdims g) j) eqn:Bj; [auto|].
    unfold get. rewrite D, Bj. exact O. }
  unfold is_component_surface. rewrite D. destruct i as [x y z]. rewrite !E'. reflexivity.
Qed.

Lemma outside_ext {A B} (f : A -> Z) (h : B -> Z) (g : grid A) (k : grid B) :
  gdims k = gdims g ->
  (forall j, in_bounds (gdims g) j = true -> f (fst (get g j)) = h (fst (get k j))) ->
  component_or_outside f g = component_or_outside h k.
Proof.
  intros D E. apply functional_extensionality. intros j. specialize (E j).
  unfold component_or_outside. rewrite !get_eq in *. rewrite D. cbn [fst] in *.
  destruct (in_bounds (gdims g) j); auto.
Qed.

Lemma component_surfaces_ext d get a b : (forall i, in_bounds d i = true -> a i = b i) ->
  component_surfaces d get a = component_surfaces d get b.
Proof.
  intros E. unfold component_surfaces.
  assert (K : forall l, (forall i, In i l -> a i = b i) -> forall acc,
    fold_left (fun m i => if a i then add_surface m (get i) i else m) l acc =
    fold_left (fun m i => if b i then add_surface m (get i) i else m) l acc).
  { induction l as [|i l IH]; intros Hl acc; auto. cbn [fold_left]. rewrite (Hl i) by (left; auto).
    apply IH. intros j Hj. apply Hl. right; auto. }
  apply K. intros i Hi. apply E. apply sweep_in. exact Hi.
Qed.

Lemma same_topology m t order (all : bool) m' n :
  sound m -> tsound t -> tm_dims t = cm_dims m ->
  (forall i, in_bounds (cm_dims m) i = true -> tocc t i = occupancy_at m i) ->
  t_comp (goob (tm_grid t)) = c_comp (goob (cm_grid m)) ->
  cm_update m = Ok (m', n) ->
  (forall i, in_bounds (cm_dims m) i = true -> all = true \/ gt32 (occupancy_at m i) half32 = true ->
     is_component_surface c_comp (cm_grid m') (looked_up (occupancy_at m i) i) = is_component_surface c_comp (cm_grid m') i) ->
  answer (tm_topology order (if all then 7 else 1) true t) = answer (cm_topology order (negb all) true m).
Proof.
  intros Sm St Dm Oc Oo Eu Hit.
  destruct (same_numbers m t Sm St Dm Oc) as (ma & t' & na & E & E' & L).
  rewrite Eu in E. injection E as <- <-.
  destruct (update_sound m Sm) as (mb & nb & E2 & _ & (D1 & _ & G1 & O1) & _).
  rewrite Eu in E2. injection E2 as <- <-.
  destruct (tupdate_sound t St) as (tb & nb & E3 & _ & ((D2 & _ & G2 & O2 & _) & _) & _).
  rewrite E' in E3. injection E3 as <- <-.
  unfold answer, tm_topology, cm_topology. rewrite Eu, E'. cbn [bind].
  assert (DD : gdims (tm_grid t') = gdims (cm_grid m')).
  { change (tm_dims t' = cm_dims m'). congruence. }
  assert (LL : forall j, in_bounds (gdims (cm_grid m')) j = true ->
             c_comp (fst (get (cm_grid m') j)) = t_comp (fst (get (tm_grid t') j))).
  { intros j Hj. symmetry. apply (L j). rewrite <- D1. exact Hj. }
  assert (OO : c_comp (goob (cm_grid m')) = t_comp (goob (tm_grid t'))) by congruence.
  rewrite <- (outside_ext c_comp t_comp (cm_grid m') (tm_grid t') DD LL).
  unfold component_topology.
  replace (component_surfaces (tm_dims t') (component_or_outside c_comp (cm_grid m'))
             (surface_of_types t_occ t_comp (if all then 7 else 1) (tm_grid t')))
    with (component_surfaces (cm_dims m') (component_or_outside c_comp (cm_grid m')) (cm_surface (negb all) (cm_grid m'))).
  { destruct (foldM _ _ []); reflexivity. }
  change (tm_dims t') with (gdims (tm_grid t')). rewrite DD.
  apply component_surfaces_ext. intros i Hi.
  assert (Hi' : in_bounds (cm_dims m) i = true) by (rewrite <- D1; exact Hi).
  specialize (Hit i Hi'). unfold cm_surface, surface_of_types.
  assert (Q : t_occ (fst (get (tm_grid t') i)) = occupancy_at m i).
  { change (tocc t' i = occupancy_at m i). rewrite O2. auto. }
  assert (Q' : c_occ (fst (get (cm_grid m') i)) = occupancy_at m i) by apply O1.
  destruct i as [x y z]. rewrite Q, Q'. unfold looked_up, kind_bit in Hit. cbv zeta.
  rewrite <- !(component_surface_ext c_comp t_comp (cm_grid m') (tm_grid t') _ DD OO LL).
  destruct (gt32 (occupancy_at m (I x y z)) half32) eqn:Gt.
  - rewrite <- Hit by auto. destruct all; cbn; auto.
  - destruct all; cbn [negb]; [|destruct (lt32 (occupancy_at m (I x y z)) half32); reflexivity].
    destruct (lt32 (occupancy_at m (I x y z)) half32) eqn:Lt; [reflexivity|].
    rewrite <- Hit by auto. reflexivity.
Qed.

(** In maps of at most two layers along x every cell inside is on the surface. *)
Lemma thin_surface {A} (f : A -> Z) (g : grid A) i : nx (gdims g) <= 2 -> in_bounds (gdims g) i = true ->
  is_component_surface f g i = true.
Proof.
  intros Hn Hb. unfold is_component_surface. destruct i as [x y z]. rewrite Hb. cbn [negb].
  apply in_bounds_spec in Hb. cbn [ix iy iz] in Hb.
  assert (E : (x =? 0) || (x =? nx (gdims g) - 1) = true).
  { apply orb_true_iff. destruct (Z.eq_dec x 0); [left|right]; apply Z.eqb_eq; lia. }
  apply orb_true_iff in E. destruct E as [-> | E]; [reflexivity|].
  rewrite E. destruct (x =? 0), (y =? 0), (z =? 0), (y =? ny (gdims g) - 1), (z =? nz (gdims g)); reflexivity.
Qed.

Lemma thin_topology m t order (all : bool) :
  sound m -> tsound t -> tm_dims t = cm_dims m ->
  (forall i, in_bounds (cm_dims m) i = true -> tocc t i = occupancy_at m i) ->
  t_comp (goob (tm_grid t)) = c_comp (goob (cm_grid m)) ->
  nx (cm_dims m) <= 2 -> ny (cm_dims m) = nz (cm_dims m) ->
  answer (tm_topology order (if all then 7 else 1) true t) = answer (cm_topology order (negb all) true m).
Proof.
  intros Sm St Dm Oc Oo Hx Hyz.
  destruct (update_sound m Sm) as (m' & n & E & _ & (D1 & _) & _).
  apply (same_topology m t order all m' n); auto. intros i Hi _.
  change (gdims (cm_grid m')) with (cm_dims m') in *.
  assert (Hi' := proj1 (in_bounds_spec _ _) Hi).
  assert (Hl : in_bounds (cm_dims m) (looked_up (occupancy_at m i) i) = true).
  { apply in_bounds_spec. unfold looked_up. destruct (kind_bit _) as [|[ | |]|]; cbn [ix iy iz]; lia. }
  rewrite !thin_surface; auto; change (gdims (cm_grid m')) with (cm_dims m'); rewrite D1; auto.
Qed.

(** A map and a tagged map with given filled cells. *)
Definition tagged_build (d : dims) (filled : idx -> bool) : tmap :=
  TM (G d (map (fun i => TC (if filled i then one32 else zero32) 0 0 0) (sweep d)) (TC half32 0 0 0))
     0 0 "map"%string false (Some false).

Lemma tagged_build_get d filled i : 0 <= nx d -> 0 <= ny d -> 0 <= nz d ->
  tm_get (tagged_build d filled) i =
  if in_bounds d i then (TC (if filled i then one32 else zero32) 0 0 0, true) else (TC half32 0 0 0, false).
Proof.
  intros X Y Z. unfold tm_get, get, tagged_build. cbn [tm_grid gdims gdata goob].
  destruct (in_bounds d i) eqn:B; auto. f_equal.
  set (f := fun i => TC (if filled i then one32 else zero32) 0 0 0).
  change (TC (if filled i then one32 else zero32) 0 0 0) with (f i).
  assert (E : nth (Z.to_nat (data_index d i)) (sweep d) i = i) by (apply sweep_nth; auto).
  rewrite <- E at 2. rewrite <- (map_nth f). apply nth_indep. rewrite map_length, sweep_length by auto.
  pose proof (data_index_range d i B). lia.
Qed.

Lemma tagged_build_sound d filled : 0 <= nx d -> 0 <= ny d -> 0 <= nz d -> ncells d < 4294967296 ->
  tsound (tagged_build d filled).
Proof.
  intros X Y Z N. split; [|discriminate]. unfold tmap_ok, wf_grid, tm_dims.
  cbn [tagged_build tm_grid gdims gdata goob].
  split; [|split; [auto|split; [unfold tcell_ok, u32; cbn; lia|]]].
  - repeat (split; [auto|]). rewrite map_length. apply sweep_length; auto.
  - intros i. change (TM _ _ _ _ _ _) with (tagged_build d filled).
    rewrite tagged_build_get by auto. destruct (in_bounds d i); unfold tcell_ok, u32; cbn; lia.
Qed.

Lemma builds_agree d filled i : 0 <= nx d -> 0 <= ny d -> 0 <= nz d -> in_bounds d i = true ->
  tocc (tagged_build d filled) i = occupancy_at (build d filled) i.
Proof.
  intros X Y Z B. unfold tocc, occupancy_at. rewrite tagged_build_get, build_get by auto. rewrite B. reflexivity.
Qed.

Lemma same_topology_any m t o o' (all : bool) m' n : any_order o -> any_order o' ->
  sound m -> tsound t -> tm_dims t = cm_dims m ->
  (forall i, in_bounds (cm_dims m) i = true -> tocc t i = occupancy_at m i) ->
  t_comp (goob (tm_grid t)) = c_comp (goob (cm_grid m)) ->
  cm_update m = Ok (m', n) ->
  (forall i, in_bounds (cm_dims m) i = true -> all = true \/ gt32 (occupancy_at m i) half32 = true ->
     is_component_surface c_comp (cm_grid m') (looked_up (occupancy_at m i) i) = is_component_surface c_comp (cm_grid m') i) ->
  answer (tm_topology o' (if all then 7 else 1) true t) = answer (cm_topology o (negb all) true m).
Proof.
  intros P P' Sm St Dm Oc Oo E Hit. rewrite (tm_topology_order_free o' o) by auto.
  eapply same_topology; eauto.
Qed.

Lemma thin_topology_any m t o o' (all : bool) : any_order o -> any_order o' ->
  sound m -> tsound t -> tm_dims t = cm_dims m ->
  (forall i, in_bounds (cm_dims m) i = true -> tocc t i = occupancy_at m i) ->
  t_comp (goob (tm_grid t)) = c_comp (goob (cm_grid m)) ->
  nx (cm_dims m) <= 2 -> ny (cm_dims m) = nz (cm_dims m) ->
  answer (tm_topology o' (if all then 7 else 1) true t) = answer (cm_topology o (negb all) true m).
Proof.
  intros P P' Sm St Dm Oc Oo Hx Hyz. rewrite (tm_topology_order_free o' o) by auto. apply thin_topology; auto.
Qed.

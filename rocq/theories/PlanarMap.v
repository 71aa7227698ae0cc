(** Topology of single-layer maps. *)
From Coq Require Import Permutation Lia Sorted.
From Verif Require Import Base BaseFacts Floats Grid GridFacts TopoSpec SurfaceSpec CollisionMap
  ComponentSpec CollisionMapProofs TaggedMap TaggedSpec TaggedProofs Surfaces VertexProofs HoleProofs
  SurfaceProofs TopologyProofs TopologyThms PlanarSpec PlanarHoles.

Lemma topology_entries order get l : NoDup (map fst l) ->
  (forall e, In e l -> exists h, holes_in_surface order (fst e) (snd e) get = Ok h) ->
  exists t, foldM (fun acc e => let* h := holes_in_surface order (fst e) (snd e) get in Ok (map_put (fst e) h acc)) l [] = Ok t /\
    ascending (map fst t) /\
    forall k h, In (k, h) t <-> exists s, In (k, s) l /\ holes_in_surface order k s get = Ok h.
Proof.
  intros N F.
  assert (G : forall l acc, NoDup (map fst l) -> ascending (map fst acc) ->
    (forall k, In k (map fst acc) -> ~ In k (map fst l)) ->
    (forall e, In e l -> exists h, holes_in_surface order (fst e) (snd e) get = Ok h) ->
    exists t, foldM (fun acc e => let* h := holes_in_surface order (fst e) (snd e) get in Ok (map_put (fst e) h acc)) l acc = Ok t /\
      ascending (map fst t) /\
      forall k h, In (k, h) t <-> In (k, h) acc \/ exists s, In (k, s) l /\ holes_in_surface order k s get = Ok h).
  { clear l N F. induction l as [|[k s] l IH]; intros acc N A D F.
    - exists acc. split; [reflexivity|]. split; auto. intros k h. split; auto. intros [K|(s & [] & _)]; auto.
    - destruct (F (k, s) (or_introl eq_refl)) as (h & E). cbn [fst snd] in E.
      cbn [map fst] in N. apply NoDup_cons_iff in N as (N1 & N2).
      destruct (IH (map_put k h acc)) as (t & Et & At & Ht); auto.
      + apply map_put_sorted; auto.
      + intros x Hx. apply map_put_keys in Hx as [->|Hx]; auto. intros Q. apply (D x Hx). cbn. auto.
      + intros e He. apply F. cbn. auto.
      + exists t. split; [|split; auto].
        * cbn [foldM fst snd]. rewrite E. cbn [bind]. exact Et.
        * intros x y. rewrite Ht, map_put_in by auto. split.
          -- intros [[(-> & ->)|(Nx & K)]|(s' & K & Q)]; auto.
             ++ right. exists s. split; [left; auto|exact E].
             ++ right. exists s'. split; [right; auto|exact Q].
          -- intros [K|(s' & [K|K] & Q)].
             ++ left. right. split; auto. intros ->. apply (D k); [apply in_map_iff; exists (k, y); auto|left; auto].
             ++ injection K as <- <-. left. left. split; auto. congruence.
             ++ right. exists s'. auto. }
  destruct (G l [] N) as (t & Et & At & Ht); auto; [constructor|].
  exists t. split; auto. split; auto. intros k h. rewrite Ht. split; auto. intros [[]|K]; auto.
Qed.

Lemma holes_same_get o c s get get' : (forall i, get i = get' i) ->
  holes_in_surface o c s get = holes_in_surface o c s get'.
Proof.
  intros E.
  assert (V : forall i, voxel_vertices c get i = voxel_vertices c get' i).
  { intros [x y z]. unfold voxel_vertices. rewrite !E. reflexivity. }
  assert (X : forall v, vertex_edges c get v = vertex_edges c get' v).
  { intros [x y z]. unfold vertex_edges. rewrite !E. reflexivity. }
  assert (S : forall l, surface_vertices c get l = surface_vertices c get' l).
  { intros l. unfold surface_vertices. rewrite (flat_map_ext _ _ V l). reflexivity. }
  unfold holes_in_surface. cbv zeta. rewrite S, (map_ext _ _ X).
  assert (M : forall l, map (fun v => (v, bits_of (vertex_edges c get v))) l = map (fun v => (v, bits_of (vertex_edges c get' v))) l).
  { intros l. apply map_ext. intros v. rewrite X. reflexivity. }
  rewrite M. reflexivity.
Qed.

Lemma joined_reaches m n : components_right m n -> forall i j,
  in_bounds (cm_dims m) i = true -> in_bounds (cm_dims m) j = true -> component_at m i = component_at m j ->
  reaches (fun a b => (in_bounds (cm_dims m) a = true /\ component_at m a = component_at m i) /\
                      (in_bounds (cm_dims m) b = true /\ component_at m b = component_at m i) /\ face_adjacent a b) i j.
Proof.
  intros ((_ & _ & _ & _ & C) & _) i j Bi Bj E. apply C in E; auto.
  induction E as [i _ _|i a b J IH F B _ L]; [constructor|].
  assert (Ba : in_bounds (cm_dims m) a = true) by (destruct J; auto).
  eapply reaches_step; [apply IH; auto|]. split; [split; auto|].
  - symmetry. apply C; auto.
  - split; auto. split; auto. symmetry. apply C; auto. eapply joined_step; eauto.
Qed.

Lemma thin_map o e m : any_order o -> sound m -> nz (cm_dims m) = 1 ->
  exists m' n t, cm_update m = Ok (m', n) /\ components_right m' n /\
    cm_topology o e true m = Ok (m', t) /\ ascending (map fst t) /\
    (forall k, In k (map fst t) <-> exists i, in_bounds (cm_dims m) i = true /\ component_at m' i = k /\
       (e = true -> gt32 (occupancy_at m i) half32 = true)) /\
    forall k h v, In (k, (h, v)) t -> v = 0 /\
      exists r q, encloses beside (cm_dims m) (component_at m') k r /\
        contacts (cm_dims m) (component_at m') k q /\
        h = 1 + Z.quot (4 * (Z.of_nat r - 1) - Z.of_nat q) 4.
Proof.
  intros P S Thin. destruct (update_sound m S) as (m' & n & E & Ok' & (D & _ & _ & Occ) & C & _).
  exists m', n. rewrite (topology_recompute o e m m' n E). unfold cm_topology. cbn [bind].
  set (g := cm_grid m'). set (d := cm_dims m') in *. rewrite <- D in *.
  assert (Lab : forall i, component_or_outside c_comp g i = if in_bounds d i then component_at m' i else -1).
  { intros i. rewrite outside_label. unfold component_at. rewrite cm_get_eq. reflexivity. }
  pose proof C as ((_ & C1 & _ & _ & _) & _).
  assert (Pos : forall i, in_bounds d i = true -> 1 <= component_at m' i) by (intros i B; apply C1; auto).
  assert (Sf : forall i, in_bounds d i = true -> cm_surface e g i = (if e then gt32 (occupancy_at m i) half32 else true)).
  { intros i B. unfold cm_surface. rewrite <- (Occ i). unfold occupancy_at, cm_get.
    assert (Q : is_component_surface c_comp g i = true).
    { destruct i as [x y z]. unfold is_component_surface. change (gdims g) with d. rewrite B. cbn [negb].
      apply in_bounds_spec in B. cbn [ix iy iz] in B. assert (z = 0) as -> by lia.
      rewrite Z.eqb_refl, !orb_true_r. reflexivity. }
    rewrite Q, andb_true_r. reflexivity. }
  set (get := component_or_outside c_comp g) in *. set (sf := cm_surface e g) in *.
  assert (Cells : forall k s, In (k, s) (component_surfaces d get sf) ->
            (exists i, in_bounds d i = true /\ component_at m' i = k /\ (e = true -> gt32 (occupancy_at m i) half32 = true)) /\
            1 <= k /\ forall i, In i s <-> (if in_bounds d i then component_at m' i else -1) = k).
  { intros k s K. pose proof (surface_entry d get sf k s K) as En.
    assert (Kk : In k (map fst (component_surfaces d get sf))) by (apply in_map_iff; exists (k, s); auto).
    apply surface_keys in Kk as (i0 & B0 & S0 & G0). rewrite Lab, B0 in G0. rewrite Sf in S0 by auto.
    split; [|split].
    - exists i0. split; auto. split; auto. intros ->. exact S0.
    - rewrite <- G0. apply Pos; auto.
    - intros i. rewrite En, Lab. split; [tauto|]. intros Q. destruct (in_bounds d i) eqn:B.
      + split; auto. split; auto. rewrite Sf by auto. destruct e; auto. rewrite <- S0, <- !Occ.
        apply (same_kind_component m' n C); auto. congruence.
      + exfalso. pose proof (Pos i0 B0). lia. }
  assert (Hol : forall k s, In (k, s) (component_surfaces d get sf) -> exists r q,
            encloses beside d (component_at m') k r /\ contacts d (component_at m') k q /\
            holes_in_surface o k s get = Ok (1 + Z.quot (4 * (Z.of_nat r - 1) - Z.of_nat q) 4, 0)).
  { intros k s K. destruct (Cells k s K) as ((i0 & B0 & G0 & _) & Pk & Hs).
    destruct (thin_holes d (component_at m') k s Thin ltac:(lia) Hs) with (start := i0) (order := o) as (r & q & H1 & H2 & H3); auto.
    - intros i j Hi Hj. destruct (in_bounds d i) eqn:Bi; [|lia]. destruct (in_bounds d j) eqn:Bj; [|lia].
      assert (Q : component_at m' i = component_at m' j) by congruence.
      pose proof (joined_reaches m' n C i j Bi Bj Q) as R. rewrite Hi in R. fold d in R. clear - R Pk.
      induction R as [|i a b R IH ((Ba & La) & (Bb & Lb) & F)]; [constructor|]. eapply reaches_step; [exact IH|].
      rewrite Ba, Bb. auto.
    - rewrite B0. exact G0.
    - exists r, q. split; auto. split; auto. rewrite <- H3. apply holes_same_get. exact Lab. }
  destruct (topology_entries o get (component_surfaces d get sf)) as (t & Et & At & Ht).
  { apply surfaces_well. }
  { intros [k s] K. destruct (Hol k s K) as (r & q & _ & _ & Q). eauto. }
  exists t. split; auto. split; auto. split; [unfold component_topology; rewrite Et; reflexivity|]. split; auto. split.
  - intros k. rewrite in_map_iff. split.
    + intros ([k' h] & <- & K). cbn [fst]. apply Ht in K as (s & K & _). apply (Cells k' s K).
    + intros (i & B & L & O). assert (Kk : In k (map fst (component_surfaces d get sf))).
      { apply surface_keys. exists i. split; auto. rewrite Sf, Lab, B by auto. split; auto. destruct e; auto. }
      apply in_map_iff in Kk as ([k' s] & Q & K). cbn [fst] in Q. subst k'.
      destruct (Hol k s K) as (r & q & _ & _ & Eh). eexists (k, _). split; [reflexivity|]. apply Ht. eauto.
  - intros k h v K. apply Ht in K as (s & K & Q). destruct (Hol k s K) as (r & q & H1 & H2 & H3).
    rewrite H3 in Q. injection Q as <- <-. split; auto. exists r, q. auto.
Qed.

(** Without corner contacts the count is exact. *)
Lemma no_contacts d lab c q : contacts d lab c q -> (forall v, ~ contact d lab c v) -> q = 0%nat.
Proof.
  intros (l & _ & <- & K) N. destruct l as [|v l]; auto. exfalso. apply (N v). apply K. left. reflexivity.
Qed.

Lemma thin_exact o e m : any_order o -> sound m -> nz (cm_dims m) = 1 ->
  exists m' n t, cm_update m = Ok (m', n) /\ cm_topology o e true m = Ok (m', t) /\
    forall k h v, In (k, (h, v)) t -> (forall w, ~ contact (cm_dims m) (component_at m') k w) ->
      0 <= h /\ encloses beside (cm_dims m) (component_at m') k (Z.to_nat h).
Proof.
  intros P S Thin. destruct (thin_map o e m P S Thin) as (m' & n & t & E & _ & Et & _ & _ & K).
  exists m', n, t. split; auto. split; auto. intros k h v Hk N. destruct (K k h v Hk) as (_ & r & q & Er & Cq & ->).
  rewrite (no_contacts _ _ _ _ Cq N). change (Z.of_nat 0) with 0. rewrite Z.sub_0_r, (Z.mul_comm 4), Z.quot_mul by lia.
  replace (1 + (Z.of_nat r - 1)) with (Z.of_nat r) by lia. split; [lia|]. rewrite Nat2Z.id. exact Er.
Qed.

Lemma thin_no_cavity d lab c : nz d = 1 -> ~ has_cavity d lab c.
Proof.
  intros Thin (i & B & N & K). apply K. destruct i as [x y z]. apply escapes_step with (j := I x y (z + 1)); auto.
  - unfold face_adjacent. cbn [ix iy iz]. lia.
  - apply escapes_out. apply not_true_iff_false. intros Q. apply in_bounds_spec in B, Q. cbn [ix iy iz] in *. lia.
Qed.

(** ** Concrete maps *)
Lemma enclosed_list (near : idx -> idx -> Prop) d (lab : idx -> Z) c L :
  (forall i, In i L -> in_bounds d i = true /\ lab i <> c) ->
  (forall i j, In i L -> near i j -> In j L \/ (in_bounds d j = true /\ lab j = c)) ->
  (forall i, in_bounds d i = true -> lab i <> c -> In i L) ->
  forall i, In i L <-> enclosed near d lab c i.
Proof.
  intros H1 H2 H3 i. split.
  - intros K. destruct (H1 i K) as (B & N). split; auto. split; auto. intros G. revert K.
    clear B N. induction G as [i B|i j N F G IH]; intros K.
    + apply H1 in K. destruct K. congruence.
    + destruct (H2 i j K F) as [Hj|(Bj & Lj)]; auto. inversion G; subst; congruence.
  - intros (B & N & _). auto.
Qed.

Definition slab : dims := D 5 5 1.
(** A plate with three holes that meet at corners. *)
Definition diagonal_map : cmap := build slab (fun i => negb ((ix i =? iy i) && (1 <=? ix i) && (ix i <=? 3))).
Definition diagonal_labelled : cmap := match cm_update diagonal_map with Ok (m, _) => m | _ => diagonal_map end.
Definition diagonal_holes : list idx := [I 1 1 0; I 2 2 0; I 3 3 0].

Lemma diagonal_sound : sound diagonal_map.
Proof. apply build_sound; vm_compute; congruence. Qed.

Lemma diagonal_update : exists n, cm_update diagonal_map = Ok (diagonal_labelled, n).
Proof.
  destruct (update_sound diagonal_map diagonal_sound) as (m' & n & E & _). exists n. unfold diagonal_labelled.
  rewrite E. reflexivity.
Qed.

Lemma diagonal_labels : forallb (fun i => if mem i diagonal_holes then negb (component_at diagonal_labelled i =? 1)
    else component_at diagonal_labelled i =? 1) (sweep slab) = true.
Proof. vm_compute. reflexivity. Qed.

Lemma diagonal_cell i : in_bounds slab i = true ->
  if mem i diagonal_holes then component_at diagonal_labelled i <> 1 else component_at diagonal_labelled i = 1.
Proof.
  intros B. pose proof diagonal_labels as K. rewrite forallb_forall in K. specialize (K i (proj2 (sweep_in slab i) B)).
  destruct (mem i diagonal_holes); lia.
Qed.

Lemma diagonal_enclosed (near : idx -> idx -> Prop) : (forall i j, near i j -> touches i j /\ iz i = iz j) ->
  forall i, In i diagonal_holes <-> enclosed near slab (component_at diagonal_labelled) 1 i.
Proof.
  intros Nr. apply enclosed_list.
  - intros i K. assert (B : in_bounds slab i = true) by (destruct K as [<-|[<-|[<-|[]]]]; reflexivity).
    split; auto. pose proof (diagonal_cell i B) as C.
    assert (M : mem i diagonal_holes = true) by (destruct K as [<-|[<-|[<-|[]]]]; reflexivity). rewrite M in C. exact C.
  - intros i j K F. apply Nr in F as ((_ & X & Y & _) & Z0).
    assert (B : in_bounds slab j = true).
    { apply in_bounds_spec. cbn [slab nx ny nz]. destruct K as [<-|[<-|[<-|[]]]]; cbn [ix iy iz] in *; lia. }
    pose proof (diagonal_cell j B) as C. destruct (mem j diagonal_holes) eqn:M; auto. left.
    unfold mem in M. apply existsb_exists in M as (k & Hk & Q). apply idx_eqb_eq in Q. subst. auto.
  - intros i B N. pose proof (diagonal_cell i B) as C. destruct (mem i diagonal_holes) eqn:M; [|congruence].
    unfold mem in M. apply existsb_exists in M as (k & Hk & Q). apply idx_eqb_eq in Q. subst. auto.
Qed.

Lemma beside_near i j : beside i j -> touches i j /\ iz i = iz j.
Proof.
  intros (F & E). split; auto. unfold face_adjacent in F. split; [intros ->; lia|lia].
Qed.

Lemma diagonal_three : encloses beside slab (component_at diagonal_labelled) 1 3.
Proof.
  exists diagonal_holes. split; [apply diagonal_enclosed, beside_near|].
  exists diagonal_holes. split; auto. split; [repeat constructor; cbn; intuition congruence|]. split; [intros i; auto|].
  intros i K. exists i. split; [split; [auto|constructor]|]. intros r (Hr & P).
  destruct P as [|r j k P (Hj & Hk & (F & _))]; auto. exfalso.
  apply (diagonal_enclosed beside beside_near) in Hj, Hk. unfold face_adjacent in F.
  destruct Hj as [<-|[<-|[<-|[]]]], Hk as [<-|[<-|[<-|[]]]]; cbn [ix iy iz] in F; lia.
Qed.

Lemma diagonal_one : encloses meets slab (component_at diagonal_labelled) 1 1.
Proof.
  assert (Nr : forall i j, meets i j -> touches i j /\ iz i = iz j) by (intros i j K; exact K).
  exists diagonal_holes. split; [apply diagonal_enclosed, Nr|].
  pose proof (diagonal_enclosed meets Nr) as En.
  assert (S1 : meets (I 1 1 0) (I 2 2 0)) by (repeat split; cbn; try lia; congruence).
  assert (S2 : meets (I 2 2 0) (I 3 3 0)) by (repeat split; cbn; try lia; congruence).
  assert (H1 : In (I 1 1 0) diagonal_holes) by (cbn; auto).
  assert (H2 : In (I 2 2 0) diagonal_holes) by (cbn; auto).
  assert (H3 : In (I 3 3 0) diagonal_holes) by (cbn; auto).
  apply En in H1 as E1. apply En in H2 as E2. apply En in H3 as E3.
  exists [I 1 1 0]. split; auto. split; [repeat constructor; auto|]. split; [intros i [<-|[]]; auto|].
  intros i K. exists (I 1 1 0). split; [|intros r ([<-|[]] & _); auto]. split; [left; auto|].
  destruct K as [<-|[<-|[<-|[]]]]; [constructor| |].
  - eapply reaches_step; [constructor|]. auto.
  - eapply reaches_step; [eapply reaches_step; [constructor|]|]; [|split; [exact E2|]; auto]. auto.
Qed.

Lemma diagonal_answer o : any_order o -> answer (cm_topology o true true diagonal_map) = Ok [(1, (2, 0))].
Proof.
  intros P. rewrite (cm_topology_order_free o insertion) by auto using insertion_order. vm_compute. reflexivity.
Qed.

(** A plate with two holes that do not meet. *)
Definition plate_map : cmap := build slab (fun i => negb ((iy i =? 2) && ((ix i =? 1) || (ix i =? 3)))).
Lemma plate_answer o : any_order o -> answer (cm_topology o true true plate_map) = Ok [(1, (2, 0))].
Proof.
  intros P. rewrite (cm_topology_order_free o insertion) by auto using insertion_order. vm_compute. reflexivity.
Qed.

(** Proofs about holes and voids: mirror images, and the exception. *)
From Coq Require Import Permutation Lia Sorted.
From Verif Require Import Base BaseFacts Floats Grid GridFacts TopoSpec SurfaceSpec CollisionMap
  ComponentSpec CollisionMapProofs TaggedMap TaggedSpec TaggedProofs Surfaces VertexProofs HoleProofs
  SurfaceProofs.

(** ** Corners of a surface voxel, written uniformly *)
Lemma voxel_vertices_in c get x y z v : In v (voxel_vertices c get (I x y z)) <->
  exists a b e, (a = 0 \/ a = 1) /\ (b = 0 \/ b = 1) /\ (e = 0 \/ e = 1) /\
    v = I (x + a) (y + b) (z + e) /\
    (get (I x y (z - 1)) <> c \/ get (I x (y - 1 + 2 * b) z) <> c \/
     get (I (x - 1 + 2 * a) y z) <> c).
Proof.
  unfold voxel_vertices. rewrite !in_app_iff.
  assert (K : forall p q r w, In v (if negb (c =? p) || negb (c =? q) || negb (c =? r) then [w] else []) <->
                v = w /\ (p <> c \/ q <> c \/ r <> c)).
  { intros p q r w. destruct (Z.eqb_spec c p), (Z.eqb_spec c q), (Z.eqb_spec c r); cbn [negb orb In];
      intuition congruence. }
  rewrite !K. clear K. split.
  - intros [H|[H|[H|[H|[H|[H|[H|H]]]]]]]; destruct H as (-> & H).
    + exists 0, 0, 0. rewrite !Z.add_0_r. repeat (split; [auto|]). auto.
    + exists 0, 0, 1. rewrite !Z.add_0_r. repeat (split; [auto|]). auto.
    + exists 0, 1, 0. rewrite !Z.add_0_r. replace (y - 1 + 2 * 1) with (y + 1) by lia. repeat (split; [auto|]). auto.
    + exists 0, 1, 1. rewrite !Z.add_0_r. replace (y - 1 + 2 * 1) with (y + 1) by lia. repeat (split; [auto|]). auto.
    + exists 1, 0, 0. rewrite !Z.add_0_r. replace (x - 1 + 2 * 1) with (x + 1) by lia. repeat (split; [auto|]). auto.
    + exists 1, 0, 1. rewrite !Z.add_0_r. replace (x - 1 + 2 * 1) with (x + 1) by lia. repeat (split; [auto|]). auto.
    + exists 1, 1, 0. rewrite !Z.add_0_r. replace (x - 1 + 2 * 1) with (x + 1) by lia.
      replace (y - 1 + 2 * 1) with (y + 1) by lia. repeat (split; [auto|]). auto.
    + exists 1, 1, 1. replace (x - 1 + 2 * 1) with (x + 1) by lia.
      replace (y - 1 + 2 * 1) with (y + 1) by lia. repeat (split; [auto|]). auto.
  - intros (a & b & e & [->| ->] & [->| ->] & [->| ->] & -> & H);
      replace (x - 1 + 2 * 1) with (x + 1) in H by lia; replace (y - 1 + 2 * 1) with (y + 1) in H by lia;
      replace (x - 1 + 2 * 0) with (x - 1) in H by lia; replace (y - 1 + 2 * 0) with (y - 1) in H by lia;
      rewrite ?Z.add_0_r; intuition.
Qed.

(** ** Topology from surfaces *)
Section Fold.
  Context (order : list idx -> list idx) (get : idx -> Z).
  Let step := fun (acc : list (Z * (Z * Z))) (e : Z * list idx) =>
    let* h := holes_in_surface order (fst e) (snd e) get in Ok (map_put (fst e) h acc).

  Lemma topology_throws l e : (forall l, Permutation (order l) l) ->
    In e l -> holes_in_surface order (fst e) (snd e) get = Throw "out_of_range" ->
    forall acc, foldM step l acc = Throw "out_of_range".
  Proof.
    intros P. induction l as [|a l IH]; [intros []|]. intros [->|H] E acc; cbn [foldM]; unfold step at 1.
    - rewrite E. reflexivity.
    - destruct (holes_total order (fst a) (snd a) get P) as [(r & R)|R]; rewrite R; cbn [bind]; auto.
  Qed.
End Fold.

Lemma topology_same order order' get get' l l' :
  Forall2 (fun e e' => fst e = fst e' /\
             holes_in_surface order (fst e) (snd e) get = holes_in_surface order' (fst e') (snd e') get') l l' ->
  forall acc,
  foldM (fun acc e => let* h := holes_in_surface order (fst e) (snd e) get in Ok (map_put (fst e) h acc)) l acc =
  foldM (fun acc e => let* h := holes_in_surface order' (fst e) (snd e) get' in Ok (map_put (fst e) h acc)) l' acc.
Proof.
  induction 1 as [|e e' l l' (Hk & Hh) H IH]; intros acc; cbn [foldM]; auto.
  rewrite Hh, Hk. destruct (holes_in_surface order' (fst e') (snd e') get'); cbn [bind]; auto.
Qed.

(** ** Mirror images in x and y *)
Definition swap_x (k : Z) : Z := match k with 4 => 5 | 5 => 4 | _ => k end.
Definition swap_y (k : Z) : Z := match k with 2 => 3 | 3 => 2 | _ => k end.

Lemma exposed_swap c a b d e : exposed c a b d e = exposed c d e a b.
Proof.
  unfold exposed. destruct (c =? a), (c =? b), (c =? d), (c =? e); reflexivity.
Qed.
Lemma exposed_swap2 c a b d e : exposed c a b d e = exposed c b a e d.
Proof.
  unfold exposed. destruct (c =? a), (c =? b), (c =? d), (c =? e); reflexivity.
Qed.

Ltac nats := change (Z.to_nat 0) with 0%nat; change (Z.to_nat 1) with 1%nat; change (Z.to_nat 2) with 2%nat;
  change (Z.to_nat 3) with 3%nat; change (Z.to_nat 4) with 4%nat; change (Z.to_nat 5) with 5%nat.

Section Mirror.
  Variables (n : Z) (c : Z) (get get' : idx -> Z).

  Section X.
    Hypothesis G : forall x y z, get' (I (n - 1 - x) y z) = get (I x y z).
    Let f v := I (n - ix v) (iy v) (iz v).
    Let G' x y z x' : x' = n - 1 - x -> get' (I x' y z) = get (I x y z).
    Proof. intros ->. apply G. Qed.

    Lemma mirror_x_edges v : vertex_edges c get' (f v) =
      [edge c get v 0; edge c get v 1; edge c get v 2; edge c get v 3; edge c get v 5; edge c get v 4].
    Proof.
      destruct v as [x y z]. unfold f, edge, vertex_edges. cbn [ix iy iz]. nats. cbn [nth].
      rewrite !(G' x _ _ (n - x - 1)) by lia. rewrite !(G' (x - 1) _ _ (n - x)) by lia.
      rewrite (exposed_swap c (get (I x (y - 1) (z - 1)))).
      rewrite (exposed_swap c (get (I x (y - 1) z)) _ (get (I (x - 1) (y - 1) z))).
      rewrite (exposed_swap c (get (I x (y - 1) (z - 1))) (get (I x (y - 1) z)) (get (I (x - 1) (y - 1) (z - 1)))).
      rewrite (exposed_swap c (get (I x y (z - 1))) (get (I x y z)) (get (I (x - 1) y (z - 1)))).
      reflexivity.
    Qed.

    Lemma mirror_x_voxel x y z v :
      In v (voxel_vertices c get (I x y z)) <-> In (f v) (voxel_vertices c get' (I (n - 1 - x) y z)).
    Proof.
      rewrite !voxel_vertices_in. split; intros (a & b & e & Ha & Hb & He & E & H).
      - exists (1 - a), b, e. subst v. unfold f. cbn [ix iy iz]. split; [lia|]. split; [auto|]. split; [auto|].
        split; [f_equal; lia|].
        rewrite (G' x y (z - 1)), (G' x (y - 1 + 2 * b) z), (G' (x - 1 + 2 * a) y z) by lia. auto.
      - exists (1 - a), b, e. split; [lia|]. split; [auto|]. split; [auto|].
        destruct v as [vx vy vz]. unfold f in E. cbn [ix iy iz] in E. injection E as E1 E2 E3.
        split; [f_equal; lia|].
        rewrite (G' x y (z - 1)), (G' x (y - 1 + 2 * b) z), (G' (x - 1 + 2 * (1 - a)) y z) in H by lia. auto.
    Qed.
  End X.

  Section Y.
    Hypothesis G : forall x y z, get' (I x (n - 1 - y) z) = get (I x y z).
    Let f v := I (ix v) (n - iy v) (iz v).
    Let G' x y z y' : y' = n - 1 - y -> get' (I x y' z) = get (I x y z).
    Proof. intros ->. apply G. Qed.

    Lemma mirror_y_edges v : vertex_edges c get' (f v) =
      [edge c get v 0; edge c get v 1; edge c get v 3; edge c get v 2; edge c get v 4; edge c get v 5].
    Proof.
      destruct v as [x y z]. unfold f, edge, vertex_edges. cbn [ix iy iz]. nats. cbn [nth].
      rewrite !(G' _ y _ (n - y - 1)) by lia. rewrite !(G' _ (y - 1) _ (n - y)) by lia.
      rewrite (exposed_swap2 c (get (I (x - 1) y (z - 1))) (get (I (x - 1) (y - 1) (z - 1)))).
      rewrite (exposed_swap2 c (get (I (x - 1) y z)) (get (I (x - 1) (y - 1) z))).
      rewrite (exposed_swap c (get (I (x - 1) y (z - 1))) (get (I (x - 1) y z)) (get (I (x - 1) (y - 1) (z - 1)))).
      rewrite (exposed_swap c (get (I x y (z - 1))) (get (I x y z)) (get (I x (y - 1) (z - 1)))).
      reflexivity.
    Qed.

    Lemma mirror_y_voxel x y z v :
      In v (voxel_vertices c get (I x y z)) <-> In (f v) (voxel_vertices c get' (I x (n - 1 - y) z)).
    Proof.
      rewrite !voxel_vertices_in. split; intros (a & b & e & Ha & Hb & He & E & H).
      - exists a, (1 - b), e. subst v. unfold f. cbn [ix iy iz]. split; [auto|]. split; [lia|]. split; [auto|].
        split; [f_equal; lia|].
        rewrite (G' x y (z - 1)), (G' x (y - 1 + 2 * b) z), (G' (x - 1 + 2 * a) y z) by lia. auto.
      - exists a, (1 - b), e. split; [auto|]. split; [lia|]. split; [auto|].
        destruct v as [vx vy vz]. unfold f in E. cbn [ix iy iz] in E. injection E as E1 E2 E3.
        split; [f_equal; lia|].
        rewrite (G' x y (z - 1)), (G' x (y - 1 + 2 * (1 - b)) z), (G' (x - 1 + 2 * a) y z) in H by lia. auto.
    Qed.
  End Y.
End Mirror.

Lemma edges_list c get v : vertex_edges c get v =
  [edge c get v 0; edge c get v 1; edge c get v 2; edge c get v 3; edge c get v 4; edge c get v 5].
Proof. destruct v as [x y z]. reflexivity. Qed.

Lemma edge_count_six a b d e p q : edge_count [a; b; d; e; p; q] =
  (Nat.b2n a + Nat.b2n b + Nat.b2n d + Nat.b2n e + Nat.b2n p + Nat.b2n q)%nat.
Proof. destruct a, b, d, e, p, q; reflexivity. Qed.

(** A mirror: an involution on voxels and one on vertices that swaps two directions. *)
Section Involution.
  Variables (c : Z) (get get' : idx -> Z) (mu f : idx -> idx) (sigma : Z -> Z).
  Hypothesis mu_mu : forall i, mu (mu i) = i.
  Hypothesis f_f : forall v, f (f v) = v.
  Hypothesis sigma_range : forall k, 0 <= k < 6 -> 0 <= sigma k < 6.
  Hypothesis sigma_sigma : forall k, 0 <= k < 6 -> sigma (sigma k) = k.
  Hypothesis f_step : forall v k, 0 <= k < 6 -> f (add v (direction k)) = add (f v) (direction (sigma k)).
  Hypothesis f_edge : forall v k, 0 <= k < 6 -> edge c get' (f v) (sigma k) = edge c get v k.
  Hypothesis f_count : forall v, edge_count (vertex_edges c get' (f v)) = edge_count (vertex_edges c get v).
  Hypothesis f_voxel : forall i v,
    In v (voxel_vertices c get i) <-> In (f v) (voxel_vertices c get' (mu i)).

  Lemma mirror_shape s s' : (forall i, In i s' <-> In (mu i) s) ->
    same_shape c c get get' (surface_vertices c get s) (surface_vertices c get' s') f f.
  Proof.
    intros Hs. split; auto.
    - intros v Hv. apply vertices_in in Hv. destruct Hv as (i & Hi & Hv). apply vertices_in.
      exists (mu i). split; [apply Hs; rewrite mu_mu; auto|]. apply f_voxel. auto.
    - intros w Hw. apply vertices_in in Hw. destruct Hw as (i & Hi & Hw). apply vertices_in.
      exists (mu i). split; [apply Hs; auto|]. apply f_voxel. rewrite f_f, mu_mu. auto.
    - intros v w. split; intros (k & Hk & E & W).
      + exists (sigma k). split; [auto|]. rewrite f_edge by auto. split; auto.
        rewrite W. apply f_step. auto.
      + exists (sigma k). split; [auto|]. split.
        * rewrite <- f_edge by auto. rewrite sigma_sigma by auto. auto.
        * rewrite <- (f_f w), W. rewrite f_step by auto. rewrite f_f. auto.
  Qed.

  Lemma mirror_holes o o' s s' : (forall l, Permutation (o l) l) -> (forall l, Permutation (o' l) l) ->
    (forall i, In i s' <-> In (mu i) s) ->
    holes_in_surface o c s get = holes_in_surface o' c s' get'.
  Proof.
    intros P P' Hs.
    rewrite (holes_order_free o (fun l => l) c s s get) by auto using Permutation_refl.
    rewrite (holes_order_free o' (fun l => l) c s' s' get') by auto using Permutation_refl.
    rewrite !holes_outcome.
    eapply outcome_shape; try apply Permutation_refl; try apply vertices_nodup.
    apply mirror_shape. exact Hs.
  Qed.
End Involution.

Ltac six_cases k Hk := apply six in Hk; destruct Hk as [Hk|[Hk|[Hk|[Hk|[Hk|Hk]]]]]; subst k.

Lemma mirror_holes_x n c get get' o o' s s' :
  (forall x y z, get' (I (n - 1 - x) y z) = get (I x y z)) ->
  (forall l, Permutation (o l) l) -> (forall l, Permutation (o' l) l) ->
  (forall i, In i s' <-> In (I (n - 1 - ix i) (iy i) (iz i)) s) ->
  holes_in_surface o c s get = holes_in_surface o' c s' get'.
Proof.
  intros G P P' Hs.
  apply (mirror_holes c get get' (fun i => I (n - 1 - ix i) (iy i) (iz i))
           (fun v => I (n - ix v) (iy v) (iz v)) swap_x); auto.
  - intros [x y z]. cbn [ix iy iz]. f_equal; lia.
  - intros [x y z]. cbn [ix iy iz]. f_equal; lia.
  - intros k Hk. six_cases k Hk; cbn [swap_x]; lia.
  - intros k Hk. six_cases k Hk; reflexivity.
  - intros [x y z] k Hk. six_cases k Hk; unfold add, direction, swap_x; cbn [ix iy iz fst snd]; f_equal; lia.
  - intros v k Hk. unfold edge at 1. rewrite (mirror_x_edges n c get get' G v).
    six_cases k Hk; reflexivity.
  - intros v. rewrite (mirror_x_edges n c get get' G v), edges_list, !edge_count_six. lia.
  - intros [x y z] v. cbn [ix iy iz]. apply (mirror_x_voxel n c get get' G).
Qed.

Lemma mirror_holes_y n c get get' o o' s s' :
  (forall x y z, get' (I x (n - 1 - y) z) = get (I x y z)) ->
  (forall l, Permutation (o l) l) -> (forall l, Permutation (o' l) l) ->
  (forall i, In i s' <-> In (I (ix i) (n - 1 - iy i) (iz i)) s) ->
  holes_in_surface o c s get = holes_in_surface o' c s' get'.
Proof.
  intros G P P' Hs.
  apply (mirror_holes c get get' (fun i => I (ix i) (n - 1 - iy i) (iz i))
           (fun v => I (ix v) (n - iy v) (iz v)) swap_y); auto.
  - intros [x y z]. cbn [ix iy iz]. f_equal; lia.
  - intros [x y z]. cbn [ix iy iz]. f_equal; lia.
  - intros k Hk. six_cases k Hk; cbn [swap_y]; lia.
  - intros k Hk. six_cases k Hk; reflexivity.
  - intros [x y z] k Hk. six_cases k Hk; unfold add, direction, swap_y; cbn [ix iy iz fst snd]; f_equal; lia.
  - intros v k Hk. unfold edge at 1. rewrite (mirror_y_edges n c get get' G v).
    six_cases k Hk; reflexivity.
  - intros v. rewrite (mirror_y_edges n c get get' G v), edges_list, !edge_count_six. lia.
  - intros [x y z] v. cbn [ix iy iz]. apply (mirror_y_voxel n c get get' G).
Qed.

(** Two lists of surfaces with the same keys, entry by entry. *)
Lemma ascending_ext : forall l l', ascending l -> ascending l' -> (forall x, In x l <-> In x l') -> l = l'.
Proof.
  intros l l' H. revert l'. induction H as [|a l H IH F]; intros l' H' E.
  - destruct l' as [|b l']; auto. exfalso. apply (E b). left. auto.
  - rewrite Forall_forall in F. destruct H' as [|b l' H' F'].
    + exfalso. apply (E a). left. auto.
    + rewrite Forall_forall in F'.
      assert (a = b).
      { destruct (proj1 (E a) (or_introl eq_refl)) as [|Ha]; auto.
        destruct (proj2 (E b) (or_introl eq_refl)) as [|Hb]; auto.
        specialize (F _ Hb). specialize (F' _ Ha). lia. }
      subst b. f_equal. apply IH; auto. intros x. split; intros Hx.
      * destruct (proj1 (E x) (or_intror Hx)) as [<-|]; auto. specialize (F _ Hx). lia.
      * destruct (proj2 (E x) (or_intror Hx)) as [<-|]; auto. specialize (F' _ Hx). lia.
Qed.

Lemma forall2_keys {V W} (R : Z * V -> Z * W -> Prop) : forall l l',
  map fst l = map fst l' -> NoDup (map fst l) ->
  (forall k v w, In (k, v) l -> In (k, w) l' -> R (k, v) (k, w)) -> Forall2 R l l'.
Proof.
  induction l as [|[k v] l IH]; intros [|[k' w] l']; cbn [map fst]; intros E N H; try discriminate; constructor.
  - injection E as -> _. apply H; left; auto.
  - injection E as -> E. inversion N; subst. apply IH; auto.
    intros ? ? ? Hv Hw. apply H; right; auto.
Qed.

Lemma surface_keys d get surf k : In k (map fst (component_surfaces d get surf)) <->
  exists i, in_bounds d i = true /\ surf i = true /\ get i = k.
Proof.
  split.
  - intros H. apply in_map_iff in H. destruct H as ([k' cells] & <- & H). cbn [fst].
    destruct (surfaces_well get surf d) as (_ & W). destruct (W _ _ H) as (_ & N).
    destruct cells as [|i cells]; [congruence|]. exists i. apply surfaces_listed.
    exists (i :: cells). split; auto. left. auto.
  - intros (i & H). apply surfaces_listed in H. destruct H as (cells & H & _).
    apply in_map_iff. exists (k, cells). auto.
Qed.

Lemma surface_entry d get surf k cells : In (k, cells) (component_surfaces d get surf) ->
  forall i, In i cells <-> in_bounds d i = true /\ surf i = true /\ get i = k.
Proof.
  intros H i. destruct (listing_sweep get surf d) as (_ & B & _). destruct (B _ _ H) as (-> & _).
  rewrite filter_In, sweep_in, andb_true_iff, Z.eqb_eq. tauto.
Qed.

Lemma topology_mirror d get get' surf surf' mu o o' :
  (forall i, in_bounds d (mu i) = in_bounds d i) -> (forall i, mu (mu i) = i) ->
  (forall i, get' i = get (mu i)) ->
  (forall i, in_bounds d i = true -> surf' i = surf (mu i)) ->
  (forall c s s', (forall i, In i s' <-> In (mu i) s) ->
     holes_in_surface o c s get = holes_in_surface o' c s' get') ->
  component_topology o d get surf = component_topology o' d get' surf'.
Proof.
  intros Hb Hm Hg Hs Hh. unfold component_topology. apply topology_same.
  apply forall2_keys.
  - apply ascending_ext; try apply listing_sweep. intros k. rewrite !surface_keys. split.
    + intros (i & A & B & C). exists (mu i). rewrite Hb. split; [auto|]. split.
      * rewrite Hs by (rewrite Hb; auto). rewrite Hm. auto.
      * rewrite Hg, Hm. auto.
    + intros (i & A & B & C). exists (mu i). rewrite Hb. split; [auto|]. split.
      * rewrite <- Hs; auto.
      * rewrite <- Hg. auto.
  - apply ascending_nodup, listing_sweep.
  - intros k v w Hv Hw. cbn [fst snd]. split; auto. apply Hh. intros i.
    rewrite (surface_entry _ _ _ _ _ Hv), (surface_entry _ _ _ _ _ Hw), Hb, Hg. split.
    + intros (A & B & C). rewrite <- Hs; auto.
    + intros (A & B & C). rewrite Hs; auto.
Qed.

(** ** The maps *)
Section Maps.
  Context (g h : grid ccell).

  Lemma mirror_cell_x : mirrored mirror_x g h ->
    forall i, gget h i = gget g (mirror_x (gdims g) i).
  Proof.
    intros (D & O & M) i. destruct (in_bounds (gdims g) i) eqn:B; auto.
    rewrite !gget_oob; auto; [|rewrite D; auto].
    apply not_true_iff_false in B. apply not_true_iff_false. intros F. apply B.
    apply in_bounds_spec in F. apply in_bounds_spec. unfold mirror_x in F. cbn [ix iy iz] in F. lia.
  Qed.

  Lemma mirror_cell_y : mirrored mirror_y g h ->
    forall i, gget h i = gget g (mirror_y (gdims g) i).
  Proof.
    intros (D & O & M) i. destruct (in_bounds (gdims g) i) eqn:B; auto.
    rewrite !gget_oob; auto; [|rewrite D; auto].
    apply not_true_iff_false in B. apply not_true_iff_false. intros F. apply B.
    apply in_bounds_spec in F. apply in_bounds_spec. unfold mirror_y in F. cbn [ix iy iz] in F. lia.
  Qed.

  Lemma mirror_surface_x e : mirrored mirror_x g h ->
    forall i, cm_surface e h i = cm_surface e g (mirror_x (gdims g) i).
  Proof.
    intros M [x y z]. pose proof (mirror_cell_x M) as C. destruct M as (D & O & _).
    unfold cm_surface. rewrite !get_eq, C. cbn [fst]. f_equal.
    unfold is_component_surface, mirror_x. cbn [ix iy iz]. rewrite !get_eq, !C, D. cbn [fst]. unfold mirror_x.
    cbn [ix iy iz].
    replace (nx (gdims g) - 1 - (x - 1)) with (nx (gdims g) - 1 - x + 1) by lia.
    replace (nx (gdims g) - 1 - (x + 1)) with (nx (gdims g) - 1 - x - 1) by lia.
    replace (in_bounds (gdims g) (I (nx (gdims g) - 1 - x) y z)) with (in_bounds (gdims g) (I x y z))
      by (unfold in_bounds; cbn [ix iy iz]; lia).
    replace (nx (gdims g) - 1 - x =? 0) with (x =? nx (gdims g) - 1) by lia.
    replace (nx (gdims g) - 1 - x =? nx (gdims g) - 1) with (x =? 0) by lia.
    destruct (in_bounds (gdims g) (I x y z)); cbn [negb]; auto.
    replace ((x =? nx (gdims g) - 1) || (y =? 0) || (z =? 0) || (x =? 0) || (y =? ny (gdims g) - 1) || (z =? nz (gdims g)))
      with ((x =? 0) || (y =? 0) || (z =? 0) || (x =? nx (gdims g) - 1) || (y =? ny (gdims g) - 1) || (z =? nz (gdims g))) by lia.
    destruct (_ || _); auto.
    repeat match goal with |- context [negb ?b] => destruct (negb b) end; reflexivity.
  Qed.

  Lemma mirror_surface_y e : mirrored mirror_y g h ->
    forall i, cm_surface e h i = cm_surface e g (mirror_y (gdims g) i).
  Proof.
    intros M [x y z]. pose proof (mirror_cell_y M) as C. destruct M as (D & O & _).
    unfold cm_surface. rewrite !get_eq, C. cbn [fst]. f_equal.
    unfold is_component_surface, mirror_y. cbn [ix iy iz]. rewrite !get_eq, !C, D. cbn [fst]. unfold mirror_y.
    cbn [ix iy iz].
    replace (ny (gdims g) - 1 - (y - 1)) with (ny (gdims g) - 1 - y + 1) by lia.
    replace (ny (gdims g) - 1 - (y + 1)) with (ny (gdims g) - 1 - y - 1) by lia.
    replace (in_bounds (gdims g) (I x (ny (gdims g) - 1 - y) z)) with (in_bounds (gdims g) (I x y z))
      by (unfold in_bounds; cbn [ix iy iz]; lia).
    replace (ny (gdims g) - 1 - y =? 0) with (y =? ny (gdims g) - 1) by lia.
    replace (ny (gdims g) - 1 - y =? ny (gdims g) - 1) with (y =? 0) by lia.
    destruct (in_bounds (gdims g) (I x y z)); cbn [negb]; auto.
    replace ((x =? 0) || (y =? ny (gdims g) - 1) || (z =? 0) || (x =? nx (gdims g) - 1) || (y =? 0) || (z =? nz (gdims g)))
      with ((x =? 0) || (y =? 0) || (z =? 0) || (x =? nx (gdims g) - 1) || (y =? ny (gdims g) - 1) || (z =? nz (gdims g))) by lia.
    destruct (_ || _); auto.
    repeat match goal with |- context [negb ?b] => destruct (negb b) end; reflexivity.
  Qed.
End Maps.


Lemma mirror_topology o o' e m m' :
  any_order o -> any_order o' ->
  mirrored mirror_x (cm_grid m) (cm_grid m') \/ mirrored mirror_y (cm_grid m) (cm_grid m') ->
  (let* (_, t) := cm_topology o e false m in Ok t) = (let* (_, t) := cm_topology o' e false m' in Ok t).
Proof.
  intros P P' M. unfold cm_topology. cbn [bind].
  assert (E : component_topology o (cm_dims m) (component_or_outside c_comp (cm_grid m)) (cm_surface e (cm_grid m)) =
              component_topology o' (cm_dims m') (component_or_outside c_comp (cm_grid m')) (cm_surface e (cm_grid m'))).
  { destruct M as [M|M]; pose proof M as (D & _); unfold cm_dims; rewrite D.
    - assert (Hb : forall i, in_bounds (gdims (cm_grid m)) (mirror_x (gdims (cm_grid m)) i) =
                             in_bounds (gdims (cm_grid m)) i)
        by (intros i; unfold in_bounds, mirror_x; cbn [ix iy iz]; lia).
      assert (Hg : forall i, component_or_outside c_comp (cm_grid m') i =
                    component_or_outside c_comp (cm_grid m) (mirror_x (gdims (cm_grid m)) i)).
      { intros i. rewrite !outside_label, D, Hb. unfold label. rewrite (mirror_cell_x _ _ M). auto. }
      apply (topology_mirror _ _ _ _ _ (mirror_x (gdims (cm_grid m)))); auto.
      + intros [x y z]. unfold mirror_x. cbn [ix iy iz]. f_equal; lia.
      + intros i _. apply mirror_surface_x. auto.
      + intros c s s' Hs. apply (mirror_holes_x (nx (gdims (cm_grid m)))); auto.
        intros x y z. rewrite Hg. unfold mirror_x. cbn [ix iy iz]. f_equal. f_equal. lia.
    - assert (Hb : forall i, in_bounds (gdims (cm_grid m)) (mirror_y (gdims (cm_grid m)) i) =
                             in_bounds (gdims (cm_grid m)) i)
        by (intros i; unfold in_bounds, mirror_y; cbn [ix iy iz]; lia).
      assert (Hg : forall i, component_or_outside c_comp (cm_grid m') i =
                    component_or_outside c_comp (cm_grid m) (mirror_y (gdims (cm_grid m)) i)).
      { intros i. rewrite !outside_label, D, Hb. unfold label. rewrite (mirror_cell_y _ _ M). auto. }
      apply (topology_mirror _ _ _ _ _ (mirror_y (gdims (cm_grid m)))); auto.
      + intros [x y z]. unfold mirror_y. cbn [ix iy iz]. f_equal; lia.
      + intros i _. apply mirror_surface_y. auto.
      + intros c s s' Hs. apply (mirror_holes_y (ny (gdims (cm_grid m)))); auto.
        intros x y z. rewrite Hg. unfold mirror_y. cbn [ix iy iz]. f_equal. f_equal. lia. }
  rewrite E. destruct (component_topology o' _ _ _); reflexivity.
Qed.

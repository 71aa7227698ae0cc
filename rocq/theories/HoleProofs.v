(** Proofs about the surface vertices and the hole count. *)
From Coq Require Import Permutation Lia.
From Verif Require Import Base BaseFacts Grid GridFacts TopoSpec SurfaceSpec Surfaces VertexProofs.

Lemma testbit_bits l : forall k, 0 <= k ->
  Z.testbit (bits_of l) k = nth (Z.to_nat k) l false.
Proof.
  induction l as [|b l IH]; intros k Hk; cbn [bits_of].
  - rewrite Z.testbit_0_l. destruct (Z.to_nat k); reflexivity.
  - destruct (Z.eq_dec k 0) as [->|N].
    + rewrite Z.add_comm, Z.testbit_0_r. reflexivity.
    + rewrite Z.add_comm.
      replace k with (Z.succ (Z.pred k)) by lia.
      rewrite Z.testbit_succ_r by lia. rewrite IH by lia.
      replace (Z.to_nat (Z.succ (Z.pred k))) with (S (Z.to_nat (Z.pred k))) by lia. reflexivity.
Qed.

(** ** The set of surface vertices *)
Lemma insert_in l v x : In x (insert l v) <-> x = v \/ In x l.
Proof.
  unfold insert. destruct (mem v l) eqn:M.
  - apply mem_in in M. split; auto. intros [->|H]; auto.
  - rewrite in_app_iff. cbn. intuition.
Qed.

Lemma insert_nodup l v : NoDup l -> NoDup (insert l v).
Proof.
  intros H. unfold insert. destruct (mem v l) eqn:M; auto. apply mem_false in M.
  apply NoDup_app_intro; auto; [constructor; [intros []|constructor]|].
  intros x Hx [<-|[]]. auto.
Qed.

Lemma insert_all l : forall acc, NoDup acc ->
  NoDup (fold_left insert l acc) /\ forall x, In x (fold_left insert l acc) <-> In x acc \/ In x l.
Proof.
  induction l as [|v l IH]; intros acc H; cbn [fold_left].
  - split; auto. cbn. intuition.
  - destruct (IH (insert acc v) (insert_nodup _ _ H)) as (A & B). split; auto.
    intros x. rewrite B, insert_in. cbn. intuition.
Qed.

Lemma vertices_nodup c get s : NoDup (surface_vertices c get s).
Proof. apply insert_all. constructor. Qed.

Lemma vertices_in c get s v :
  In v (surface_vertices c get s) <-> exists i, In i s /\ In v (voxel_vertices c get i).
Proof.
  unfold surface_vertices. destruct (insert_all (flat_map (voxel_vertices c get) s) []) as (_ & H);
    [constructor|]. rewrite H, in_flat_map. cbn. intuition.
Qed.

(** ** The edges are symmetric *)
Definition edge (c : Z) (get : idx -> Z) (v : idx) (k : Z) : bool :=
  nth (Z.to_nat k) (vertex_edges c get v) false.
Definition opposite (k : Z) : Z :=
  match k with 0 => 1 | 1 => 0 | 2 => 3 | 3 => 2 | 4 => 5 | _ => 4 end.

Lemma six k : 0 <= k < 6 -> k = 0 \/ k = 1 \/ k = 2 \/ k = 3 \/ k = 4 \/ k = 5.
Proof. lia. Qed.

Lemma f_equal_exposed c a b d e a' b' d' e' :
  a = a' -> b = b' -> d = d' -> e = e' -> exposed c a b d e = exposed c a' b' d' e'.
Proof. congruence. Qed.

Lemma edge_back c get v k : 0 <= k < 6 ->
  edge c get (add v (direction k)) (opposite k) = edge c get v k /\
  add (add v (direction k)) (direction (opposite k)) = v /\ 0 <= opposite k < 6.
Proof.
  intros Hk. destruct v as [x y z].
  apply six in Hk. destruct Hk as [H|[H|[H|[H|[H|H]]]]]; subst k;
    (split; [|split; [unfold add, direction, opposite; cbn [ix iy iz fst snd]; f_equal; lia
                     |unfold opposite; lia]]);
    unfold edge, add, direction, opposite, vertex_edges; cbn [ix iy iz fst snd];
    change (Z.to_nat 0) with 0%nat; change (Z.to_nat 1) with 1%nat; change (Z.to_nat 2) with 2%nat;
    change (Z.to_nat 3) with 3%nat; change (Z.to_nat 4) with 4%nat; change (Z.to_nat 5) with 5%nat;
    cbn [nth];
    (apply f_equal_exposed; apply f_equal; f_equal; lia).
Qed.

Definition graph (c : Z) (get : idx -> Z) (vs : list idx) : list (idx * Z) :=
  map (fun v => (v, bits_of (vertex_edges c get v))) vs.

Lemma graph_keys c get vs : map fst (graph c get vs) = vs.
Proof. unfold graph. rewrite map_map. cbn [fst]. apply map_id. Qed.

Lemma graph_points c get vs v w : points_at (graph c get vs) v w <->
  In v vs /\ exists k, 0 <= k < 6 /\ edge c get v k = true /\ w = add v (direction k).
Proof.
  split.
  - intros (b & k & H & Hk & T & E). unfold graph in H. apply in_map_iff in H.
    destruct H as (u & E' & Hu). inversion E'; subst. split; auto. exists k.
    rewrite testbit_bits in T by lia. auto.
  - intros (H & k & Hk & T & E). exists (bits_of (vertex_edges c get v)), k.
    rewrite testbit_bits by lia. repeat split; auto; try lia.
    unfold graph. apply in_map_iff. eauto.
Qed.

Lemma graph_sym c get vs : graph_symmetric (graph c get vs).
Proof.
  intros v w Hw P. rewrite graph_keys in Hw. apply graph_points in P.
  destruct P as (Hv & k & Hk & T & ->). apply graph_points. split; auto.
  destruct (edge_back c get v k Hk) as (A & B & C).
  exists (opposite k). rewrite A, B. auto.
Qed.

(** ** The hole count depends only on the shape *)

(** The same shape up to a renaming [f] of the vertices, undone by [g]. *)
Record same_shape (c c' : Z) (get get' : idx -> Z) (vs ws : list idx) (f g : idx -> idx) : Prop := {
  ss_f : forall v, In v vs -> In (f v) ws;
  ss_g : forall w, In w ws -> In (g w) vs;
  ss_gf : forall v, g (f v) = v;
  ss_fg : forall w, f (g w) = w;
  ss_edges : forall v, edge_count (vertex_edges c' get' (f v)) = edge_count (vertex_edges c get v);
  ss_link : forall v w,
    (exists k, 0 <= k < 6 /\ edge c get v k = true /\ w = add v (direction k)) <->
    (exists k, 0 <= k < 6 /\ edge c' get' (f v) k = true /\ f w = add (f v) (direction k))
}.

Section Shape.
  Context (c c' : Z) (get get' : idx -> Z) (vs ws : list idx) (f g : idx -> idx).
  Hypothesis S : same_shape c c' get get' vs ws f g.

  Lemma shape_points v w :
    points_at (graph c get vs) v w <-> points_at (graph c' get' ws) (f v) (f w).
  Proof.
    rewrite !graph_points, (ss_link _ _ _ _ _ _ _ _ S v w). split; intros (A & B); split; auto.
    - apply (ss_f _ _ _ _ _ _ _ _ S). auto.
    - apply (ss_g _ _ _ _ _ _ _ _ S) in A. rewrite (ss_gf _ _ _ _ _ _ _ _ S) in A. auto.
  Qed.

  Lemma shape_dangling : has_dangling_bit (graph c get vs) -> has_dangling_bit (graph c' get' ws).
  Proof.
    intros (v & w & P & N). exists (f v), (f w). split; [apply shape_points; auto|].
    rewrite graph_keys in *. intros H. apply N.
    apply (ss_g _ _ _ _ _ _ _ _ S) in H. rewrite (ss_gf _ _ _ _ _ _ _ _ S) in H. auto.
  Qed.

  Lemma shape_reaches v w' : reaches (points_at (graph c' get' ws)) (f v) w' ->
    reaches (points_at (graph c get vs)) v (g w').
  Proof.
    intros H. remember (f v) as fv eqn:E. induction H as [u|u x w H IH L]; subst u.
    - rewrite (ss_gf _ _ _ _ _ _ _ _ S). apply reaches_refl.
    - eapply reaches_step; [apply IH; auto|]. apply shape_points.
      rewrite !(ss_fg _ _ _ _ _ _ _ _ S). auto.
  Qed.

  Lemma shape_permutation : NoDup vs -> NoDup ws -> Permutation ws (map f vs).
  Proof.
    intros N1 N2. apply NoDup_Permutation; auto.
    - apply FinFun.Injective_map_NoDup; auto. intros a b E.
      rewrite <- (ss_gf _ _ _ _ _ _ _ _ S a), E. apply (ss_gf _ _ _ _ _ _ _ _ S).
    - intros w. rewrite in_map_iff. split.
      + intros H. exists (g w). split; [apply (ss_fg _ _ _ _ _ _ _ _ S)|apply (ss_g _ _ _ _ _ _ _ _ S); auto].
      + intros (v & <- & H). apply (ss_f _ _ _ _ _ _ _ _ S). auto.
  Qed.

  Lemma shape_count n m : NoDup vs -> NoDup ws ->
    surface_vertex_components (graph c get vs) = Ok n ->
    surface_vertex_components (graph c' get' ws) = Ok m -> (n <= m)%nat.
  Proof.
    intros N1 N2 E1 E2.
    destruct (components_ok (graph c get vs)) as [(n' & E1' & C1 & D1)|(E1' & _)];
      [rewrite graph_keys; auto|apply graph_sym| |congruence].
    destruct (components_ok (graph c' get' ws)) as [(m' & E2' & C2 & D2)|(E2' & _)];
      [rewrite graph_keys; auto|apply graph_sym| |congruence].
    assert (n' = n) as -> by congruence. assert (m' = m) as -> by congruence.
    pose proof (symmetric_links _ (graph_sym c get vs) D1) as L1.
    pose proof (symmetric_links _ (graph_sym c' get' ws) D2) as L2.
    rewrite graph_keys in *.
    eapply (count_le vs _ ws _ f n m L1 L2); eauto.
    - apply (ss_f _ _ _ _ _ _ _ _ S).
    - intros x x' Hx Hx' R. apply shape_reaches in R. rewrite (ss_gf _ _ _ _ _ _ _ _ S) in R. auto.
  Qed.
End Shape.

Lemma same_shape_sym c c' get get' vs ws f g :
  same_shape c c' get get' vs ws f g -> same_shape c' c get' get ws vs g f.
Proof.
  intros S. split.
  - apply (ss_g _ _ _ _ _ _ _ _ S).
  - apply (ss_f _ _ _ _ _ _ _ _ S).
  - apply (ss_fg _ _ _ _ _ _ _ _ S).
  - apply (ss_gf _ _ _ _ _ _ _ _ S).
  - intros w. rewrite <- (ss_edges _ _ _ _ _ _ _ _ S (g w)), (ss_fg _ _ _ _ _ _ _ _ S). auto.
  - intros v w. rewrite (ss_link _ _ _ _ _ _ _ _ S (g v) (g w)), !(ss_fg _ _ _ _ _ _ _ _ S). tauto.
Qed.

(** The outcome of ComputeHolesInSurface in terms of any listing of the vertices. *)
Definition outcome (c : Z) (get : idx -> Z) (vs ws : list idx) : res (Z * Z) :=
  let edges := map (vertex_edges c get) vs in
  let with_edges k := Z.of_nat (length (filter (fun l => edge_count l =? k)%nat edges)) in
  let* surfaces := surface_vertex_components (graph c get ws) in
  let voids := Z.of_nat surfaces - 1 in
  Ok (1 + Z.quot (with_edges 5%nat + 2 * with_edges 6%nat - with_edges 3%nat) 8 + voids, voids).

Lemma filter_map_length {A B} (p : B -> bool) (h : A -> B) l :
  length (filter p (map h l)) = length (filter (fun a => p (h a)) l).
Proof.
  induction l as [|a l IH]; cbn; auto. destruct (p (h a)); cbn; auto.
Qed.

Lemma filter_permutation {A} (p : A -> bool) l l' :
  Permutation l l' -> length (filter p l) = length (filter p l').
Proof.
  induction 1 as [|x l l' H IH|x y l|l1 l2 l3 H1 I1 H2 I2]; cbn; auto.
  - destruct (p x); cbn; auto.
  - destruct (p x), (p y); cbn; auto.
  - congruence.
Qed.

Lemma outcome_shape c c' get get' vs vs1 vs2 ws ws1 ws2 f g :
  same_shape c c' get get' vs ws f g -> NoDup vs -> NoDup ws ->
  Permutation vs1 vs -> Permutation vs2 vs -> Permutation ws1 ws -> Permutation ws2 ws ->
  outcome c get vs1 vs2 = outcome c' get' ws1 ws2.
Proof.
  intros S N1 N2 P1 P2 Q1 Q2.
  assert (W : forall k, length (filter (fun l => edge_count l =? k)%nat (map (vertex_edges c get) vs1)) =
                        length (filter (fun l => edge_count l =? k)%nat (map (vertex_edges c' get') ws1))).
  { intros k. rewrite !filter_map_length.
    rewrite (filter_permutation _ _ _ P1), (filter_permutation _ _ _ Q1).
    rewrite (filter_permutation _ _ _ (shape_permutation _ _ _ _ _ _ _ _ S N1 N2)).
    rewrite filter_map_length. f_equal. apply filter_ext. intros v.
    rewrite (ss_edges _ _ _ _ _ _ _ _ S). auto. }
  assert (S2 : same_shape c c' get get' vs2 ws2 f g).
  { destruct S as [A B C D E F]. split; auto.
    - intros v Hv. apply (Permutation_in _ (Permutation_sym Q2)), A, (Permutation_in _ P2). auto.
    - intros v Hv. apply (Permutation_in _ (Permutation_sym P2)), B, (Permutation_in _ Q2). auto. }
  assert (M1 : NoDup vs2) by (eapply Permutation_NoDup; [apply Permutation_sym; exact P2|auto]).
  assert (M2 : NoDup ws2) by (eapply Permutation_NoDup; [apply Permutation_sym; exact Q2|auto]).
  unfold outcome. rewrite !W.
  assert (E : surface_vertex_components (graph c get vs2) = surface_vertex_components (graph c' get' ws2)).
  { destruct (components_ok (graph c get vs2)) as [(n & E1 & _ & D1)|(E1 & D1)];
      [rewrite graph_keys; auto|apply graph_sym| |];
    (destruct (components_ok (graph c' get' ws2)) as [(m & E2 & _ & D2)|(E2 & D2)];
      [rewrite graph_keys; auto|apply graph_sym| |]); rewrite E1, E2; auto.
    - f_equal. apply Nat.le_antisymm.
      + eapply (shape_count _ _ _ _ _ _ _ _ S2); eauto.
      + eapply (shape_count _ _ _ _ _ _ _ _ (same_shape_sym _ _ _ _ _ _ _ _ S2)); eauto.
    - exfalso. apply D1. eapply shape_dangling; [apply same_shape_sym; exact S2|auto].
    - exfalso. apply D2. eapply shape_dangling; [exact S2|auto]. }
  rewrite E. reflexivity.
Qed.

Lemma holes_outcome order c s get : holes_in_surface order c s get =
  outcome c get (order (surface_vertices c get (order s)))
                (order (order (surface_vertices c get (order s)))).
Proof. reflexivity. Qed.

Lemma same_shape_refl c get vs ws : (forall v, In v vs <-> In v ws) ->
  same_shape c c get get vs ws (fun v => v) (fun v => v).
Proof. intros H. split; auto; try (intros v; apply H). intros v w. tauto. Qed.

Lemma holes_order_free o1 o2 c s1 s2 get :
  (forall l, Permutation (o1 l) l) -> (forall l, Permutation (o2 l) l) -> Permutation s1 s2 ->
  holes_in_surface o1 c s1 get = holes_in_surface o2 c s2 get.
Proof.
  intros P1 P2 Ps. rewrite !holes_outcome.
  eapply (outcome_shape c c get get (surface_vertices c get (o1 s1)) _ _
            (surface_vertices c get (o2 s2))); try apply vertices_nodup;
    try (apply P1 || apply P2); try (eapply perm_trans; [apply P1 + apply P2|apply P1 + apply P2]).
  apply same_shape_refl. intros v. rewrite !vertices_in. split; intros (i & Hi & Hv); exists i; split; auto.
  - apply (Permutation_in _ (Permutation_sym (P2 s2))), (Permutation_in _ Ps), (Permutation_in _ (P1 s1)). auto.
  - apply (Permutation_in _ (Permutation_sym (P1 s1))), (Permutation_in _ (Permutation_sym Ps)), (Permutation_in _ (P2 s2)). auto.
Qed.

(** When a vertex pointed at is missing, the whole call throws. *)
Lemma holes_dangling order c s get v k :
  (forall l, Permutation (order l) l) ->
  In v (surface_vertices c get s) -> 0 <= k < 6 -> edge c get v k = true ->
  ~ In (add v (direction k)) (surface_vertices c get s) ->
  holes_in_surface order c s get = Throw "out_of_range".
Proof.
  intros P Hv Hk E N.
  rewrite (holes_order_free order (fun l => l) c s s get); auto using Permutation_refl.
  rewrite holes_outcome. unfold outcome.
  destruct (components_ok (graph c get (surface_vertices c get s))) as [(n & _ & _ & D)|(E1 & _)];
    [rewrite graph_keys; apply vertices_nodup|apply graph_sym| |].
  - exfalso. apply D. exists v, (add v (direction k)). rewrite graph_keys. split; auto.
    apply graph_points. split; auto. exists k. auto.
  - rewrite E1. reflexivity.
Qed.

Lemma holes_total order c s get : (forall l, Permutation (order l) l) ->
  (exists r, holes_in_surface order c s get = Ok r) \/
  holes_in_surface order c s get = Throw "out_of_range".
Proof.
  intros P.
  rewrite (holes_order_free order (fun l => l) c s s get); auto using Permutation_refl.
  rewrite holes_outcome. unfold outcome.
  destruct (components_ok (graph c get (surface_vertices c get s))) as [(n & E & _)|(E & _)];
    [rewrite graph_keys; apply vertices_nodup|apply graph_sym| |]; rewrite E; cbn [bind]; eauto.
Qed.

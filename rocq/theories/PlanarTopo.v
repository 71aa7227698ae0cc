(** Holes and voids of single-layer maps. *)
From Coq Require Import Permutation Lia.
From Verif Require Import Base BaseFacts Floats Grid GridFacts TopoSpec SurfaceSpec CollisionMap
  ComponentSpec CollisionMapProofs TaggedMap TaggedSpec TaggedProofs Surfaces VertexProofs HoleProofs
  SurfaceProofs TopologyProofs TopologyThms.

Section Layer.
  Variables (c : Z) (get : idx -> Z) (s : list idx).
  Hypothesis Hs : forall i, In i s <-> get i = c.
  Hypothesis Flat : forall x y z, get (I x y z) = c -> z = 0.

  Let vs := surface_vertices c get s.

  Lemma corner_in v : In v vs <-> exists x y a b e, (a = 0 \/ a = 1) /\ (b = 0 \/ b = 1) /\ (e = 0 \/ e = 1) /\
    get (I x y 0) = c /\ v = I (x + a) (y + b) e.
  Proof.
    unfold vs. rewrite vertices_in. split.
    - intros ([x y z] & Hi & Hv). apply Hs in Hi. pose proof (Flat _ _ _ Hi) as ->.
      apply voxel_vertices_in in Hv as (a & b & e & Ha & Hb & He & -> & _).
      exists x, y, a, b, e. do 4 (split; [auto|]). f_equal.
    - intros (x & y & a & b & e & Ha & Hb & He & Hg & ->). exists (I x y 0). split; [apply Hs; auto|].
      apply voxel_vertices_in. exists a, b, e. do 3 (split; [auto|]). split; [f_equal; lia|].
      left. intros E. apply Flat in E. lia.
  Qed.

  Lemma some_side p q u w : exposed c p q u w = true -> p = c \/ q = c \/ u = c \/ w = c.
  Proof.
    unfold exposed. destruct (Z.eqb_spec c p), (Z.eqb_spec c q), (Z.eqb_spec c u), (Z.eqb_spec c w);
      cbn [negb andb orb]; auto; discriminate.
  Qed.

  Lemma exposed_by p q u w : (p = c \/ q = c \/ u = c \/ w = c) -> (p <> c \/ q <> c \/ u <> c \/ w <> c) ->
    exposed c p q u w = true.
  Proof.
    unfold exposed. destruct (Z.eqb_spec c p), (Z.eqb_spec c q), (Z.eqb_spec c u), (Z.eqb_spec c w);
      cbn [negb andb orb]; auto; intuition congruence.
  Qed.

  Lemma corner_of x y z v : get (I x y z) = c ->
    (ix v = x \/ ix v = x + 1) -> (iy v = y \/ iy v = y + 1) -> (iz v = z \/ iz v = z + 1) -> In v vs.
  Proof.
    intros Hg Hx Hy Hz. pose proof (Flat _ _ _ Hg) as ->. apply corner_in.
    exists x, y, (ix v - x), (iy v - y), (iz v). do 3 (split; [lia|]). split; auto.
    destruct v as [vx vy vz]. cbn [ix iy iz]. f_equal; lia.
  Qed.

  Lemma layer_closed v k : 0 <= k < 6 -> edge c get v k = true -> In (add v (direction k)) vs.
  Proof.
    intros Hk E. destruct v as [x y z]. unfold edge in E. rewrite edges_list in E.
    destruct (six k Hk) as [->|[->|[->|[->|[->| ->]]]]];
      cbn [Z.to_nat Pos.to_nat Pos.iter_op Nat.add nth ix iy iz] in E; apply some_side in E;
      destruct E as [E|[E|[E|E]]]; apply (corner_of _ _ _ _ E); cbn [add direction ix iy iz]; lia.
  Qed.

  (** ** Connected when the cells are *)
  Let link := points_at (graph c get vs).

  Lemma link_by v k w : 0 <= k < 6 -> In v vs -> edge c get v k = true -> w = add v (direction k) -> link v w.
  Proof. intros Hk Hv E ->. apply graph_points. split; auto. exists k. auto. Qed.

  Lemma link_back v w : link v w -> link w v.
  Proof.
    intros L. apply graph_sym; auto. rewrite graph_keys. apply graph_points in L as (_ & k & Hk & E & ->).
    apply layer_closed; auto.
  Qed.

  Lemma reach_back v w : reaches link v w -> reaches link w v.
  Proof.
    induction 1 as [|u v w R IH L]; [constructor|]. eapply reaches_trans; [|exact IH]. apply reaches_one, link_back; auto.
  Qed.

  Lemma below x y z : z <> 0 -> get (I x y z) <> c.
  Proof. intros H E. apply Flat in E. auto. Qed.

  Lemma step_x x y b e : get (I x y 0) = c -> (b = 0 \/ b = 1) -> (e = 0 \/ e = 1) ->
    link (I x (y + b) e) (I (x + 1) (y + b) e).
  Proof.
    intros Hg Hb He. apply (link_by _ 5); [lia| | |cbn [add direction ix iy iz]; f_equal; lia].
    - apply (corner_of x y 0); cbn [ix iy iz]; auto; lia.
    - unfold edge. rewrite edges_list. cbn [Z.to_nat Pos.to_nat Pos.iter_op Nat.add nth ix iy iz].
      destruct Hb as [->| ->], He as [->| ->]; apply exposed_by.
      + do 3 right. rewrite <- Hg. repeat f_equal; lia.
      + left. apply below. lia.
      + do 2 right. left. rewrite <- Hg. repeat f_equal; lia.
      + right. left. apply below. lia.
      + right. left. rewrite <- Hg. repeat f_equal; lia.
      + left. apply below. lia.
      + left. rewrite <- Hg. repeat f_equal; lia.
      + right. left. apply below. lia.
  Qed.

  Lemma step_y x y a e : get (I x y 0) = c -> (a = 0 \/ a = 1) -> (e = 0 \/ e = 1) ->
    link (I (x + a) y e) (I (x + a) (y + 1) e).
  Proof.
    intros Hg Ha He. apply (link_by _ 3); [lia| | |cbn [add direction ix iy iz]; f_equal; lia].
    - apply (corner_of x y 0); cbn [ix iy iz]; auto; lia.
    - unfold edge. rewrite edges_list. cbn [Z.to_nat Pos.to_nat Pos.iter_op Nat.add nth ix iy iz].
      destruct Ha as [->| ->], He as [->| ->]; apply exposed_by.
      + do 3 right. rewrite <- Hg. repeat f_equal; lia.
      + left. apply below. lia.
      + do 2 right. left. rewrite <- Hg. repeat f_equal; lia.
      + right. left. apply below. lia.
      + right. left. rewrite <- Hg. repeat f_equal; lia.
      + left. apply below. lia.
      + left. rewrite <- Hg. repeat f_equal; lia.
      + right. left. apply below. lia.
  Qed.

  Lemma step_z x y : get (I x y 0) = c -> get (I (x - 1) y 0) <> c -> link (I x y 0) (I x y 1).
  Proof.
    intros Hg Hn. apply (link_by _ 1); [lia| | |cbn [add direction ix iy iz]; f_equal; lia].
    - apply (corner_of x y 0); cbn [ix iy iz]; auto; lia.
    - unfold edge. rewrite edges_list. cbn [Z.to_nat Pos.to_nat Pos.iter_op Nat.add nth ix iy iz]. apply exposed_by; auto.
  Qed.

  Hypothesis Joined : forall i j, get i = c -> get j = c ->
    reaches (fun a b => get a = c /\ get b = c /\ face_adjacent a b) i j.
  Variable first : idx.
  Hypothesis Hf : get first = c.
  Hypothesis Hl : get (I (ix first - 1) (iy first) (iz first)) <> c.

  Lemma base_reaches e i j : (e = 0 \/ e = 1) -> get i = c -> get j = c ->
    reaches link (I (ix i) (iy i) e) (I (ix j) (iy j) e).
  Proof.
    intros He Hi Hj. pose proof (Joined i j Hi Hj) as R. clear Hi Hj.
    induction R as [|i j k R IH (Hj & Hk & F)]; [constructor|]. eapply reaches_trans; [exact IH|].
    destruct j as [x y z]. pose proof (Flat _ _ _ Hj) as ->. apply adjacent_six in F. cbn [ix iy iz] in *.
    destruct F as [->|[->|[->|[->|[->| ->]]]]]; cbn [ix iy iz].
    - apply Flat in Hk. lia.
    - apply Flat in Hk. lia.
    - apply reach_back, reaches_one. pose proof (step_y x (y - 1) 0 e Hk) as S.
      rewrite Z.add_0_r in S. replace (y - 1 + 1) with y in S by lia. apply S; auto.
    - apply reaches_one. pose proof (step_y x y 0 e Hj) as S. rewrite Z.add_0_r in S. apply S; auto.
    - apply reach_back, reaches_one. pose proof (step_x (x - 1) y 0 e Hk) as S.
      rewrite Z.add_0_r in S. replace (x - 1 + 1) with x in S by lia. apply S; auto.
    - apply reaches_one. pose proof (step_x x y 0 e Hj) as S. rewrite Z.add_0_r in S. apply S; auto.
  Qed.

  Lemma all_reached v : In v vs -> reaches link (I (ix first) (iy first) 0) v.
  Proof.
    intros Hv. apply corner_in in Hv as (x & y & a & b & e & Ha & Hb & He & Hg & ->).
    assert (S0 : reaches link (I (ix first) (iy first) 0) (I (ix first) (iy first) e)).
    { destruct He as [->| ->]; [constructor|]. destruct first as [fx fy fz]. cbn [ix iy iz] in *.
      pose proof (Flat _ _ _ Hf) as ->. apply reaches_one, step_z; auto. }
    eapply reaches_trans; [exact S0|]. eapply reaches_trans; [apply (base_reaches e first (I x y 0)); auto|].
    cbn [ix iy]. pose proof (step_x x y 0 e Hg) as X. rewrite Z.add_0_r in X.
    eapply reaches_trans with (b := I (x + a) y e).
    - destruct Ha as [->| ->]; [rewrite Z.add_0_r; constructor|]. apply reaches_one, X; auto.
    - destruct Hb as [->| ->]; [rewrite Z.add_0_r; constructor|]. apply reaches_one, step_y; auto.
  Qed.

  Lemma layer_holes order : any_order order ->
    exists h, holes_in_surface order c s get = Ok (h, 0) /\
      h = 1 + Z.quot (Z.of_nat (length (filter (fun v => edge_count (vertex_edges c get v) =? 5)%nat vs)) +
                      2 * Z.of_nat (length (filter (fun v => edge_count (vertex_edges c get v) =? 6)%nat vs)) -
                      Z.of_nat (length (filter (fun v => edge_count (vertex_edges c get v) =? 3)%nat vs))) 8.
  Proof.
    intros P. rewrite (holes_order_free order (fun l => l) c s s get); auto using Permutation_refl.
    rewrite holes_outcome. unfold outcome.
    assert (N : NoDup (map fst (graph c get vs))) by (rewrite graph_keys; apply vertices_nodup).
    destruct (components_ok (graph c get vs) N (graph_sym c get vs)) as [(n & E & C & D)|(_ & (v & w & L & Nw))].
    - fold vs. rewrite E. cbn [bind]. rewrite graph_keys in C.
      assert (C1 : component_count vs link 1).
      { exists [I (ix first) (iy first) 0]. split; auto. split; [repeat constructor; auto|]. split.
        - intros v [<-|[]]. destruct first as [fx fy fz]. pose proof (Flat _ _ _ Hf) as ->.
          apply (corner_of fx fy 0); cbn [ix iy iz]; auto.
        - intros v Hv. exists (I (ix first) (iy first) 0). split; [split; [left; auto|apply all_reached; auto]|].
          intros r ([<-|[]] & _). reflexivity. }
      assert (n = 1%nat) as ->.
      { pose proof (symmetric_links _ (graph_sym c get vs) D) as Sy. rewrite graph_keys in Sy.
        eapply (count_unique vs vs link); eauto. tauto. }
      eexists. split; [reflexivity|]. rewrite !filter_map_length. unfold vs. rewrite Z.add_0_r. reflexivity.
    - exfalso. apply Nw. rewrite graph_keys. apply graph_points in L as (_ & k & Hk & Ek & ->). apply layer_closed; auto.
  Qed.
End Layer.

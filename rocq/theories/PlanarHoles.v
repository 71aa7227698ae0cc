(** Holes and voids of objects that are one cell thick. *)
From Coq Require Import Permutation Lia FinFun.
From Verif Require Import Base BaseFacts Floats Grid GridFacts TopoSpec SurfaceSpec CollisionMap
  ComponentSpec CollisionMapProofs TaggedMap TaggedSpec TaggedProofs Surfaces VertexProofs HoleProofs
  SurfaceProofs TopologyProofs TopologyThms EulerGraph EulerGrid PlanarRegion PlanarCorners PlanarSpec PlanarTopo.

Lemma filter_two {A} (q t a b : A -> bool) l :
  (forall x, In x l -> Z.b2z (q x && t x) = Z.b2z (a x) + Z.b2z (b x)) ->
  length (filter q (filter t l)) = (length (filter a l) + length (filter b l))%nat.
Proof.
  induction l as [|x l IH]; intros K; auto.
  pose proof (K x (or_introl eq_refl)) as Kx. specialize (IH (fun y Hy => K y (or_intror Hy))).
  cbn [filter]. destruct (t x); cbn [filter].
  - destruct (q x), (a x), (b x); cbn in Kx; cbn [length]; lia.
  - destruct (q x), (a x), (b x); cbn in Kx; cbn [length]; lia.
Qed.

Section Holes.
  Variables (d : dims) (lab : idx -> Z) (c : Z) (s : list idx).
  Let get := fun i => if in_bounds d i then lab i else -1.
  Hypothesis Thin : nz d = 1.
  Hypothesis Hc : 0 <= c.
  Hypothesis Hs : forall i, In i s <-> get i = c.
  Hypothesis Joined : forall i j, get i = c -> get j = c ->
    reaches (fun a b => get a = c /\ get b = c /\ face_adjacent a b) i j.

  Lemma get_in i : get i = c -> in_bounds d i = true /\ lab i = c.
  Proof. unfold get. destruct (in_bounds d i); auto. lia. Qed.
  Lemma get_flat x y z : get (I x y z) = c -> z = 0.
  Proof. intros K. apply get_in in K as (K & _). apply in_bounds_spec in K. cbn [ix iy iz] in K. lia. Qed.

  Lemma leftmost i : get i = c -> exists f, get f = c /\ get (I (ix f - 1) (iy f) (iz f)) <> c.
  Proof.
    destruct i as [x y z]. intros Hi. assert (K : forall n : nat, (exists f, get f = c /\ get (I (ix f - 1) (iy f) (iz f)) <> c) \/
      get (I (x - Z.of_nat n) y z) = c).
    { induction n as [|n [IH|IH]]; auto.
      - right. change (Z.of_nat 0) with 0. rewrite Z.sub_0_r. auto.
      - destruct (Z.eq_dec (get (I (x - Z.of_nat (S n)) y z)) c) as [|N]; auto.
        left. exists (I (x - Z.of_nat n) y z). cbn [ix iy iz]. split; auto.
        replace (x - Z.of_nat n - 1) with (x - Z.of_nat (S n)) by lia. auto. }
    destruct (K (Z.to_nat (x + 1))) as [|F]; auto. exfalso.
    apply get_in in F as (F & _). apply in_bounds_spec in F. cbn [ix iy iz] in F. lia.
  Qed.

  (** ** The region seen from above *)
  Let W := nx d.
  Let H := ny d.
  Definition region (p : point) : bool := get (I (fst p) (snd p) 0) =? c.

  Lemma region_spec x y : region (x, y) = true <-> get (I x y 0) = c.
  Proof. unfold region. cbn [fst snd]. apply Z.eqb_eq. Qed.
  Lemma region_in x y : region (x, y) = true -> 0 <= x < W /\ 0 <= y < H.
  Proof.
    intros K. apply region_spec, get_in in K as (K & _). apply in_bounds_spec in K. cbn [ix iy iz] in K.
    unfold W, H. lia.
  Qed.
  Lemma region_joined p q : region p = true -> region q = true ->
    reaches (fun a b => region a = true /\ region b = true /\ adj a b) p q.
  Proof.
    destruct p as [x y], q as [x' y']. rewrite !region_spec. intros K K'.
    pose proof (Joined _ _ K K') as P.
    assert (G : forall i j, reaches (fun a b => get a = c /\ get b = c /\ face_adjacent a b) i j ->
              reaches (fun a b => region a = true /\ region b = true /\ adj a b) (ix i, iy i) (ix j, iy j)).
    { clear K K' P x y x' y'. intros i j P. induction P as [|i j k P IH (Hj & Hk & F)]; [constructor|]. eapply reaches_step; [exact IH|].
      destruct j as [a b e], k as [a' b' e']. pose proof (get_flat _ _ _ Hj) as ->. pose proof (get_flat _ _ _ Hk) as ->.
      cbn [ix iy]. rewrite !region_spec. split; auto. split; auto. unfold face_adjacent in F. cbn [ix iy iz] in F.
      unfold adj. cbn [fst snd]. lia. }
    apply (G _ _ P).
  Qed.

  Variable start : idx.
  Hypothesis Hstart : get start = c.
  Let p0 : point := (ix start, iy start).
  Lemma region_start : region p0 = true.
  Proof.
    destruct start as [x y z]. unfold p0. cbn [ix iy]. apply region_spec. pose proof (get_flat _ _ _ Hstart) as ->. auto.
  Qed.

  (** ** The vertices of the code are the corners, twice *)
  Let vs := surface_vertices c get s.
  Definition lift (e : Z) (p : point) : idx := I (fst p) (snd p) e.

  Lemma vs_perm : Permutation vs (map (lift 0) (filter (touched region) (corners W H)) ++
                                  map (lift 1) (filter (touched region) (corners W H))).
  Proof.
    apply NoDup_Permutation.
    - apply vertices_nodup.
    - apply NoDup_app_intro.
      + apply Injective_map_NoDup; [|apply NoDup_filter, box_nodup]. intros [a b] [a' b'] Q. unfold lift in Q. cbn [fst snd] in Q. congruence.
      + apply Injective_map_NoDup; [|apply NoDup_filter, box_nodup]. intros [a b] [a' b'] Q. unfold lift in Q. cbn [fst snd] in Q. congruence.
      + intros v V1 V2. apply in_map_iff in V1 as (p & <- & _). apply in_map_iff in V2 as (q & Q & _). unfold lift in Q. congruence.
    - intros v. unfold vs. rewrite (corner_in c get s Hs get_flat). rewrite in_app_iff, !in_map_iff. split.
      + intros (x & y & a & b & e & Ha & Hb & He & Hg & ->).
        assert (T : In (x + a, y + b) (filter (touched region) (corners W H))).
        { apply filter_In. apply region_spec in Hg as Rg. pose proof (region_in _ _ Rg) as B. split; [apply box_in; lia|].
          unfold touched. rewrite !orb_true_iff.
          destruct Ha as [->| ->], Hb as [->| ->]; rewrite ?Z.add_0_r; replace (x + 1 - 1) with x by lia;
            replace (y + 1 - 1) with y by lia; auto. }
        destruct He as [->| ->]; [left|right]; exists (x + a, y + b); auto.
      + assert (G : forall p e, (e = 0 \/ e = 1) -> In p (filter (touched region) (corners W H)) ->
          exists x y a b e', (a = 0 \/ a = 1) /\ (b = 0 \/ b = 1) /\ (e' = 0 \/ e' = 1) /\ get (I x y 0) = c /\
            lift e p = I (x + a) (y + b) e').
        { intros [x y] e He K. apply filter_In in K as (_ & K). unfold touched in K. rewrite !orb_true_iff, !region_spec in K.
          unfold lift. cbn [fst snd]. destruct K as [[[K|K]|K]|K].
          - exists (x - 1), (y - 1), 1, 1, e. repeat (split; auto). f_equal; lia.
          - exists (x - 1), y, 1, 0, e. repeat (split; auto). f_equal; lia.
          - exists x, (y - 1), 0, 1, e. repeat (split; auto). f_equal; lia.
          - exists x, y, 0, 0, e. repeat (split; auto). f_equal; lia. }
        intros [(p & <- & K)|(p & <- & K)]; eapply G; eauto.
  Qed.

  Lemma is_c x y e : (c =? get (I x y e)) = region (x, y) && (e =? 0).
  Proof.
    destruct (Z.eqb_spec e 0) as [->|N].
    - rewrite andb_true_r. unfold region. cbn [fst snd]. apply Z.eqb_sym.
    - rewrite andb_false_r. apply Z.eqb_neq. intros K. symmetry in K. apply get_flat in K. auto.
  Qed.

  Lemma edges_around x y e : (e = 0 \/ e = 1) -> edge_count (vertex_edges c get (I x y e)) =
    if touched region (x, y) then
      if convex region (x, y) then 3%nat
      else if concave region (x, y) || pinched region (x, y) then 5%nat else 4%nat
    else 0%nat.
  Proof.
    intros He. unfold vertex_edges, exposed. cbv zeta. rewrite !is_c.
    unfold touched, convex, concave, pinched, around.
    destruct He as [->| ->]; cbn [Z.sub Z.eqb Z.add Z.opp Pos.add]; change (1 - 1 =? 0) with true; rewrite ?andb_false_r, ?andb_true_r;
      destruct (region (x - 1, y - 1)), (region (x - 1, y)), (region (x, y - 1)), (region (x, y)); reflexivity.
  Qed.

  Lemma with_edges k (a b : point -> bool) :
    (forall x y, Z.b2z ((match touched region (x, y) with
        true => if convex region (x, y) then 3%nat
                else if concave region (x, y) || pinched region (x, y) then 5%nat else 4%nat
      | false => 0%nat end =? k)%nat && touched region (x, y)) = Z.b2z (a (x, y)) + Z.b2z (b (x, y))) ->
    length (filter (fun v => edge_count (vertex_edges c get v) =? k)%nat vs) =
    (2 * (length (filter a (corners W H)) + length (filter b (corners W H))))%nat.
  Proof.
    intros K. rewrite (filter_permutation _ _ _ vs_perm), filter_app, app_length, !filter_map_length.
    rewrite (filter_two (fun p => edge_count (vertex_edges c get (lift 0 p)) =? k)%nat (touched region) a b);
      [|intros [x y] _; unfold lift; cbn [fst snd]; rewrite edges_around; auto].
    rewrite (filter_two (fun p => edge_count (vertex_edges c get (lift 1 p)) =? k)%nat (touched region) a b);
      [|intros [x y] _; unfold lift; cbn [fst snd]; rewrite edges_around; auto].
    cbn [Nat.mul]. rewrite Nat.add_0_r. reflexivity.
  Qed.

  (** ** Enclosed cells *)
  Let out := reaches (joins (dual (filter (fun e => negb (walls region e)) (sides W H)))).

  Lemma bounds_flat i : in_bounds d i = true <-> 0 <= ix i < W /\ 0 <= iy i < H /\ iz i = 0.
  Proof. rewrite in_bounds_spec. unfold W, H. lia. Qed.

  Lemma free x y : in_bounds d (I x y 0) = false \/ lab (I x y 0) <> c -> region (x, y) = false.
  Proof.
    intros K. apply not_true_iff_false. rewrite region_spec. intros Q. apply get_in in Q as (Q1 & Q2).
    destruct K; congruence.
  Qed.
  Lemma free_lab x y : in_bounds d (I x y 0) = true -> region (x, y) = false -> lab (I x y 0) <> c.
  Proof.
    intros B K Q. assert (T : region (x, y) = true) by (apply region_spec; unfold get; rewrite B; auto). congruence.
  Qed.

  Lemma way_free i : gets_out beside d lab c i -> iz i = 0 -> region (ix i, iy i) = false.
  Proof.
    intros [j B|j k N _ _] E; destruct j as [x y z]; cbn [ix iy iz] in *; subst z; apply free; auto.
  Qed.

  Lemma way_out i : gets_out beside d lab c i -> iz i = 0 -> out None (square W H (ix i) (iy i)).
  Proof.
    intros G. induction G as [i B|i j N (F & E) G IH]; intros Z0.
    - rewrite square_out; [constructor|]. intros K. apply not_true_iff_false in B. apply B, bounds_flat. tauto.
    - eapply reaches_trans; [apply IH; lia|].
      apply (free_step W H region region_in region_joined p0 region_start (ix j, iy j) (ix i, iy i)).
      + unfold adj. cbn [fst snd]. unfold face_adjacent in F. lia.
      + apply way_free; [auto|lia].
      + destruct i as [x y z]. cbn [ix iy iz] in Z0 |- *. rewrite Z0 in N. apply free. auto.
  Qed.

  Lemma out_way p : out None (Some p) -> gets_out beside d lab c (I (fst p) (snd p) 0).
  Proof.
    intros P. remember (Some p) as f eqn:Ef. revert p Ef. remember None as n0 eqn:E0.
    induction P as [|f g h P IH L]; intros p Ef; [congruence|]. specialize (IH E0). subst f h.
    apply (free_link W H region region_in region_joined p0 region_start) in L as ([ax ay] & [bx b_y] & F & Ha & Hb & E1 & E2). cbn [fst snd] in *.
    symmetry in E2. destruct p as [px py]. apply square_some in E2 as (-> & -> & Bx & By).
    apply gets_out_step with (j := I ax ay 0).
    - apply free_lab; auto. apply bounds_flat. cbn [ix iy iz fst snd]. auto.
    - split; [|reflexivity]. unfold adj in F. cbn [fst snd] in F. unfold face_adjacent. cbn [ix iy iz fst snd]. lia.
    - destruct (in_bounds d (I ax ay 0)) eqn:B; [|apply gets_out_here; auto].
      apply bounds_flat in B. cbn [ix iy iz] in B. rewrite square_is in E1 by lia. apply (IH (ax, ay)); auto.
  Qed.

  Lemma hole_enclosed p : hole W H region p <-> enclosed beside d lab c (I (fst p) (snd p) 0).
  Proof.
    destruct p as [x y]. unfold hole, enclosed. cbn [fst snd]. rewrite box_in. split.
    - intros (K1 & K2 & K3). assert (B : in_bounds d (I x y 0) = true) by (apply bounds_flat; cbn [ix iy iz]; tauto).
      split; auto. split; [apply free_lab; auto|]. intros G. apply K3. apply way_out in G; [|reflexivity].
      cbn [ix iy] in G. rewrite square_is in G by tauto. exact G.
    - intros (B & N & G). pose proof B as B'. apply bounds_flat in B'. cbn [ix iy iz] in B'.
      split; [apply free; auto|]. split; [tauto|]. intros P. apply G. apply (out_way (x, y) P).
  Qed.

  Lemma enclosed_flat i : enclosed beside d lab c i -> iz i = 0.
  Proof. intros (B & _). apply bounds_flat in B. tauto. Qed.

  Lemma same_holes n : (exists cells, (forall p, In p cells <-> hole W H region p) /\
      component_count cells (fun p q => hole W H region p /\ hole W H region q /\ adj p q) n) ->
    encloses beside d lab c n.
  Proof.
    intros (cells & C1 & reps & L & N & I & U).
    assert (Ce : forall i, In i (map (lift 0) cells) <-> enclosed beside d lab c i).
    { intros i. rewrite in_map_iff. split.
      - intros (p & <- & K). apply C1, hole_enclosed in K. exact K.
      - intros K. pose proof (enclosed_flat _ K) as E. destruct i as [x y z]. cbn [iz] in E. subst z.
        exists (x, y). split; auto. apply C1, hole_enclosed. exact K. }
    exists (map (lift 0) cells). split; auto.
    assert (Li : forall p q : point, lift 0 p = lift 0 q -> p = q).
    { intros [a b] [a' b'] Q. unfold lift in Q. cbn [fst snd] in Q. congruence. }
    exists (map (lift 0) reps). split; [rewrite map_length; auto|]. split.
    { apply Injective_map_NoDup; [exact Li|auto]. }
    split. { intros i K. apply in_map_iff in K as (p & <- & K). apply in_map; auto. }
    assert (Up : forall p q, reaches (fun p q => hole W H region p /\ hole W H region q /\ adj p q) p q ->
      reaches (fun i j => enclosed beside d lab c i /\ enclosed beside d lab c j /\ beside i j) (lift 0 p) (lift 0 q)).
    { intros p q P. induction P as [|p q r P IH (Hq & Hr & F)]; [constructor|]. eapply reaches_step; [exact IH|].
      apply hole_enclosed in Hq, Hr. split; [exact Hq|]. split; [exact Hr|]. split; [|reflexivity].
      unfold adj in F. unfold face_adjacent, lift. cbn [ix iy iz]. lia. }
    assert (Down : forall i j, reaches (fun i j => enclosed beside d lab c i /\ enclosed beside d lab c j /\ beside i j) i j ->
      reaches (fun p q => hole W H region p /\ hole W H region q /\ adj p q) (ix i, iy i) (ix j, iy j)).
    { intros i j P. induction P as [|i j k P IH (Hj & Hk & (F & _))]; [constructor|]. eapply reaches_step; [exact IH|].
      pose proof (enclosed_flat _ Hj) as Ej. pose proof (enclosed_flat _ Hk) as Ek.
      destruct j as [jx jy jz], k as [kx ky kz]. cbn [ix iy iz] in *. subst jz kz.
      split; [apply hole_enclosed; exact Hj|]. split; [apply hole_enclosed; exact Hk|].
      unfold face_adjacent in F. cbn [ix iy iz] in F. unfold adj. cbn [fst snd]. lia. }
    intros i K. apply in_map_iff in K as (p & <- & K). destruct (U p K) as (r & (Hr & P) & Ur).
    exists (lift 0 r). split.
    - split; [apply in_map; auto|apply Up; auto].
    - intros i (Hi & Q). apply in_map_iff in Hi as (q & <- & Hq). f_equal. apply Ur. split; auto.
      apply Down in Q. unfold lift in Q. cbn [ix iy] in Q. rewrite <- !surjective_pairing in Q. exact Q.
  Qed.

  Lemma same_contacts : contacts d lab c (length (filter (pinched region) (corners W H))).
  Proof.
    exists (filter (pinched region) (corners W H)). split; [apply NoDup_filter, box_nodup|]. split; auto.
    assert (Bl : forall x y, belongs d lab c (I x y 0) <-> region (x, y) = true).
    { intros x y. rewrite region_spec. unfold belongs. split.
      - intros (B & L). unfold get. rewrite B. exact L.
      - apply get_in. }
    intros [x y]. rewrite filter_In. unfold contact. rewrite !Bl. unfold pinched, around.
    split.
    - intros (_ & K). destruct (region (x - 1, y - 1)), (region (x - 1, y)), (region (x, y - 1)), (region (x, y));
        cbn in K; try discriminate; [left|right]; repeat split; auto; discriminate.
    - intros K. split.
      + apply box_in. destruct K as [(K1 & K2 & _)|(K1 & K2 & _)]; apply region_in in K1, K2; lia.
      + destruct (region (x - 1, y - 1)), (region (x - 1, y)), (region (x, y - 1)), (region (x, y)); cbn; auto;
          exfalso; intuition congruence.
  Qed.

  Theorem thin_holes order : any_order order -> exists n q, encloses beside d lab c n /\ contacts d lab c q /\
    holes_in_surface order c s get = Ok (1 + Z.quot (4 * (Z.of_nat n - 1) - Z.of_nat q) 4, 0).
  Proof.
    intros P. destruct (region_euler W H region region_in region_joined p0 region_start) as (n & Hn & E).
    exists n, (length (filter (pinched region) (corners W H))).
    split; [apply same_holes; exact Hn|]. split; [apply same_contacts|].
    destruct (leftmost start Hstart) as (f & Hf & Hl).
    destruct (layer_holes c get s Hs get_flat Joined f Hf Hl order P) as (h & Eh & ->). fold vs in Eh. rewrite Eh.
    assert (B0 : 1 <= W /\ 1 <= H) by (pose proof region_start as K; unfold p0 in K; apply region_in in K; lia).
    pose proof (corner_sum W H region region_in (proj1 B0) (proj2 B0)) as C.
    rewrite (with_edges 5 (concave region) (pinched region)).
    2:{ intros x y. unfold touched, convex, concave, pinched, around.
        destruct (region (x - 1, y - 1)), (region (x - 1, y)), (region (x, y - 1)), (region (x, y)); reflexivity. }
    rewrite (with_edges 6 (fun _ => false) (fun _ => false)).
    2:{ intros x y. unfold touched, convex, concave, pinched, around.
        destruct (region (x - 1, y - 1)), (region (x - 1, y)), (region (x, y - 1)), (region (x, y)); reflexivity. }
    rewrite (with_edges 3 (convex region) (fun _ => false)).
    2:{ intros x y. unfold touched, convex, concave, pinched, around.
        destruct (region (x - 1, y - 1)), (region (x - 1, y)), (region (x, y - 1)), (region (x, y)); reflexivity. }
    assert (F : length (filter (fun _ : point => false) (corners W H)) = 0%nat)
      by (generalize (corners W H) as l; induction l as [|p l IH]; [reflexivity|exact IH]).
    rewrite !F. do 3 f_equal. rewrite <- (Z.quot_mul_cancel_l _ 4 2) by lia. f_equal. lia.
  Qed.
End Holes.

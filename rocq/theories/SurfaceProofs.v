(** Proofs about surfaces, corners and topology of the map classes. *)
From Coq Require Import Permutation Lia Sorted.
From Verif Require Import Base BaseFacts Floats Grid GridFacts TopoSpec SurfaceSpec CollisionMap
  ComponentSpec CollisionMapProofs TaggedMap TaggedSpec TaggedProofs Surfaces VertexProofs HoleProofs.

(** ** Surfaces per component *)
Lemma ascending_nodup l : ascending l -> NoDup l.
Proof.
  induction 1 as [|a l H IH F]; constructor; auto. rewrite Forall_forall in F.
  intros Hin. specialize (F a Hin). lia.
Qed.

Lemma map_get_in {V} k (l : list (Z * V)) v : ascending (map fst l) ->
  (map_get k l = Some v <-> In (k, v) l).
Proof.
  intros H. apply ascending_nodup in H. unfold map_get.
  induction l as [|[k' v'] l IH]; cbn [find fst].
  - split; [discriminate|intros []].
  - cbn [map fst] in H. inversion H as [|? ? Hk Hl]; subst.
    destruct (Z.eqb_spec k' k) as [->|N].
    + cbn [snd]. split.
      * intros E. injection E as <-. left. auto.
      * intros [E|E]; [congruence|]. exfalso. apply Hk. apply in_map_iff. exists (k, v). auto.
    + rewrite IH by auto. cbn [In]. split; auto. intros [E|E]; auto. congruence.
Qed.

Lemma map_get_none {V} k (l : list (Z * V)) : map_get k l = None <-> ~ In k (map fst l).
Proof.
  unfold map_get. induction l as [|[k' v'] l IH]; cbn [find fst map In].
  - split; auto.
  - destruct (Z.eqb_spec k' k) as [->|N].
    + split; [discriminate|]. intros H. exfalso. auto.
    + rewrite IH. intuition.
Qed.

Lemma filter_nil {A} (p : A -> bool) l : (forall x, In x l -> p x = false) -> filter p l = [].
Proof.
  induction l as [|a l IH]; intros H; cbn [filter]; auto.
  rewrite (H a) by (left; auto). apply IH. intros x Hx. apply H. right. auto.
Qed.

Section Listing.
  Variables (get : idx -> Z) (surf : idx -> bool).
  Let pick k i := surf i && (get i =? k).

  Definition listing_of (pre : list idx) (m : list (Z * list idx)) : Prop :=
    ascending (map fst m) /\
    (forall k cells, In (k, cells) m -> cells = filter (pick k) pre /\ cells <> []) /\
    (forall i, In i pre -> surf i = true -> In (get i) (map fst m)).

  Lemma listing_fold l : forall pre m, NoDup (pre ++ l) -> listing_of pre m ->
    listing_of (pre ++ l) (fold_left (fun m i => if surf i then add_surface m (get i) i else m) l m).
  Proof.
    induction l as [|i l IH]; intros pre m Hn Hm; cbn [fold_left].
    - rewrite app_nil_r. auto.
    - replace (pre ++ i :: l) with ((pre ++ [i]) ++ l) in * by (rewrite <- app_assoc; auto).
      apply IH; auto. destruct Hm as (A & B & C).
      assert (Hi : ~ In i pre).
      { apply NoDup_left in Hn. intros H. apply NoDup_remove_2 in Hn. rewrite app_nil_r in Hn. auto. }
      destruct (surf i) eqn:S.
      + unfold add_surface. split; [apply map_put_sorted; auto|]. split.
        * intros k cells H. apply map_put_in in H; auto. rewrite filter_app. cbn [filter].
          unfold pick at 2. rewrite S. cbn [andb]. destruct H as [(-> & ->)|(Hk & H)].
          { rewrite Z.eqb_refl. destruct (map_get (get i) m) as [cells|] eqn:G.
            - apply map_get_in in G; auto. destruct (B _ _ G) as (-> & _).
              unfold insert. destruct (mem i (filter (pick (get i)) pre)) eqn:M.
              + exfalso. apply mem_in, filter_In in M. apply Hi, M.
              + split; auto. intros E. apply app_eq_nil in E. destruct E. discriminate.
            - unfold insert. cbn [mem existsb app]. split; [|discriminate].
              rewrite filter_nil; auto. intros j Hj.
              unfold pick. destruct (surf j) eqn:Sj; auto. cbn [andb].
              destruct (Z.eqb_spec (get j) (get i)) as [E|]; auto.
              exfalso. apply map_get_none in G. apply G. rewrite <- E. auto. }
          { destruct (B _ _ H) as (E & N). destruct (Z.eqb_spec (get i) k); [congruence|].
            rewrite app_nil_r. auto. }
        * intros j Hj Sj. apply map_put_keys. apply in_app_iff in Hj.
          destruct Hj as [Hj|[<-|[]]]; auto.
      + split; auto. split.
        * intros k cells H. rewrite filter_app. cbn [filter]. unfold pick at 2. rewrite S. cbn [andb].
          rewrite app_nil_r. auto.
        * intros j Hj Sj. apply in_app_iff in Hj. destruct Hj as [Hj|[<-|[]]]; auto. congruence.
  Qed.

  Lemma listing_sweep d : listing_of (sweep d) (component_surfaces d get surf).
  Proof.
    apply (listing_fold (sweep d) []); [apply sweep_nodup|].
    split; [constructor|]. split; [intros ? ? []|intros ? []].
  Qed.

  Lemma surfaces_listed d k i : listed (component_surfaces d get surf) k i <->
    in_bounds d i = true /\ surf i = true /\ get i = k.
  Proof.
    destruct (listing_sweep d) as (A & B & C). split.
    - intros (cells & H & Hi). destruct (B _ _ H) as (-> & _). apply filter_In in Hi.
      unfold pick in Hi. rewrite sweep_in in Hi. destruct Hi as (H1 & H2).
      apply andb_true_iff in H2. split; [auto|]. split; [tauto|]. lia.
    - intros (H1 & H2 & <-). assert (In i (sweep d)) by (apply sweep_in; auto).
      specialize (C i H H2). apply in_map_iff in C. destruct C as ([k cells] & E & Hin).
      cbn [fst] in E. subst k. exists cells. split; auto. destruct (B _ _ Hin) as (-> & _).
      apply filter_In. unfold pick. rewrite H2, Z.eqb_refl. auto.
  Qed.

  Lemma surfaces_well d : well_listed (component_surfaces d get surf).
  Proof.
    destruct (listing_sweep d) as (A & B & C). split; [apply ascending_nodup; auto|].
    intros k cells H. destruct (B _ _ H) as (-> & N). split; auto.
    apply NoDup_filter, sweep_nodup.
  Qed.
End Listing.

(** ** The surface test *)
Section Cell.
  Context {A : Type} (occ : A -> binary32) (comp : A -> Z).
  Local Notation label := (label comp).

  Lemma get_label g i : comp (fst (get g i)) = label g i.
  Proof. rewrite get_eq. reflexivity. Qed.

  Lemma adjacent_six i j : face_adjacent i j <->
    j = I (ix i) (iy i) (iz i - 1) \/ j = I (ix i) (iy i) (iz i + 1) \/
    j = I (ix i) (iy i - 1) (iz i) \/ j = I (ix i) (iy i + 1) (iz i) \/
    j = I (ix i - 1) (iy i) (iz i) \/ j = I (ix i + 1) (iy i) (iz i).
  Proof.
    destruct i as [x y z], j as [a b c]. unfold face_adjacent. cbn [ix iy iz]. split.
    - intros H.
      assert ((a = x /\ b = y /\ c = z - 1) \/ (a = x /\ b = y /\ c = z + 1) \/
              (a = x /\ b = y - 1 /\ c = z) \/ (a = x /\ b = y + 1 /\ c = z) \/
              (a = x - 1 /\ b = y /\ c = z) \/ (a = x + 1 /\ b = y /\ c = z)) as K by lia.
      destruct K as [K|[K|[K|[K|[K|K]]]]]; destruct K as (K1 & K2 & K3); subst; auto 10.
    - intros [K|[K|[K|[K|[K|K]]]]]; injection K as -> -> ->; lia.
  Qed.

  (** The test is right except at the far z edge, where it asks whether the label
      differs from that of the out-of-bounds value. *)
  Lemma component_surface_spec g i :
    (in_bounds (gdims g) i = true -> comp (goob g) <> label g i) ->
    (is_component_surface comp g i = true <-> surface_cell (gdims g) (label g) i).
  Proof.
    intros Ho. unfold is_component_surface, surface_cell, on_grid_edge.
    destruct i as [x y z] eqn:Ei. rewrite <- Ei in *. cbn [ix iy iz].
    destruct (in_bounds (gdims g) i) eqn:B; cbn [negb].
    2:{ split; [discriminate|]. intros [H _]. discriminate. }
    specialize (Ho eq_refl). rewrite !get_label. subst i.
    pose proof B as B'. apply in_bounds_spec in B'. cbn [ix iy iz] in B'.
    destruct ((x =? 0) || (y =? 0) || (z =? 0) || (x =? nx (gdims g) - 1) ||
              (y =? ny (gdims g) - 1) || (z =? nz (gdims g))) eqn:E.
    { split; auto. intros _. split; auto. left. cbn [ix iy iz]. lia. }
    split.
    - intros H. split; auto. cbn [ix iy iz].
      destruct (Z.eq_dec z (nz (gdims g) - 1)) as [Hz|Hz]; [left; lia|]. right.
      repeat (apply orb_true_iff in H; destruct H as [H|H]);
        apply negb_true_iff, Z.eqb_neq in H;
        match type of H with _ <> label g ?j => exists j end;
        (split; [apply adjacent_six; cbn [ix iy iz]; auto 10|]);
        (split; [apply in_bounds_spec; cbn [ix iy iz]; lia|auto]).
    - intros [_ H]. cbn [ix iy iz] in H. destruct H as [H|(j & Hj & Bj & N)].
      + assert (z = nz (gdims g) - 1) as Hz by lia.
        assert (O : label g (I x y (z + 1)) = comp (goob g)).
        { unfold label. rewrite gget_oob; auto. apply not_true_iff_false. intros F.
          apply in_bounds_spec in F. cbn [ix iy iz] in F. lia. }
        rewrite O. destruct (Z.eqb_spec (label g (I x y z)) (comp (goob g))); [congruence|].
        rewrite orb_true_r. reflexivity.
      + apply adjacent_six in Hj. cbn [ix iy iz] in Hj.
        assert (K : negb (label g (I x y z) =? label g j) = true)
          by (apply negb_true_iff, Z.eqb_neq; congruence).
        destruct Hj as [->|[->|[->|[->|[->| ->]]]]]; rewrite K, ?orb_true_r; reflexivity.
  Qed.

  (** A cell with a neighbour of another label in x or y, or at an x or y edge, is
      always found. *)
  Lemma component_surface_lateral g x y z x' : in_bounds (gdims g) (I x y z) = true ->
    x' = x - 1 \/ x' = x + 1 ->
    (in_bounds (gdims g) (I x' y z) = true -> label g (I x' y z) <> label g (I x y z)) ->
    is_component_surface comp g (I x y z) = true.
  Proof.
    intros B Hx H. unfold is_component_surface. rewrite B. cbn [negb]. rewrite !get_label.
    destruct ((x =? 0) || (y =? 0) || (z =? 0) || (x =? nx (gdims g) - 1) ||
              (y =? ny (gdims g) - 1) || (z =? nz (gdims g))) eqn:E; auto.
    pose proof B as B'. apply in_bounds_spec in B'. cbn [ix iy iz] in B'.
    assert (in_bounds (gdims g) (I x' y z) = true) as Bx
      by (apply in_bounds_spec; cbn [ix iy iz]; lia).
    specialize (H Bx).
    assert (K : negb (label g (I x y z) =? label g (I x' y z)) = true)
      by (apply negb_true_iff, Z.eqb_neq; congruence).
    destruct Hx as [-> | ->]; rewrite K, ?orb_true_r; reflexivity.
  Qed.

  Lemma outside_label g i : component_or_outside comp g i =
    if in_bounds (gdims g) i then label g i else -1.
  Proof. unfold component_or_outside. rewrite get_eq. reflexivity. Qed.

  Lemma land_bit types k : 0 <= k -> 0 <= types ->
    (0 <? Z.land types (2 ^ k)) = Z.testbit types k.
  Proof.
    intros Hk Ht. assert (P : Z.land types (2 ^ k) = if Z.testbit types k then 2 ^ k else 0).
    { apply Z.bits_inj'. intros n Hn. rewrite Z.land_spec, Z.pow2_bits_eqb by auto.
      destruct (Z.eqb_spec k n) as [->|N].
      - rewrite andb_true_r. destruct (Z.testbit types n) eqn:T.
        + rewrite Z.pow2_bits_true; auto.
        + rewrite Z.bits_0. auto.
      - rewrite andb_false_r. destruct (Z.testbit types k).
        + rewrite Z.pow2_bits_false; auto.
        + rewrite Z.bits_0. auto. }
    rewrite P. destruct (Z.testbit types k); [|reflexivity].
    apply Z.ltb_lt, Z.pow_pos_nonneg; lia.
  Qed.

  Lemma surface_of_types_spec types g i : 0 <= types ->
    surface_of_types occ comp types g i = true <->
    requested types (occ (gget g i)) /\
    is_component_surface comp g (looked_up (occ (gget g i)) i) = true.
  Proof.
    intros Ht. unfold surface_of_types, requested, looked_up, kind_bit. destruct i as [x y z].
    rewrite get_eq. cbn [fst]. set (o := occ _). cbn [ix iy iz].
    destruct (gt32 o half32); [|destruct (lt32 o half32)]; rewrite andb_true_iff.
    - change filled_bit with (2 ^ 0). rewrite land_bit by lia. tauto.
    - change empty_bit with (2 ^ 1). rewrite land_bit by lia. tauto.
    - change unknown_bit with (2 ^ 2). rewrite land_bit by lia. tauto.
  Qed.

  Lemma extract_listed types g k i : 0 <= types ->
    listed (extract_component_surfaces occ comp types g) k i <->
    in_bounds (gdims g) i = true /\ label g i = k /\ requested types (occ (gget g i)) /\
    is_component_surface comp g (looked_up (occ (gget g i)) i) = true.
  Proof.
    intros Ht. unfold extract_component_surfaces. rewrite surfaces_listed, surface_of_types_spec by auto.
    rewrite outside_label. split.
    - intros (B & S & E). rewrite B in E. tauto.
    - intros (B & E & S). rewrite B. tauto.
  Qed.

  (** ** Corners *)
  Definition differing_neighbours (g : grid A) (i : idx) : list idx :=
    filter (fun j => in_bounds (gdims g) j && negb (label g j =? label g i))
      [add i (-1, 0, 0); add i (1, 0, 0); add i (0, -1, 0); add i (0, 1, 0); add i (0, 0, -1);
       add i (0, 0, 1)].

  Lemma candidate_corner_eq g i : candidate_corner comp g i =
    if in_bounds (gdims g) i then ((2 <=? length (differing_neighbours g i))%nat, true)
    else (false, false).
  Proof.
    unfold candidate_corner. rewrite get_eq. destruct (in_bounds (gdims g) i); auto.
    unfold differing_neighbours, label. rewrite !get_eq. cbn [filter].
    repeat match goal with
           | |- context [in_bounds ?d ?j && negb ?b] => destruct (in_bounds d j && negb b)
           end; reflexivity.
  Qed.

  Lemma add_inj i a b : add i a = add i b -> a = b.
  Proof.
    destruct i as [x y z], a as [[a1 a2] a3], b as [[b1 b2] b3]. unfold add. cbn [ix iy iz fst snd].
    intros H. injection H as H1 H2 H3. f_equal; [f_equal|]; lia.
  Qed.

  Lemma candidate_corner_spec g i :
    (candidate_corner comp g i = (true, true) <->
     in_bounds (gdims g) i = true /\
     exists j k, j <> k /\ face_adjacent i j /\ face_adjacent i k /\
       in_bounds (gdims g) j = true /\ in_bounds (gdims g) k = true /\
       label g j <> label g i /\ label g k <> label g i) /\
    (candidate_corner comp g i = (false, false) <-> in_bounds (gdims g) i = false) /\
    (snd (candidate_corner comp g i) = in_bounds (gdims g) i).
  Proof.
    rewrite candidate_corner_eq. destruct (in_bounds (gdims g) i) eqn:B.
    2:{ split; [|split; [tauto|reflexivity]]. split; [discriminate|]. intros [H _]. discriminate. }
    split; [|split; [split; discriminate|reflexivity]].
    set (l := differing_neighbours g i).
    assert (Hl : forall j, In j l <-> face_adjacent i j /\ in_bounds (gdims g) j = true /\
                                      label g j <> label g i).
    { intros j. unfold l, differing_neighbours. rewrite filter_In, andb_true_iff, negb_true_iff, Z.eqb_neq.
      rewrite adjacent_six. cbn [In]. unfold add. cbn [fst snd].
      rewrite !Z.add_0_r. change (ix i + -1) with (ix i - 1). change (iy i + -1) with (iy i - 1).
      change (iz i + -1) with (iz i - 1). intuition. }
    assert (Nl : NoDup l).
    { apply NoDup_filter. repeat constructor; cbn [In]; intros F;
        repeat (destruct F as [F|F]; [apply add_inj in F; discriminate|]); exact F. }
    split.
    - intros H. split; auto. destruct l as [|j [|k l']] eqn:El; try discriminate.
      exists j, k. inversion Nl as [|? ? Hj _]; subst. cbn [In] in Hj.
      destruct (proj1 (Hl j) (or_introl eq_refl)) as (A1 & A2 & A3).
      destruct (proj1 (Hl k) (or_intror (or_introl eq_refl))) as (B1 & B2 & B3).
      repeat split; auto.
    - intros (_ & j & k & N & Aj & Ak & Bj & Bk & Lj & Lk). f_equal. apply Nat.leb_le.
      change 2%nat with (length [j; k]). apply NoDup_incl_length.
      + constructor; [intros [E|[]]; congruence|constructor; [intros []|constructor]].
      + intros x [<-|[<-|[]]]; apply Hl; auto.
  Qed.

  (** ** Occupancy surface *)
  Lemma between_in lo hi k : In k (between lo hi) <-> lo <= k <= hi.
  Proof.
    unfold between. rewrite in_map_iff. split.
    - intros (n & <- & H). apply in_seq in H. lia.
    - intros H. exists (Z.to_nat (k - lo)). split; [lia|]. apply in_seq. lia.
  Qed.

  Lemma kind_test a b : is_nan 24 128 a = false -> is_nan 24 128 b = false ->
    (lt32 a half32 && ge32 b half32) || (gt32 a half32 && le32 b half32) ||
      (eq32 a half32 && negb (eq32 b half32)) = true <-> kind_of a <> kind_of b.
  Proof.
    intros Na Nb. unfold kind_of, lt32, ge32, gt32, le32, eq32.
    assert (Ca : exists r, b32_compare a half32 = Some r) by (destruct a; try discriminate; destruct s; eexists; reflexivity).
    assert (Cb : exists r, b32_compare b half32 = Some r) by (destruct b; try discriminate; destruct s; eexists; reflexivity).
    destruct Ca as (ra & Ea), Cb as (rb & Eb). unfold lt32. rewrite Ea, Eb.
    destruct ra, rb; cbn; split; congruence.
  Qed.

  Lemma surface_index_spec g i :
    (forall j, is_nan 24 128 (occ (gget g j)) = false) ->
    (is_surface_index occ g i = true <->
     in_bounds (gdims g) i = true /\
     exists j, touches i j /\ in_bounds (gdims g) j = true /\
       kind_of (occ (gget g j)) <> kind_of (occ (gget g i))).
  Proof.
    intros Hn. unfold is_surface_index. destruct (in_bounds (gdims g) i) eqn:B; cbn [negb].
    2:{ split; [discriminate|]. intros [H _]. discriminate. }
    apply in_bounds_spec in B. split.
    - intros H. split; auto. apply existsb_exists in H. destruct H as (x & Hx & H).
      apply existsb_exists in H. destruct H as (y & Hy & H).
      apply existsb_exists in H. destruct H as (z & Hz & H).
      rewrite between_in in Hx, Hy, Hz. apply andb_true_iff in H. destruct H as (Ne & H).
      exists (I x y z). rewrite !get_eq in H. cbn [fst] in H. apply kind_test in H; auto.
      split; [|split; [apply in_bounds_spec; cbn [ix iy iz]; lia|auto]].
      unfold touches. cbn [ix iy iz]. split; [|lia]. intros ->.
      rewrite idx_eqb_refl in Ne. discriminate.
    - intros (_ & j & (Ne & T) & Bj & K). apply in_bounds_spec in Bj. destruct j as [x y z].
      cbn [ix iy iz] in *.
      apply existsb_exists. exists x. split; [apply between_in; lia|].
      apply existsb_exists. exists y. split; [apply between_in; lia|].
      apply existsb_exists. exists z. split; [apply between_in; lia|].
      rewrite !get_eq. cbn [fst]. apply andb_true_iff. split.
      + apply negb_true_iff. destruct (idx_eqb_spec (I x y z) i); auto. congruence.
      + apply kind_test; auto.
  Qed.
End Cell.

(** ** Conversions *)
Lemma index_put_in {V} i (v : V) l : NoDup (map fst l) ->
  forall j w, In (j, w) (index_put i v l) <-> (j = i /\ w = v) \/ (j <> i /\ In (j, w) l).
Proof.
  induction l as [|[k u] l IH]; intros Hn j w; cbn [index_put].
  - cbn. intuition congruence.
  - cbn [map fst] in Hn. inversion Hn as [|? ? Hk Hl]; subst.
    destruct (idx_eqb_spec i k) as [->|N]; cbn [In].
    + split.
      * intros [E|E]; [injection E as <- <-; auto|]. right. split; auto. intros ->.
        apply Hk. apply in_map_iff. exists (k, w). auto.
      * intros [(-> & ->)|(H & [E|E])]; auto. congruence.
    + rewrite IH by auto. split.
      * intros [E|[(-> & ->)|(H & E)]]; auto. injection E as <- <-. auto.
      * intros [(-> & ->)|(H & [E|E])]; auto.
Qed.

Lemma index_put_keys {V} i (v : V) l : forall j,
  In j (map fst (index_put i v l)) <-> j = i \/ In j (map fst l).
Proof.
  induction l as [|[k u] l IH]; intros j; cbn [index_put].
  - cbn. intuition.
  - destruct (idx_eqb_spec i k) as [->|N]; cbn [map fst In]; [|rewrite IH]; intuition.
Qed.

Lemma index_put_nodup {V} i (v : V) l : NoDup (map fst l) -> NoDup (map fst (index_put i v l)).
Proof.
  induction l as [|[k u] l IH]; intros H; cbn [index_put].
  - cbn. constructor; [intros []|constructor].
  - cbn [map fst] in H. inversion H; subst.
    destruct (idx_eqb_spec i k) as [->|N]; cbn [map fst]; constructor; auto.
    rewrite index_put_keys. intuition.
Qed.

Lemma dynamic_fold l : forall acc, NoDup (map fst acc) -> (forall i v, In (i, v) acc -> v = 1) ->
  let r := fold_left (fun m i => index_put i 1 m) l acc in
  NoDup (map fst r) /\ (forall i v, In (i, v) r -> v = 1) /\
  forall i, In i (map fst r) <-> In i (map fst acc) \/ In i l.
Proof.
  induction l as [|a l IH]; intros acc Hn H1; cbn [fold_left].
  - cbn. intuition.
  - destruct (IH (index_put a 1 acc)) as (A & B & C).
    + apply index_put_nodup; auto.
    + intros i v H. apply index_put_in in H; auto. destruct H as [(_ & ->)|(_ & H)]; eauto.
    + split; auto. split; auto. intros i. rewrite C, index_put_keys. cbn. intuition.
Qed.

Lemma static_in raw i : In i (static_surface raw) <-> In (i, 1) raw.
Proof.
  unfold static_surface. rewrite in_map_iff. split.
  - intros ([j v] & <- & H). apply filter_In in H. cbn [snd] in H. destruct H as (H & E).
    apply Z.eqb_eq in E. subst. auto.
  - intros H. exists (i, 1). split; auto. apply filter_In. auto.
Qed.

Lemma dynamic_spec l i v : In (i, v) (dynamic_surface l) <-> v = 1 /\ In i l.
Proof.
  unfold dynamic_surface. destruct (dynamic_fold l []) as (A & B & C); [constructor|intros ? ? []|].
  split.
  - intros H. split; [eapply B; eauto|].
    assert (K : In i (map fst (fold_left (fun m i => index_put i 1 m) l [])))
      by (apply in_map_iff; exists (i, v); auto).
    apply C in K. destruct K as [[]|K]; auto.
  - intros (-> & H). assert (K : In i (map fst (fold_left (fun m i => index_put i 1 m) l [])))
      by (apply C; auto).
    apply in_map_iff in K. destruct K as ([j w] & E & K). cbn [fst] in E. subst j.
    rewrite (B _ _ K) in K. auto.
Qed.

Lemma index_fold l : forall acc, NoDup (map fst acc) ->
  let r := fold_left (fun m (e : nat * idx) => index_put (snd e) (fst e) m) l acc in
  NoDup (map snd l) -> NoDup (map fst r) /\
  forall i n, In (i, n) r <-> In (n, i) l \/ (~ In i (map snd l) /\ In (i, n) acc).
Proof.
  induction l as [|[n a] l IH]; intros acc Hn; cbn [fold_left fst snd map].
  - intros _. split; auto. cbn. intuition.
  - intros Hl. inversion Hl as [|? ? Ha Hl']; subst.
    destruct (IH (index_put a n acc)) as (A & B); auto using index_put_nodup.
    split; auto. intros i k. rewrite B, index_put_in by auto. cbn [In].
    split.
    + intros [H|(H1 & [(-> & ->)|(H2 & H3)])]; auto. right. split; auto. intros [E|E]; congruence.
    + intros [[E|H]|(H1 & H2)]; auto.
      * injection E as <- <-. right. auto.
      * right. split; [tauto|]. right. split; [intros ->; apply H1; left; reflexivity|exact H2].
Qed.

Lemma index_map_spec l i n : NoDup l ->
  (In (i, n) (surface_index_map l) <-> nth_error l n = Some i).
Proof.
  intros Hn. unfold surface_index_map.
  assert (Es : forall s, map snd (combine (seq s (length l)) l) = l).
  { clear Hn. induction l as [|a l IH]; intros s; cbn; auto. rewrite IH. auto. }
  destruct (index_fold (combine (seq 0 (length l)) l) []) as (_ & B); [constructor|rewrite Es; auto|].
  rewrite B. cbn [In].
  assert (Ec : forall (l : list idx) s, In (n, i) (combine (seq s (length l)) l) <->
                (s <= n)%nat /\ nth_error l (n - s) = Some i).
  { clear. induction l as [|a l IH]; intros s; cbn [length seq combine In].
    - split; [intros []|]. intros (_ & H). destruct (n - s)%nat; discriminate.
    - rewrite IH. split.
      + intros [E|(H & E)].
        * injection E as -> ->. rewrite Nat.sub_diag. cbn. auto.
        * split; [lia|]. replace (n - s)%nat with (S (n - S s)) by lia. auto.
      + intros (H & E). destruct (n - s)%nat as [|m] eqn:D.
        * left. cbn in E. injection E as ->. f_equal. lia.
        * right. split; [lia|]. cbn in E. replace (n - S s)%nat with m by lia. auto. }
  rewrite Ec, Nat.sub_0_r. intuition lia.
Qed.

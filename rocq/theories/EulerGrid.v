(** The corners, sides and squares of a rectangular grid as a plane graph. *)
From Coq Require Import Permutation Lia FinFun.
From Verif Require Import Base BaseFacts Grid GridFacts SurfaceSpec VertexProofs EulerGraph.

Definition point := (Z * Z)%type.
Lemma point_dec (a b : point) : {a = b} + {a <> b}.
Proof. repeat decide equality. Defined.
Lemma face_dec (a b : option point) : {a = b} + {a <> b}.
Proof. repeat decide equality. Defined.

Definition box (w h : Z) : list point := flat_map (fun x => map (fun y => (x, y)) (zrange h)) (zrange w).

Lemma box_in w h x y : In (x, y) (box w h) <-> 0 <= x < w /\ 0 <= y < h.
Proof.
  unfold box. rewrite in_flat_map. split.
  - intros (a & Ha & H). apply in_map_iff in H as (b & Q & Hb). injection Q as -> ->.
    apply zrange_in in Ha, Hb. auto.
  - intros (Hx & Hy). exists x. split; [apply zrange_in; auto|]. apply in_map_iff. exists y.
    split; auto. apply zrange_in; auto.
Qed.

Lemma box_nodup w h : NoDup (box w h).
Proof.
  unfold box. apply NoDup_flat_map; [apply zrange_nodup| |].
  - intros x _. apply Injective_map_NoDup; [|apply zrange_nodup]. intros a b Q. injection Q. auto.
  - intros x x' b Hx Hx' H H'. apply in_map_iff in H as (y & <- & _). apply in_map_iff in H' as (y' & Q & _).
    injection Q. auto.
Qed.

Lemma box_length w h : 0 <= w -> 0 <= h -> Z.of_nat (length (box w h)) = w * h.
Proof.
  intros Hw Hh. unfold box. assert (K : forall l : list Z,
    Z.of_nat (length (flat_map (fun x => map (fun y => (x, y)) (zrange h)) l)) = Z.of_nat (length l) * h).
  { induction l as [|a l IH]; auto. cbn [flat_map]. rewrite app_length, map_length, zrange_length, Nat2Z.inj_add, IH.
    cbn [length]. lia. }
  rewrite K, zrange_length. lia.
Qed.

Lemma parity_map {A B} (f : A -> B) p l : parity p (map f l) = parity (fun a => p (f a)) l.
Proof. induction l as [|a l IH]; auto. cbn [map parity fold_right]. unfold parity in IH. rewrite IH. reflexivity. Qed.

Section Grid.
  Variables W H : Z.
  Hypothesis HW : 1 <= W.
  Hypothesis HH : 1 <= H.

  (** The square at a place, or the outside. *)
  Definition square (x y : Z) : option point :=
    if (0 <=? x) && (x <? W) && (0 <=? y) && (y <? H) then Some (x, y) else None.
  Definition hside (p : point) : edge point (option point) :=
    let (x, y) := p in E (x, y) (x + 1, y) (square x (y - 1)) (square x y).
  Definition vside (p : point) : edge point (option point) :=
    let (x, y) := p in E (x, y) (x, y + 1) (square (x - 1) y) (square x y).
  Definition corners : list point := box (W + 1) (H + 1).
  Definition squares : list (option point) := None :: map Some (box W H).
  Definition sides : list (edge point (option point)) :=
    map hside (box W (H + 1)) ++ map vside (box (W + 1) H).

  Lemma square_in x y : In (square x y) squares.
  Proof.
    unfold square, squares. destruct ((0 <=? x) && (x <? W) && (0 <=? y) && (y <? H)) eqn:Q; [|cbn; auto].
    right. apply in_map, box_in. lia.
  Qed.
  Lemma square_some x y a b : square x y = Some (a, b) <-> (x = a /\ y = b /\ 0 <= a < W /\ 0 <= b < H).
  Proof.
    unfold square. destruct ((0 <=? x) && (x <? W) && (0 <=? y) && (y <? H)) eqn:Q.
    - split; [intros E; injection E as <- <-; lia|]. intros (-> & -> & _). reflexivity.
    - split; [discriminate|lia].
  Qed.
  Lemma square_is x y : 0 <= x < W -> 0 <= y < H -> square x y = Some (x, y).
  Proof. intros Hx Hy. apply square_some. lia. Qed.
  Lemma square_out x y : ~ (0 <= x < W /\ 0 <= y < H) -> square x y = None.
  Proof. intros N. unfold square. destruct ((0 <=? x) && (x <? W) && (0 <=? y) && (y <? H)) eqn:Q; auto. lia. Qed.

  Lemma sides_in e : In e sides <->
    (exists x y, 0 <= x < W /\ 0 <= y <= H /\ e = hside (x, y)) \/
    (exists x y, 0 <= x <= W /\ 0 <= y < H /\ e = vside (x, y)).
  Proof.
    unfold sides. rewrite in_app_iff, !in_map_iff. split.
    - intros [([x y] & <- & B)|([x y] & <- & B)]; apply box_in in B; [left|right]; exists x, y; repeat split; auto; lia.
    - intros [(x & y & Hx & Hy & ->)|(x & y & Hx & Hy & ->)]; [left|right]; exists (x, y); split; auto; apply box_in; lia.
  Qed.

  Lemma squares_nodup : NoDup squares.
  Proof.
    constructor; [intros K; apply in_map_iff in K as (p & Q & _); discriminate|].
    apply Injective_map_NoDup; [|apply box_nodup]. intros a b Q. injection Q. auto.
  Qed.

  Lemma sides_corners e : In e sides -> In (tail e) corners /\ In (head e) corners.
  Proof.
    intros K. apply sides_in in K as [(x & y & Hx & Hy & ->)|(x & y & Hx & Hy & ->)]; cbn [hside vside tail head];
      unfold corners; rewrite !box_in; lia.
  Qed.
  Lemma sides_squares e : In e sides -> In (left e) squares /\ In (right e) squares.
  Proof.
    intros K. apply sides_in in K as [(x & y & Hx & Hy & ->)|(x & y & Hx & Hy & ->)]; cbn [hside vside left right];
      split; apply square_in.
  Qed.

  Lemma side_differs e : In e sides -> left e <> right e.
  Proof.
    intros K. apply sides_in in K as [(x & y & Hx & Hy & ->)|(x & y & Hx & Hy & ->)]; cbn [hside vside left right].
    - destruct (Z.eq_dec y 0) as [->|N].
      + rewrite (square_out x (0 - 1)), (square_is x 0) by lia. discriminate.
      + rewrite (square_is x (y - 1)) by lia. intros Q. symmetry in Q. apply square_some in Q. lia.
    - destruct (Z.eq_dec x 0) as [->|N].
      + rewrite (square_out (0 - 1) y), (square_is 0 y) by lia. discriminate.
      + rewrite (square_is (x - 1) y) by lia. intros Q. symmetry in Q. apply square_some in Q. lia.
  Qed.

  Lemma even_square (U : point -> bool) a b : 0 <= a < W -> 0 <= b < H ->
    parity (fun e => xorb (U (tail e)) (U (head e)) && bounds face_dec (Some (a, b)) e) sides = false.
  Proof.
    intros Ha Hb. unfold sides. rewrite parity_app, !parity_map.
    assert (S : forall x y : Z, (if face_dec (Some (a, b)) (square x y) then true else false) =
                  (if point_dec (x, y) (a, b) then true else false)).
    { intros x y. destruct (face_dec (Some (a, b)) (square x y)) as [Q|Q], (point_dec (x, y) (a, b)) as [Q'|Q']; auto; exfalso.
      - symmetry in Q. apply square_some in Q. apply Q'. f_equal; lia.
      - injection Q' as -> ->. apply Q. symmetry. apply square_is; auto. }
    rewrite (parity_ext _ (fun p : point => xorb
      ((if point_dec p (a, b + 1) then true else false) && xorb (U p) (U (fst p + 1, snd p)))
      ((if point_dec p (a, b) then true else false) && xorb (U p) (U (fst p + 1, snd p)))) (box W (H + 1))); cycle 1.
    { intros [x y] _. cbn [hside tail head fst snd]. unfold bounds. cbn [hside left right]. rewrite !S.
      assert (Q : (if point_dec (x, y - 1) (a, b) then true else false) = (if point_dec (x, y) (a, b + 1) then true else false)).
      { destruct (point_dec (x, y - 1) (a, b)) as [Q|Q], (point_dec (x, y) (a, b + 1)) as [Q'|Q']; auto; exfalso.
        - injection Q as E1 E2. apply Q'. f_equal; lia.
        - injection Q' as E1 E2. apply Q. f_equal; lia. }
      rewrite Q. destruct (xorb (U (x, y)) (U (x + 1, y))), (point_dec (x, y) (a, b)), (point_dec (x, y) (a, b + 1)); reflexivity. }
    rewrite (parity_ext _ (fun p : point => xorb
      ((if point_dec p (a + 1, b) then true else false) && xorb (U p) (U (fst p, snd p + 1)))
      ((if point_dec p (a, b) then true else false) && xorb (U p) (U (fst p, snd p + 1)))) (box (W + 1) H)); cycle 1.
    { intros [x y] _. cbn [vside tail head fst snd]. unfold bounds. cbn [vside left right]. rewrite !S.
      assert (Q : (if point_dec (x - 1, y) (a, b) then true else false) = (if point_dec (x, y) (a + 1, b) then true else false)).
      { destruct (point_dec (x - 1, y) (a, b)) as [Q|Q], (point_dec (x, y) (a + 1, b)) as [Q'|Q']; auto; exfalso.
        - injection Q as E1 E2. apply Q'. f_equal; lia.
        - injection Q' as E1 E2. apply Q. f_equal; lia. }
      rewrite Q. destruct (xorb (U (x, y)) (U (x, y + 1))), (point_dec (x, y) (a, b)), (point_dec (x, y) (a + 1, b)); reflexivity. }
    rewrite !parity_xor.
    rewrite (parity_at point_dec (fun p => xorb (U p) (U (fst p + 1, snd p))) (a, b + 1)) by (try apply box_nodup; apply box_in; lia).
    rewrite (parity_at point_dec (fun p => xorb (U p) (U (fst p + 1, snd p))) (a, b)) by (try apply box_nodup; apply box_in; lia).
    rewrite (parity_at point_dec (fun p => xorb (U p) (U (fst p, snd p + 1))) (a + 1, b)) by (try apply box_nodup; apply box_in; lia).
    rewrite (parity_at point_dec (fun p => xorb (U p) (U (fst p, snd p + 1))) (a, b)) by (try apply box_nodup; apply box_in; lia).
    cbn [fst snd]. destruct (U (a, b)), (U (a + 1, b)), (U (a, b + 1)), (U (a + 1, b + 1)); reflexivity.
  Qed.

  Lemma even_all (U : point -> bool) x : In x squares ->
    parity (fun e => xorb (U (tail e)) (U (head e)) && bounds face_dec x e) sides = false.
  Proof.
    intros [<-|K].
    - assert (T : parity (fun x => parity (fun e => xorb (U (tail e)) (U (head e)) && bounds face_dec x e) sides) squares = false).
      { rewrite parity_swap. apply parity_false. intros e He. rewrite parity_and.
        destruct (sides_squares e He) as (L & R). unfold bounds. rewrite parity_xor.
        pose proof (parity_at face_dec (fun _ => true) (left e) squares squares_nodup L) as P1.
        pose proof (parity_at face_dec (fun _ => true) (right e) squares squares_nodup R) as P2. cbn beta in P1, P2.
        rewrite (parity_ext _ (fun a => (if face_dec a (left e) then true else false) && true)) by (intros; rewrite andb_true_r; auto).
        rewrite (parity_ext (fun a => if face_dec a (right e) then true else false)
          (fun a => (if face_dec a (right e) then true else false) && true)) by (intros; rewrite andb_true_r; auto).
        rewrite P1, P2. apply andb_false_r. }
      unfold squares in T. cbn [parity fold_right] in T.
      fold (parity (fun x => parity (fun e => xorb (U (tail e)) (U (head e)) && bounds face_dec x e) sides) (map Some (box W H))) in T.
      rewrite (parity_false _ (map Some (box W H))) in T; [rewrite xorb_false_r in T; exact T|].
      intros x Hx. apply in_map_iff in Hx as ([a b] & <- & Hb). apply box_in in Hb. apply even_square; tauto.
    - apply in_map_iff in K as ([a b] & <- & Hb). apply box_in in Hb. apply even_square; tauto.
  Qed.

  Lemma whole : Z.of_nat (length corners) - Z.of_nat (length sides) + Z.of_nat (length squares) = 2.
  Proof.
    unfold corners, sides, squares. cbn [length]. rewrite app_length, !map_length, Nat2Z.inj_add, Nat2Z.inj_succ, !box_length by lia. ring.
  Qed.

  Lemma hjoin x y : 0 <= x < W -> 0 <= y <= H -> joins (primal sides) (x, y) (x + 1, y).
  Proof.
    intros Hx Hy. left. apply in_map_iff. exists (hside (x, y)). split; auto. apply sides_in. left. exists x, y. auto.
  Qed.
  Lemma vjoin x y : 0 <= x <= W -> 0 <= y < H -> joins (primal sides) (x, y) (x, y + 1).
  Proof.
    intros Hx Hy. left. apply in_map_iff. exists (vside (x, y)). split; auto. apply sides_in. right. exists x, y. auto.
  Qed.

  Lemma one_graph : component_count corners (joins (primal sides)) 1.
  Proof.
    exists [(0, 0)]. split; auto. split; [repeat constructor; auto|]. split.
    - intros v [<-|[]]. apply box_in. lia.
    - intros [x y] Hv. apply box_in in Hv. exists (0, 0). split; [|intros r ([<-|[]] & _); auto]. split; [left; auto|].
      eapply reaches_trans with (b := (x, 0)).
      + assert (K : forall n : nat, Z.of_nat n <= W -> reaches (joins (primal sides)) (0, 0) (Z.of_nat n, 0)).
        { induction n as [|n IH]; intros L; [constructor|]. eapply reaches_step; [apply IH; lia|].
          replace (Z.of_nat (S n)) with (Z.of_nat n + 1) by lia. apply hjoin; lia. }
        specialize (K (Z.to_nat x)). rewrite Z2Nat.id in K by lia. apply K. lia.
      + assert (K : forall n : nat, Z.of_nat n <= H -> reaches (joins (primal sides)) (x, 0) (x, Z.of_nat n)).
        { induction n as [|n IH]; intros L; [constructor|]. eapply reaches_step; [apply IH; lia|].
          replace (Z.of_nat (S n)) with (Z.of_nat n + 1) by lia. apply vjoin; lia. }
        specialize (K (Z.to_nat y)). rewrite Z2Nat.id in K by lia. apply K. lia.
  Qed.

  Lemma one_dual : component_count squares (joins (dual sides)) 1.
  Proof.
    exists [None]. split; auto. split; [repeat constructor; auto|]. split.
    - intros v [<-|[]]. left. auto.
    - intros v Hv. exists None. split; [|intros r ([<-|[]] & _); auto]. split; [left; auto|].
      destruct Hv as [<-|Hv]; [constructor|]. apply in_map_iff in Hv as ([x y] & <- & Hv). apply box_in in Hv.
      assert (K : forall n : nat, Z.of_nat n <= H -> reaches (joins (dual sides)) None (square x (Z.of_nat n - 1))).
      { induction n as [|n IH]; intros L; [rewrite square_out by lia; constructor|]. eapply reaches_step; [apply IH; lia|].
        left. apply in_map_iff. exists (hside (x, Z.of_nat n)). split.
        - cbn [hside left right]. do 2 f_equal. lia.
        - apply sides_in. left. exists x, (Z.of_nat n). repeat split; auto; lia. }
      specialize (K (Z.to_nat (y + 1))). rewrite Z2Nat.id in K by lia.
      replace (y + 1 - 1) with y in K by lia. rewrite square_is in K by lia. apply K. lia.
  Qed.

  Theorem grid_euler A B k f : Permutation sides (A ++ B) ->
    component_count corners (joins (primal A)) k -> component_count squares (joins (dual B)) f ->
    Z.of_nat (length corners) - Z.of_nat (length A) + Z.of_nat f = 1 + Z.of_nat k.
  Proof.
    apply (euler point_dec face_dec corners squares sides (box_nodup _ _) squares_nodup sides_corners sides_squares
      even_all whole one_graph one_dual).
  Qed.
End Grid.

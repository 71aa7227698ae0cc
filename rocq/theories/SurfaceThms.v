(** Which surfaces are wrong: families of maps. *)
From Coq Require Import Permutation Lia.
From Verif Require Import Base Floats Grid GridFacts TopoSpec SurfaceSpec CollisionMap TaggedMap Surfaces
  SurfaceProofs.

Section Cells.
  Context {A : Type} (occ : A -> binary32) (comp : A -> Z) (g : grid A) (c : Z).
  Let d := gdims g.
  Hypothesis uniform : forall i, in_bounds d i = true -> label comp g i = c.

  (** An interior cell of a map with one label is not a surface cell. *)
  Lemma interior_not_surface x y z : 1 <= x < nx d - 1 -> 1 <= y < ny d - 1 -> 1 <= z < nz d - 1 ->
    is_component_surface comp g (I x y z) = false.
  Proof.
    intros Hx Hy Hz. unfold is_component_surface. fold d.
    assert (B : in_bounds d (I x y z) = true) by (apply in_bounds_spec; cbn [ix iy iz]; lia).
    rewrite B. cbn [negb]. rewrite !get_label.
    rewrite !uniform by (apply in_bounds_spec; cbn [ix iy iz]; lia). rewrite Z.eqb_refl. cbn [negb orb].
    replace ((x =? 0) || (y =? 0) || (z =? 0) || (x =? nx d - 1) || (y =? ny d - 1) || (z =? nz d))
      with false by lia. reflexivity.
  Qed.

  Lemma filled_surface_missed : 5 <= nx d -> 5 <= ny d -> 5 <= nz d ->
    (forall i, in_bounds d i = true -> gt32 (occ (gget g i)) half32 = true) ->
    surface_cell d (label comp g) (I 2 2 0) /\ requested 1 (occ (gget g (I 2 2 0))) /\
    forall types k, 0 <= types -> ~ listed (extract_component_surfaces occ comp types g) k (I 2 2 0).
  Proof.
    intros X Y Z F. assert (B : in_bounds d (I 2 2 0) = true) by (apply in_bounds_spec; cbn [ix iy iz]; lia).
    split; [|split].
    - split; auto. left. unfold on_grid_edge. cbn [ix iy iz]. auto.
    - unfold requested, kind_bit. rewrite (F _ B). reflexivity.
    - intros types k Ht H. apply extract_listed in H; auto. destruct H as (_ & _ & _ & H).
      unfold looked_up, kind_bit in H. rewrite (F _ B) in H. cbn [ix iy iz] in H.
      rewrite interior_not_surface in H by lia. discriminate.
  Qed.

  Lemma unknown_surface_missed : 5 <= nx d -> 5 <= ny d -> 5 <= nz d ->
    (forall i, in_bounds d i = true -> gt32 (occ (gget g i)) half32 = false /\ lt32 (occ (gget g i)) half32 = false) ->
    surface_cell d (label comp g) (I 2 0 2) /\ requested 4 (occ (gget g (I 2 0 2))) /\
    forall types k, 0 <= types -> ~ listed (extract_component_surfaces occ comp types g) k (I 2 0 2).
  Proof.
    intros X Y Z F. assert (B : in_bounds d (I 2 0 2) = true) by (apply in_bounds_spec; cbn [ix iy iz]; lia).
    destruct (F _ B) as (F1 & F2).
    split; [|split].
    - split; auto. left. unfold on_grid_edge. cbn [ix iy iz]. auto.
    - unfold requested, kind_bit. rewrite F1, F2. reflexivity.
    - intros types k Ht H. apply extract_listed in H; auto. destruct H as (_ & _ & _ & H).
      unfold looked_up, kind_bit in H. rewrite F1, F2 in H. cbn [ix iy iz] in H.
      rewrite interior_not_surface in H by lia. discriminate.
  Qed.

  Lemma interior_listed : 3 <= nx d -> 3 <= nz d -> nz d < ny d -> comp (goob g) <> c ->
    (forall i, in_bounds d i = true -> gt32 (occ (gget g i)) half32 = true) ->
    ~ surface_cell d (label comp g) (I 1 (nz d - 1) 1) /\
    listed (extract_component_surfaces occ comp 1 g) c (I 1 (nz d - 1) 1).
  Proof.
    intros X Z Y O F.
    assert (B : in_bounds d (I 1 (nz d - 1) 1) = true) by (apply in_bounds_spec; cbn [ix iy iz]; lia).
    assert (L : in_bounds d (I 1 (nz d - 1) (nz d - 1)) = true) by (apply in_bounds_spec; cbn [ix iy iz]; lia).
    split.
    - intros (_ & [H|(j & _ & Bj & N)]).
      + unfold on_grid_edge in H. cbn [ix iy iz] in H. lia.
      + apply N. rewrite !uniform; auto.
    - apply extract_listed; [lia|]. split; [exact B|]. split; [apply uniform; auto|].
      unfold requested, looked_up, kind_bit. rewrite (F _ B). split; [reflexivity|].
      apply component_surface_spec.
      + intros _. cbn [ix iy iz]. rewrite uniform; auto.
      + split; [exact L|]. left. unfold on_grid_edge. cbn [ix iy iz]. fold d. lia.
  Qed.

  (** The far z edge is missed when the out-of-bounds value carries the label. *)
  Lemma far_edge_missed : 3 <= nx d -> 3 <= ny d -> 2 <= nz d -> comp (goob g) = c ->
    surface_cell d (label comp g) (I 1 1 (nz d - 1)) /\
    is_component_surface comp g (I 1 1 (nz d - 1)) = false.
  Proof.
    intros X Y Z O.
    assert (B : in_bounds d (I 1 1 (nz d - 1)) = true) by (apply in_bounds_spec; cbn [ix iy iz]; lia).
    split.
    - split; auto. left. unfold on_grid_edge. cbn [ix iy iz]. auto 10.
    - assert (U : forall i, label comp g i = c).
      { intros i. destruct (in_bounds d i) eqn:Bi; auto. unfold label. rewrite gget_oob; auto. }
      unfold is_component_surface. fold d. rewrite B. cbn [negb]. rewrite !get_label, !U, Z.eqb_refl.
      cbn [negb orb].
      replace ((1 =? 0) || (1 =? 0) || (nz d - 1 =? 0) || (1 =? nx d - 1) || (1 =? ny d - 1) || (nz d - 1 =? nz d))
        with false by lia. reflexivity.
  Qed.
End Cells.

(** Empty cells are looked up where they are. *)
Lemma empty_surfaces {A} (occ : A -> binary32) (comp : A -> Z) (g : grid A) :
  (forall i, in_bounds (gdims g) i = true -> label comp g i <> comp (goob g)) ->
  forall k i, listed (extract_component_surfaces occ comp 2 g) k i <->
    label comp g i = k /\ requested 2 (occ (gget g i)) /\ surface_cell (gdims g) (label comp g) i.
Proof.
  intros O k i. rewrite extract_listed by lia.
  assert (R : requested 2 (occ (gget g i)) -> looked_up (occ (gget g i)) i = i).
  { unfold requested, looked_up, kind_bit. destruct (gt32 _ _); [discriminate|].
    destruct (lt32 _ _); [reflexivity|discriminate]. }
  split.
  - intros (B & L & Q & S). split; auto. split; auto. rewrite (R Q) in S.
    apply component_surface_spec; auto. intros _. apply not_eq_sym. auto.
  - intros (L & Q & S). pose proof S as (B & _). split; auto. split; auto. split; auto. rewrite (R Q).
    apply component_surface_spec; auto. intros _. apply not_eq_sym. auto.
Qed.

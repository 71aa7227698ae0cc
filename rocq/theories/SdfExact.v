(** The values of an extracted field in terms of BuildDistanceField's results. *)
From Coq Require Import Reals Lra.
From Flocq Require Import Core.Core IEEE754.Binary IEEE754.Bits.
From Verif Require Import Base BaseFacts Floats FloatFacts FloatFacts2 Grid GridFacts
  DistSpec DistModel DistProofs DistThms CollisionMap SdfGen SdfSpec SdfGenProofs SdfThms SdfBorderThms.
Open Scope Z_scope.

Lemma extract_values d r oob frame is_filled filled s x :
  size_ok d -> usable_resolution r -> answers d is_filled filled ->
  extract_sdf d r is_filled oob frame = Ok (s, x) ->
  exists ff fr,
    build_distance_field d (cells_of d filled) = Ok ff /\
    build_distance_field d (cells_of d (fun i => negb (filled i))) = Ok fr /\
    forall c, in_bounds d c = true ->
      sdf_get s c = (signed_value (filled c) (cell_distsq (if filled c then fr else ff) c) r, true).
Proof.
  intros Hs Hr HP E. destruct x as (mx & mn).
  destruct (build_filled d filled Hs) as (ff & Hff). destruct (build_free d filled Hs) as (fr & Hfr).
  exists ff, fr. split; [exact Hff|]. split; [exact Hfr|].
  assert (HD0 : 0 <= nx d /\ 0 <= ny d /\ 0 <= nz d) by (destruct Hs; lia).
  assert (CO : forall c, in_bounds d c = true ->
    is_nan _ _ (cell_distance ff fr r c) = false /\
    b32_of_b64 (cell_distance ff fr r c) =
      signed_value (filled c) (cell_distsq (if filled c then fr else ff) c) r).
  { intros c Hc. destruct (cell_distance_ok d r filled Hs Hr ff fr c Hff Hfr Hc) as (C1 & C2 & _).
    destruct (signed_double_ok r filled Hr c (cell_distsq (if filled c then fr else ff) c)) as (A & B & _).
    { intros m Hm. apply C2; auto. }
    rewrite C1. auto. }
  unfold extract_sdf in E. rewrite (classify_filter is_filled filled) in E.
  2:{ intros i Hi. apply HP. apply sweep_in in Hi; auto. }
  cbn [bind app] in E. fold (filled_cells d filled) in E. fold (free_cells d filled) in E.
  rewrite Hff in E. cbn [bind] in E. rewrite Hfr in E. cbn [bind] in E.
  injection E as E. apply (generate_fold d r is_filled filled Hs Hr HP ff fr) in E; auto.
  - destruct E as (A1 & _ & _ & _ & _ & _ & A7 & _).
    intros c Hc. unfold sdf_get. rewrite get_eq. unfold sdf_dims in A1. rewrite A1, Hc.
    rewrite A7 by (apply sweep_in; auto). rewrite (proj2 (CO c Hc)). reflexivity.
  - unfold new_sdf. cbn [s_grid]. apply mk_grid_wf; lia.
  - apply sweep_nodup.
  - intros i Hi. apply sweep_in in Hi; auto.
  - intros i Hi. apply sweep_in in Hi. apply CO; auto.
Qed.

Lemma border_inside d v : in_bounds (border_dims d) v = true ->
  in_bounds d (real_index d v) = negb (border_cell d v).
Proof.
  intros Hv. destruct (border_cell d v) eqn:E; cbn [negb].
  - apply (real_border_outside d v Hv E).
  - apply real_in_bounds; auto.
Qed.


Lemma layer_filled d P : 
  cells_of (border_dims d) (vfilled d true P) = cells_of (enlarged_dims d) (with_layer d P).
Proof.
  rewrite border_dims_eq. unfold cells_of. apply filter_ext_in. intros v Hv.
  apply sweep_in in Hv. rewrite <- border_dims_eq in Hv. unfold vfilled, with_layer.
  change (shift_out d v) with (real_index d v). rewrite (border_inside d v Hv). destruct (border_cell d v); reflexivity.
Qed.
Lemma layer_free d P : 
  cells_of (border_dims d) (fun i => negb (vfilled d false P i)) =
  cells_of (enlarged_dims d) (with_layer d (fun i => negb (P i))).
Proof.
  rewrite border_dims_eq. unfold cells_of. apply filter_ext_in. intros v Hv.
  apply sweep_in in Hv. rewrite <- border_dims_eq in Hv. unfold vfilled, with_layer.
  change (shift_out d v) with (real_index d v). rewrite (border_inside d v Hv). destruct (border_cell d v); reflexivity.
Qed.

Lemma border_values d r oob frame is_filled filled s x :
  size_ok (enlarged_dims d) -> 0 <= nx d /\ 0 <= ny d /\ 0 <= nz d ->
  usable_resolution r -> answers d is_filled filled ->
  extract_sdf_grid d r r r is_filled oob frame true = Ok (s, x) ->
  exists ff fr,
    build_distance_field (enlarged_dims d) (cells_of (enlarged_dims d) (with_layer d filled)) = Ok ff /\
    build_distance_field (enlarged_dims d)
      (cells_of (enlarged_dims d) (with_layer d (fun i => negb (filled i)))) = Ok fr /\
    forall c, in_bounds d c = true ->
      sdf_get s c =
        (signed_value (filled c) (cell_distsq (if filled c then fr else ff) (shift_in d c)) r, true).
Proof.
  intros Hs Hd0 Hr HP E.
  pose proof Hs as Hs'. rewrite <- border_dims_eq in Hs'.
  pose proof (border_answers d true is_filled filled HP) as T1.
  pose proof (border_answers d false is_filled filled HP) as T2.
  destruct (extract_sign _ r oob frame _ _ Hs' Hr T1) as (s1 & x1 & E1 & _ & _ & _ & _ & _ & S1).
  destruct (extract_sign _ r oob frame _ _ Hs' Hr T2) as (s2 & x2 & E2 & _ & _ & _ & _ & _ & S2).
  destruct (extract_values _ r oob frame _ _ s1 x1 Hs' Hr T1 E1) as (ff & fr' & B1 & _ & V1).
  destruct (extract_values _ r oob frame _ _ s2 x2 Hs' Hr T2 E2) as (ff' & fr & _ & B2 & V2).
  exists ff, fr. rewrite <- layer_filled, <- layer_free, <- border_dims_eq.
  split; [exact B1|]. split; [exact B2|].
  unfold extract_sdf_grid in E. rewrite (ne64_refl r Hr) in E. cbn [orb negb] in E.
  rewrite E1 in E. cbn [bind] in E. rewrite E2 in E. cbn [bind] in E.
  injection E as E _.
  set (val := fun i => combine_values (fst (sdf_get s1 (virtual_index d i)))
                                      (fst (sdf_get s2 (virtual_index d i)))) in *.
  destruct (write_all val (sweep d) (new_sdf d r oob frame)) as (C1 & _ & _ & _ & _ & _ & C7 & _).
  { reflexivity. }
  { unfold new_sdf; cbn [s_grid]. apply mk_grid_wf; lia. }
  { apply sweep_nodup. }
  { intros i Hi. apply sweep_in in Hi. exact Hi. }
  assert (Es : fold_left (fun s i => fst (sdf_set s i (val i))) (sweep d) (new_sdf d r oob frame) = s)
    by exact E.
  rewrite Es in C1, C7.
  intros c Hc. unfold sdf_get at 1. rewrite get_eq.
  change (gdims (s_grid s)) with (sdf_dims s). rewrite C1.
  change (sdf_dims (new_sdf d r oob frame)) with d. rewrite Hc.
  rewrite (C7 c) by (apply sweep_in; auto). f_equal. unfold val. change (shift_in d c) with (virtual_index d c).
  destruct (virtual_in_bounds d c Hc) as (W1 & W2 & W3).
  assert (F1 : vfilled d true filled (virtual_index d c) = filled c) by (unfold vfilled; rewrite W2, W3; auto).
  assert (F2 : vfilled d false filled (virtual_index d c) = filled c) by (unfold vfilled; rewrite W2, W3; auto).
  destruct (S1 _ W1) as (v1 & G1 & N1 & P1 & Q1). destruct (S2 _ W1) as (v2 & G2 & N2 & P2 & Q2).
  rewrite (V1 _ W1) in G1. rewrite (V2 _ W1) in G2. rewrite (V1 _ W1), (V2 _ W1). cbn [fst].
  rewrite F1 in *. rewrite F2 in *. injection G1 as G1. injection G2 as G2.
  destruct (filled c).
  - rewrite combine_neg; auto; rewrite ?G1, ?G2; auto.
  - rewrite combine_pos; auto; rewrite ?G1; auto.
Qed.

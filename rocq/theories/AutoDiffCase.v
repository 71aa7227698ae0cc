(** Small fields for the theorems about differentiated estimates. *)
From Coq Require Import Lia Reals Lra Psatz.
From Verif Require Import Base BaseFacts Grid GridFacts Arith SdfQuery QuerySpec QueryProofs QueryReal QueryThms
  QueryTurn AutoDiff AutoDiffSpec AutoDiffProofs AutoDiffThms EstimateSteps.
Open Scope R_scope.

Lemma plain_rigid r : rigid (plain_pose r) (@V reals 0 0 0).
Proof.
  constructor.
  - unfold length_squared. cbn [plain_pose rot_w rot_v vx vy vz]. rsimp. ring.
  - intros [a b c]. cbn [plain_pose to_world rot_w rot_v]. unfold vadd, turn. cbn [vx vy vz]. rsimp. f_equal; asR; ring.
Qed.

(** Three cells in a row, values 3, 1, 3. *)
Definition valley : rfield := F (A := reals) (G (D 3 1 1) [3; 1; 3] 0) 1 (@V reals 3 1 1).

Lemma valley_centered k : (0 <= k < 3)%Z -> centered_value valley (I k 0 0) = if (k =? 1)%Z then 1/2 else 5/2.
Proof.
  intros Hk. unfold centered_value. change (f_res valley) with 1.
  assert (k = 0 \/ k = 1 \/ k = 2)%Z as [->|[->| ->]] by lia.
  - change (value valley (I 0 0 0)) with 3. cbn [Z.eqb]. destruct (Rle_dec 0 3); lra.
  - change (value valley (I 1 0 0)) with 1. cbn [Z.eqb Pos.eqb]. destruct (Rle_dec 0 1); lra.
  - change (value valley (I 2 0 0)) with 3. cbn [Z.eqb Pos.eqb]. destruct (Rle_dec 0 3); lra.
Qed.

Lemma valley_auto : auto_diff_gradient_of_cell valley (plain_pose 1) (I 1 0 0) = Ok (Some (@V reals 2 0 0)).
Proof.
  rewrite (auto_of_cell valley (plain_pose 1) (@V reals 0 0 0) (I 1 0 0)); auto.
  - do 2 f_equal. change (f_res valley) with 1. cbn [valley f_dims f_grid gdims nx ny nz ix iy iz].
    unfold step_slope. cbn [Z.ltb Z.add Pos.add Pos.compare Pos.compare_cont Z.compare Pos.succ].
    rewrite !valley_centered by lia. cbn [Z.eqb Pos.eqb plain_pose rot_w rot_v]. unfold turn. rsimp. f_equal; asR; lra.
  - change (f_res valley) with 1. lra.
  - apply plain_geometry. change (f_res valley) with 1. lra.
  - apply plain_rigid.
Qed.

Lemma valley_left s : 0 <= s < 1/2 -> estimated valley (plain_pose 1) (@V reals (3/2 - s) (1/2) (1/2)) = 1/2 + 2 * s.
Proof.
  intros Hs. set (q := @V reals (3/2 - s) (1/2) (1/2)).
  assert (Ei : index_of (plain_pose 1) q = I 1 0 0).
  { unfold q. cbn [index_of plain_pose vx vy vz]. f_equal; apply Int_part_unique; lra. }
  change (estimated valley (plain_pose 1) q) with (estimated valley (plain_pose 1) (to_world (plain_pose 1) q)).
  rewrite estimated_ipol; [|change (f_res valley) with 1; lra|apply plain_geometry; change (f_res valley) with 1; lra|].
  2:{ rewrite Ei. reflexivity. }
  rewrite Ei. change (f_res valley) with 1. cbn [ix iy iz].
  change (nx (f_dims valley)) with 3%Z. change (ny (f_dims valley)) with 1%Z. change (nz (f_dims valley)) with 1%Z.
  unfold q. cbn [vx vy vz].
  assert (One : forall d, ipol 1 0 1 (1/2) d = d 0%Z).
  { intros d. destruct (ipol_level 1 Rlt_0_1 0 1 (1/2) d) as (k & _ & E); [split; [lia|lra]|].
    rewrite E. unfold level_pair. cbn [Z.eqb Pos.eqb fst snd]. unfold lerp. ring. }
  rewrite One, One. set (d := fun a => centered_value valley (I a 0 0)).
  destruct (ipol_level 1 Rlt_0_1 1 3 (3/2 - s) d) as (k & Hk & E); [split; [lia|lra]|].
  rewrite E.
  destruct (Req_dec s 0) as [C|C].
  - assert (k = 1)%Z by (apply (cell_unique 1 k 1 (3/2 - s) (1/2)); lra). subst k.
    unfold level_pair, d. cbn [Z.eqb Pos.eqb fst snd].
    change (Z.max 0 (Z.min (3 - 2) 1)) with 1%Z. cbn [fst snd]. change (1 + 1)%Z with 2%Z. rewrite !valley_centered by lia.
    cbn [Z.eqb Pos.eqb]. unfold lerp, local. subst s. lra.
  - assert (k = 0)%Z by (apply (cell_unique 1 k 0 (3/2 - s) (1/2)); lra). subst k.
    unfold level_pair, d. cbn [Z.eqb Pos.eqb fst snd].
    change (Z.max 0 (Z.min (3 - 2) 0)) with 0%Z. cbn [fst snd]. change (0 + 1)%Z with 1%Z. rewrite !valley_centered by lia.
    cbn [Z.eqb Pos.eqb]. unfold lerp, local. lra.
Qed.

(** At the bottom of the valley the estimate has no gradient; the function
    answers with the slope towards the next cell, the finite differences give 0. *)
Lemma valley_kink :
  let p := plain_pose 1 in let i := I 1 0 0 in let loc := to_world p (center_of p i) in
  in_bounds (f_dims valley) i = true /\
  auto_diff_gradient_of_cell valley p i = Ok (Some (@V reals 2 0 0)) /\
  gradient valley p i true = Some (@V reals 0 0 0) /\
  forall n, ~ is_gradient (estimated valley p) loc n.
Proof.
  intros p i loc. split; [reflexivity|]. split; [apply valley_auto|]. split.
  - unfold gradient.
    assert (A : grid_aligned_gradient valley i true = Some (@V reals 0 0 0)).
    { unfold grid_aligned_gradient, i. change (in_bounds (f_dims valley) (I 1 0 0)) with true.
      change (interior (f_dims valley) (I 1 0 0)) with false. cbv iota. apply f_equal.
      change (low_index 1) with 0%Z. change (low_index 0) with 0%Z.
      change (high_index (nx (f_dims valley)) 1) with 2%Z. change (high_index (ny (f_dims valley)) 0) with 0%Z.
      change (high_index (nz (f_dims valley)) 0) with 0%Z. unfold one_sided. cbv beta zeta.
      change (value valley (I 2 0 0)) with 3. change (value valley (I 0 0 0)) with 3.
      change (value valley (I 1 0 0)) with 1. change (f_res valley) with 1. rsimp.
      change (2 - 0)%Z with 2%Z. change (0 - 0)%Z with 0%Z.
      destruct (Rlt_dec 0 (2 * 1)) as [_|N]; [|exfalso; lra].
      destruct (Rlt_dec 0 (0 * 1)) as [N|_]; [exfalso; lra|]. f_equal; asR; field. }
    rewrite A, rotate_turn by apply (rigid_unit _ _ (plain_rigid 1)). f_equal. apply turn_zero.
  - intros n H.
    assert (L : loc = @V reals (3/2) (1/2) (1/2)).
    { unfold loc, p, i. cbn [plain_pose to_world center_of ix iy iz]. f_equal; lra. }
    assert (En : n = @V reals 2 0 0).
    { assert (A : auto_diff_gradient valley p loc = Ok (Some n)).
      { apply (auto_gradient_if_any valley p (@V reals 0 0 0)); auto.
        - change (f_res valley) with 1. lra.
        - apply plain_geometry. change (f_res valley) with 1. lra.
        - apply plain_rigid.
        - replace (to_grid p loc) with loc by reflexivity. rewrite L.
          replace (index_of p (@V reals (3/2) (1/2) (1/2))) with i; [reflexivity|].
          symmetry. unfold i, p. cbn [index_of plain_pose vx vy vz]. f_equal; apply Int_part_unique; lra. }
      pose proof valley_auto as V. unfold auto_diff_gradient_of_cell in V.
      fold p in V. fold i in V. fold loc in V. rewrite A in V. injection V as V. exact V. }
    subst n. destruct (H 1 Rlt_0_1) as (d & Hd & D).
    set (s := Rmin d (1/2) / 2).
    assert (M1 : Rmin d (1/2) <= d) by apply Rmin_l. assert (M2 : Rmin d (1/2) <= 1/2) by apply Rmin_r.
    assert (M3 : 0 < Rmin d (1/2)) by (apply Rmin_pos; lra).
    assert (Hs : 0 < s < 1/2) by (unfold s; lra).
    specialize (D (@V reals (- s) 0 0) Logic.I).
    assert (Ls : len (@V reals (- s) 0 0) = s).
    { unfold len, length_squared. cbn [vx vy vz]. rsimp. replace (- s * - s + 0 * 0 + 0 * 0) with (s * s) by ring.
      apply sqrt_square. lra. }
    rewrite Ls in D. assert (X : s < d) by (unfold s; lra). specialize (D X).
    rewrite L in D.
    replace (vadd (@V reals (3/2) (1/2) (1/2)) (@V reals (- s) 0 0)) with (@V reals (3/2 - s) (1/2) (1/2)) in D.
    2:{ unfold vadd. cbn [vx vy vz]. rsimp. f_equal; asR; ring. }
    unfold p in D. rewrite valley_left in D by lra.
    replace (@V reals (3/2) (1/2) (1/2)) with (@V reals (3/2 - 0) (1/2) (1/2)) in D by (f_equal; asR; ring).
    rewrite valley_left in D by lra. unfold dot in D. cbn [vx vy vz] in D. rsimp.
    replace (1/2 + 2 * s - (1/2 + 2 * 0) - (2 * - s + 0 * 0 + 0 * 0)) with (4 * s) in D by ring.
    rewrite Rabs_pos_eq in D by lra. lra.
Qed.

(** Half way between the two cells of a turned row the estimate has a gradient. *)
Lemma turned_auto :
  let s := sqrt (1 / 2) in
  let p := turned_pose 1 s (@V reals 0 0 s) (@V reals 0 0 0) in
  let loc := to_world p (@V reals 1 (1/2) (1/2)) in
  geometry (f_res two_cells) p /\ rigid p (@V reals 0 0 0) /\
  in_bounds (f_dims two_cells) (index_of p (to_grid p loc)) = true /\
  off_levels two_cells (to_grid p loc) /\ gentle two_cells 2 /\
  auto_diff_gradient two_cells p loc = Ok (Some (@V reals 0 2 0)).
Proof.
  intros s p loc.
  destruct turned_case as (G & Rg & Ax & Va & Ce & _). fold s in G, Rg, Ax, Va, Ce. fold p in G, Rg, Ax, Va, Ce.
  assert (Eq : to_grid p loc = @V reals 1 (1/2) (1/2)) by apply (g_there_and_back _ _ G).
  assert (Ei : index_of p (@V reals 1 (1/2) (1/2)) = I 1 0 0).
  { unfold p. cbn [turned_pose index_of plain_pose vx vy vz]. f_equal; apply Int_part_unique; lra. }
  assert (B : in_bounds (f_dims two_cells) (index_of p (to_grid p loc)) = true) by (rewrite Eq, Ei; reflexivity).
  do 2 (split; [assumption|]). split; [exact B|].
  assert (O : off_levels two_cells (to_grid p loc)).
  { rewrite Eq. unfold off_levels, between_levels. change (f_res two_cells) with 1. cbn [vx vy vz].
    change (nx (f_dims two_cells)) with 2%Z. change (ny (f_dims two_cells)) with 1%Z. change (nz (f_dims two_cells)) with 1%Z.
    repeat split; try lra; intros k Hk; lia. }
  split; [exact O|].
  assert (C0 : centered_value two_cells (I 0 0 0) = 1/2).
  { unfold centered_value. change (value two_cells (I 0 0 0)) with 1. change (f_res two_cells) with 1. destruct (Rle_dec 0 1); lra. }
  assert (C1 : centered_value two_cells (I 1 0 0) = 5/2).
  { unfold centered_value. change (value two_cells (I 1 0 0)) with 3. change (f_res two_cells) with 1. destruct (Rle_dec 0 3); lra. }
  split.
  { intros i j Bi Bj Sh.
    assert (J : forall j, in_bounds (f_dims two_cells) j = true -> j = I 0 0 0 \/ j = I 1 0 0).
    { intros [x y z] Bx. apply in_bounds_spec in Bx. cbn in Bx.
      assert (y = 0 /\ z = 0 /\ (x = 0 \/ x = 1))%Z as (-> & -> & [Hx|Hx]) by lia; subst x; auto. }
    destruct (J i Bi), (J j Bj); subst i j; rewrite ?C0, ?C1; unfold Rabs; destruct (Rcase_abs _); lra. }
  assert (P : pairs two_cells (index_of p (to_grid p loc)) (to_grid p loc) = (0, 1, (0, 0), (0, 0))%Z).
  { rewrite Eq, Ei. unfold pairs. change (f_res two_cells) with 1. cbn [ix iy iz vx vy vz].
    change (nx (f_dims two_cells)) with 2%Z. change (ny (f_dims two_cells)) with 1%Z. change (nz (f_dims two_cells)) with 1%Z.
    unfold axis_interpolation_indices. rsimp.
    destruct (Rle_dec 0 (1 - 1 * (1 + 1/2))) as [H|H]; [exfalso; lra|].
    destruct (Rle_dec 0 (1/2 - 1 * (0 + 1/2))) as [H'|H']; [|exfalso; lra]. reflexivity. }
  rewrite (auto_turn two_cells p (@V reals 0 0 0) loc 0 1 0 0 0 0) by (auto; change (f_res two_cells) with 1; lra).
  do 2 f_equal. rewrite Eq. unfold poly_slope, cells. rewrite C0, C1.
  change (rot_w p) with s. change (rot_v p) with (@V reals 0 0 s). change (f_res two_cells) with 1.
  assert (Hs : s * s = 1 / 2) by (apply sqrt_sqrt; lra).
  unfold turn, lerp, local. cbn [vx vy vz]. rsimp. f_equal; asR.
  - transitivity ((1 - 2 * (s * s)) * 2); [field|rewrite Hs; field].
  - transitivity (4 * (s * s)); [field|rewrite Hs; field].
  - field.
Qed.

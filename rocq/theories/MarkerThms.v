(** The cubes of a drawing are the cells. *)
From Coq Require Import Lia Reals Lra.
From Verif Require Import Base BaseFacts Floats Grid GridFacts CollisionMap TaggedMap TaggedSpec SdfGen SdfSpec Surfaces SurfaceSpec
  Arith SdfQuery QuerySpec QueryReal QueryThms QueryTurn Display DisplaySpec DisplayProofs DisplaySdf DisplayThms
  Hashed HashedSpec HashedProofs HashedThms Node NodeProofs Location LocationSpec LocationThms Markers MarkerSpec.
Open Scope R_scope.

Lemma half_box r a v : 0 < r -> (Rabs (v - r * (a + 1 / 2)) <= r / 2 <-> r * a <= v <= r * (a + 1)).
Proof.
  intros Hr. split.
  - intros H. unfold Rabs in H. destruct (Rcase_abs _); lra.
  - intros H. apply Rabs_le. lra.
Qed.

(** Points in the grid frame, marker in the grid's pose. *)
Lemma grid_frame_fills r p d P col k : 0 < r -> geometry r p ->
  draws (center_of p) k d P col -> fills (in_grid_frame p r, k) r p d P col.
Proof.
  intros Hr G (l & (_ & L) & E1 & E2) c loc. unfold in_drawing, in_grid_frame. cbn [fst snd su_pose su_scale vx vy vz].
  rewrite E1, E2, combine_map. split.
  - intros (pt & q & Hin & Bx & By & Bz & <-). apply in_map_iff in Hin as (i & Ei & Hi). injection Ei as <- <-.
    apply L in Hi as (Hb & HP). exists i. do 3 (split; [auto|]). unfold closed_cube. rewrite (g_there_and_back _ _ G).
    rewrite (g_center _ _ G) in Bx, By, Bz. cbn [vx vy vz] in Bx, By, Bz.
    split; [|split]; apply (half_box r); auto.
  - intros (i & Hb & HP & <- & Cx & Cy & Cz). exists (center_of p i), (to_grid p loc). split; [|split; [|split; [|split]]].
    + apply in_map_iff. exists i. split; auto. apply L. auto.
    + rewrite (g_center _ _ G). cbn [vx vy vz]. apply half_box; auto.
    + rewrite (g_center _ _ G). cbn [vx vy vz]. apply half_box; auto.
    + rewrite (g_center _ _ G). cbn [vx vy vz]. apply half_box; auto.
    + apply (g_back_and_there _ _ G).
Qed.

Lemma moved_cube r (p : pose reals) t i (loc : rvec) : 0 < r -> geometry r p -> only_moves p t ->
  ((Rabs (vx loc - vx (world_center p i)) <= r / 2 /\ Rabs (vy loc - vy (world_center p i)) <= r / 2 /\
   Rabs (vz loc - vz (world_center p i)) <= r / 2) <-> closed_cube r p i loc).
Proof.
  intros Hr G M. unfold world_center, closed_cube. rewrite M, (g_center _ _ G).
  pose proof (g_back_and_there _ _ G loc) as B. rewrite M in B. destruct (to_grid p loc) as [a b e]. rewrite <- B.
  destruct t as [t1 t2 t3]. unfold vadd. cbn [vx vy vz]. rsimp.
  replace (t1 + a - (t1 + r * (IZR (ix i) + 1 / 2))) with (a - r * (IZR (ix i) + 1 / 2)) by ring.
  replace (t2 + b - (t2 + r * (IZR (iy i) + 1 / 2))) with (b - r * (IZR (iy i) + 1 / 2)) by ring.
  replace (t3 + e - (t3 + r * (IZR (iz i) + 1 / 2))) with (e - r * (IZR (iz i) + 1 / 2)) by ring.
  rewrite !(half_box r _ _ Hr). tauto.
Qed.

(** World points, marker at the origin: the same if the grid's pose only moves. *)
Lemma world_frame_fills r p t d P col k : 0 < r -> geometry r p -> only_moves p t ->
  draws (world_center p) k d P col -> fills (in_world_frame (@V reals r r r), k) r p d P col.
Proof.
  intros Hr G M (l & (_ & L) & E1 & E2) c loc. unfold in_drawing, in_world_frame. cbn [fst snd su_pose su_scale vx vy vz].
  rewrite E1, E2, combine_map.
  pose proof (fun i => moved_cube r p t i loc Hr G M) as S.
  split.
  - intros (pt & q & Hin & Bx & By & Bz & <-). apply in_map_iff in Hin as (i & Ei & Hi). injection Ei as <- <-.
    apply L in Hi as (Hb & HP). exists i. do 3 (split; [auto|]). apply S. auto.
  - intros (i & Hb & HP & <- & C). apply S in C as (Bx & By & Bz). exists (world_center p i), loc.
    split; [|auto]. apply in_map_iff. exists i. split; auto. apply L. auto.
Qed.

(** ** The maps and fields *)
Section Dense.
  Variables (r : R) (p : pose reals).
  Hypothesis Hr : 0 < r.
  Hypothesis G : geometry r p.

  Lemma collision_picture s alpha :
    fills (sdf_collision_picture p r s alpha) r p (sdf_dims s) (fun i => le32 (fst (sdf_get s i)) zero32 = true) (fun _ => red alpha).
  Proof.
    unfold sdf_collision_picture. cbn zeta. apply grid_frame_fills; auto.
    destruct (collision_export_draws (center_of p) s) as (l & L & E). exists l. split; auto.
    rewrite E. cbn [mk_points mk_colors]. rewrite map_map. auto.
  Qed.
End Dense.

(** ** The generator node *)
Lemma node_fills r p t m frame alpha : 0 < r -> geometry r p -> only_moves p t ->
  (forall i, in_bounds (gdims m) i = true -> fst (get m i) = 0%Z \/ fst (get m i) = 1%Z) ->
  exists k, node_picture p r m frame alpha = Ok k /\
    fills k r p (gdims m) (fun i => fst (get m i) = 1%Z) (fun _ => red alpha).
Proof.
  intros Hr G M H. destruct (node_draws (world_center p) m frame alpha H) as (k & E & _ & _ & Dr).
  unfold node_picture. rewrite E. cbn [bind]. eexists. split; [reflexivity|]. apply (world_frame_fills r p t); auto.
Qed.

(** ** The hashed map *)
Section Hash.
  Variables (r : R) (p : pose reals) (d : dims) (oob : ccell) (frame : string) (ws : list (write rvec)).
  Variables (in_grid : idx -> idx -> rvec) (order : chunks -> chunks) (c1 c2 c3 : color).
  Hypothesis Hr : 0 < r.
  Hypothesis G : geometry r p.
  Hypothesis Hd : chunk_ok d.
  Hypothesis Ho : chunk_order order.
  Hypothesis Hin : forall k i, in_bounds d i = true ->
    in_grid k i = center_of p (I (ix k * nx d + ix i) (iy k * ny d + iy i) (iz k * nz d + iz i)).

  Let h := apply_writes (cell_at p) (h_new frame d oob) ws.

  Lemma every_cell i : exists q, cell_at p q = i.
  Proof.
    exists (to_world p (center_of p i)). apply (cell_at_cube r); auto. unfold in_cube.
    rewrite (g_there_and_back _ _ G), (g_center _ _ G). cbn [vx vy vz].
    repeat split; apply Rmult_le_compat_l || apply Rmult_lt_compat_l; lra.
  Qed.

  Lemma place_cell q : in_grid (region_of d (cell_at p q)) (local_of d (cell_at p q)) = center_of p (cell_at p q).
  Proof.
    rewrite Hin by (apply local_in; auto). f_equal. destruct Hd as (A & B & C). destruct (cell_at p q) as [x y z].
    unfold region_of, local_of. cbn [ix iy iz] in *. f_equal; rewrite Z.mul_comm; symmetry; apply Z.div_mod; lia.
  Qed.

  Lemma hashed_shape c (loc : rvec) :
    (exists k, In k (h_cells p r in_grid order h c1 c2 c3) /\ in_drawing k c loc) <->
    exists q v, h_get (cell_at p) h q = (v, FoundInCell) /\ h_color c1 c2 c3 v = c /\
      Rabs (vx loc - vx (world_center p (cell_at p q))) <= r / 2 /\
      Rabs (vy loc - vy (world_center p (cell_at p q))) <= r / 2 /\
      Rabs (vz loc - vz (world_center p (cell_at p q))) <= r / 2.
  Proof.
    destruct (export_ok (cell_at p) (fun k i => to_world p (in_grid k i)) d oob frame ws order c1 c2 c3 Hd Ho every_cell)
      as (mc & mk & E & _ & _ & N1 & N2 & L1 & L2 & _ & I2 & _). fold h in E, I2.
    unfold h_cells. rewrite E, filter_app.
    assert (F1 : filter (fun k => match mk_ns k with
                        | Text n => String.eqb n "dynamic_spatial_hashed_collision_map_cells_display"
                        | _ => false end) (if (0 <? length (mk_points mc))%nat then [mc] else []) = []).
    { destruct (0 <? length (mk_points mc))%nat; auto. cbn [filter]. rewrite N1. reflexivity. }
    rewrite F1. cbn [app].
    assert (F2 : filter (fun k => match mk_ns k with
                        | Text n => String.eqb n "dynamic_spatial_hashed_collision_map_cells_display"
                        | _ => false end) (if (0 <? length (mk_points mk))%nat then [mk] else []) =
                 if (0 <? length (mk_points mk))%nat then [mk] else []).
    { destruct (0 <? length (mk_points mk))%nat; auto. cbn [filter]. rewrite N2. reflexivity. }
    rewrite F2. clear F1 F2 E N1 N2 L1. split.
    - intros (k & Hk & pt & q & Hq & Bx & By & Bz & Eq). apply in_map_iff in Hk as (k' & <- & Hk).
      assert (k' = mk) as -> by (destruct (0 <? length (mk_points mk))%nat; [destruct Hk as [Hk|[]]; auto|destruct Hk]).
      unfold in_world_frame in *. cbn [fst snd su_pose su_scale vx vy vz] in *. rewrite <- Eq.
      apply I2 in Hq as (l & v & Hv & -> & ->). cbn beta in *. rewrite place_cell in Bx, By, Bz. exists l, v. auto.
    - intros (q & v & Hv & <- & Bx & By & Bz).
      assert (Hq : In (world_center p (cell_at p q), h_color c1 c2 c3 v) (combine (mk_points mk) (mk_colors mk))).
      { apply I2. exists q, v. split; auto. split; auto. cbn beta. rewrite place_cell. reflexivity. }
      exists (in_world_frame (@V reals r r r), mk). split.
      + apply in_map_iff. exists mk. split; auto. destruct (mk_points mk) as [|a l]; [destruct Hq|]. left; auto.
      + exists (world_center p (cell_at p q)), loc. unfold in_world_frame. cbn [fst snd su_pose su_scale vx vy vz]. auto.
  Qed.

  Lemma hashed_fills t c (loc : rvec) : only_moves p t ->
    ((exists k, In k (h_cells p r in_grid order h c1 c2 c3) /\ in_drawing k c loc) <->
     exists q v, h_get (cell_at p) h q = (v, FoundInCell) /\ h_color c1 c2 c3 v = c /\ closed_cube r p (cell_at p q) loc).
  Proof.
    intros M. rewrite hashed_shape.
    split; intros (q & v & A & B & C); exists q, v; (split; [auto|]); (split; [auto|]); apply (moved_cube r p t); auto.
  Qed.
End Hash.

(** ** A turned grid *)
(** Cells of side one, turned about z by the angle with cosine 3/5 and sine 4/5. *)
Definition tilted : pose reals :=
  turned_pose 1 (2 / sqrt 5) (@V reals 0 0 (1 / sqrt 5)) (@V reals 0 0 0).

Lemma tilted_squares : 2 / sqrt 5 * (2 / sqrt 5) = 4 / 5 /\ 1 / sqrt 5 * (1 / sqrt 5) = 1 / 5 /\ 2 / sqrt 5 * (1 / sqrt 5) = 2 / 5.
Proof.
  assert (S : sqrt 5 * sqrt 5 = 5) by (apply sqrt_sqrt; lra).
  assert (N : sqrt 5 <> 0) by (intros E; rewrite E in S; lra).
  repeat split; [replace (2 / sqrt 5 * (2 / sqrt 5)) with (4 / (sqrt 5 * sqrt 5)) by (field; auto)
                |replace (1 / sqrt 5 * (1 / sqrt 5)) with (1 / (sqrt 5 * sqrt 5)) by (field; auto)
                |replace (2 / sqrt 5 * (1 / sqrt 5)) with (2 / (sqrt 5 * sqrt 5)) by (field; auto)]; rewrite S; lra.
Qed.

Lemma tilted_ok : geometry 1 tilted /\ rigid tilted (@V reals 0 0 0).
Proof.
  apply turned_ok; [lra|]. destruct tilted_squares as (A & B & _). unfold length_squared. cbn [vx vy vz]. rsimp. lra.
Qed.

Lemma tilted_origin : closed_cube 1 tilted (I 0 0 0) (@V reals 0 0 0) /\
  world_center tilted (I 0 0 0) = @V reals (- (1 / 10)) (7 / 10) (1 / 2).
Proof.
  destruct tilted_squares as (A & B & C). split.
  - unfold closed_cube, tilted. cbn [turned_pose to_grid]. vunfold. cbn [vx vy vz ix iy iz]. rsimp.
    unfold vsub. cbn [vx vy vz]. rsimp. generalize (2 / sqrt 5) (1 / sqrt 5). intros w z. repeat split; nra.
  - unfold world_center, tilted. cbn [turned_pose to_world center_of plain_pose]. vunfold. cbn [vx vy vz ix iy iz]. rsimp.
    revert A B C. generalize (2 / sqrt 5) (1 / sqrt 5). intros w z A B C. f_equal; nra.
Qed.

Lemma node_leaves_out frame alpha :
  let m := G (D 1 1 1) [1%Z] 0%Z in
  exists k, node_picture tilted 1 m frame alpha = Ok k /\
    fst (get m (I 0 0 0)) = 1%Z /\ closed_cube 1 tilted (I 0 0 0) (@V reals 0 0 0) /\
    forall c, ~ in_drawing k c (@V reals 0 0 0).
Proof.
  destruct tilted_origin as (C & W). intros m. eexists. split; [reflexivity|]. split; [reflexivity|]. split; [exact C|].
  intros c (pt & q & Hin & _ & By & _ & Eq). cbn [fst snd mk_points mk_colors in_world_frame su_pose su_scale vy] in *.
  assert (Hp : pt = world_center tilted (I 0 0 0)).
  { change (In (pt, c) [(world_center tilted (I 0 0 0), red alpha)]) in Hin. destruct Hin as [Hin|[]]. congruence. }
  rewrite Eq, Hp, W in By. cbn [vy] in By. unfold Rabs in By. destruct (Rcase_abs _); lra.
Qed.

Lemma hashed_leaves_out frame oob v in_grid order c1 c2 c3 : chunk_order order ->
  (forall k i, in_bounds (D 1 1 1) i = true ->
     in_grid k i = center_of tilted (I (ix k * 1 + ix i) (iy k * 1 + iy i) (iz k * 1 + iz i))) ->
  let loc := @V reals 0 0 0 in
  let h := apply_writes (cell_at tilted) (h_new frame (D 1 1 1) oob) [WCell loc v] in
  h_get (cell_at tilted) h loc = (v, FoundInCell) /\ closed_cube 1 tilted (cell_at tilted loc) loc /\
  forall c k, In k (h_cells tilted 1 in_grid order h c1 c2 c3) -> ~ in_drawing k c loc.
Proof.
  intros Ho Hin loc h. destruct tilted_ok as (Gt & _). destruct tilted_origin as (C & W).
  assert (Hd : chunk_ok (D 1 1 1)) by (repeat split).
  assert (E : cell_at tilted loc = I 0 0 0).
  { apply (cell_at_cube 1); auto; [lra|]. unfold in_cube.
    assert (Z0 : to_grid tilted loc = @V reals 0 0 0).
    { unfold loc, tilted. cbn [turned_pose to_grid]. vunfold. unfold vsub. cbn [vx vy vz]. rsimp.
      generalize (2 / sqrt 5) (1 / sqrt 5). intros w z. f_equal; ring. }
    rewrite Z0. cbn [vx vy vz ix iy iz]. lra. }
  split; [|split].
  - unfold h. cbn [apply_writes fold_left apply_write]. unfold h_get. rewrite E. unfold h_set_cell. rewrite E. reflexivity.
  - rewrite E. exact C.
  - intros c k Hk D0.
    destruct (proj1 (hashed_shape 1 tilted (D 1 1 1) oob frame [WCell loc v] in_grid order c1 c2 c3 Rlt_0_1 Gt Hd Ho Hin c loc))
      as (q & v' & Hq & _ & _ & By & _); [exists k; auto|].
    destruct (history (cell_at tilted) (D 1 1 1) oob frame Hd [WCell loc v] q) as (_ & _ & F).
    rewrite Hq in F. destruct (proj1 F) as (w & [<-|[]] & T); [cbn [snd]; discriminate|].
    assert (Eq : cell_at tilted q = I 0 0 0).
    { unfold touches, same_chunk in T. rewrite E in T. cbn [ix iy iz nx ny nz] in T. rewrite !Z.div_1_r in T.
      destruct (cell_at tilted q) as [x y z]. cbn [ix iy iz] in T. destruct T as (-> & -> & ->). reflexivity. }
    rewrite Eq, W in By. unfold loc in By. cbn [vy] in By. unfold Rabs in By. destruct (Rcase_abs _); lra.
Qed.

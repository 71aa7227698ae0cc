(** The boxes of the chunk marker. *)
From Coq Require Import Lia Reals Lra.
From Verif Require Import Base BaseFacts Floats Grid GridFacts CollisionMap SdfGen Arith SdfQuery QuerySpec QueryReal QueryThms QueryTurn
  Display DisplaySpec Hashed HashedSpec HashedProofs HashedThms Location LocationSpec LocationThms Markers MarkerSpec MarkerThms Blocks BlockSpec.
Open Scope R_scope.

Section Blocks.
  Variables (r : R) (p : pose reals) (d : dims) (oob : ccell) (frame : string) (ws : list (write rvec)).
  Variables (in_grid : idx -> idx -> rvec) (order : chunks -> chunks) (c1 c2 c3 : color).
  Hypothesis Hr : 0 < r.
  Hypothesis G : geometry r p.
  Hypothesis Hd : chunk_ok d.
  Hypothesis Ho : chunk_order order.

  Let h := apply_writes (cell_at p) (h_new frame d oob) ws.
  Notation spot q := (to_world p (in_grid (region_of d (cell_at p q)) (I 0 0 0))).

  Lemma blocks_shape c (loc : rvec) :
    (exists k, In k (h_blocks p (block_sizes r d) in_grid order h c1 c2 c3) /\ in_drawing k c loc) <->
    exists q v, h_get (cell_at p) h q = (v, FoundInChunk) /\ h_color c1 c2 c3 v = c /\
      Rabs (vx loc - vx (spot q)) <= r * IZR (nx d) / 2 /\
      Rabs (vy loc - vy (spot q)) <= r * IZR (ny d) / 2 /\
      Rabs (vz loc - vz (spot q)) <= r * IZR (nz d) / 2.
  Proof using Hr G Hd Ho.
    destruct (export_ok (cell_at p) (fun k i => to_world p (in_grid k i)) d oob frame ws order c1 c2 c3 Hd Ho (every_cell r p Hr G))
      as (mc & mk & E & _ & _ & N1 & N2 & L1 & L2 & I1 & _ & _). fold h in E, I1.
    unfold h_blocks. rewrite E, filter_app.
    assert (F1 : filter (fun k => match mk_ns k with
                        | Text n => String.eqb n "dynamic_spatial_hashed_collision_map_chunks_display"
                        | _ => false end) (if (0 <? length (mk_points mk))%nat then [mk] else []) = []).
    { destruct (0 <? length (mk_points mk))%nat; auto. cbn [filter]. rewrite N2. reflexivity. }
    rewrite F1, app_nil_r.
    assert (F2 : filter (fun k => match mk_ns k with
                        | Text n => String.eqb n "dynamic_spatial_hashed_collision_map_chunks_display"
                        | _ => false end) (if (0 <? length (mk_points mc))%nat then [mc] else []) =
                 if (0 <? length (mk_points mc))%nat then [mc] else []).
    { destruct (0 <? length (mk_points mc))%nat; auto. cbn [filter]. rewrite N1. reflexivity. }
    rewrite F2. clear F1 F2 E N1 N2 L2. split.
    - intros (k & Hk & pt & q & Hq & Bx & By & Bz & Eq). apply in_map_iff in Hk as (k' & <- & Hk).
      assert (k' = mc) as -> by (destruct (0 <? length (mk_points mc))%nat; [destruct Hk as [Hk|[]]; auto|destruct Hk]).
      unfold in_world_frame, block_sizes in *. cbn [fst snd su_pose su_scale vx vy vz] in *. rewrite <- Eq.
      apply I1 in Hq as (l & v & Hv & -> & ->). cbn beta in *. exists l, v. auto.
    - intros (q & v & Hv & <- & Bx & By & Bz).
      assert (Hq : In (spot q, h_color c1 c2 c3 v) (combine (mk_points mc) (mk_colors mc))).
      { apply I1. exists q, v. split; auto. }
      exists (in_world_frame (block_sizes r d), mc). split.
      + apply in_map_iff. exists mc. split; auto. destruct (mk_points mc) as [|a l]; [destruct Hq|]. left; auto.
      + exists (spot q), loc. unfold in_world_frame, block_sizes. cbn [fst snd su_pose su_scale vx vy vz]. auto.
  Qed.

  Lemma moved_back t (loc : rvec) : only_moves p t -> loc = vadd t (to_grid p loc).
  Proof using G. intros M. rewrite <- M. symmetry. apply (g_back_and_there _ _ G). Qed.

  Lemma box_half s k v : 0 < s -> (Rabs (v - s * (k + 1 / 2)) <= s / 2 <-> s * k <= v <= s * (k + 1)).
  Proof using. clear h Hr. intros Hs. apply half_box. exact Hs. Qed.

  Lemma sides : 0 < r * IZR (nx d) /\ 0 < r * IZR (ny d) /\ 0 < r * IZR (nz d).
  Proof using Hr Hd. destruct Hd as (A & B & C). repeat split; apply Rmult_lt_0_compat; auto; apply IZR_lt; assumption. Qed.

  Lemma blocks_fill t c (loc : rvec) : only_moves p t -> (forall k, in_grid k (I 0 0 0) = block_center r d k) ->
    ((exists k, In k (h_blocks p (block_sizes r d) in_grid order h c1 c2 c3) /\ in_drawing k c loc) <->
     exists q v, h_get (cell_at p) h q = (v, FoundInChunk) /\ h_color c1 c2 c3 v = c /\
       closed_block r p d (region_of d (cell_at p q)) loc).
  Proof using Hr G Hd Ho.
    intros M Hc. rewrite blocks_shape. pose proof (moved_back t loc M) as El. destruct sides as (S1 & S2 & S3).
    assert (Q : forall q, (Rabs (vx loc - vx (spot q)) <= r * IZR (nx d) / 2 /\
      Rabs (vy loc - vy (spot q)) <= r * IZR (ny d) / 2 /\ Rabs (vz loc - vz (spot q)) <= r * IZR (nz d) / 2) <->
      closed_block r p d (region_of d (cell_at p q)) loc).
    { intros q. rewrite Hc, M. set (k := region_of d (cell_at p q)). clearbody k. unfold closed_block. cbv zeta.
      rewrite <- (box_half _ (IZR (ix k)) _ S1), <- (box_half _ (IZR (iy k)) _ S2), <- (box_half _ (IZR (iz k)) _ S3).
      replace (vx loc) with (vx t + vx (to_grid p loc)) by (rewrite El at 2; reflexivity).
      replace (vy loc) with (vy t + vy (to_grid p loc)) by (rewrite El at 2; reflexivity).
      replace (vz loc) with (vz t + vz (to_grid p loc)) by (rewrite El at 2; reflexivity).
      unfold block_center, vadd. cbn [vx vy vz]. rsimp. set (g := to_grid p loc). clearbody g.
      assert (K : forall a b e, a + b - (a + e) = b - e) by (intros; ring). rewrite !K. tauto. }
    split; intros (q & v & A & B & C); exists q, v; (split; [exact A|]); (split; [exact B|]); apply Q; exact C.
  Qed.
End Blocks.

(** ** When the place of a whole chunk is that of its first cell *)
Lemma first_cell_leaves_out r p t d oob frame v in_grid order c1 c2 c3 : 0 < r -> geometry r p -> only_moves p t -> chunk_ok d -> chunk_order order ->
  (1 < nx d \/ 1 < ny d \/ 1 < nz d)%Z ->
  (forall k, in_grid k (I 0 0 0) = center_of p (I (ix k * nx d) (iy k * ny d) (iz k * nz d))) ->
  exists loc, let h := apply_writes (cell_at p) (h_new frame d oob) [WChunk loc v] in
    h_get (cell_at p) h loc = (v, FoundInChunk) /\
    forall c k, In k (h_blocks p (block_sizes r d) in_grid order h c1 c2 c3) -> ~ in_drawing k c loc.
Proof.
  intros Hr G M Hd Ho Big Hin. pose proof Hd as (D1 & D2 & D3).
  set (corner := @V reals (r * (IZR (nx d) - 1 / 4)) (r * (IZR (ny d) - 1 / 4)) (r * (IZR (nz d) - 1 / 4))).
  exists (to_world p corner). set (loc := to_world p corner). intros h.
  assert (E : cell_at p loc = I (nx d - 1) (ny d - 1) (nz d - 1)).
  { apply (cell_at_cube r); auto. unfold in_cube, loc. rewrite (g_there_and_back _ _ G). unfold corner. cbn [vx vy vz ix iy iz].
    rewrite !minus_IZR. repeat split; (apply Rmult_le_compat_l || apply Rmult_lt_compat_l); lra. }
  assert (Rg : region_of d (cell_at p loc) = I 0 0 0).
  { rewrite E. unfold region_of. cbn [ix iy iz]. f_equal; apply Z.div_small; lia. }
  split.
  { unfold h. cbn [apply_writes fold_left apply_write]. unfold h_get, h_set_chunk. cbn [fst with_chunk h_chunks h_chunk h_new].
    rewrite chunk_get_put. replace (idx_eqb _ _) with true; [reflexivity|]. symmetry. apply idx_eqb_eq. reflexivity. }
  intros c k Hk Dr.
  destruct (proj1 (blocks_shape r p d oob frame [WChunk loc v] in_grid order c1 c2 c3 Hr G Hd Ho c loc)) as (q & w & Hq & _ & Bx & By & Bz);
    [exists k; auto|].
  destruct (history (cell_at p) d oob frame Hd [WChunk loc v] q) as (_ & _ & F). rewrite Hq in F.
  destruct (proj1 F) as (w' & [<-|[]] & T); [cbn [snd]; discriminate|].
  assert (Rq : region_of d (cell_at p q) = I 0 0 0).
  { rewrite <- Rg. symmetry. unfold touches in T. unfold region_of. destruct T as (-> & -> & ->). reflexivity. }
  rewrite Rq, Hin, M in Bx, By, Bz. unfold loc in Bx, By, Bz. rewrite M in Bx, By, Bz.
  rewrite (g_center _ _ G) in Bx, By, Bz. unfold corner, vadd in Bx, By, Bz. cbn [vx vy vz ix iy iz] in Bx, By, Bz.
  revert Bx By Bz. rsimp. rewrite !Z.mul_0_l.
  assert (K : forall n, (1 < n)%Z -> forall a, Rabs (a + r * (IZR n - 1 / 4) - (a + r * (0 + 1 / 2))) <= r * IZR n / 2 -> False).
  { intros n Hn a B. assert (2 <= IZR n) by (apply IZR_le; lia). rewrite Rabs_pos_eq in B; nra. }
  intros Bx By Bz. destruct Big as [B|[B|B]]; [exact (K _ B _ Bx)|exact (K _ B _ By)|exact (K _ B _ Bz)].
Qed.

(** ** In a turned grid *)
Lemma turned_leaves_out n oob frame v in_grid order c1 c2 c3 : (0 < n)%Z -> chunk_order order ->
  let d := D n n n in
  (forall k, in_grid k (I 0 0 0) = block_center 1 d k) ->
  let loc := @V reals 0 0 0 in
  let h := apply_writes (cell_at tilted) (h_new frame d oob) [WChunk loc v] in
  h_get (cell_at tilted) h loc = (v, FoundInChunk) /\ closed_block 1 tilted d (I 0 0 0) loc /\
  forall c k, In k (h_blocks tilted (block_sizes 1 d) in_grid order h c1 c2 c3) -> ~ in_drawing k c loc.
Proof.
  intros Hn Ho d Hin loc h. destruct tilted_ok as (Gt & _).
  assert (Hd : chunk_ok d) by (repeat split; exact Hn).
  assert (N : 0 < IZR n) by (apply IZR_lt; exact Hn).
  assert (Z0 : to_grid tilted loc = @V reals 0 0 0).
  { unfold loc, tilted. cbn [turned_pose to_grid]. vunfold. unfold vsub. cbn [vx vy vz]. rsimp.
    generalize (2 / sqrt 5) (1 / sqrt 5). intros w z. f_equal; ring. }
  assert (E : cell_at tilted loc = I 0 0 0).
  { apply (cell_at_cube 1); auto; [lra|]. unfold in_cube. rewrite Z0. cbn [vx vy vz ix iy iz]. lra. }
  assert (Rg : region_of d (cell_at tilted loc) = I 0 0 0) by (rewrite E; reflexivity).
  split; [|split].
  - unfold h. cbn [apply_writes fold_left apply_write]. unfold h_get, h_set_chunk. cbn [fst with_chunk h_chunks h_chunk h_new].
    rewrite chunk_get_put. replace (idx_eqb _ _) with true; [reflexivity|]. symmetry. apply idx_eqb_eq. reflexivity.
  - unfold closed_block. rewrite Z0. unfold d. cbn [vx vy vz ix iy iz nx ny nz]. lra.
  - intros c k Hk Dr.
    destruct (proj1 (blocks_shape 1 tilted d oob frame [WChunk loc v] in_grid order c1 c2 c3 Rlt_0_1 Gt Hd Ho c loc))
      as (q & w & Hq & _ & _ & By & _); [exists k; auto|].
    destruct (history (cell_at tilted) d oob frame Hd [WChunk loc v] q) as (_ & _ & F). rewrite Hq in F.
    destruct (proj1 F) as (w' & [<-|[]] & T); [cbn [snd]; discriminate|].
    assert (Rq : region_of d (cell_at tilted q) = I 0 0 0).
    { rewrite <- Rg. symmetry. unfold touches in T. unfold region_of. destruct T as (-> & -> & ->). reflexivity. }
    rewrite Rq, Hin in By.
    assert (W : vy (to_world tilted (block_center 1 d (I 0 0 0))) = 7 / 10 * IZR n).
    { unfold tilted, block_center, d. cbn [turned_pose to_world]. vunfold. cbn [vx vy vz ix iy iz nx ny nz]. rsimp.
      pose proof (sqrt_sqrt 5 ltac:(lra)) as S. assert (sqrt 5 <> 0) by (intros Q; rewrite Q in S; lra).
      field_simplify; [|assumption]. replace (sqrt 5 ^ 2) with 5 by (cbn [pow]; lra). field. }
    rewrite W in By. unfold loc, d in By. cbn [vy ny] in By. unfold Rabs in By. destruct (Rcase_abs _); lra.
Qed.

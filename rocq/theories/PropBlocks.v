(** C134: the chunk marker of the hashed map. *)
From Coq Require Import Lia Reals Lra.
From Verif Require Import Base BaseFacts Floats Grid GridFacts CollisionMap SdfGen Arith SdfQuery QuerySpec QueryReal QueryThms QueryTurn
  Display DisplaySpec Hashed HashedSpec HashedProofs HashedThms Location LocationSpec LocationThms Markers MarkerSpec MarkerThms Blocks BlockSpec BlockThms.
Open Scope R_scope.

(** C134: the boxes drawn for whole chunks fill exactly the chunks that were written as a
    whole and not divided since, each in the colour of its value.  Partial: the grid's pose
    only moves, and the library places a whole chunk at its centre when asked for (0, 0, 0). *)
Theorem C134_blocks_partial : forall r p t, 0 < r -> geometry r p -> only_moves p t ->
  forall d oob frame ws in_grid order collision free unknown, chunk_ok d -> chunk_order order ->
    (forall k, in_grid k (I 0 0 0) = block_center r d k) ->
    let h := apply_writes (cell_at p) (h_new frame d oob) ws in
    forall c loc,
      (exists k, In k (h_blocks p (block_sizes r d) in_grid order h collision free unknown) /\ in_drawing k c loc) <->
      exists q v, h_get (cell_at p) h q = (v, FoundInChunk) /\
        class_color collision free unknown (c_occ v) = c /\
        closed_block r p d (I (ix (cell_at p q) / nx d) (iy (cell_at p q) / ny d) (iz (cell_at p q) / nz d)) loc.
Proof.
  intros r p t Hr G M d oob frame ws in_grid order c1 c2 c3 Hd Ho Hc h c loc.
  exact (blocks_fill r p d oob frame ws in_grid order c1 c2 c3 Hr G Hd Ho t c loc M Hc).
Qed.
Print Assumptions C134_blocks_partial.

(** If the library gives the centre of cell (0, 0, 0) there, as it does for the cells of a
    divided chunk, the drawing is wrong for every chunk of more than one cell: a chunk is
    written at a location that no box contains. *)
Theorem C134_first_cell_refuted : forall r p t, 0 < r -> geometry r p -> only_moves p t ->
  forall d oob frame v in_grid order collision free unknown, chunk_ok d -> chunk_order order ->
    (1 < nx d \/ 1 < ny d \/ 1 < nz d)%Z ->
    (forall k, in_grid k (I 0 0 0) = center_of p (I (ix k * nx d) (iy k * ny d) (iz k * nz d))) ->
    exists loc, let h := apply_writes (cell_at p) (h_new frame d oob) [WChunk loc v] in
      h_get (cell_at p) h loc = (v, FoundInChunk) /\
      forall c k, In k (h_blocks p (block_sizes r d) in_grid order h collision free unknown) -> ~ in_drawing k c loc.
Proof.
  intros r p t Hr G M d oob frame v in_grid order c1 c2 c3 Hd Ho Big Hin.
  exact (first_cell_leaves_out r p t d oob frame v in_grid order c1 c2 c3 Hr G M Hd Ho Big Hin).
Qed.
Print Assumptions C134_first_cell_refuted.

(** In a turned grid the claim is false even if the library gives the centre of the chunk:
    for cubic chunks of any size, the very location that was written is outside every box. *)
Theorem C134_turned_refuted : exists r p t loc, 0 < r /\ geometry r p /\ rigid p t /\
  forall n, (0 < n)%Z -> let d := D n n n in
  forall v oob frame in_grid order collision free unknown, chunk_order order ->
    (forall k, in_grid k (I 0 0 0) = block_center r d k) ->
    let h := apply_writes (cell_at p) (h_new frame d oob) [WChunk loc v] in
    h_get (cell_at p) h loc = (v, FoundInChunk) /\ closed_block r p d (I 0 0 0) loc /\
    forall c k, In k (h_blocks p (block_sizes r d) in_grid order h collision free unknown) -> ~ in_drawing k c loc.
Proof.
  destruct tilted_ok as (Gt & Rt). exists 1, tilted, (@V reals 0 0 0), (@V reals 0 0 0).
  split; [lra|]. split; [exact Gt|]. split; [exact Rt|].
  intros n Hn d v oob frame in_grid order c1 c2 c3 Ho Hin.
  exact (turned_leaves_out n oob frame v in_grid order c1 c2 c3 Hn Ho Hin).
Qed.
Print Assumptions C134_turned_refuted.

(** With chunks of a single cell both places are the same. *)
Theorem C134_single_cell : forall r p, geometry r p -> forall k,
  center_of p (I (ix k * 1) (iy k * 1) (iz k * 1)) = block_center r (D 1 1 1) k.
Proof.
  intros r p G k. rewrite (g_center _ _ G). unfold block_center. cbn [ix iy iz nx ny nz]. rewrite !Z.mul_1_r, !Rmult_1_r. reflexivity.
Qed.
Print Assumptions C134_single_cell.

(** Non-vacuity: chunks of 4 x 4 x 2 cells of side a half, at the origin of the world; one
    chunk is written. *)
Example C134_nonvacuous :
  let p := plain_pose (1 / 2) in let d := D 4 4 2 in
  0 < 1 / 2 /\ geometry (1 / 2) p /\ only_moves p (@V reals 0 0 0) /\ chunk_ok d /\ chunk_order (fun l => l) /\
  (1 < nx d)%Z /\
  h_get (cell_at p) (apply_writes (cell_at p) (h_new "map" d (CC half32 0)) [WChunk (@V reals 0 0 0) (CC one32 0)]) (@V reals 0 0 0)
    = (CC one32 0, FoundInChunk).
Proof.
  cbv zeta. split; [lra|]. split; [apply plain_geometry; lra|]. split.
  { intros [x y z]. unfold plain_pose, vadd. cbn [to_world vx vy vz]. rsimp. f_equal; asR; ring. }
  split; [repeat split|]. split; [intros l; apply Permutation.Permutation_refl|]. split; [reflexivity|].
  cbn [apply_writes fold_left apply_write]. unfold h_get, h_set_chunk. cbn [fst with_chunk h_chunks h_chunk h_new].
  rewrite chunk_get_put. replace (idx_eqb _ _) with true; [reflexivity|]. symmetry. apply idx_eqb_eq. reflexivity.
Qed.

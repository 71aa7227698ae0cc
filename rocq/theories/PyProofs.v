(** Proofs about the Python helpers. *)
From Coq Require Import Lia Reals Lra.
From Flocq Require Import Core.Core IEEE754.Binary IEEE754.Bits.
From Verif Require Import Base BaseFacts Floats FloatFacts FloatFacts2 Grid GridFacts DistSpec CollisionMap SdfGen SdfSpec
  SdfGenProofs SdfThms SdfBorderThms Arith SdfQuery SdfField QueryProofs DisplaySdf Python PySpec.
Local Open Scope Z_scope.

(** ** Float to double and back *)
Lemma widen_back v : is_nan 24 128 v = false -> b32_of_b64 (b64_of_b32 v) = v.
Proof.
  destruct v as [s|s|s p H|s m e H]; intros N; try discriminate; try reflexivity.
  set (x := B754_finite 24 128 s m e H) in *.
  destruct (widen_finite x eq_refl) as (F & E).
  assert (N2 : is_nan 53 1024 (b64_of_b32 x) = false) by (destruct (b64_of_b32 x); auto; discriminate).
  destruct (to32_xr _ N2) as (N3 & X).
  assert (X2 : xr32 (b32_of_b64 (b64_of_b32 x)) = B2R 24 128 x).
  { rewrite X. replace (xr64 (b64_of_b32 x)) with (B2R 24 128 x).
    2: { unfold xr64. destruct (b64_of_b32 x); cbn [xr]; try discriminate; cbn in E |- *; auto. }
    rewrite round_generic; [|apply valid_rnd_N|apply generic_format_B2R].
    apply clamp_in. pose proof (Rabs_def2 _ _ (abs_B2R_lt_emax 24 128 x)); lra. }
  assert (F3 : is_finite 24 128 (b32_of_b64 (b64_of_b32 x)) = true).
  { pose proof (abs_B2R_lt_emax 24 128 x) as L. rewrite <- X2 in L.
    destruct (b32_of_b64 (b64_of_b32 x)) as [b|b|b pl HH|b mm ee HH]; auto; try discriminate.
    exfalso. unfold xr32 in L. cbn [xr] in L. destruct b; cbn [negb] in L.
    all: rewrite ?Rabs_Ropp, Rabs_pos_eq in L by (apply bpow_ge_0); lra. }
  assert (E3 : B2R 24 128 (b32_of_b64 (b64_of_b32 x)) = B2R 24 128 x).
  { rewrite <- X2. unfold xr32. symmetry. apply xr_finite. auto. }
  apply B2R_inj; auto.
  assert (NZ : B2R 24 128 x <> 0%R).
  { unfold x. cbn [B2R]. destruct s; cbn [SpecFloat.cond_Zopp]; (try apply F2R_neq_0; discriminate). }
  rewrite <- E3 in NZ. destruct (b32_of_b64 (b64_of_b32 x)); auto; exfalso; apply NZ; reflexivity.
Qed.

(** ** Offsets *)
Lemma in_range i n : 0 <= i < n -> (0 <=? i) && (i <? n) = true.
Proof. intros. apply andb_true_iff. rewrite Z.leb_le, Z.ltb_lt. lia. Qed.

Lemma nth_error_concat {T} (k : nat) : forall (l : list (list T)) n c row,
  (forall q, In q l -> length q = k) -> nth_error l n = Some row -> (c < k)%nat ->
  nth_error (concat l) (n * k + c) = nth_error row c.
Proof.
  induction l as [|q l IH]; intros n c row H E Hc; [destruct n; discriminate|].
  assert (Hq : length q = k) by (apply H; left; auto).
  destruct n as [|n]; cbn in E |- *.
  - injection E as ->. rewrite nth_error_app1 by lia. auto.
  - rewrite nth_error_app2 by lia. replace (k + n * k + c - length q)%nat with (n * k + c)%nat by lia.
    apply IH; auto. intros; apply H; right; auto.
Qed.

Lemma concat_length_const {T} (k : nat) (l : list (list T)) :
  (forall q, In q l -> length q = k) -> length (concat l) = (length l * k)%nat.
Proof.
  induction l as [|q l IH]; intros H; cbn; auto. rewrite app_length, IH, (H q); auto; [left; auto|].
  intros; apply H; right; auto.
Qed.

Lemma data_length {T} (g : grid T) : wf_grid g -> Z.of_nat (length (gdata g)) = ncells (gdims g).
Proof. intros (H1 & H2 & H3 & H). rewrite H. unfold ncells. rewrite Z2Nat.id; auto. nia. Qed.

Lemma bounds_of d x y z : in_bounds d (I x y z) = true <-> 0 <= x < nx d /\ 0 <= y < ny d /\ 0 <= z < nz d.
Proof. rewrite in_bounds_spec. cbn [ix iy iz]. lia. Qed.

(** The raw data of a grid of dimensions d, reshaped and transposed. *)
Section Values.
  Context {T U : Type} (g : grid T) (h : T -> U).
  Hypothesis Hw : wf_grid g.

  Let d := gdims g.
  Let raw := from_list (map h (gdata g)).

  Lemma raw_reshape s : prod s = ncells d -> reshape raw s = Ok (ND s (row_major s) (map h (gdata g))).
  Proof.
    intros E. unfold reshape, raw, from_list. cbn [buffer]. rewrite map_length, data_length by auto.
    fold d. rewrite E, Z.eqb_refl. auto.
  Qed.

  Lemma raw_reshape_fails s : prod s <> ncells d -> reshape raw s = Throw "ValueError".
  Proof.
    intros E. unfold reshape, raw, from_list. cbn [buffer]. rewrite map_length, data_length by auto.
    fold d. apply Z.eqb_neq in E. rewrite E. auto.
  Qed.

  Lemma raw_nth x y z : in_bounds d (I x y z) = true ->
    nth_error (map h (gdata g)) (Z.to_nat (x * (ny d * nz d) + y * nz d + z)) = Some (h (gget g (I x y z))).
  Proof.
    intros B. rewrite nth_error_map. change (x * (ny d * nz d) + y * nz d + z) with (data_index (gdims g) (I x y z)).
    rewrite gget_nth_error by auto. auto.
  Qed.

  Lemma item_yxz x y z : in_bounds d (I x y z) = true ->
    item (transpose [1; 0; 2]%nat (ND [nx d; ny d; nz d] (row_major [nx d; ny d; nz d]) (map h (gdata g)))) [y; x; z] =
      Some (h (gget g (I x y z))).
  Proof.
    intros B. pose proof B as B'. apply bounds_of in B' as (B1 & B2 & B3).
    unfold item, transpose. cbn [shape strides buffer map nth row_major prod fold_right offset].
    rewrite !in_range by lia. rewrite <- raw_nth by auto. do 2 f_equal. ring.
  Qed.

  Lemma item_yx x y : nz d = 1 -> in_bounds d (I x y 0) = true ->
    item (transpose [1; 0]%nat (ND [nx d; ny d] (row_major [nx d; ny d]) (map h (gdata g)))) [y; x] =
      Some (h (gget g (I x y 0))).
  Proof.
    intros E B. pose proof B as B'. apply bounds_of in B' as (B1 & B2 & B3).
    unfold item, transpose. cbn [shape strides buffer map nth row_major prod fold_right offset].
    rewrite !in_range by lia. rewrite <- raw_nth by auto. rewrite E. do 2 f_equal. ring.
  Qed.

  Lemma item_xy x y : nz d = 1 -> in_bounds d (I x y 0) = true ->
    item (ND [nx d; ny d] (row_major [nx d; ny d]) (map h (gdata g))) [x; y] = Some (h (gget g (I x y 0))).
  Proof.
    intros E B. pose proof B as B'. apply bounds_of in B' as (B1 & B2 & B3).
    unfold item. cbn [shape strides buffer map nth row_major prod fold_right offset].
    rewrite !in_range by lia. rewrite <- raw_nth by auto. rewrite E. do 2 f_equal. ring.
  Qed.
End Values.

Lemma item_astype {T U} (f : T -> U) a l : item (astype f a) l = option_map f (item a l).
Proof.
  unfold item, astype. cbn [shape strides buffer]. destruct (offset (shape a) (strides a) l); auto.
  rewrite nth_error_map. auto.
Qed.

(** Component k of a gradient. *)
Definition component (g : vec ieee) (k : Z) : binary64 := if k =? 0 then vx g else if k =? 1 then vy g else vz g.

(** The raw data of a grid of gradients. *)
Section Gradients.
  Variable g : grid (option (vec ieee)).
  Variable G : idx -> vec ieee.
  Let d := gdims g.
  Hypothesis Hw : wf_grid g.
  Hypothesis HG : forall i, in_bounds d i = true -> gget g i = Some (G i).

  Let rows := map vec_list (gdata g).

  Lemma rows_three q : In q rows -> length q = 3%nat.
  Proof.
    intros H. apply in_map_iff in H as (v & <- & H). rewrite gdata_sweep in H by auto.
    apply in_map_iff in H as (i & <- & Hi). apply sweep_in in Hi. rewrite HG by auto. auto.
  Qed.

  Lemma raw_gradient_ok : 0 < ncells d ->
    raw_gradient g = Ok (ND [ncells d; 3] [3; 1] (concat rows)).
  Proof.
    intros P. unfold raw_gradient. fold rows.
    assert (L : Z.of_nat (length rows) = ncells d).
    { unfold rows. rewrite map_length. apply data_length; auto. }
    pose proof rows_three as R. destruct rows as [|r l] eqn:E; [cbn in L; lia|].
    unfold from_lists. replace (forallb _ _) with true.
    - rewrite L, (R r) by (left; auto). auto.
    - symmetry. apply forallb_forall. intros q Hq. rewrite (R q), (R r); auto. left; auto.
  Qed.

  Lemma raw_gradient_empty : ncells d = 0 -> raw_gradient g = Ok (ND [0] [1] []).
  Proof.
    intros P. unfold raw_gradient. pose proof (data_length g Hw) as L. fold d in L.
    destruct (gdata g); [auto|cbn [length] in L; lia].
  Qed.

  Lemma gradient_reshape s : prod s = ncells d * 3 ->
    reshape (ND [ncells d; 3] [3; 1] (concat rows)) s = Ok (ND s (row_major s) (concat rows)).
  Proof.
    intros E. unfold reshape. cbn [buffer]. rewrite (concat_length_const 3) by apply rows_three.
    unfold rows. rewrite map_length, Nat2Z.inj_mul, data_length by auto. fold d. rewrite E, Z.eqb_refl. auto.
  Qed.

  Lemma gradient_nth x y z k : in_bounds d (I x y z) = true -> 0 <= k < 3 ->
    nth_error (concat rows) (Z.to_nat ((x * (ny d * nz d) + y * nz d + z) * 3 + k)) = Some (component (G (I x y z)) k).
  Proof.
    intros B K. pose proof B as B'. apply bounds_of in B' as (B1 & B2 & B3).
    assert (P1 : 0 <= x * (ny d * nz d)) by (apply Z.mul_nonneg_nonneg; [lia|apply Z.mul_nonneg_nonneg; lia]).
    assert (P2 : 0 <= y * nz d) by (apply Z.mul_nonneg_nonneg; lia).
    assert (P : 0 <= x * (ny d * nz d) + y * nz d + z) by lia.
    rewrite Z2Nat.inj_add, Z2Nat.inj_mul by lia. change (Z.to_nat 3) with 3%nat.
    rewrite (nth_error_concat 3) with (row := vec_list (Some (G (I x y z)))).
    - unfold component. assert (C : k = 0 \/ k = 1 \/ k = 2) by lia. destruct C as [->|[->| ->]]; reflexivity.
    - apply rows_three.
    - unfold rows. rewrite nth_error_map.
      change (x * (ny d * nz d) + y * nz d + z) with (data_index (gdims g) (I x y z)).
      rewrite gget_nth_error by auto. rewrite HG by auto. auto.
    - lia.
  Qed.

  Let a3 := ND [nx d; ny d; nz d; 3] (row_major [nx d; ny d; nz d; 3]) (concat rows).
  Let a2 := first_of_last 2 (ND [nx d; ny d; 3] (row_major [nx d; ny d; 3]) (concat rows)).

  Lemma gradient_xyz x y z k : in_bounds d (I x y z) = true -> 0 <= k < 3 ->
    item a3 [x; y; z; k] = Some (component (G (I x y z)) k).
  Proof.
    intros B K. rewrite <- gradient_nth by auto. apply bounds_of in B as (B1 & B2 & B3).
    unfold item, a3. cbn [shape strides buffer map nth row_major prod fold_right offset].
    rewrite !in_range by lia. do 2 f_equal. ring.
  Qed.

  Lemma gradient_yxz x y z k : in_bounds d (I x y z) = true -> 0 <= k < 3 ->
    item (transpose [1; 0; 2; 3]%nat a3) [y; x; z; k] = Some (component (G (I x y z)) k).
  Proof.
    intros B K. rewrite <- gradient_nth by auto. apply bounds_of in B as (B1 & B2 & B3).
    unfold item, a3, transpose. cbn [shape strides buffer map nth row_major prod fold_right offset].
    rewrite !in_range by lia. do 2 f_equal. ring.
  Qed.

  Lemma gradient_xy x y k : nz d = 1 -> in_bounds d (I x y 0) = true -> 0 <= k < 2 ->
    item a2 [x; y; k] = Some (component (G (I x y 0)) k).
  Proof.
    intros E B K. rewrite <- gradient_nth by (auto; lia). apply bounds_of in B as (B1 & B2 & B3).
    unfold item, a2, first_of_last.
    cbn [shape strides buffer map nth row_major prod fold_right offset removelast last app].
    rewrite !in_range by lia. do 2 f_equal. rewrite E. ring.
  Qed.

  Lemma gradient_yx x y k : nz d = 1 -> in_bounds d (I x y 0) = true -> 0 <= k < 2 ->
    item (transpose [1; 0; 2]%nat a2) [y; x; k] = Some (component (G (I x y 0)) k).
  Proof.
    intros E B K. rewrite <- gradient_nth by (auto; lia). apply bounds_of in B as (B1 & B2 & B3).
    unfold item, a2, first_of_last, transpose.
    cbn [shape strides buffer map nth row_major prod fold_right offset removelast last app].
    rewrite !in_range by lia. do 2 f_equal. rewrite E. ring.
  Qed.

  (** gradient_to_np always fails on a grid that has cells. *)
  Lemma gradient_to_np_fails : 0 < ncells d -> gradient_to_np g = Throw "ValueError".
  Proof.
    intros P. unfold gradient_to_np. rewrite raw_gradient_ok by auto. cbn [bind]. unfold reshape. cbn [buffer].
    rewrite (concat_length_const 3) by apply rows_three.
    unfold rows. rewrite map_length, Nat2Z.inj_mul, data_length by auto. fold d.
    destruct Hw as (H1 & H2 & H3 & _). fold d in H1, H2, H3.
    replace (prod [nx d; ny d] =? _) with false; auto. symmetry. apply Z.eqb_neq.
    cbn [prod fold_right]. unfold ncells in *. rewrite Z.mul_1_r.
    assert (Q : 0 <= nx d * ny d) by (apply Z.mul_nonneg_nonneg; auto).
    change (Z.of_nat 3) with 3. intros E. clear - P Q H3 E. generalize dependent (nx d * ny d). intros q P Q E.
    assert (N : nz d <> 0) by (intros N; rewrite N, Z.mul_0_r in P; lia).
    assert (M : q * 1 <= q * nz d) by (apply Z.mul_le_mono_nonneg_l; lia). lia.
  Qed.
End Gradients.

(** ** The gradient of a field *)
Lemma gradient_some s p i : in_bounds (sdf_dims s) i = true -> exists v, gradient (sdf_field s) p i true = Some v.
Proof.
  intros B. unfold gradient, grid_aligned_gradient. destruct i as [x y z].
  change (f_dims (sdf_field s)) with (sdf_dims s). rewrite B.
  destruct (interior (sdf_dims s) (I x y z)); eauto.
Qed.

Definition gradient_of (s : sdf) (p : pose ieee) (i : idx) : vec ieee :=
  match gradient (sdf_field s) p i true with Some v => v | None => @V ieee zero64 zero64 zero64 end.

Lemma gradient_of_spec s p i : in_bounds (sdf_dims s) i = true ->
  gradient (sdf_field s) p i true = Some (gradient_of s p i).
Proof. intros B. unfold gradient_of. destruct (gradient_some s p i B) as (v & ->). auto. Qed.

Lemma gradient_grid_facts s p : wf_grid (s_grid s) ->
  wf_grid (gradient_grid s p) /\ gdims (gradient_grid s p) = sdf_dims s /\
  forall i, in_bounds (sdf_dims s) i = true -> gget (gradient_grid s p) i = Some (gradient_of s p i).
Proof.
  intros W. pose proof W as (H1 & H2 & H3 & _). split; [|split].
  - unfold gradient_grid, full_gradient. apply fold_left_inv with (I := wf_grid).
    + apply mk_grid_wf; auto.
    + intros g i _ Hg. apply gset_wf; auto.
  - unfold gradient_grid, full_gradient.
    apply fold_left_inv with (I := fun g => gdims g = sdf_dims s); [reflexivity|].
    intros g i _ Hg. change (gdims (gset g i (gradient (sdf_field s) p i true)) = sdf_dims s). rewrite gset_dims. auto.
  - intros i B. unfold gradient_grid. rewrite full_gradient_spec; auto. apply gradient_of_spec; auto.
Qed.

(** ** The environment *)
Section Env.
  Variables (env : ndarray Z) (at_ : idx -> list Z) (d : dims) (frame : string) (r : binary64).
  Hypothesis Hs : size_ok d.
  Hypothesis Hr : usable_resolution r.
  Hypothesis Hitem : forall i, in_bounds d i = true -> exists v, item env (at_ i) = Some v.

  Definition marked (i : idx) : bool := match item env (at_ i) with Some v => v =? 1 | None => false end.

  Lemma fill_map_ok : exists m, fill_map env at_ (cm_new frame d outside_cell outside_cell) = Ok m /\
    cm_dims m = d /\ cm_frame m = frame /\
    forall i, in_bounds d i = true -> cm_get m i = (if marked i then filled_cell else outside_cell, true).
  Proof.
    destruct Hs as (S1 & S2 & S3 & _). unfold fill_map. change (cm_dims (cm_new frame d outside_cell outside_cell)) with d.
    destruct (foldM_inv_prefix (fun m i => match item env (at_ i) with
        | None => Throw "IndexError" | Some v => Ok (if v =? 1 then fst (cm_set m i filled_cell) else m) end)
      (fun pre m => wf_grid (cm_grid m) /\ cm_dims m = d /\ cm_frame m = frame /\
         forall i, in_bounds d i = true ->
           (In i pre -> gget (cm_grid m) i = if marked i then filled_cell else outside_cell) /\
           (~ In i pre -> gget (cm_grid m) i = outside_cell))
      (sweep d) (cm_new frame d outside_cell outside_cell)) as (m & E & W & Dm & Fm & K).
    - split; [apply mk_grid_wf; auto|]. do 2 (split; [reflexivity|]). intros i B. split; [intros []|].
      intros _. cbn [cm_new cm_grid]. rewrite gget_mk_grid by auto. auto.
    - intros pre a post m El (W & Dm & Fm & K).
      assert (Ba : in_bounds d a = true) by (apply sweep_in; rewrite El; apply in_or_app; right; left; auto).
      destruct (Hitem a Ba) as (v & Ev). rewrite Ev. eexists; split; [reflexivity|].
      assert (Na : ~ In a pre).
      { intros Ha. pose proof (sweep_nodup d) as ND. rewrite El in ND. apply NoDup_remove_2 in ND.
        apply ND, in_or_app; auto. }
      destruct (v =? 1) eqn:Ev1.
      + unfold cm_set. rewrite Dm, Ba. cbn [fst cm_grid cm_frame].
        split; [apply gset_wf; auto|]. split; [unfold cm_dims; cbn [cm_grid]; rewrite gset_dims; auto|].
        split; auto. intros i B.
        assert (Bd : in_bounds (gdims (cm_grid m)) a = true) by (change (gdims (cm_grid m)) with (cm_dims m); rewrite Dm; auto).
        rewrite gget_gset by auto. destruct (idx_eqb_spec a i) as [<-|Ne].
        * split; intros H; [|exfalso; apply H, in_or_app; right; left; auto].
          unfold marked. rewrite Ev, Ev1. auto.
        * destruct (K i B) as (K1 & K2). split; intros H.
          -- apply in_app_or in H as [H|[H|[]]]; auto. congruence.
          -- apply K2. intros H2. apply H, in_or_app; auto.
      + do 3 (split; [auto|]). intros i B. destruct (K i B) as (K1 & K2). split; intros H.
        * apply in_app_or in H as [H|[<-|[]]]; auto. rewrite K2 by auto. unfold marked. rewrite Ev, Ev1. auto.
        * apply K2. intros H2. apply H, in_or_app; auto.
    - exists m. split; auto. split; auto. split; auto. intros i B. unfold cm_get. rewrite get_eq.
      change (gdims (cm_grid m)) with (cm_dims m). rewrite Dm, B. f_equal. apply K; auto. apply sweep_in; auto.
  Qed.

  Lemma env_sdf_ok : exists s, env_sdf env at_ d frame r = Ok s /\
    wf_grid (s_grid s) /\ sdf_dims s = d /\ s_frame s = frame /\ s_res s = r /\
    forall i, in_bounds d i = true -> exists v, sdf_get s i = (v, true) /\ is_nan 24 128 v = false /\
      (marked i = true -> lt32 v zero32 = true) /\ (marked i = false -> gt32 v zero32 = true).
  Proof.
    destruct fill_map_ok as (m & E & Dm & Fm & K). unfold env_sdf. rewrite E. cbn [bind].
    unfold cm_extract_sdf, extract_sdf_grid. rewrite ne64_refl by auto. cbn [orb negb].
    set (P := fun i => occupied false (c_occ (fst (cm_get m i)))).
    assert (HP := cm_answers m false). fold P in HP. rewrite Dm, Fm in *.
    destruct (extract_facts d r (c_occ outside_cell) frame _ P Hs Hr HP)
      as (s & mx & mn & E2 & A1 & A2 & A3 & A4 & A5 & A6 & _).
    destruct (extract_sign d r (c_occ outside_cell) frame _ P Hs Hr HP)
      as (s' & x' & E3 & _ & _ & _ & _ & _ & B).
    rewrite E2 in E3. injection E3 as <- <-. rewrite E2. cbn [bind fst]. exists s.
    do 5 (split; [auto|]). intros i Hi. destruct (B i Hi) as (v & V1 & V2 & V3 & V4). exists v.
    do 2 (split; [auto|]). assert (EP : P i = marked i).
    { unfold P. rewrite K by auto. cbn [fst]. destruct (marked i); reflexivity. }
    rewrite <- EP. auto.
  Qed.
End Env.

(** Proofs about the demonstration script. *)
From Coq Require Import Reals Lra Lia Psatz.
From Flocq Require Import Core.Core IEEE754.Binary IEEE754.Bits.
From Verif Require Import Base BaseFacts Floats FloatFacts FloatFacts2 Grid GridFacts Arith SdfQuery Python PySpec PyProofs
  Node NodeProofs DoubleSpec DoubleQuery DoubleEstimate DoubleGrid Demo DemoSpec.
Local Open Scope Z_scope.

(** ** Indices of points *)
Lemma int_part_spec v : finite_double v -> int_part v = Some (Ztrunc (real64 v)).
Proof.
  destruct v as [s|s|s p H|s m e H]; intros F; try discriminate; cbn [int_part]; unfold real64.
  - cbn [B2R]. change 0%R with (IZR 0). rewrite Ztrunc_IZR. reflexivity.
  - f_equal. cbn [B2R]. unfold F2R. cbn [Fnum Fexp].
    assert (A : Ztrunc (IZR (Z.pos m) * bpow radix2 e) = if e <? 0 then Z.pos m / 2 ^ (- e) else Z.pos m * 2 ^ e).
    { destruct (Z.ltb_spec e 0) as [Le|Le].
      - rewrite Ztrunc_floor by (apply Rmult_le_pos; [apply IZR_le; lia|apply bpow_ge_0]).
        replace (bpow radix2 e) with (/ IZR (2 ^ (- e)))%R.
        + change (IZR (Z.pos m) * / IZR (2 ^ (- e)))%R with (IZR (Z.pos m) / IZR (2 ^ (- e)))%R.
          apply Zfloor_div. apply Z.pow_nonzero; lia.
        + replace e with (- - e) at 2 by lia. rewrite bpow_opp. f_equal. rewrite <- IZR_Zpower by lia. reflexivity.
      - rewrite <- IZR_Zpower by lia. rewrite <- mult_IZR, Ztrunc_IZR. reflexivity. }
    destruct s; cbn [cond_Zopp].
    + rewrite opp_IZR, Ropp_mult_distr_l_reverse, Ztrunc_opp, A. reflexivity.
    + rewrite A. reflexivity.
Qed.

Lemma margin_value : (margin = / 1048576)%R.
Proof. unfold margin. cbn -[Rinv IZR]. reflexivity. Qed.

Lemma axis_close r o x : finite_double r -> (bpow radix2 (-100) <= real64 r <= bpow radix2 100)%R ->
  finite_double o -> finite_double x -> (Rabs (in_voxels r o x) <= bpow radix2 31)%R ->
  let v := div64 (sub64 x o) r in
  finite_double v /\ (Rabs (real64 v - in_voxels r o x) < margin)%R /\ (0 <= in_voxels r o x -> 0 <= real64 v)%R.
Proof.
  intros Fr Rr Fo Fx B v. set (q := in_voxels r o x) in *.
  assert (P : (0 < real64 r)%R) by (pose proof (bpow_gt_0 radix2 (-100)); lra).
  assert (E : (real64 x - real64 o = q * real64 r)%R) by (unfold q, in_voxels; field; lra).
  assert (M : margin = (/ 1048576)%R) by apply margin_value.
  assert (B31 : (bpow radix2 31 = 2147483648)%R) by (cbn -[IZR]; reflexivity).
  assert (B200 : (bpow radix2 31 * bpow radix2 100 <= bpow radix2 1000)%R) by (rewrite <- bpow_plus; apply bpow_le; lia).
  pose proof u_pos as U0. pose proof u_le as U1.
  destruct (sub64_small x o Fx Fo) as (F1 & e1 & He1 & E1).
  { rewrite E, Rabs_mult, (Rabs_pos_eq (real64 r)) by lra. eapply Rle_trans; [|exact B200].
    apply Rmult_le_compat; try lra. apply Rabs_pos. }
  assert (Q1 : (real64 (sub64 x o) / real64 r = q * (1 + e1))%R) by (rewrite E1, E; field; lra).
  apply Rabs_le_inv in He1. apply Rabs_le_inv in B. rewrite B31 in B.
  change (bpow radix2 (-53)) with u in He1.
  destruct (div64_small (sub64 x o) r F1 Fr) as (F2 & e2 & t & He2 & Ht & E2); [lra| |].
  { rewrite Q1. apply Rle_trans with (bpow radix2 32); [|apply bpow_le; lia].
    change 32 with (31 + 1). rewrite bpow_plus, B31. change (bpow radix2 1) with 2%R. rewrite Rabs_mult. apply Rmult_le_compat; try apply Rabs_pos; apply Rabs_le; lra. }
  fold v in F2, E2. rewrite Q1 in E2. apply Rabs_le_inv in He2. apply Rabs_le_inv in Ht. change (bpow radix2 (-53)) with u in He2.
  assert (T : (bpow radix2 (-1075) <= u)%R) by (apply bpow_le; lia).
  assert (Uu : (u * (3 * 2147483648 + 1) < / 1048576)%R).
  { unfold u. cbn -[Rinv IZR Rmult]. apply Rmult_lt_reg_l with 9007199254740992%R; [lra|].
    rewrite <- Rmult_assoc, Rinv_r by lra. lra. }
  split; [exact F2|]. split.
  - rewrite E2, M. replace (q * (1 + e1) * (1 + e2) + t - q)%R with (q * (e1 + e2 + e1 * e2) + t)%R by ring.
    assert (S : (- (3 * u) <= e1 + e2 + e1 * e2 <= 3 * u)%R) by nra.
    assert (S2 : (- (3 * u * 2147483648) <= q * (e1 + e2 + e1 * e2) <= 3 * u * 2147483648)%R) by nra.
    apply Rabs_def1; lra.
  - intros Q0.
    assert (D0 : (0 <= real64 (sub64 x o))%R) by (rewrite E1, E; apply Rmult_le_pos; [apply Rmult_le_pos; lra|lra]).
    pose proof (Bdiv_correct 53 1024 eq_refl eq_refl binop_nan_pl64 BinarySingleNaN.mode_NE (sub64 x o) r ltac:(unfold real64 in P; lra)) as K.
    cbn [BinarySingleNaN.round_mode] in K.
    destruct (Rlt_bool _ _).
    + unfold v, div64, b64_div, real64. rewrite (proj1 K).
      rewrite <- (round_0 radix2 (SpecFloat.fexp 53 1024) ZnearestE). apply round_le; auto with typeclass_instances.
      * apply fexp_correct. reflexivity.
      * apply Rmult_le_pos; [exact D0|left; apply Rinv_0_lt_compat; exact P].
    + exfalso. assert (Z : is_finite 53 1024 v = true) by exact F2.
      unfold v, div64, b64_div in Z. rewrite <- is_finite_B2FF, K in Z. unfold binary_overflow in Z. cbn in Z. discriminate.
Qed.

Lemma axis_index r o x : finite_double r -> (bpow radix2 (-100) <= real64 r <= bpow radix2 100)%R ->
  finite_double o -> finite_double x -> (Rabs (in_voxels r o x) <= bpow radix2 31)%R ->
  exists i, as_int64 (div64 (sub64 x o) r) = Ok i /\
    ((0 <= in_voxels r o x)%R -> 0 <= i /\ (IZR i - margin <= in_voxels r o x < IZR i + 1 + margin)%R) /\
    (forall n, (IZR n + margin <= in_voxels r o x)%R -> 0 <= n -> n <= i) /\
    (forall n, (in_voxels r o x <= - (IZR n + 1 + margin))%R -> 0 <= n -> i < - n) /\
    (forall k, 0 <= k -> (IZR k + margin <= in_voxels r o x < IZR k + 1 - margin)%R -> i = k) /\
    (forall n, (0 <= in_voxels r o x <= IZR n - margin)%R -> i < n).
Proof.
  intros Fr Rr Fo Fx B. destruct (axis_close r o x Fr Rr Fo Fx B) as (F & C & S).
  set (v := div64 (sub64 x o) r) in *. set (q := in_voxels r o x) in *.
  assert (M := margin_value). rewrite M in *. apply Rabs_def2 in C. apply Rabs_le_inv in B.
  assert (B31 : (bpow radix2 31 = 2147483648)%R) by (cbn -[IZR]; reflexivity). rewrite B31 in B.
  unfold as_int64. rewrite (int_part_spec v F). set (i := Ztrunc (real64 v)).
  assert (L : Z.abs i <= 2147483649).
  { unfold i. rewrite <- Ztrunc_abs. rewrite <- (Ztrunc_IZR 2147483649). apply Ztrunc_le. apply Rabs_le. lra. }
  destruct (Z.leb_spec (- 2 ^ 63) i); [|lia]. destruct (Z.ltb_spec i (2 ^ 63)); [|lia]. cbn [andb].
  exists i. split; [reflexivity|].
  assert (Up : (0 <= real64 v)%R -> 0 <= i /\ (IZR i <= real64 v < IZR i + 1)%R).
  { intros V0. unfold i. rewrite Ztrunc_floor by exact V0. pose proof (Zfloor_lb (real64 v)). pose proof (Zfloor_ub (real64 v)).
    split; [apply Zfloor_lub; exact V0|lra]. }
  assert (T : forall n : Z, (IZR n <= real64 v)%R -> 0 <= n -> n <= i).
  { intros n Hn N0. unfold i. rewrite <- (Ztrunc_IZR n). apply Ztrunc_le. exact Hn. }
  repeat split.
  - apply Up, S. assumption.
  - destruct Up as (U1 & U2); [apply S; assumption|]. lra.
  - destruct Up as (U1 & U2); [apply S; assumption|]. lra.
  - intros n Hn N0. apply T; [lra|exact N0].
  - intros n Hn N0. assert (K : i <= - (n + 1)); [|lia].
    unfold i. rewrite <- (Ztrunc_IZR (- (n + 1))). apply Ztrunc_le. rewrite opp_IZR, plus_IZR. lra.
  - intros k K0 Hk. assert (R0 : (0 <= IZR k)%R) by (apply IZR_le; exact K0). destruct Up as (U1 & U2); [apply S; lra|].
    assert (k < i + 1) by (apply lt_IZR; rewrite plus_IZR; lra). assert (i < k + 1) by (apply lt_IZR; rewrite plus_IZR; lra). lia.
  - intros n Hn. destruct Up as (U1 & U2); [apply S; lra|]. apply lt_IZR. lra.
Qed.

(** The index [i] computed for a coordinate that is [q] voxels from the corner. *)
Definition index_ok (q : R) (i : Z) : Prop :=
  ((0 <= q)%R -> 0 <= i /\ (IZR i - margin <= q < IZR i + 1 + margin)%R) /\
  (forall n, (IZR n + margin <= q)%R -> 0 <= n -> n <= i) /\
  (forall n, (q <= - (IZR n + 1 + margin))%R -> 0 <= n -> i < - n) /\
  (forall k, 0 <= k -> (IZR k + margin <= q < IZR k + 1 - margin)%R -> i = k) /\
  (forall n, (0 <= q <= IZR n - margin)%R -> i < n).

Lemma point_index_ok r o p : ordinary r o p ->
  exists ix, point_index r o p = Ok ix /\ Forall2 index_ok (all_in_voxels r o p) ix.
Proof.
  intros (Fr & Rr & (Ox & Oy & Oz) & (Px & Py & Pz) & B). unfold all_in_voxels in *.
  inversion B as [|? ? Bx B1]; subst. inversion B1 as [|? ? By B2]; subst. inversion B2 as [|? ? Bz _]; subst.
  destruct (axis_index r (vx o) (vx p) Fr Rr Ox Px Bx) as (i & Ei & Hi).
  destruct (axis_index r (vy o) (vy p) Fr Rr Oy Py By) as (j & Ej & Hj).
  destruct (axis_index r (vz o) (vz p) Fr Rr Oz Pz Bz) as (k & Ek & Hk).
  exists [i; j; k]. unfold point_index. cbn [dbl ieee] in *. rewrite Ei, Ej, Ek. split; [reflexivity|].
  constructor; [exact Hi|]. constructor; [exact Hj|]. constructor; [exact Hk|]. constructor.
Qed.

Lemma cloud_indices r o pc : (forall p, In p pc -> ordinary r o p) ->
  exists ixs, foldM (fun l p => let* ix := point_index r o p in Ok (l ++ [ix])) pc [] = Ok ixs /\
    Forall2 (fun p ix => Forall2 index_ok (all_in_voxels r o p) ix) pc ixs.
Proof.
  intros H. apply (foldM_inv_prefix _ (fun pre l => Forall2 (fun p ix => Forall2 index_ok (all_in_voxels r o p) ix) pre l)).
  - constructor.
  - intros pre p post l E P. destruct (point_index_ok r o p) as (ix & Ei & Hi).
    { apply H. rewrite E. apply in_or_app. right. left. reflexivity. }
    exists (l ++ [ix]). rewrite Ei. split; [reflexivity|]. apply Forall2_app; [exact P|]. constructor; [exact Hi|constructor].
Qed.

(** ** Assignment at indices *)
Definition in_shape (s ix : list Z) : Prop := Forall2 (fun i n => 0 <= i < n) ix s.

(** An array in row-major order with all its items. *)
Definition plain_array {T} (s : list Z) (a : ndarray T) : Prop :=
  shape a = s /\ strides a = row_major s /\ Z.of_nat (length (buffer a)) = prod s.

Lemma plain_whole {T} s (a : ndarray T) : all_nonneg s -> plain_array s a -> whole a.
Proof.
  intros Hs (Sa & Ra & La) ix R. rewrite Sa in R. destruct (offset_row_major s ix Hs R) as (o & E & B & _).
  unfold item. rewrite Sa, Ra, E. destruct (nth_error (buffer a) (Z.to_nat o)) as [v|] eqn:N; [eauto|].
  apply nth_error_None in N. lia.
Qed.

Lemma from_ends_id s ix : in_shape s ix -> from_ends s ix = ix.
Proof.
  unfold in_shape. induction 1 as [|i n ix s Hi H IH]; [reflexivity|]. change (from_end n i :: from_ends s ix = i :: ix).
  rewrite IH. f_equal. unfold from_end. destruct (Z.ltb_spec i 0); [lia|reflexivity].
Qed.

Lemma put_ok {T} (v : T) s a ix : all_nonneg s -> plain_array s a -> in_shape s (from_ends s ix) ->
  exists a', put v a ix = Ok a' /\ plain_array s a' /\ item a' (from_ends s ix) = Some v /\
    forall jx, jx <> from_ends s ix -> item a' jx = item a jx.
Proof.
  intros Hs (Sa & Ra & La) R. unfold put. rewrite Sa, Ra.
  destruct (offset_row_major s _ Hs R) as (o & E & B & N). rewrite E.
  eexists. split; [reflexivity|]. split; [split; [reflexivity|split; [reflexivity|cbn [buffer]; rewrite upd_length; exact La]]|].
  split.
  - unfold item. cbn [shape strides buffer]. rewrite E. apply upd_same. lia.
  - intros jx D. unfold item. cbn [shape strides buffer]. rewrite Sa, Ra.
    destruct (offset s (row_major s) jx) as [o'|] eqn:E'; [|reflexivity].
    destruct (offset_row_major s jx Hs (offset_range _ _ _ _ E')) as (o2 & E2 & B2 & N2). rewrite E' in E2. injection E2 as <-.
    apply upd_other. intros Eo. apply D. rewrite <- Eo in N2. congruence.
Qed.

Lemma put_bad {T} (v : T) s a ix : plain_array s a -> ~ in_shape s (from_ends s ix) -> put v a ix = Throw "IndexError".
Proof.
  intros (Sa & _) R. unfold put. rewrite Sa. destruct (offset s (strides a) (from_ends s ix)) eqn:E; [|reflexivity].
  elim R. eapply offset_range; eauto.
Qed.

Lemma puts_ok {T} (v : T) s ixs a : all_nonneg s -> plain_array s a ->
  (forall ix, In ix ixs -> in_shape s (from_ends s ix)) ->
  exists a', foldM (put v) ixs a = Ok a' /\ plain_array s a' /\
    (forall ix, In ix ixs -> item a' (from_ends s ix) = Some v) /\
    (forall jx, ~ In jx (map (from_ends s) ixs) -> item a' jx = item a jx).
Proof.
  intros Hs Pa H.
  destruct (foldM_inv_prefix (put v)
    (fun pre a' => plain_array s a' /\ (forall ix, In ix pre -> item a' (from_ends s ix) = Some v) /\
       (forall jx, ~ In jx (map (from_ends s) pre) -> item a' jx = item a jx)) ixs a) as (a' & E & K).
  - split; [exact Pa|]. split; [intros ix []|reflexivity].
  - intros pre ix post b E (Pb & K1 & K2). destruct (put_ok v s b ix Hs Pb) as (c & Ec & Pc & C1 & C2).
    { apply H. rewrite E. apply in_or_app. right. left. reflexivity. }
    exists c. split; [exact Ec|]. split; [exact Pc|]. split.
    + intros jx J. destruct (list_eq_dec Z.eq_dec (from_ends s jx) (from_ends s ix)) as [D|D]; [rewrite D; exact C1|].
      rewrite C2 by exact D. apply in_app_or in J as [J|[<-|[]]]; [apply K1; exact J|elim D; reflexivity].
    + intros jx J. rewrite map_app in J. rewrite C2.
      * apply K2. intros J2. apply J. apply in_or_app. left. exact J2.
      * intros ->. apply J. apply in_or_app. right. left. reflexivity.
  - exists a'. auto.
Qed.

Lemma puts_bad {T} (v : T) s ixs a ix : all_nonneg s -> plain_array s a ->
  In ix ixs -> ~ in_shape s (from_ends s ix) -> foldM (put v) ixs a = Throw "IndexError".
Proof.
  intros Hs Pa I R. revert a Pa I. induction ixs as [|jx ixs IH]; intros a Pa [].
  - subst. cbn [foldM]. rewrite (put_bad v s a ix Pa R). reflexivity.
  - cbn [foldM].
    assert (D : in_shape s (from_ends s jx) \/ ~ in_shape s (from_ends s jx)).
    { unfold in_shape. generalize (from_ends s jx) as l. clear. induction s as [|n s IH]; intros [|i l].
      - left. constructor.
      - right. intros F. inversion F.
      - right. intros F. inversion F.
      - destruct (IH l) as [F|F].
        + destruct (Z_le_dec 0 i) as [A|A]; [|right; intros G; inversion G; subst; lia].
          destruct (Z_lt_dec i n) as [B|B]; [|right; intros G; inversion G; subst; lia].
          left. constructor; [lia|exact F].
        + right. intros G. inversion G; subst. contradiction. }
    destruct D as [D|D].
    + destruct (put_ok v s a jx Hs Pa D) as (b & -> & Pb & _). cbn [bind]. apply IH; auto.
    + rewrite (put_bad v s a jx Pa D). reflexivity.
Qed.

Lemma zeros_ok s : all_nonneg s -> exists a, zeros s = Ok a /\ plain_array s a /\ forall ix, in_shape s ix -> item a ix = Some 0.
Proof.
  intros Hs. unfold zeros. replace (forallb _ s) with true.
  - eexists. split; [reflexivity|]. split.
    + split; [reflexivity|]. split; [reflexivity|]. cbn [buffer]. rewrite repeat_length, Z2Nat.id; [reflexivity|apply prod_nonneg; exact Hs].
    + intros ix R. destruct (offset_row_major s ix Hs R) as (o & E & B & _). unfold item. cbn [shape strides buffer]. rewrite E.
      apply nth_error_repeat. lia.
  - symmetry. apply forallb_forall. intros n In. apply Z.leb_le. exact (proj1 (Forall_forall _ _) Hs n In).
Qed.

(** ** The voxel grid *)
Lemma shape_nonneg s0 s1 s2 : 0 <= s0 -> 0 <= s1 -> 0 <= s2 -> all_nonneg [s0; s1; s2].
Proof. repeat constructor; auto. Qed.

Lemma index_in_shape m qs s ix : Forall2 index_ok qs ix -> Forall2 (fun q n => 0 <= q <= IZR n - m)%R qs s -> m = margin -> in_shape s ix.
Proof.
  intros K G ->. unfold in_shape. revert s G. induction K as [|q i qs ix (K1 & _ & _ & _ & K5) K IH]; intros s G; inversion G; subst; constructor.
  - split; [apply K1; tauto|]. apply K5. assumption.
  - apply IH. assumption.
Qed.

Lemma index_near m qs s ix : Forall2 index_ok qs ix -> Forall2 (fun q n => 0 <= q <= IZR n - m)%R qs s ->
  Forall2 (fun q i => IZR i + - margin <= q < IZR i + 1 - - margin)%R qs ix.
Proof.
  intros K G. revert s G. induction K as [|q i qs ix (K1 & _) K IH]; intros s G; inversion G; subst; constructor; [|eapply IH; eauto].
  destruct K1 as (_ & K1); [tauto|]. lra.
Qed.

Lemma index_exact qs s ix jx : Forall2 index_ok qs ix -> in_shape s jx ->
  Forall2 (fun q i => IZR i + margin <= q < IZR i + 1 - margin)%R qs jx -> ix = jx.
Proof.
  intros K S G. revert s jx S G. induction K as [|q i qs ix (_ & _ & _ & K4 & _) K IH]; intros s jx S G; inversion G; subst; [reflexivity|].
  inversion S; subst. f_equal; [apply K4; [lia|assumption]|eapply IH; eauto].
Qed.

Lemma voxel_grid_ok pc s0 s1 s2 r o : 0 <= s0 -> 0 <= s1 -> 0 <= s2 ->
  (forall p, In p pc -> ordinary r o p /\ inside_grid margin r o p [s0; s1; s2]) ->
  exists vg, point_cloud_to_voxel_grid pc s0 s1 s2 r o = Ok vg /\ shape vg = [s0; s1; s2] /\ whole vg /\
    (forall ix v, item vg ix = Some v -> v = 0 \/ v = 1) /\
    (forall ix, item vg ix = Some 1 -> exists p, In p pc /\ inside_voxel (- margin) r o p ix) /\
    (forall p ix, In p pc -> Forall2 (fun i n => 0 <= i < n) ix [s0; s1; s2] -> inside_voxel margin r o p ix ->
       item vg ix = Some 1).
Proof.
  intros H0 H1 H2 H. pose proof (shape_nonneg s0 s1 s2 H0 H1 H2) as Hs. unfold point_cloud_to_voxel_grid.
  set (s := [s0; s1; s2]) in *. destruct (zeros_ok s Hs) as (z & -> & Pz & Z). cbn [bind].
  destruct (cloud_indices r o pc) as (ixs & -> & K); [intros p Hp; apply H; exact Hp|]. cbn [bind].
  assert (Of : forall ix, In ix ixs -> exists p, In p pc /\ Forall2 index_ok (all_in_voxels r o p) ix).
  { clear H. induction K as [|p ix pc ixs Kp K IH]; intros jx []; [subst; exists p; split; [left; auto|auto]|].
    destruct (IH jx) as (q & Q1 & Q2); auto. exists q. split; [right; auto|auto]. }
  assert (To : forall p, In p pc -> exists ix, In ix ixs /\ Forall2 index_ok (all_in_voxels r o p) ix).
  { clear H Of. induction K as [|p ix pc ixs Kp K IH]; intros q []; [subst; exists ix; split; [left; auto|auto]|].
    destruct (IH q) as (jx & Q1 & Q2); auto. exists jx. split; [right; auto|auto]. }
  assert (Sh : forall ix, In ix ixs -> in_shape s ix).
  { intros ix Hx. destruct (Of ix Hx) as (p & Hp & Kp). eapply index_in_shape; [exact Kp|exact (proj2 (H p Hp))|reflexivity]. }
  destruct (puts_ok 1 s ixs z Hs Pz) as (vg & E & Pv & V1 & V2).
  { intros ix Hx. rewrite from_ends_id; auto. }
  assert (Em : map (from_ends s) ixs = ixs).
  { transitivity (map (fun x => x) ixs); [|apply map_id]. apply map_ext_in. intros ix Hx. apply from_ends_id; auto. }
  rewrite Em in V2.
  assert (Ex : forall ix v, item vg ix = Some v -> In ix ixs \/ v = 0).
  { intros ix v Hv. destruct (in_dec (list_eq_dec Z.eq_dec) ix ixs) as [I|I]; [left; exact I|right].
    rewrite V2 in Hv by exact I. rewrite Z in Hv; [congruence|].
    destruct (offset (shape z) (strides z) ix) as [q|] eqn:Eq; [|unfold item in Hv; rewrite Eq in Hv; discriminate].
    apply offset_range in Eq. rewrite (proj1 Pz) in Eq. exact Eq. }
  assert (One : forall ix, In ix ixs -> item vg ix = Some 1).
  { intros ix Hx. rewrite <- (V1 ix Hx). rewrite from_ends_id; auto. }
  exists vg. split; [exact E|]. split; [apply Pv|]. split; [apply (plain_whole s); auto|]. split; [|split].
  - intros ix v Hv. destruct (Ex ix v Hv) as [I|I]; [right; rewrite One in Hv by exact I; congruence|left; exact I].
  - intros ix Hv. destruct (Ex ix 1 Hv) as [I|I]; [|discriminate]. destruct (Of ix I) as (p & Hp & Kp).
    exists p. split; [exact Hp|]. eapply index_near; [exact Kp|exact (proj2 (H p Hp))].
  - intros p ix Hp Hx G. destruct (To p Hp) as (jx & J & Kj). rewrite <- (index_exact _ s jx ix Kj Hx G). apply One; exact J.
Qed.

Lemma voxel_grid_outside pc s0 s1 s2 r o p : 0 <= s0 -> 0 <= s1 -> 0 <= s2 ->
  (forall q, In q pc -> ordinary r o q) -> In p pc -> far_outside margin r o p [s0; s1; s2] ->
  point_cloud_to_voxel_grid pc s0 s1 s2 r o = Throw "IndexError".
Proof.
  intros H0 H1 H2 H Hp (k & q & n & Eq & En & Far). pose proof (shape_nonneg s0 s1 s2 H0 H1 H2) as Hs.
  unfold point_cloud_to_voxel_grid. set (s := [s0; s1; s2]) in *.
  destruct (zeros_ok s Hs) as (z & -> & Pz & _). cbn [bind].
  destruct (cloud_indices r o pc H) as (ixs & -> & K). cbn [bind].
  assert (To : exists ix, In ix ixs /\ Forall2 index_ok (all_in_voxels r o p) ix).
  { clear H. induction K as [|p' ix pc ixs Kp K IH]; [destruct Hp|]. destruct Hp as [->|Hp]; [exists ix; split; [left; auto|auto]|].
    destruct (IH Hp) as (jx & Q1 & Q2); auto. exists jx. split; [right; auto|auto]. }
  destruct To as (ix & Hx & Kx). apply (puts_bad 1 s ixs z ix); auto. intros R.
  assert (N0 : 0 <= n) by (apply (proj1 (Forall_forall _ _) Hs); eapply nth_error_In; eauto).
  assert (G : exists i, nth_error ix k = Some i /\ (n <= i \/ i < - n)).
  { clear - Kx Eq Far N0. revert k Eq. induction Kx as [|q' i qs ix (_ & K2 & K3 & _) K IH]; intros [|k] Eq; try discriminate.
    - injection Eq as ->. exists i. split; [reflexivity|]. destruct Far as [F|F]; [left; apply K2; auto|right; apply K3; auto].
    - apply IH. exact Eq. }
  destruct G as (i & Ei & Bad). unfold in_shape in R.
  assert (J : nth_error (from_ends s ix) k = Some (from_end n i)).
  { clear - Ei En. unfold from_ends. revert ix k Ei En. induction s as [|m s IH]; intros [|j ix] [|k] Ei En; try discriminate.
    - cbn in *. congruence.
    - apply (IH ix k); assumption. }
  assert (B : 0 <= from_end n i < n).
  { clear - R J En. revert k J En. induction R as [|j m l s' Hj R IH]; intros [|k] J En; try discriminate.
    - cbn in *. congruence.
    - eapply IH; eauto. }
  unfold from_end in B. destruct (Z.ltb_spec i 0); lia.
Qed.

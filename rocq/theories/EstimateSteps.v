(** How fast the distance estimate can change. *)
From Coq Require Import Lia Reals Lra Psatz.
From Verif Require Import Base BaseFacts Grid GridFacts Arith SdfQuery QuerySpec QueryProofs QueryReal QueryThms
  QueryTurn AutoDiff AutoDiffSpec AutoDiffProofs AutoDiffThms.
Open Scope R_scope.

Section Axis.
  Variable r : R.
  Hypothesis Hr : 0 < r.

  (** Interpolation on one axis. *)
  Definition ipol (i n : Z) (v : R) (d : Z -> R) : R :=
    let lu := axis_interpolation_indices (A := reals) i n (v - r * (IZR i + 1/2)) in
    lerp (local r (fst lu) v) (d (fst lu)) (d (snd lu)).

  Definition inside (i n : Z) (v : R) : Prop := (0 <= i < n)%Z /\ r * IZR i <= v < r * (IZR i + 1).

  (** How much a change of the values can be magnified. *)
  Definition stretch (n : Z) (w v : R) : Prop := w = 2 \/ (w = 1 /\ between_centers_axis r n v).

  Lemma inside_range i n v : inside i n v -> 0 <= v < r * IZR n.
  Proof.
    intros (Hi & Hv).
    assert (IZR i + 1 <= IZR n) by (rewrite <- plus_IZR; apply IZR_le; lia).
    assert (0 <= IZR i) by (apply IZR_le; lia).
    assert (r * (IZR i + 1) <= r * IZR n) by (apply Rmult_le_compat_l; lra).
    assert (0 <= r * IZR i) by (apply Rmult_le_pos; lra). lra.
  Qed.

  Lemma ipol_level i n v d : inside i n v -> exists k, r * (IZR k + 1/2) <= v < r * (IZR k + 1/2 + 1) /\
    ipol i n v d = let lu := level_pair n k in lerp (local r (fst lu) v) (d (fst lu)) (d (snd lu)).
  Proof.
    intros (Hi & Hv). destruct (axis_level r i n v Hr Hi Hv) as (k & Hk & E). exists k. split; auto.
    unfold ipol. rewrite E. reflexivity.
  Qed.

  Lemma level_range n k : (1 <= n)%Z -> (0 <= fst (level_pair n k) < n)%Z /\ (0 <= snd (level_pair n k) < n)%Z.
  Proof. intros Hn. unfold level_pair. destruct (Z.eqb_spec n 1); cbn [fst snd]; lia. Qed.

  Lemma local_range n k v : (2 <= n)%Z -> 0 <= v < r * IZR n -> r * (IZR k + 1/2) <= v < r * (IZR k + 1/2 + 1) ->
    let l := fst (level_pair n k) in
    - (1/2) <= local r l v <= 3/2 /\ (between_centers_axis r n v -> 0 <= local r l v <= 1).
  Proof.
    intros Hn Hv Hk. unfold level_pair. destruct (Z.eqb_spec n 1); [lia|]. cbn [fst].
    assert (Kn : (k < n)%Z).
    { assert (r * (IZR k + 1/2) < r * IZR n) by lra. apply Rmult_lt_reg_l in H; auto. apply lt_IZR. lra. }
    assert (K0 : (-1 <= k)%Z).
    { assert (r * 0 < r * (IZR k + 1/2 + 1)) by lra. apply Rmult_lt_reg_l in H; auto.
      assert (IZR (-2) < IZR k) by (cbn; lra). apply lt_IZR in H0. lia. }
    assert (Dv : forall a, (r * a) / r = a) by (intros; field; lra).
    assert (L : forall (l : Z) lo hi, r * (IZR l + 1/2 + lo) <= v <= r * (IZR l + 1/2 + hi) -> lo <= local r l v <= hi).
    { intros l lo hi (H1 & H2). unfold local. rewrite <- (Dv lo), <- (Dv hi). unfold Rdiv.
      split; (apply Rmult_le_compat_r; [left; apply Rinv_0_lt_compat; auto|]); lra. }
    destruct (Z_le_gt_dec k (-1)) as [C|C].
    - assert (k = -1)%Z by lia. subst k. replace (Z.max 0 (Z.min (n - 2) (-1))) with 0%Z by lia.
      split; [apply L; lra|]. intros [H|H]; [lia|]. apply L. lra.
    - destruct (Z_le_gt_dec (n - 1) k) as [C2|C2].
      + assert (k = n - 1)%Z by lia. subst k. rewrite minus_IZR in Hk. replace (Z.max 0 (Z.min (n - 2) (n - 1))) with (n - 2)%Z by lia.
        split; [apply L; rewrite minus_IZR; lra|]. intros [H|H]; [lia|]. apply L. rewrite minus_IZR. lra.
      + replace (Z.max 0 (Z.min (n - 2) k)) with k by lia.
        assert (0 <= local r k v <= 1) by (apply L; lra). split; auto. lra.
  Qed.

  (** The value depends on the cells' values with a factor of at most [w]. *)
  Lemma ipol_values i n v w d d' e : inside i n v -> stretch n w v -> 0 <= e ->
    (forall j, (0 <= j < n)%Z -> Rabs (d j - d' j) <= e) -> Rabs (ipol i n v d - ipol i n v d') <= w * e.
  Proof.
    intros Hi Hw He H. pose proof (inside_range _ _ _ Hi) as Hv.
    destruct (axis_level r i n v Hr (proj1 Hi) (proj2 Hi)) as (k & Hk & E). unfold ipol. rewrite E.
    assert (Hn : (1 <= n)%Z) by (destruct Hi; lia). destruct (level_range n k Hn) as (R1 & R2).
    assert (W1 : 1 <= w) by (destruct Hw as [->|(-> & _)]; lra).
    destruct (Z.eq_dec n 1) as [N|N].
    - assert (El : level_pair n k = (0, 0)%Z) by (unfold level_pair; rewrite N; reflexivity).
      rewrite El. cbn [fst snd]. unfold lerp.
      replace (_ - _) with (d 0%Z - d' 0%Z) by ring. eapply Rle_trans; [apply H; lia|]. nra.
    - assert (Hn2 : (2 <= n)%Z) by lia. destruct (local_range n k v Hn2 Hv Hk) as (T1 & T2).
      set (l := fst (level_pair n k)) in *. set (u := snd (level_pair n k)) in *. set (t := local r l v) in *.
      unfold lerp. replace (_ - _) with ((1 - t) * (d l - d' l) + t * (d u - d' u)) by ring.
      assert (Ht : Rabs (1 - t) + Rabs t <= w).
      { destruct Hw as [->|(-> & Hb)].
        - unfold Rabs. destruct (Rcase_abs _), (Rcase_abs _); lra.
        - specialize (T2 Hb). rewrite !Rabs_pos_eq by lra. lra. }
      eapply Rle_trans; [apply Rabs_triang|]. rewrite !Rabs_mult.
      pose proof (H l R1). pose proof (H u R2). pose proof (Rabs_pos (1 - t)). pose proof (Rabs_pos t). nra.
  Qed.

  (** Along the axis the value changes at most as fast as between neighbours. *)
  Definition piece (n k : Z) (d : Z -> R) (v : R) : R :=
    let lu := level_pair n k in lerp (local r (fst lu) v) (d (fst lu)) (d (snd lu)).

  Lemma piece_slope n k d v v' M : (1 <= n)%Z -> 0 <= M ->
    (forall j, (0 <= j)%Z -> (j + 1 < n)%Z -> Rabs (d (j + 1)%Z - d j) <= M) ->
    Rabs (piece n k d v - piece n k d v') <= M / r * Rabs (v - v').
  Proof.
    intros Hn HM H. unfold piece, level_pair. destruct (Z.eqb_spec n 1) as [N|N]; cbn [fst snd].
    - unfold lerp. replace (_ - _) with 0 by ring. rewrite Rabs_R0. apply Rmult_le_pos; [|apply Rabs_pos].
      apply Rmult_le_pos; auto. left. apply Rinv_0_lt_compat; auto.
    - set (l := Z.max 0 (Z.min (n - 2) k)). assert (Hl : (0 <= l /\ l + 1 < n)%Z) by lia.
      unfold lerp, local.
      replace (_ - _) with ((d (l + 1)%Z - d l) / r * (v - v')) by (field; lra).
      rewrite Rabs_mult. apply Rmult_le_compat_r; [apply Rabs_pos|]. unfold Rdiv. rewrite Rabs_mult.
      rewrite (Rabs_pos_eq (/ r)) by (left; apply Rinv_0_lt_compat; auto).
      apply Rmult_le_compat_r; [left; apply Rinv_0_lt_compat; auto|]. apply H; lia.
  Qed.

  Lemma piece_join n k d : (1 <= n)%Z ->
    piece n k d (r * (IZR k + 1/2 + 1)) = piece n (k + 1) d (r * (IZR k + 1/2 + 1)).
  Proof.
    intros Hn. unfold piece, level_pair. destruct (Z.eqb_spec n 1) as [N|N]; [reflexivity|]. cbn [fst snd].
    destruct (Z_le_gt_dec k (-1)) as [C|C].
    - replace (Z.max 0 (Z.min (n - 2) (k + 1))) with (Z.max 0 (Z.min (n - 2) k)) by lia. reflexivity.
    - destruct (Z_le_gt_dec (n - 2) k) as [C2|C2].
      + replace (Z.max 0 (Z.min (n - 2) (k + 1))) with (Z.max 0 (Z.min (n - 2) k)) by lia. reflexivity.
      + replace (Z.max 0 (Z.min (n - 2) k)) with k by lia. replace (Z.max 0 (Z.min (n - 2) (k + 1))) with (k + 1)%Z by lia.
        unfold lerp, local. rewrite plus_IZR. field. lra.
  Qed.

  Lemma pieces_slope n d M : (1 <= n)%Z -> 0 <= M ->
    (forall j, (0 <= j)%Z -> (j + 1 < n)%Z -> Rabs (d (j + 1)%Z - d j) <= M) ->
    forall m k v v', v <= v' -> r * (IZR k + 1/2) <= v < r * (IZR k + 1/2 + 1) ->
      r * (IZR (k + Z.of_nat m) + 1/2) <= v' < r * (IZR (k + Z.of_nat m) + 1/2 + 1) ->
      Rabs (piece n (k + Z.of_nat m) d v' - piece n k d v) <= M / r * (v' - v).
  Proof.
    intros Hn HM H. induction m as [|m IH]; intros k v v' Hle Hk Hk'.
    - replace (k + Z.of_nat 0)%Z with k in * by lia. rewrite <- (Rabs_pos_eq (v' - v)) by lra. apply piece_slope; auto.
    - set (w := r * (IZR k + 1/2 + 1)) in *.
      replace (k + Z.of_nat (S m))%Z with ((k + 1) + Z.of_nat m)%Z in * by lia.
      assert (Hw : w <= v').
      { apply Rle_trans with (2 := proj1 Hk'). unfold w. apply Rmult_le_compat_l; [lra|].
        rewrite !plus_IZR. assert (0 <= IZR (Z.of_nat m)) by (apply IZR_le; lia). lra. }
      assert (K1 : r * (IZR (k + 1) + 1/2) <= w < r * (IZR (k + 1) + 1/2 + 1)).
      { unfold w. rewrite plus_IZR. split; [right; ring|]. apply Rmult_lt_compat_l; lra. }
      specialize (IH (k + 1)%Z w v' Hw K1 Hk').
      pose proof (piece_slope n k d w v M Hn HM H) as P1. pose proof (piece_join n k d Hn) as J. fold w in J.
      rewrite (Rabs_pos_eq (w - v)) in P1 by lra. rewrite J in P1.
      replace (piece n (k + 1 + Z.of_nat m) d v' - piece n k d v) with
        ((piece n (k + 1 + Z.of_nat m) d v' - piece n (k + 1) d w) + (piece n (k + 1) d w - piece n k d v)) by ring.
      eapply Rle_trans; [apply Rabs_triang|]. lra.
  Qed.

  Lemma ipol_slope i i' n v v' d M : inside i n v -> inside i' n v' -> 0 <= M ->
    (forall j, (0 <= j)%Z -> (j + 1 < n)%Z -> Rabs (d (j + 1)%Z - d j) <= M) ->
    Rabs (ipol i n v d - ipol i' n v' d) <= M / r * Rabs (v - v').
  Proof.
    intros Hi Hi' HM H. assert (Hn : (1 <= n)%Z) by (destruct Hi; lia).
    destruct (ipol_level i n v d Hi) as (k & Hk & E). destruct (ipol_level i' n v' d Hi') as (k' & Hk' & E').
    rewrite E, E'. fold (piece n k d v). fold (piece n k' d v').
    assert (G : forall a b ka kb, a <= b -> r * (IZR ka + 1/2) <= a < r * (IZR ka + 1/2 + 1) ->
                r * (IZR kb + 1/2) <= b < r * (IZR kb + 1/2 + 1) ->
                Rabs (piece n kb d b - piece n ka d a) <= M / r * (b - a)).
    { intros a b ka kb Hab Ha Hb.
      assert (Hk3 : (ka <= kb)%Z).
      { assert (X : r * (IZR ka + 1/2) < r * (IZR kb + 1/2 + 1)) by lra. apply Rmult_lt_reg_l in X; auto.
        assert (Y : IZR ka < IZR (kb + 1)) by (rewrite plus_IZR; lra). apply lt_IZR in Y. lia. }
      replace kb with (ka + Z.of_nat (Z.to_nat (kb - ka)))%Z in * by lia. apply pieces_slope; auto. }
    destruct (Rle_lt_dec v v') as [C|C].
    - rewrite Rabs_minus_sym, (Rabs_minus_sym v). rewrite (Rabs_pos_eq (v' - v)) by lra. apply G; auto.
    - rewrite (Rabs_pos_eq (v - v')) by lra. apply G; auto. lra.
  Qed.
End Axis.

Lemma estimated_ipol (f : rfield) p q : 0 < f_res f -> geometry (f_res f) p ->
  let i := index_of p q in in_bounds (f_dims f) i = true ->
  estimated f p (to_world p q) =
    ipol (f_res f) (iz i) (nz (f_dims f)) (vz q) (fun c =>
    ipol (f_res f) (iy i) (ny (f_dims f)) (vy q) (fun b =>
    ipol (f_res f) (ix i) (nx (f_dims f)) (vx q) (fun a => centered_value f (I a b c)))).
Proof.
  intros Hr G i B. unfold estimated, estimate_distance. rewrite (g_there_and_back _ _ G). fold i. rewrite B.
  destruct (pairs f i q) as [[[xl xu] [yl yu]] [zl zu]] eqn:E. unfold i at 1.
  rewrite (estimate_poly f p q xl xu yl yu zl zu); auto. cbn [bind].
  unfold pairs in E. injection E as Ex Ey Ez. unfold ipol. rewrite Ex, Ey, Ez. reflexivity.
Qed.

Lemma estimate_steps (f : rfield) p q q' M w :
  0 < f_res f -> geometry (f_res f) p -> 0 <= M -> gentle f M ->
  in_bounds (f_dims f) (index_of p q) = true -> in_bounds (f_dims f) (index_of p q') = true ->
  w = 2 \/ (w = 1 /\ between_centers f q /\ between_centers f q') ->
  Rabs (estimated f p (to_world p q) - estimated f p (to_world p q')) <= w * w * (M / f_res f) * path q q'.
Proof.
  intros Hr G HM Hg B B' Hw. rewrite !estimated_ipol by auto. set (i := index_of p q) in *. set (i' := index_of p q') in *.
  set (r := f_res f) in *. set (d := f_dims f) in *.
  pose proof B as C. apply in_bounds_spec in C. destruct C as (Bx & By & Bz).
  pose proof B' as C. apply in_bounds_spec in C. destruct C as (Bx' & By' & Bz').
  assert (Ix : inside r (ix i) (nx d) (vx q)) by (split; auto; apply (g_index_x _ _ G)).
  assert (Iy : inside r (iy i) (ny d) (vy q)) by (split; auto; apply (g_index_y _ _ G)).
  assert (Iz : inside r (iz i) (nz d) (vz q)) by (split; auto; apply (g_index_z _ _ G)).
  assert (Ix' : inside r (ix i') (nx d) (vx q')) by (split; auto; apply (g_index_x _ _ G)).
  assert (Iy' : inside r (iy i') (ny d) (vy q')) by (split; auto; apply (g_index_y _ _ G)).
  assert (Iz' : inside r (iz i') (nz d) (vz q')) by (split; auto; apply (g_index_z _ _ G)).
  assert (W0 : 0 <= w) by (destruct Hw as [->|(-> & _)]; lra).
  assert (Sx : stretch r (nx d) w (vx q)) by (destruct Hw as [->|(-> & (H & _ & _) & _)]; [left|right]; auto).
  assert (Sy : stretch r (ny d) w (vy q)) by (destruct Hw as [->|(-> & (_ & H & _) & _)]; [left|right]; auto).
  assert (Sz' : stretch r (nz d) w (vz q')) by (destruct Hw as [->|(-> & _ & (_ & _ & H))]; [left|right]; auto).
  assert (Sy' : stretch r (ny d) w (vy q')) by (destruct Hw as [->|(-> & _ & (_ & H & _))]; [left|right]; auto).
  set (X := fun b c => ipol r (ix i) (nx d) (vx q) (fun a => centered_value f (I a b c))).
  set (X' := fun b c => ipol r (ix i') (nx d) (vx q') (fun a => centered_value f (I a b c))).
  set (Y := fun c => ipol r (iy i) (ny d) (vy q) (fun b => X b c)).
  set (Y' := fun c => ipol r (iy i') (ny d) (vy q') (fun b => X b c)).
  set (Y'' := fun c => ipol r (iy i') (ny d) (vy q') (fun b => X' b c)).
  change (Rabs (ipol r (iz i) (nz d) (vz q) Y - ipol r (iz i') (nz d) (vz q') Y'') <= w * w * (M / r) * path q q').
  assert (Gx : forall a b c, (0 <= a)%Z -> (a + 1 < nx d)%Z -> (0 <= b < ny d)%Z -> (0 <= c < nz d)%Z ->
    Rabs (centered_value f (I (a + 1) b c) - centered_value f (I a b c)) <= M).
  { intros. apply Hg; [apply in_bounds_spec; fold d; cbn [ix iy iz]; lia|apply in_bounds_spec; fold d; cbn [ix iy iz]; lia|].
    unfold share_face. cbn [ix iy iz]. lia. }
  assert (Gy : forall a b c, (0 <= a < nx d)%Z -> (0 <= b)%Z -> (b + 1 < ny d)%Z -> (0 <= c < nz d)%Z ->
    Rabs (centered_value f (I a (b + 1) c) - centered_value f (I a b c)) <= M).
  { intros. apply Hg; [apply in_bounds_spec; fold d; cbn [ix iy iz]; lia|apply in_bounds_spec; fold d; cbn [ix iy iz]; lia|].
    unfold share_face. cbn [ix iy iz]. lia. }
  assert (Gz : forall a b c, (0 <= a < nx d)%Z -> (0 <= b < ny d)%Z -> (0 <= c)%Z -> (c + 1 < nz d)%Z ->
    Rabs (centered_value f (I a b (c + 1)) - centered_value f (I a b c)) <= M).
  { intros. apply Hg; [apply in_bounds_spec; fold d; cbn [ix iy iz]; lia|apply in_bounds_spec; fold d; cbn [ix iy iz]; lia|].
    unfold share_face. cbn [ix iy iz]. lia. }
  assert (WM : 0 <= w * M) by (apply Rmult_le_pos; auto).
  assert (WWM : 0 <= w * (w * M)) by (apply Rmult_le_pos; auto).
  assert (P1 : Rabs (ipol r (iz i) (nz d) (vz q) Y - ipol r (iz i') (nz d) (vz q') Y) <= w * (w * M) / r * Rabs (vz q - vz q')).
  { apply ipol_slope; auto. intros c H1 H2. unfold Y. apply ipol_values; auto. intros b Hb. unfold X.
    apply ipol_values; auto. }
  assert (P2 : Rabs (ipol r (iz i') (nz d) (vz q') Y - ipol r (iz i') (nz d) (vz q') Y') <= w * (w * M / r * Rabs (vy q - vy q'))).
  { apply ipol_values; auto.
    - apply Rmult_le_pos; [|apply Rabs_pos]. apply Rmult_le_pos; auto. left. apply Rinv_0_lt_compat; auto.
    - intros c Hc. unfold Y, Y'. apply ipol_slope; auto. intros b H1 H2. unfold X. apply ipol_values; auto. }
  assert (E0 : 0 <= M / r * Rabs (vx q - vx q')).
  { apply Rmult_le_pos; [|apply Rabs_pos]. apply Rmult_le_pos; auto. left. apply Rinv_0_lt_compat; auto. }
  assert (P3 : Rabs (ipol r (iz i') (nz d) (vz q') Y' - ipol r (iz i') (nz d) (vz q') Y'') <= w * (w * (M / r * Rabs (vx q - vx q')))).
  { apply ipol_values; auto.
    - apply Rmult_le_pos; auto.
    - intros c Hc. unfold Y', Y''. apply ipol_values; auto. intros b Hb. unfold X, X'. apply ipol_slope; auto. }
  replace (ipol r (iz i) (nz d) (vz q) Y - ipol r (iz i') (nz d) (vz q') Y'') with
    ((ipol r (iz i) (nz d) (vz q) Y - ipol r (iz i') (nz d) (vz q') Y) +
     (ipol r (iz i') (nz d) (vz q') Y - ipol r (iz i') (nz d) (vz q') Y') +
     (ipol r (iz i') (nz d) (vz q') Y' - ipol r (iz i') (nz d) (vz q') Y'')) by ring.
  eapply Rle_trans; [apply Rabs_triang|]. eapply Rle_trans; [apply Rplus_le_compat_r, Rabs_triang|].
  unfold path. eapply Rle_trans; [apply Rplus_le_compat; [apply Rplus_le_compat; [exact P1|exact P2]|exact P3]|].
  right. unfold Rdiv. ring.
Qed.

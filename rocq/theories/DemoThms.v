(** The results of the demonstration script. *)
From Coq Require Import Reals Lra Lia Psatz.
From Flocq Require Import Core.Core IEEE754.Binary IEEE754.Bits.
From Verif Require Import Base BaseFacts Floats FloatFacts FloatFacts2 Grid GridFacts DistSpec SdfGen SdfSpec Arith SdfQuery Python PySpec
  PyProofs PyThms Node NodeProofs DoubleSpec DoubleQuery DoubleEstimate DoubleGrid Demo DemoSpec DemoProofs DemoDraw.
Local Open Scope Z_scope.

(** ** Positions in flattened arrays *)
Lemma position_3 a b c i j k : 0 <= i < a -> 0 <= j < b -> 0 <= k < c ->
  nth_error (indices [a; b; c]) (Z.to_nat ((i * b + j) * c + k)) = Some [i; j; k].
Proof.
  intros Hi Hj Hk. destruct (offset_row_major [a; b; c] [i; j; k]) as (o & E & B & N).
  - repeat constructor; lia.
  - repeat constructor; lia.
  - cbn [row_major offset] in E. rewrite !in_range in E by lia. injection E as E. rewrite <- N. f_equal. f_equal.
    rewrite <- E. cbn [prod fold_right]. ring.
Qed.

Lemma position_4 a b c d i j k l : 0 <= i < a -> 0 <= j < b -> 0 <= k < c -> 0 <= l < d ->
  nth_error (indices [a; b; c; d]) (Z.to_nat (((i * b + j) * c + k) * d + l)) = Some [i; j; k; l].
Proof.
  intros Hi Hj Hk Hl. destruct (offset_row_major [a; b; c; d] [i; j; k; l]) as (o & E & B & N).
  - repeat constructor; lia.
  - repeat constructor; lia.
  - cbn [row_major offset] in E. rewrite !in_range in E by lia. injection E as E. rewrite <- N. f_equal. f_equal.
    rewrite <- E. cbn [prod fold_right]. ring.
Qed.

Lemma grid_point_at o r s0 s1 s2 i j k : 0 <= i < s0 -> 0 <= j < s1 -> 0 <= k < s2 ->
  nth_error (get_grid_points o r s0 s1 s2) (Z.to_nat ((j * s0 + i) * s2 + k)) =
  Some (@V ieee (grid_coordinate r (vx o) i) (grid_coordinate r (vy o) j) (grid_coordinate r (vz o) k)).
Proof.
  intros Hi Hj Hk. unfold get_grid_points. rewrite (map_nth_error _ _ _ (position_3 s1 s0 s2 j i k Hj Hi Hk)). reflexivity.
Qed.

Lemma grid_points_length o r s0 s1 s2 : 0 <= s0 -> 0 <= s1 -> 0 <= s2 ->
  Z.of_nat (length (get_grid_points o r s0 s1 s2)) = s0 * s1 * s2.
Proof.
  intros H0 H1 H2. unfold get_grid_points. rewrite map_length, indices_length by (repeat constructor; lia).
  cbn [prod fold_right]. ring.
Qed.

Lemma nth_error_combine {T U} (l : list T) (m : list U) n a b :
  nth_error l n = Some a -> nth_error m n = Some b -> nth_error (List.combine l m) n = Some (a, b).
Proof.
  revert m n. induction l as [|x l IH]; intros [|y m] [|n] A B; try discriminate; cbn in *; [congruence|auto].
Qed.

Lemma square_place s i j x y : 0 <= j < s -> 0 <= x < s -> i * s + j = y * s + x -> x = j /\ y = i.
Proof.
  intros Hj Hx E. assert (D : y = i) by (apply (Z.div_mod_unique s y i x j); lia). subst. lia.
Qed.
Lemma row_place s0 s1 i j x y : 0 <= i < s0 -> 0 <= j < s1 -> 0 <= x < s0 -> 0 <= y < s1 -> s0 = 1 \/ s1 = 1 ->
  i * s1 + j = y * s0 + x -> x = i /\ y = j.
Proof.
  intros Hi Hj Hx Hy [E|E] P; subst.
  - assert (i = 0) by lia. assert (x = 0) by lia. subst. lia.
  - assert (j = 0) by lia. assert (y = 0) by lia. subst. lia.
Qed.

(** ** The cloud of distances *)
Section Cloud.
  Variables (a : ndarray binary32) (s0 s1 s2 : Z) (r : binary64) (o : vec ieee).
  Hypotheses (W : whole a) (S : shape a = [s0; s1; s2]) (H0 : 0 <= s0) (H1 : 0 <= s1) (H2 : 0 <= s2).

  Lemma cloud_length : Z.of_nat (length (visualize_sdf a s0 s1 s2 r o)) = s0 * s1 * s2.
  Proof using All.
    unfold visualize_sdf. rewrite map_length, combine_length.
    pose proof (grid_points_length o r s0 s1 s2 H0 H1 H2) as L.
    pose proof (items_length a [s0; s1; s2] W S (shape_nonneg s0 s1 s2 H0 H1 H2)) as M. cbn [prod fold_right] in M.
    rewrite Nat.min_l; [exact L|]. apply Nat2Z.inj_le. rewrite L, M. lia.
  Qed.

  (** Voxel [i, j, k] of the array and grid point (x, y, k) at the same position. *)
  Lemma cloud_at i j k x y : 0 <= i < s0 -> 0 <= j < s1 -> 0 <= k < s2 -> 0 <= x < s0 -> 0 <= y < s1 ->
    i * s1 + j = y * s0 + x ->
    exists v, item a [i; j; k] = Some v /\
      nth_error (visualize_sdf a s0 s1 s2 r o) (Z.to_nat ((i * s1 + j) * s2 + k)) =
      Some (CP (b32_of_b64 (grid_coordinate r (vx o) x)) (b32_of_b64 (grid_coordinate r (vy o) y))
               (b32_of_b64 (grid_coordinate r (vz o) k)) v).
  Proof using All.
    intros Hi Hj Hk Hx Hy E. destruct (W [i; j; k]) as (v & V); [rewrite S; repeat constructor; lia|].
    exists v. split; [exact V|]. unfold visualize_sdf.
    pose proof (items_nth a [s0; s1; s2] _ _ W S (position_3 s0 s1 s2 i j k Hi Hj Hk)) as N. rewrite V in N.
    pose proof (grid_point_at o r s0 s1 s2 x y k Hx Hy Hk) as G. rewrite <- E in G.
    rewrite (map_nth_error _ _ _ (nth_error_combine _ _ _ _ _ G N)). reflexivity.
  Qed.

  (** Every position is that of some grid point. *)
  Lemma some_place i j : 0 <= i < s0 -> 0 <= j < s1 ->
    exists x y, 0 <= x < s0 /\ 0 <= y < s1 /\ i * s1 + j = y * s0 + x.
  Proof using H0 H1.
    intros Hi Hj. exists ((i * s1 + j) mod s0), ((i * s1 + j) / s0).
    pose proof (Z.div_mod (i * s1 + j) s0 ltac:(lia)) as D. pose proof (Z.mod_pos_bound (i * s1 + j) s0 ltac:(lia)) as M.
    split; [exact M|]. split; [|lia].
    assert (B : 0 <= i * s1 + j < s0 * s1) by nia.
    split; [apply Z.div_pos; lia|]. apply Z.div_lt_upper_bound; lia.
  Qed.

  Hypotheses (OR : ordinary_size r) (L0 : s0 <= 2 ^ 31) (L1 : s1 <= 2 ^ 31) (L2 : s2 <= 2 ^ 31).

  Lemma place_zero x y k v : at_zero o -> 0 <= x < s0 -> 0 <= y < s1 -> 0 <= k < s2 ->
    published_at r o (CP (b32_of_b64 (grid_coordinate r (vx o) x)) (b32_of_b64 (grid_coordinate r (vy o) y))
                         (b32_of_b64 (grid_coordinate r (vz o) k)) v) x y k.
  Proof using OR L0 L1 L2.
    intros ((Fx & Fy & Fz) & Zx & Zy & Zz) Hx Hy Hk. split; [|split].
    - exact (proj2 (coordinate_zero r (vx o) x OR Fx Zx ltac:(lia))).
    - exact (proj2 (coordinate_zero r (vy o) y OR Fy Zy ltac:(lia))).
    - exact (proj2 (coordinate_zero r (vz o) k OR Fz Zz ltac:(lia))).
  Qed.

  Lemma published i j k : 0 <= i < s0 -> 0 <= j < s1 -> 0 <= k < s2 -> at_zero o ->
    exists c, nth_error (visualize_sdf a s0 s1 s2 r o) (Z.to_nat ((i * s1 + j) * s2 + k)) = Some c /\
      item a [i; j; k] = Some (p_distance c) /\
      (s0 = s1 -> published_at r o c j i k) /\
      (s0 = 1 \/ s1 = 1 -> published_at r o c i j k).
  Proof using All.
    intros Hi Hj Hk Zo. destruct (some_place i j Hi Hj) as (x & y & Hx & Hy & E).
    destruct (cloud_at i j k x y Hi Hj Hk Hx Hy E) as (v & V & N). eexists. split; [exact N|]. split; [exact V|].
    pose proof (place_zero x y k v Zo Hx Hy Hk) as P. split.
    - intros Q. assert (x = j /\ y = i) as (-> & ->) by (rewrite Q in *; apply (square_place s1); assumption). exact P.
    - intros Q. assert (x = i /\ y = j) as (-> & ->) by (apply (row_place s0 s1); assumption). exact P.
  Qed.
End Cloud.

(** A float near r is not near 0 and one near -c is not near c. *)
Lemma not_at x c d : (float_at x c -> float_at x d ->
  Rabs (c - d) <= bpow radix2 (-22) * (Rabs c + Rabs d) + bpow radix2 (-148))%R.
Proof.
  intros (_ & A) (_ & B). replace (c - d)%R with (- (real32 x - c) + (real32 x - d))%R by ring.
  eapply Rle_trans; [apply Rabs_triang|]. rewrite Rabs_Ropp.
  replace (bpow radix2 (-148)) with (2 * bpow radix2 (-149))%R; [lra|]. change (-148) with (1 + -149). rewrite bpow_plus. reflexivity.
Qed.

Lemma corner_zero r o i : real64 o = 0%R -> corner r o i = (IZR i * real64 r)%R.
Proof. intros E. unfold corner. rewrite E. ring. Qed.

Lemma cloud_transposed (a : ndarray binary32) s0 s1 s2 r o : whole a -> shape a = [s0; s1; s2] ->
  2 <= s0 <= 2 ^ 31 -> 2 <= s1 <= 2 ^ 31 -> 1 <= s2 <= 2 ^ 31 -> ordinary_size r -> at_zero o ->
  exists c, nth_error (visualize_sdf a s0 s1 s2 r o) (Z.to_nat s2) = Some c /\
    item a [0; 1; 0] = Some (p_distance c) /\ published_at r o c 1 0 0 /\ ~ published_at r o c 0 1 0.
Proof.
  intros W S B0 B1 B2 OR Zo.
  destruct (cloud_at a s0 s1 s2 r o W S ltac:(lia) ltac:(lia) ltac:(lia) 0 1 0 1 0) as (v & V & N); try lia.
  replace ((0 * s1 + 1) * s2 + 0) with s2 in N by ring. eexists. split; [exact N|]. split; [exact V|].
  assert (P := place_zero s0 s1 s2 r o OR ltac:(lia) ltac:(lia) ltac:(lia) 1 0 0 v Zo ltac:(lia) ltac:(lia) ltac:(lia)).
  split; [exact P|]. intros (Q & _). destruct P as (P & _).
  pose proof (not_at _ _ _ P Q) as K. destruct Zo as (_ & Zx & _). rewrite !(corner_zero r (vx o)) in K by exact Zx.
  destruct OR as (_ & Rr). assert (L : (bpow radix2 (-148) <= bpow radix2 (-22) * bpow radix2 (-80))%R) by (rewrite <- bpow_plus; apply bpow_le; lia).
  assert (P80 : (0 < bpow radix2 (-80))%R) by apply bpow_gt_0.
  rewrite Rmult_0_l, Rmult_1_l, Rminus_0_r, Rabs_R0, Rplus_0_r, Rabs_pos_eq in K by lra.
  assert (E22 : (bpow radix2 (-22) <= / 1000)%R) by (cbn -[Rinv IZR]; lra).
  assert (0 < bpow radix2 (-22))%R by apply bpow_gt_0. nra.
Qed.

(** ** The sign of the origin *)
Lemma zero_product r : finite_double r -> finite_double (mul64 (b64_of_Z 0) r) /\ real64 (mul64 (b64_of_Z 0) r) = 0%R.
Proof. intros F. destruct r as [s|s|s p H|s m e H]; try discriminate F; split; reflexivity. Qed.

Lemma coordinate_first r o : finite_double r -> finite_double o -> (Rabs (real64 o) <= bpow radix2 90)%R ->
  float_at (b32_of_b64 (grid_coordinate r o 0)) (- real64 o).
Proof.
  intros Fr Fo B. unfold grid_coordinate. destruct (zero_product r Fr) as (Fm & Em).
  pose proof u_pos as U0. pose proof u_le as U1.
  destruct (sub64_small (mul64 (b64_of_Z 0) r) o Fm Fo) as (Fs & e & He & Es).
  { rewrite Em, Rminus_0_l, Rabs_Ropp. eapply Rle_trans; [exact B|]. apply bpow_le. lia. }
  rewrite Em, Rminus_0_l in Es. set (v := sub64 _ _) in *. set (c := (- real64 o)%R) in *.
  assert (Bc : (Rabs c <= bpow radix2 90)%R) by (unfold c; rewrite Rabs_Ropp; exact B).
  change (bpow radix2 (-53)) with u in He.
  destruct (to32_small v Fs) as (Ff & f & t & Hf & Ht & E).
  { rewrite Es, Rabs_mult. apply Rle_trans with (bpow radix2 90 * 2)%R.
    - apply Rmult_le_compat; try apply Rabs_pos; [exact Bc|]. apply Rabs_le_inv in He. apply Rabs_le. lra.
    - change 2%R with (bpow radix2 1). rewrite <- bpow_plus. apply bpow_le. lia. }
  split; [exact Ff|]. rewrite E, Es.
  replace (c * (1 + e) * (1 + f) + t - c)%R with (c * (e + f + e * f) + t)%R by ring.
  eapply Rle_trans; [apply Rabs_triang|]. apply Rplus_le_compat.
  - rewrite Rabs_mult, Rmult_comm. apply Rmult_le_compat_r; [apply Rabs_pos|].
    assert (U24 : (u <= bpow radix2 (-24))%R) by (apply bpow_le; lia).
    assert (S24 : (bpow radix2 (-22) = 4 * bpow radix2 (-24))%R) by (change (-22) with (2 + -24); rewrite bpow_plus; reflexivity).
    assert (P24 : (0 < bpow radix2 (-24) <= / 1000)%R) by (split; [apply bpow_gt_0|cbn -[Rinv IZR]; lra]).
    rewrite S24. set (w := bpow radix2 (-24)) in *. clear - U0 U24 P24 He Hf.
    apply Rabs_le_inv in He. apply Rabs_le_inv in Hf. apply Rabs_le. nra.
  - eapply Rle_trans; [exact Ht|]. apply bpow_le. lia.
Qed.

Lemma cloud_origin (a : ndarray binary32) s0 s1 s2 r o : whole a -> shape a = [s0; s1; s2] ->
  1 <= s0 -> 1 <= s1 -> 1 <= s2 -> finite_double r -> finite_vec o -> (1 <= Rabs (real64 (vx o)) <= bpow radix2 90)%R ->
  exists c, nth_error (visualize_sdf a s0 s1 s2 r o) 0 = Some c /\
    item a [0; 0; 0] = Some (p_distance c) /\ float_at (p_x c) (- real64 (vx o)) /\ ~ published_at r o c 0 0 0.
Proof.
  intros W S B0 B1 B2 Fr (Fx & _) Bo.
  destruct (cloud_at a s0 s1 s2 r o W S ltac:(lia) ltac:(lia) ltac:(lia) 0 0 0 0 0) as (v & V & N); try lia.
  change (Z.to_nat ((0 * s1 + 0) * s2 + 0)) with 0%nat in N. eexists. split; [exact N|]. split; [exact V|].
  pose proof (coordinate_first r (vx o) Fr Fx (proj2 Bo)) as P. split; [exact P|]. intros (Q & _).
  pose proof (not_at _ _ _ P Q) as K. unfold corner in K. rewrite Rmult_0_l, Rplus_0_l, Rabs_Ropp in K.
  set (c := real64 (vx o)) in *. replace (- c - c)%R with (- (2 * c))%R in K by ring.
  rewrite Rabs_Ropp, Rabs_mult, (Rabs_pos_eq 2) in K by lra.
  assert (bpow radix2 (-22) <= / 1000)%R by (cbn -[Rinv IZR]; lra).
  assert (bpow radix2 (-148) <= / 1000)%R.
  { apply Rle_trans with (bpow radix2 (-10)); [apply bpow_le; lia|cbn -[Rinv IZR]; lra]. }
  assert (0 < bpow radix2 (-22))%R by apply bpow_gt_0. nra.
Qed.

(** ** Arrows *)
Lemma every_from_nth {T} (k m : nat) (l : list T) n : nth_error (every_from k m l) n = nth_error l (m + n * S k).
Proof.
  revert m n. induction l as [|x l IH]; intros m n.
  - destruct m, n; reflexivity.
  - destruct m as [|m]; cbn [every_from].
    + destruct n as [|n]; [reflexivity|]. cbn [nth_error]. rewrite IH. reflexivity.
    + rewrite IH. reflexivity.
Qed.

Lemma rows_of_3_nth {T} : forall (l : list T) n a b c,
  nth_error l (n * 3) = Some a -> nth_error l (n * 3 + 1) = Some b -> nth_error l (n * 3 + 2) = Some c ->
  nth_error (rows_of_3 l) n = Some (a, b, c).
Proof.
  fix IH 1. destruct l as [|x [|y [|z l]]]; intros n a b c A B C.
  - destruct n; discriminate.
  - destruct n; discriminate.
  - destruct n as [|[|n]]; discriminate.
  - destruct n as [|n]; cbn in *; [congruence|]. apply IH; assumption.
Qed.

Lemma rows_of_3_length {T} : forall l : list T, length (rows_of_3 l) = (length l / 3)%nat.
Proof.
  fix IH 1. destruct l as [|x [|y [|z l]]]; [reflexivity|reflexivity|reflexivity|].
  change (length (rows_of_3 (x :: y :: z :: l))) with (S (length (rows_of_3 l))). rewrite IH.
  change (length (x :: y :: z :: l)) with (3 + length l)%nat. replace (3 + length l)%nat with (length l + 1 * 3)%nat by lia.
  rewrite Nat.div_add by lia. lia.
Qed.

Lemma seq_nth_error n k i : nth_error (seq n k) i = if (i <? k)%nat then Some (n + i)%nat else None.
Proof.
  destruct (Nat.ltb_spec i k).
  - rewrite (nth_error_nth' _ 0%nat) by (rewrite seq_length; auto). rewrite seq_nth by auto. reflexivity.
  - apply nth_error_None. rewrite seq_length. auto.
Qed.

Lemma start_zero s0 s1 s2 r o : ordinary_size r -> s0 <= 2 ^ 31 -> s1 <= 2 ^ 31 -> s2 <= 2 ^ 31 ->
  forall ar x y k, at_zero o -> 0 <= x < s0 -> 0 <= y < s1 -> 0 <= k < s2 ->
    a_start ar = @V ieee (grid_coordinate r (vx o) x) (grid_coordinate r (vy o) y) (grid_coordinate r (vz o) k) ->
    starts_at r o ar x y k.
Proof.
  intros OR L0 L1 L2 ar x y k ((Fx & Fy & Fz) & Zx & Zy & Zz) Hx Hy Hk E. unfold starts_at. rewrite E. cbn [vx vy vz].
  split; [|split].
  - exact (proj1 (coordinate_zero r (vx o) x OR Fx Zx ltac:(lia))).
  - exact (proj1 (coordinate_zero r (vy o) y OR Fy Zy ltac:(lia))).
  - exact (proj1 (coordinate_zero r (vz o) k OR Fz Zz ltac:(lia))).
Qed.

Section Arrows.
  Variables (g : ndarray binary32) (s0 s1 s2 : Z) (r : binary64) (o : vec ieee).
  Hypotheses (W : whole g) (S : shape g = [s0; s1; s2; 3]) (H0 : 0 <= s0) (H1 : 0 <= s1) (H2 : 0 <= s2).

  Let rows := rows_of_3 (items g).
  Let pairs := List.combine (every_from 7 0 (get_grid_points o r s0 s1 s2)) (every_from 7 0 rows).

  Let count : Z.of_nat (length (items g)) = s0 * s1 * s2 * 3.
  Proof using W S H0 H1 H2.
    rewrite (items_length g [s0; s1; s2; 3] W S) by (repeat constructor; lia). cbn [prod fold_right]. ring.
  Qed.

  Lemma arrows_are : plot_arrows g s0 s1 s2 r o =
    Ok (map (fun q : nat * (vec ieee * (binary32 * binary32 * binary32)) =>
               Arrow (Z.of_nat (fst q)) (fst (snd q)) (arrow_end (fst (snd q)) (snd (snd q))))
            (List.combine (seq 0 (length pairs)) pairs)).
  Proof using All.
    unfold plot_arrows, reshape_rows. replace (length (items g) mod 3 =? 0)%nat with true; [reflexivity|].
    symmetry. apply Nat.eqb_eq. apply Nat2Z.inj. rewrite Nat2Z.inj_mod, count. change (Z.of_nat 3) with 3. apply Z.mod_mul. lia.
  Qed.

  Lemma row_at i j k : 0 <= i < s0 -> 0 <= j < s1 -> 0 <= k < s2 ->
    exists gx gy gz, item g [i; j; k; 0] = Some gx /\ item g [i; j; k; 1] = Some gy /\ item g [i; j; k; 2] = Some gz /\
      nth_error rows (Z.to_nat ((i * s1 + j) * s2 + k)) = Some (gx, gy, gz).
  Proof using All.
    intros Hi Hj Hk.
    destruct (W [i; j; k; 0]) as (gx & X); [rewrite S; repeat constructor; lia|].
    destruct (W [i; j; k; 1]) as (gy & Y); [rewrite S; repeat constructor; lia|].
    destruct (W [i; j; k; 2]) as (gz & Z); [rewrite S; repeat constructor; lia|].
    exists gx, gy, gz. do 3 (split; [assumption|]). set (n := (i * s1 + j) * s2 + k).
    assert (N0 : 0 <= n) by (unfold n; nia).
    assert (At : forall l, 0 <= l < 3 -> nth_error (items g) (Z.to_nat n * 3 + Z.to_nat l) = item g [i; j; k; l]).
    { intros l Hl. rewrite <- (items_nth g [s0; s1; s2; 3] _ _ W S (position_4 s0 s1 s2 3 i j k l Hi Hj Hk Hl)). fold n. f_equal. lia. }
    apply rows_of_3_nth.
    - rewrite <- X, <- At by lia. f_equal. lia.
    - rewrite <- Y, <- At by lia. reflexivity.
    - rewrite <- Z, <- At by lia. reflexivity.
  Qed.

  (** Arrow n, whose row of gradients is that of voxel [i, j, k] and whose start
      is grid point (x, y, k). *)
  Lemma arrow_at n i j k x y : 0 <= i < s0 -> 0 <= j < s1 -> 0 <= k < s2 -> 0 <= x < s0 -> 0 <= y < s1 ->
    i * s1 + j = y * s0 + x -> Z.of_nat n * 8 = (i * s1 + j) * s2 + k ->
    exists l ar gx gy gz, plot_arrows g s0 s1 s2 r o = Ok l /\ nth_error l n = Some ar /\ a_id ar = Z.of_nat n /\
      item g [i; j; k; 0] = Some gx /\ item g [i; j; k; 1] = Some gy /\ item g [i; j; k; 2] = Some gz /\
      a_start ar = @V ieee (grid_coordinate r (vx o) x) (grid_coordinate r (vy o) y) (grid_coordinate r (vz o) k) /\
      a_end ar = arrow_end (a_start ar) (gx, gy, gz).
  Proof using All.
    intros Hi Hj Hk Hx Hy E En. destruct (row_at i j k Hi Hj Hk) as (gx & gy & gz & X & Y & Z & R).
    pose proof (grid_point_at o r s0 s1 s2 x y k Hx Hy Hk) as G. rewrite <- E in G.
    assert (P : nth_error pairs n = Some (@V ieee (grid_coordinate r (vx o) x) (grid_coordinate r (vy o) y) (grid_coordinate r (vz o) k), (gx, gy, gz))).
    { unfold pairs. apply nth_error_combine; rewrite every_from_nth.
      - rewrite <- G. f_equal. lia.
      - rewrite <- R. f_equal. lia. }
    assert (Ln : (n < length pairs)%nat) by (apply nth_error_Some; congruence).
    do 2 eexists. exists gx, gy, gz. split; [apply arrows_are|]. split.
    - apply map_nth_error. apply nth_error_combine; [|exact P]. rewrite seq_nth_error.
      destruct (Nat.ltb_spec n (length pairs)); [reflexivity|lia].
    - cbn [fst snd a_id a_start a_end]. repeat split; assumption.
  Qed.

  Lemma arrow_ids : exists l, plot_arrows g s0 s1 s2 r o = Ok l /\ NoDup (map a_id l) /\
    forall n, (nth_error l n <> None <-> Z.of_nat n * 8 < s0 * s1 * s2).
  Proof using All.
    eexists. split; [apply arrows_are|]. split.
    - rewrite map_map. cbn [a_id]. rewrite <- (map_map fst Z.of_nat).
      replace (map fst (List.combine (seq 0 (length pairs)) pairs)) with (seq 0 (length pairs)).
      + apply FinFun.Injective_map_NoDup; [intros p q; apply Nat2Z.inj|apply seq_NoDup].
      + generalize pairs as l. intros l. generalize 0%nat. induction l as [|q l IH]; intros m; [reflexivity|]. cbn. f_equal. apply IH.
    - intros n. rewrite nth_error_Some, map_length, combine_length, seq_length, Nat.min_id.
      rewrite <- nth_error_Some. unfold pairs.
      pose proof (grid_points_length o r s0 s1 s2 H0 H1 H2) as GL.
      assert (RL : Z.of_nat (length rows) = s0 * s1 * s2).
      { unfold rows. rewrite rows_of_3_length, Nat2Z.inj_div, count. change (Z.of_nat 3) with 3. apply Z.div_mul. lia. }
      rewrite nth_error_Some, combine_length.
      assert (K : forall T (l : list T), (n < length (every_from 7 0 l))%nat <-> Z.of_nat n * 8 < Z.of_nat (length l)).
      { intros T l. rewrite <- nth_error_Some, every_from_nth, nth_error_Some. lia. }
      rewrite Nat.min_glb_lt_iff, !K, GL, RL. tauto.
  Qed.

  Hypotheses (OR : ordinary_size r) (L0 : s0 <= 2 ^ 31) (L1 : s1 <= 2 ^ 31) (L2 : s2 <= 2 ^ 31).

  Lemma arrows_drawn i j k n : 0 <= i < s0 -> 0 <= j < s1 -> 0 <= k < s2 -> at_zero o ->
    Z.of_nat n * 8 = (i * s1 + j) * s2 + k ->
    exists l ar gx gy gz, plot_arrows g s0 s1 s2 r o = Ok l /\ nth_error l n = Some ar /\ a_id ar = Z.of_nat n /\
      item g [i; j; k; 0] = Some gx /\ item g [i; j; k; 1] = Some gy /\ item g [i; j; k; 2] = Some gz /\
      a_end ar = arrow_end (a_start ar) (gx, gy, gz) /\
      (s0 = s1 -> starts_at r o ar j i k) /\ (s0 = 1 \/ s1 = 1 -> starts_at r o ar i j k).
  Proof using All.
    intros Hi Hj Hk Zo En. destruct (some_place s0 s1 H0 H1 i j Hi Hj) as (x & y & Hx & Hy & E).
    destruct (arrow_at n i j k x y Hi Hj Hk Hx Hy E En) as (l & ar & gx & gy & gz & P & N & I & X & Y & Z & A & B).
    exists l, ar, gx, gy, gz. do 7 (split; [assumption|]). pose proof (start_zero s0 s1 s2 r o OR L0 L1 L2 ar x y k Zo Hx Hy Hk A) as Q. split.
    - intros D. assert (x = j /\ y = i) as (-> & ->) by (rewrite D in *; apply (square_place s1); assumption). exact Q.
    - intros D. assert (x = i /\ y = j) as (-> & ->) by (apply (row_place s0 s1); assumption). exact Q.
  Qed.
End Arrows.

Lemma not_double_at x c d : (double_at x c -> double_at x d ->
  Rabs (c - d) <= bpow radix2 (-50) * (Rabs c + Rabs d) + bpow radix2 (-999))%R.
Proof.
  intros (_ & A) (_ & B). replace (c - d)%R with (- (real64 x - c) + (real64 x - d))%R by ring.
  eapply Rle_trans; [apply Rabs_triang|]. rewrite Rabs_Ropp.
  replace (bpow radix2 (-999)) with (2 * bpow radix2 (-1000))%R; [lra|]. change (-999) with (1 + -1000). rewrite bpow_plus. reflexivity.
Qed.

Lemma arrows_transposed (g : ndarray binary32) s0 s1 s2 r o : whole g -> shape g = [s0; s1; s2; 3] ->
  9 <= s0 <= 2 ^ 31 -> 9 <= s1 <= 2 ^ 31 -> 1 <= s2 <= 2 ^ 31 -> ordinary_size r -> at_zero o ->
  exists l ar gx gy gz, plot_arrows g s0 s1 s2 r o = Ok l /\ nth_error l (Z.to_nat s2) = Some ar /\
    item g [0; 8; 0; 0] = Some gx /\ item g [0; 8; 0; 1] = Some gy /\ item g [0; 8; 0; 2] = Some gz /\
    a_end ar = arrow_end (a_start ar) (gx, gy, gz) /\
    starts_at r o ar 8 0 0 /\ ~ starts_at r o ar 0 8 0.
Proof.
  intros W S B0 B1 B2 OR Zo.
  destruct (arrow_at g s0 s1 s2 r o W S ltac:(lia) ltac:(lia) ltac:(lia) (Z.to_nat s2) 0 8 0 8 0)
    as (l & ar & gx & gy & gz & P & N & I & X & Y & Z & A & B); try lia.
  exists l, ar, gx, gy, gz. do 6 (split; [assumption|]).
  assert (Q := start_zero s0 s1 s2 r o OR ltac:(lia) ltac:(lia) ltac:(lia) ar 8 0 0 Zo ltac:(lia) ltac:(lia) ltac:(lia) A).
  split; [exact Q|]. intros (T & _). destruct Q as (Q & _).
  pose proof (not_double_at _ _ _ Q T) as K. destruct Zo as (_ & Zx & _). rewrite !(corner_zero r (vx o)) in K by exact Zx.
  destruct OR as (_ & Rr). assert (L : (bpow radix2 (-999) <= bpow radix2 (-22) * bpow radix2 (-80))%R) by (rewrite <- bpow_plus; apply bpow_le; lia).
  assert (P80 : (0 < bpow radix2 (-80))%R) by apply bpow_gt_0.
  rewrite Rmult_0_l, Rminus_0_r, Rabs_R0, Rplus_0_r, Rabs_pos_eq in K by lra.
  assert (E22 : (bpow radix2 (-22) <= / 1000)%R) by (cbn -[Rinv IZR]; lra).
  assert (E50 : (bpow radix2 (-50) <= / 1000)%R) by (cbn -[Rinv IZR]; lra).
  assert (0 < bpow radix2 (-22))%R by apply bpow_gt_0. nra.
Qed.

(** ** Points that are not numbers *)
Lemma not_finite_sub x o : is_finite 53 1024 x = false -> is_finite 53 1024 o = true -> is_finite 53 1024 (sub64 x o) = false.
Proof. intros X O. destruct x as [|b| |]; try discriminate; destruct o; try discriminate; reflexivity. Qed.

Lemma not_finite_div x r : is_finite 53 1024 x = false -> is_finite 53 1024 r = true -> is_finite 53 1024 (div64 x r) = false.
Proof. intros X O. destruct x as [|b| |]; try discriminate; destruct r; try discriminate; reflexivity. Qed.

Lemma as_int64_not_finite x : is_finite 53 1024 x = false -> as_int64 x = UB "double does not fit int64".
Proof. intros X. unfold as_int64, int_part. destruct x; try discriminate; reflexivity. Qed.

Lemma as_int64_cases x : (exists z, as_int64 x = Ok z) \/ as_int64 x = UB "double does not fit int64".
Proof. unfold as_int64. destruct (int_part x); auto. destruct (_ && _); eauto. Qed.

Lemma point_index_cases r o p : (exists z, point_index r o p = Ok z) \/ point_index r o p = UB "double does not fit int64".
Proof.
  unfold point_index. destruct (as_int64_cases (div64 (sub64 (vx p) (vx o)) r)) as [(z & ->)| ->]; [|right; reflexivity]. cbn [bind].
  destruct (as_int64_cases (div64 (sub64 (vy p) (vy o)) r)) as [(z' & ->)| ->]; [|right; reflexivity]. cbn [bind].
  destruct (as_int64_cases (div64 (sub64 (vz p) (vz o)) r)) as [(z'' & ->)| ->]; [|right; reflexivity]. cbn [bind]. eauto.
Qed.

Lemma point_index_bad r o p : finite_double r -> finite_vec o -> ~ finite_vec p -> point_index r o p = UB "double does not fit int64".
Proof.
  intros Fr (Ox & Oy & Oz) Np.
  assert (K : forall x o', finite_double o' -> is_finite 53 1024 x = false -> as_int64 (div64 (sub64 x o') r) = UB "double does not fit int64").
  { intros x o' O X. apply as_int64_not_finite, not_finite_div; [apply not_finite_sub|]; auto. }
  unfold point_index. destruct (is_finite 53 1024 (vx p)) eqn:X; [|rewrite (K _ _ Ox X); reflexivity].
  destruct (as_int64_cases (div64 (sub64 (vx p) (vx o)) r)) as [(z & ->)| ->]; [|reflexivity]. cbn [bind].
  destruct (is_finite 53 1024 (vy p)) eqn:Y; [|rewrite (K _ _ Oy Y); reflexivity].
  destruct (as_int64_cases (div64 (sub64 (vy p) (vy o)) r)) as [(z' & ->)| ->]; [|reflexivity]. cbn [bind].
  destruct (is_finite 53 1024 (vz p)) eqn:Z; [|rewrite (K _ _ Oz Z); reflexivity].
  exfalso. apply Np. split; [exact X|]. split; [exact Y|exact Z].
Qed.

Lemma voxel_grid_not_finite pc s0 s1 s2 r o p : 0 <= s0 -> 0 <= s1 -> 0 <= s2 -> finite_double r -> finite_vec o ->
  In p pc -> ~ finite_vec p -> point_cloud_to_voxel_grid pc s0 s1 s2 r o = UB "double does not fit int64".
Proof.
  intros H0 H1 H2 Fr Fo Hp Np. unfold point_cloud_to_voxel_grid.
  destruct (zeros_ok [s0; s1; s2] (shape_nonneg s0 s1 s2 H0 H1 H2)) as (z & -> & _). cbn [bind].
  assert (K : forall l, foldM (fun l p => let* ix := point_index r o p in Ok (l ++ [ix])) pc l = UB "double does not fit int64").
  { induction pc as [|q pc IH]; intros l; [destruct Hp|]. cbn [foldM].
    destruct Hp as [-> |Hp]; [rewrite (point_index_bad r o p Fr Fo Np); reflexivity|].
    destruct (point_index_cases r o q) as [(ix & ->)| ->]; [|reflexivity]. cbn [bind]. apply IH. exact Hp. }
  rewrite K. reflexivity.
Qed.

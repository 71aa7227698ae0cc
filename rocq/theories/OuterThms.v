(** Estimates anywhere in the grid, the outer half cells included. *)
From Coq Require Import Bool Reals Lra Lia Psatz.
From Flocq Require Import Core.Core IEEE754.Binary IEEE754.Bits.
From Verif Require Import Base BaseFacts Floats Grid GridFacts DistSpec CollisionMap SdfGen SdfSpec Arith SdfQuery SdfField QuerySpec
  QueryReal QueryThms AutoDiffSpec AutoDiffThms EstimateSteps DoubleSpec WallSpec EstimateSpec EstimateMap EstimateCase SlopeThms
  IdealSpec IdealMap.
Open Scope R_scope.

(** The point of the same cell nearest to [v] that is between the centres. *)
Definition inward (r : R) (n : Z) (v : R) : R :=
  if (n =? 1)%Z then v else Rmax (r / 2) (Rmin v (r * IZR n - r / 2)).

Lemma inward_axis r i n v : 0 < r -> (0 <= i < n)%Z -> r * IZR i <= v < r * (IZR i + 1) ->
  r * IZR i <= inward r n v < r * (IZR i + 1) /\ between_centers_axis r n (inward r n v) /\
  Rabs (v - inward r n v) <= r / 2 /\ (n = 1%Z -> Rabs (v - inward r n v) = 0).
Proof.
  intros Hr Hi Hv. unfold inward. destruct (Z.eqb_spec n 1) as [N|N].
  - split; [exact Hv|]. split; [left; exact N|]. rewrite Rminus_diag_eq, Rabs_R0 by reflexivity. split; [lra|auto].
  - assert (N2 : r * 2 <= r * IZR n) by (apply Rmult_le_compat_l; [lra|apply IZR_le; lia]).
    assert (I0 : 0 <= r * IZR i) by (apply Rmult_le_pos; [lra|apply IZR_le; lia]).
    assert (In' : r * (IZR i + 1) <= r * IZR n).
    { apply Rmult_le_compat_l; [lra|]. rewrite <- plus_IZR. apply IZR_le. lia. }
    assert (L : r / 2 <= r * (IZR i + 1/2) <= r * IZR n - r / 2) by lra.
    unfold Rmax, Rmin. destruct (Rle_dec v (r * IZR n - r / 2)); destruct (Rle_dec (r / 2) _);
      (split; [lra|]; split; [right; lra|]; split; [apply Rabs_le; lra|lia]).
Qed.

(** From a point between the centres outwards. *)
Lemma estimate_outward (f : rfield) p q q' M wx wy : let r := f_res f in let d := f_dims f in
  0 < r -> geometry r p -> 0 <= M -> gentle f M ->
  in_bounds d (index_of p q) = true -> in_bounds d (index_of p q') = true -> between_centers f q' ->
  stretch r (nx d) wx (vx q) -> stretch r (ny d) wy (vy q) ->
  Rabs (estimated f p (to_world p q) - estimated f p (to_world p q')) <=
    M / r * (Rabs (vx q - vx q') + wx * Rabs (vy q - vy q') + wx * wy * Rabs (vz q - vz q')).
Proof.
  intros r d Hr G HM Hg B B' C' Sx Sy. unfold r, d in *. rewrite !estimated_ipol by auto.
  set (i := index_of p q) in *. set (i' := index_of p q') in *. fold r in Hr, Sx, Sy |- *. fold d in Sx, Sy |- *.
  pose proof B as C. apply in_bounds_spec in C. destruct C as (Bx & By & Bz).
  pose proof B' as C. apply in_bounds_spec in C. destruct C as (Bx' & By' & Bz').
  fold d in Bx, By, Bz, Bx', By', Bz'. fold r in G.
  assert (Ix : inside r (ix i) (nx d) (vx q)) by (split; auto; apply (g_index_x _ _ G)).
  assert (Iy : inside r (iy i) (ny d) (vy q)) by (split; auto; apply (g_index_y _ _ G)).
  assert (Iz : inside r (iz i) (nz d) (vz q)) by (split; auto; apply (g_index_z _ _ G)).
  assert (Ix' : inside r (ix i') (nx d) (vx q')) by (split; auto; apply (g_index_x _ _ G)).
  assert (Iy' : inside r (iy i') (ny d) (vy q')) by (split; auto; apply (g_index_y _ _ G)).
  assert (Iz' : inside r (iz i') (nz d) (vz q')) by (split; auto; apply (g_index_z _ _ G)).
  assert (Wx : 0 <= wx) by (destruct Sx as [->|(-> & _)]; lra).
  assert (Wy : 0 <= wy) by (destruct Sy as [->|(-> & _)]; lra).
  assert (Sy' : stretch r (ny d) 1 (vy q')) by (right; split; [reflexivity|apply C']).
  assert (Sz' : stretch r (nz d) 1 (vz q')) by (right; split; [reflexivity|apply C']).
  set (X := fun b c => ipol r (ix i) (nx d) (vx q) (fun a => centered_value f (I a b c))).
  set (X' := fun b c => ipol r (ix i') (nx d) (vx q') (fun a => centered_value f (I a b c))).
  set (Y := fun c => ipol r (iy i) (ny d) (vy q) (fun b => X b c)).
  set (Y' := fun c => ipol r (iy i') (ny d) (vy q') (fun b => X b c)).
  set (Y'' := fun c => ipol r (iy i') (ny d) (vy q') (fun b => X' b c)).
  change (Rabs (ipol r (iz i) (nz d) (vz q) Y - ipol r (iz i') (nz d) (vz q') Y'') <=
    M / r * (Rabs (vx q - vx q') + wx * Rabs (vy q - vy q') + wx * wy * Rabs (vz q - vz q'))).
  assert (Gx : forall a b c, (0 <= a)%Z -> (a + 1 < nx d)%Z -> (0 <= b < ny d)%Z -> (0 <= c < nz d)%Z ->
    Rabs (centered_value f (I (a + 1) b c) - centered_value f (I a b c)) <= M).
  { intros. apply Hg; [apply in_bounds_spec; fold d; cbn [ix iy iz]; lia|apply in_bounds_spec; fold d; cbn [ix iy iz]; lia|].
    unfold share_face. cbn [ix iy iz]. lia. }
  assert (Gy : forall a b c, (0 <= a < nx d)%Z -> (0 <= b)%Z -> (b + 1 < ny d)%Z -> (0 <= c < nz d)%Z ->
    Rabs (centered_value f (I a (b + 1) c) - centered_value f (I a b c)) <= M).
  { intros. apply Hg; [apply in_bounds_spec; fold d; cbn [ix iy iz]; lia|apply in_bounds_spec; fold d; cbn [ix iy iz]; lia|].
    unfold share_face. cbn [ix iy iz]. lia. }
  assert (Gz : forall a b c, (0 <= a < nx d)%Z -> (0 <= b < ny d)%Z -> (0 <= c)%Z -> (c + 1 < nz d)%Z ->
    Rabs (centered_value f (I a b (c + 1)) - centered_value f (I a b c)) <= M).
  { intros. apply Hg; [apply in_bounds_spec; fold d; cbn [ix iy iz]; lia|apply in_bounds_spec; fold d; cbn [ix iy iz]; lia|].
    unfold share_face. cbn [ix iy iz]. lia. }
  assert (WM : 0 <= wx * M) by (apply Rmult_le_pos; auto).
  assert (WWM : 0 <= wy * (wx * M)) by (apply Rmult_le_pos; auto).
  assert (Ri : 0 <= / r) by (left; apply Rinv_0_lt_compat; auto).
  assert (P1 : Rabs (ipol r (iz i) (nz d) (vz q) Y - ipol r (iz i') (nz d) (vz q') Y) <= wy * (wx * M) / r * Rabs (vz q - vz q')).
  { apply ipol_slope; auto. intros c H1 H2. unfold Y. apply ipol_values; auto. intros b Hb. unfold X.
    apply ipol_values; auto. }
  assert (P2 : Rabs (ipol r (iz i') (nz d) (vz q') Y - ipol r (iz i') (nz d) (vz q') Y') <= 1 * (wx * M / r * Rabs (vy q - vy q'))).
  { apply ipol_values; auto.
    - apply Rmult_le_pos; [|apply Rabs_pos]. apply Rmult_le_pos; auto.
    - intros c Hc. unfold Y, Y'. apply ipol_slope; auto. intros b H1 H2. unfold X. apply ipol_values; auto. }
  assert (E0 : 0 <= M / r * Rabs (vx q - vx q')).
  { apply Rmult_le_pos; [|apply Rabs_pos]. apply Rmult_le_pos; auto. }
  assert (P3 : Rabs (ipol r (iz i') (nz d) (vz q') Y' - ipol r (iz i') (nz d) (vz q') Y'') <= 1 * (1 * (M / r * Rabs (vx q - vx q')))).
  { apply ipol_values; auto; [lra|].
    intros c Hc. unfold Y', Y''. apply ipol_values; auto. intros b Hb. unfold X, X'. apply ipol_slope; auto. }
  replace (ipol r (iz i) (nz d) (vz q) Y - ipol r (iz i') (nz d) (vz q') Y'') with
    ((ipol r (iz i) (nz d) (vz q) Y - ipol r (iz i') (nz d) (vz q') Y) +
     (ipol r (iz i') (nz d) (vz q') Y - ipol r (iz i') (nz d) (vz q') Y') +
     (ipol r (iz i') (nz d) (vz q') Y' - ipol r (iz i') (nz d) (vz q') Y'')) by ring.
  eapply Rle_trans; [apply Rabs_triang|]. eapply Rle_trans; [apply Rplus_le_compat_r, Rabs_triang|].
  eapply Rle_trans; [apply Rplus_le_compat; [apply Rplus_le_compat; [exact P1|exact P2]|exact P3]|].
  right. unfold Rdiv. ring.
Qed.

Section Outer.
Variables (d : dims) (r : binary64) (filled : idx -> bool) (s : sdf).
Hypothesis HM : field_of_map d r filled s.
Hypothesis HX : flat d \/ forall c, in_bounds d c = true -> exact_at d r filled s c.
Variable p : pose reals.
Hypothesis G : geometry (real64 r) p.
Variable q : rvec.
Hypothesis B : in_bounds d (index_of p q) = true.
Let R_ := real64 r.

(** The nearest point between the centres lies in the same cell. *)
Lemma outer_point : exists q', index_of p q' = index_of p q /\ between_centers (real_field s) q' /\
  (gap q' q <= 0.8661 * R_ /\ Rabs (estimated (real_field s) p (to_world p q) - estimated (real_field s) p (to_world p q')) <= 3.57 * R_) /\
  (flat d -> gap q' q <= 0.7072 * R_ /\
     Rabs (estimated (real_field s) p (to_world p q) - estimated (real_field s) p (to_world p q')) <= 1.53 * R_).
Proof.
  destruct (map_dims d r filled s HM) as (FD & FR & Rp). fold R_ in G, FR, Rp.
  pose proof B as C. apply in_bounds_spec in C. destruct C as (Bx & By & Bz).
  destruct (inward_axis R_ _ _ _ Rp Bx (g_index_x _ _ G q)) as (X1 & X2 & X3 & X4).
  destruct (inward_axis R_ _ _ _ Rp By (g_index_y _ _ G q)) as (Y1 & Y2 & Y3 & Y4).
  destruct (inward_axis R_ _ _ _ Rp Bz (g_index_z _ _ G q)) as (Z1 & Z2 & Z3 & Z4).
  set (q' := @V reals (inward R_ (nx d) (vx q)) (inward R_ (ny d) (vy q)) (inward R_ (nz d) (vz q))).
  assert (Same : forall v a b, R_ * IZR a <= v < R_ * (IZR a + 1) -> R_ * IZR b <= v < R_ * (IZR b + 1) -> a = b).
  { intros v a b H1 H2.
    assert (A1 : R_ * IZR a < R_ * (IZR b + 1)) by lra. assert (A2 : R_ * IZR b < R_ * (IZR a + 1)) by lra.
    apply Rmult_lt_reg_l in A1; auto. apply Rmult_lt_reg_l in A2; auto.
    rewrite <- plus_IZR in A1, A2. apply lt_IZR in A1. apply lt_IZR in A2. lia. }
  assert (Ei : index_of p q' = index_of p q).
  { destruct (index_of p q) as [a b c] eqn:Eq. destruct (index_of p q') as [a' b' c'] eqn:Eq'. cbn [ix iy iz] in *.
    pose proof (g_index_x _ _ G q') as K1. pose proof (g_index_y _ _ G q') as K2. pose proof (g_index_z _ _ G q') as K3.
    rewrite Eq' in K1, K2, K3. unfold q' in K1, K2, K3. cbn [ix iy iz vx vy vz] in K1, K2, K3.
    f_equal; eapply Same; eassumption. }
  assert (Bc : between_centers (real_field s) q').
  { unfold between_centers. rewrite FR, FD. auto. }
  exists q'. split; [exact Ei|]. split; [exact Bc|].
  assert (Gt : gentle (real_field s) (1.02 * R_)) by exact (map_gentle d r filled s HM HX).
  assert (St : forall wx wy, stretch R_ (nx d) wx (vx q) -> stretch R_ (ny d) wy (vy q) ->
    Rabs (estimated (real_field s) p (to_world p q) - estimated (real_field s) p (to_world p q')) <=
    1.02 * (Rabs (vx q - vx q') + wx * Rabs (vy q - vy q') + wx * wy * Rabs (vz q - vz q'))).
  { intros wx wy Sx Sy. pose proof (estimate_outward (real_field s) p q q' (1.02 * R_) wx wy) as K. cbv zeta in K.
    rewrite FR, FD in K. eapply Rle_trans; [apply K; auto; [lra|rewrite Ei; exact B]|]. apply Req_le. field. lra. }
  change (Rabs (vx q - vx q') <= R_ / 2) in X3. change (Rabs (vy q - vy q') <= R_ / 2) in Y3. change (Rabs (vz q - vz q') <= R_ / 2) in Z3.
  change (nx d = 1%Z -> Rabs (vx q - vx q') = 0) in X4. change (ny d = 1%Z -> Rabs (vy q - vy q') = 0) in Y4.
  change (nz d = 1%Z -> Rabs (vz q - vz q') = 0) in Z4.
  assert (Gp : forall m, 0 <= m -> Rabs (vx q - vx q') * Rabs (vx q - vx q') + Rabs (vy q - vy q') * Rabs (vy q - vy q') +
    Rabs (vz q - vz q') * Rabs (vz q - vz q') <= (m * R_) * (m * R_) -> gap q' q <= m * R_).
  { intros m Hm H. unfold gap. rewrite <- (sqrt_square (m * R_)) by (apply Rmult_le_pos; lra).
    apply sqrt_le_1_alt. eapply Rle_trans; [|exact H].
    assert (Sq : forall t, Rabs t * Rabs t = t * t) by (intros t; rewrite <- Rabs_mult; apply Rabs_pos_eq, Rle_0_sqr).
    rewrite !Sq. right. asR. ring. }
  pose proof (Rabs_pos (vx q - vx q')) as PX. pose proof (Rabs_pos (vy q - vy q')) as PY. pose proof (Rabs_pos (vz q - vz q')) as PZ.
  set (dx := Rabs (vx q - vx q')) in *. set (dy := Rabs (vy q - vy q')) in *. set (dz := Rabs (vz q - vz q')) in *.
  clearbody dx dy dz.
  assert (Q : forall t, 0 <= t <= R_ / 2 -> t * t <= R_ / 2 * (R_ / 2)) by (intros t Ht; apply Rmult_le_compat; lra).
  pose proof (Q dx (conj PX X3)) as QX. pose proof (Q dy (conj PY Y3)) as QY. pose proof (Q dz (conj PZ Z3)) as QZ.
  assert (RR : 0 < R_ * R_) by (apply Rmult_lt_0_compat; lra).
  split; [split|].
  - apply Gp; [lra|]. lra.
  - eapply Rle_trans; [apply (St 2 2); left; reflexivity|]. lra.
  - intros [N|[N|N]].
    + assert (N1 : nx d = 1%Z) by lia; clear N; rename N1 into N. specialize (X4 N). split; [apply Gp; [lra|]; rewrite X4 in *; lra|].
      eapply Rle_trans; [apply (St 1 2); [right; split; [reflexivity|left; exact N]|left; reflexivity]|]. lra.
    + assert (N1 : ny d = 1%Z) by lia; clear N; rename N1 into N. specialize (Y4 N). split; [apply Gp; [lra|]; rewrite Y4 in *; lra|].
      eapply Rle_trans; [apply (St 2 1); [left; reflexivity|right; split; [reflexivity|left; exact N]]|]. lra.
    + assert (N1 : nz d = 1%Z) by lia; clear N; rename N1 into N. specialize (Z4 N). split; [apply Gp; [lra|]; rewrite Z4 in *; lra|].
      eapply Rle_trans; [apply (St 2 2); left; reflexivity|]. lra.
Qed.

Lemma here e q' : index_of p q' = index_of p q -> estimate_distance (real_field s) p (to_world p q') = Ok (e, true) ->
  estimated (real_field s) p (to_world p q') = e.
Proof using. intros _ E. unfold estimated. rewrite E. reflexivity. Qed.

Lemma there_is : exists e, estimate_distance (real_field s) p (to_world p q) = Ok (e, true) /\
  estimated (real_field s) p (to_world p q) = e.
Proof using HM B G.
  destruct (map_dims d r filled s HM) as (FD & FR & Rp).
  unfold estimated, estimate_distance. rewrite (g_there_and_back _ _ G), FD, B.
  destruct (QueryProofs.estimate_ok (real_field s) p q (index_of p q)) as (e & E); [rewrite FD; exact B|].
  rewrite E. cbn [bind]. exists e. auto.
Qed.

Lemma outer_class : exists e, estimate_distance (real_field s) p (to_world p q) = Ok (e, true) /\
  (4.2 * R_ < e -> filled (index_of p q) = false) /\ (e < - (4.2 * R_) -> filled (index_of p q) = true) /\
  (flat d -> (2.16 * R_ < e -> filled (index_of p q) = false) /\ (e < - (2.16 * R_) -> filled (index_of p q) = true)).
Proof.
  destruct outer_point as (q' & Ei & Bc & (_ & D1) & D2). destruct there_is as (e & E & Ee).
  destruct (map_dims d r filled s HM) as (_ & _ & Rp). fold R_ in Rp.
  exists e. split; [exact E|].
  destruct (class_from_estimate d r filled s p q' HM G) as (e' & E' & P1 & P2); [rewrite Ei; exact B|exact Bc|].
  rewrite (here e' q' Ei E'), Ee in D1, D2. rewrite Ei in P1, P2. fold R_ in P1, P2.
  apply Rabs_le_inv in D1. split; [intros; apply P1; lra|]. split; [intros; apply P2; lra|].
  intros Fl. destruct (D2 Fl) as (_ & D3). apply Rabs_le_inv in D3.
  split; intros; [apply P1|apply P2]; lra.
Qed.

Lemma outer_above b : in_bounds d b = true -> filled b = true ->
  exists e, estimate_distance (real_field s) p (to_world p q) = Ok (e, true) /\
  (flat d -> e <= 1.42 * gap q (center_of p b) + 3.29 * R_) /\
  ((forall c, in_bounds d c = true -> exact_at d r filled s c) ->
   e <= (1 + bpow radix2 (-23)) * gap q (center_of p b) + 4.82 * R_).
Proof.
  intros Hb Fb. destruct outer_point as (q' & Ei & Bc & (G1 & D1) & D2). destruct there_is as (e & E & Ee).
  destruct (map_dims d r filled s HM) as (_ & _ & Rp). fold R_ in Rp.
  assert (B' : in_bounds d (index_of p q') = true) by (rewrite Ei; exact B).
  exists e. split; [exact E|].
  pose proof (gap_triangle q' q (center_of p b)) as T. pose proof eps_small as Es. set (eps := bpow radix2 (-23)) in *.
  split.
  - intros Fl. destruct (D2 Fl) as (G3 & D3).
    destruct (clearance_planar d r filled s HM p G q' B' Bc b Fl Hb Fb) as (e' & E' & P).
    rewrite (here e' q' Ei E'), Ee in D3. apply Rabs_le_inv in D3. fold R_ in P. lra.
  - intros X.
    destruct (clearance_exact d r filled s HM p G q' B' Bc b Hb Fb (fun j Hj _ => X j Hj)) as (e' & E' & P).
    rewrite (here e' q' Ei E'), Ee in D1. apply Rabs_le_inv in D1. fold R_ in P. fold eps in P.
    assert (eps * gap q' (center_of p b) <= eps * (0.8661 * R_ + gap q (center_of p b))) by (apply Rmult_le_compat_l; lra).
    assert (eps * R_ <= 0.001 * R_) by (apply Rmult_le_compat_r; lra). lra.
Qed.

Lemma outer_below D_ : 0 <= D_ -> filled (index_of p q) = false ->
  (forall b, in_bounds d b = true -> filled b = true -> D_ <= gap q (center_of p b)) ->
  exists e, estimate_distance (real_field s) p (to_world p q) = Ok (e, true) /\
    (1 - bpow radix2 (-23)) * D_ - 6.54 * R_ <= e /\
    (flat d -> (1 - bpow radix2 (-23)) * D_ - 4.34 * R_ <= e).
Proof.
  intros D0 Fr HD. destruct outer_point as (q' & Ei & Bc & (G1 & D1) & D2). destruct there_is as (e & E & Ee).
  destruct (map_dims d r filled s HM) as (_ & _ & Rp). fold R_ in Rp.
  assert (B' : in_bounds d (index_of p q') = true) by (rewrite Ei; exact B).
  exists e. split; [exact E|]. pose proof eps_small as Es. set (eps := bpow radix2 (-23)) in *.
  assert (K : forall m, 0 <= m -> gap q' q <= m -> exists e', estimated (real_field s) p (to_world p q') = e' /\
    (1 - eps) * (D_ - m) - 2.1 * R_ <= e' \/ D_ <= m).
  { intros m Hm Hg. destruct (Rle_lt_dec D_ m) as [C|C]; [exists 0; right; exact C|].
    destruct (clearance_below d r filled s HM p G q' B' Bc (D_ - m)) as (e' & E' & P); [lra|rewrite Ei; exact Fr| |].
    - intros b Hb Fb. pose proof (HD b Hb Fb). pose proof (gap_triangle q q' (center_of p b)).
      rewrite (gap_sym q q') in H0. lra.
    - exists e'. left. split; [exact (here e' q' Ei E')|exact P]. }
  assert (Own : - (5 / 8 * R_) <= estimated (real_field s) p (to_world p q')).
  { destruct (class_from_estimate d r filled s p q' HM G B' Bc) as (e' & E' & _ & P). rewrite (here e' q' Ei E').
    apply Rnot_lt_le. intros C. rewrite Ei in P. rewrite (P C) in Fr. discriminate Fr. }
  assert (Fin : forall m M, 0 <= m <= 2 -> gap q' q <= m * R_ ->
    Rabs (estimated (real_field s) p (to_world p q) - estimated (real_field s) p (to_world p q')) <= M * R_ ->
    (1 - eps) * D_ - (m + 2.1 + M) * R_ <= e).
  { intros m M Hm Hg HD'. rewrite Ee in HD'. apply Rabs_le_inv in HD'.
    assert (M0 : 0 <= m * R_) by (apply Rmult_le_pos; lra).
    assert (0 <= eps * (m * R_)) by (apply Rmult_le_pos; lra). assert (0 <= eps * D_) by (apply Rmult_le_pos; lra).
    destruct (K (m * R_) M0 Hg) as (e' & [(<- & P)|P]); lra. }
  split.
  - eapply Rle_trans; [|apply (Fin 0.8661 3.57); [lra|exact G1|exact D1]]. lra.
  - intros Fl. destruct (D2 Fl) as (G3 & D3).
    eapply Rle_trans; [|apply (Fin 0.7072 1.53); [lra|exact G3|exact D3]]. lra.
Qed.
End Outer.

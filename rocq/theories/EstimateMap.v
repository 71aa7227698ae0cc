(** Distance estimates in extracted fields. *)
From Coq Require Import Reals Lra Lia.
From Flocq Require Import Core.Core IEEE754.Binary IEEE754.Bits.
From Verif Require Import Base BaseFacts Floats FloatFacts FloatFacts2 Grid GridFacts DistSpec DistModel DistProofs DistThms
  DistPlanar CollisionMap SdfGen SdfSpec SdfGenProofs SdfThms SdfExact SdfShapes Arith SdfQuery SdfField QuerySpec
  QueryReal DoubleSpec WallSpec WallExtract EstimateSpec EstimateThms.
Open Scope R_scope.

(** ** Distances between points *)
Lemma norm_sum a b c x y z :
  sqrt ((a + x) * (a + x) + (b + y) * (b + y) + (c + z) * (c + z)) <=
  sqrt (a * a + b * b + c * c) + sqrt (x * x + y * y + z * z).
Proof.
  set (U := a * a + b * b + c * c). set (W := x * x + y * y + z * z).
  assert (Sq : forall v, 0 <= v * v) by (intros v; apply Rle_0_sqr).
  assert (HU : 0 <= U) by (unfold U; pose proof (Sq a); pose proof (Sq b); pose proof (Sq c); lra).
  assert (HW : 0 <= W) by (unfold W; pose proof (Sq x); pose proof (Sq y); pose proof (Sq z); lra).
  assert (CS : a * x + b * y + c * z <= sqrt U * sqrt W).
  { rewrite <- sqrt_mult by assumption. apply Rle_trans with (Rabs (a * x + b * y + c * z)); [apply Rle_abs|].
    rewrite <- sqrt_Rsqr_abs. apply sqrt_le_1_alt. unfold Rsqr, U, W.
    pose proof (Sq (a * y - b * x)). pose proof (Sq (b * z - c * y)). pose proof (Sq (c * x - a * z)). lra. }
  assert (P : 0 <= sqrt U + sqrt W) by (pose proof (sqrt_pos U); pose proof (sqrt_pos W); lra).
  rewrite <- (sqrt_Rsqr (sqrt U + sqrt W)) by exact P. apply sqrt_le_1_alt. unfold Rsqr.
  replace ((sqrt U + sqrt W) * (sqrt U + sqrt W)) with (sqrt U * sqrt U + sqrt W * sqrt W + 2 * (sqrt U * sqrt W)) by ring.
  rewrite !sqrt_sqrt by assumption. unfold U, W in *. lra.
Qed.

Lemma gap_triangle a b c : gap a c <= gap a b + gap b c.
Proof.
  unfold gap.
  pose proof (norm_sum (vx a - vx b) (vy a - vy b) (vz a - vz b) (vx b - vx c) (vy b - vy c) (vz b - vz c)) as H.
  replace (vx a - vx b + (vx b - vx c)) with (vx a - vx c) in H by (asR; ring).
  replace (vy a - vy b + (vy b - vy c)) with (vy a - vy c) in H by (asR; ring).
  replace (vz a - vz b + (vz b - vz c)) with (vz a - vz c) in H by (asR; ring). exact H.
Qed.
Lemma gap_sym a b : gap a b = gap b a.
Proof. unfold gap. f_equal. asR. ring. Qed.
Lemma gap_pos a b : 0 <= gap a b.
Proof. apply sqrt_pos. Qed.

Lemma gap_centers r p a b : 0 < r -> geometry r p -> gap (center_of p a) (center_of p b) = r * sqrt (IZR (distsq a b)).
Proof.
  intros Hr G. unfold gap. rewrite !(g_center _ _ G). cbn [vx vy vz].
  replace (r * sqrt (IZR (distsq a b))) with (sqrt (r * r) * sqrt (IZR (distsq a b))) by (rewrite sqrt_square; lra).
  rewrite <- sqrt_mult_alt by nra. f_equal.
  unfold distsq. rewrite !plus_IZR, !mult_IZR, !minus_IZR. ring.
Qed.

(** The distance from a point is at most a quadratic that touches it at [a]. *)
Lemma root_quadratic a S : 0 < a -> 0 <= S -> sqrt S <= a / 2 + / (2 * a) * S.
Proof.
  intros Ha HS. pose proof (sqrt_sqrt S HS) as Q. pose proof (Rle_0_sqr (a - sqrt S)) as P. unfold Rsqr in P.
  apply Rmult_le_reg_l with (2 * a); [lra|]. rewrite Rmult_plus_distr_l, <- (Rmult_assoc (2 * a) (/ (2 * a))), Rinv_r by lra.
  lra.
Qed.

Lemma gap_quadratic a q c : 0 < a ->
  gap q c <= a / 2 + / (2 * a) * ((vx q - vx c) * (vx q - vx c) + (vy q - vy c) * (vy q - vy c) + (vz q - vz c) * (vz q - vz c)).
Proof.
  intros Ha. unfold gap. set (S := _ + _ + _).
  apply root_quadratic; [exact Ha|].
  unfold S. pose proof (Rle_0_sqr (vx q - vx c)). pose proof (Rle_0_sqr (vy q - vy c)). pose proof (Rle_0_sqr (vz q - vz c)).
  unfold Rsqr in *. lra.
Qed.

(** ** The values of the field *)
Section Map.
Variables (d : dims) (r : binary64) (filled : idx -> bool) (s : sdf).
Hypothesis HM : field_of_map d r filled s.
Let R_ := real64 r.
Let eps := bpow radix2 (-23).

Lemma map_dims : f_dims (real_field s) = d /\ f_res (real_field s) = real64 r /\ 0 < real64 r.
Proof.
  destruct HM as (Hs & Hr & (L & _) & (isf & oob & frame & x & HP & E) & _).
  destruct (extract_sign d r oob frame isf filled Hs Hr HP) as (s' & x' & E' & A1 & A2 & _).
  rewrite E in E'. injection E' as <- <-.
  split; [exact A1|]. split; [cbn; rewrite A2; reflexivity|]. pose proof (bpow_gt_0 radix2 (-100)). lra.
Qed.

Lemma map_stored c : in_bounds d c = true -> exists z,
  fst (sdf_get s c) = signed_value (filled c) (Some z) r /\ (1 <= z <= 2147483647)%Z /\
  (exists p, other_class d filled c p /\ distsq c p = z) /\
  (forall w, nearest_other d filled c w -> (w <= 6)%Z -> z = w) /\
  (flat d -> forall w, nearest_other d filled c w -> (z <= 2 * w)%Z).
Proof.
  intros Hc. destruct HM as (Hs & Hr & _ & (isf & oob & frame & x & HP & E) & F).
  destruct (own_field d r oob frame isf filled s x Hs Hr HP E c Hc) as (f & Bf & Gf).
  specialize (F c Hc). rewrite Gf in F |- *. cbn [fst] in *.
  pose proof (cells_of_inside d (others filled (filled c))) as In_.
  destruct (cell_distsq f c) as [z|] eqn:Ez.
  2:{ exfalso. unfold signed_value, rounded_distance in F. destruct (filled c); cbv in F; discriminate. }
  destruct (build_realised d _ Hs In_ f Bf c z Hc Ez) as (p & Hp & Dp).
  apply others_spec in Hp. pose proof Hp as (Bp & Np).
  exists z. split; [reflexivity|]. split; [|split; [eauto|split]].
  - pose proof (distsq_bound d Hs c p Hc Bp). rewrite <- Dp.
    assert (distsq c p <> 0%Z); [|lia]. intros Z0. apply distsq_zero in Z0. congruence.
  - intros w Hw H6. apply others_nearest in Hw.
    pose proof (build_exact_6 d _ Hs In_ f Bf c w Hc Hw H6). congruence.
  - intros Fl w Hw. apply others_nearest in Hw.
    destruct (planar_ratio d _ f c w Hs Fl In_ Bf Hc Hw) as (m & Em & Hm).
    rewrite Ez in Em. injection Em as <-. lia.
Qed.

Lemma root_bound z : (1 <= z <= 2147483647)%Z -> 1 <= sqrt (IZR z) <= 46341.
Proof.
  intros (A & B). apply IZR_le in A, B. split.
  - rewrite <- sqrt_1. apply sqrt_le_1_alt. exact A.
  - replace 46341 with (sqrt (46341 * 46341)) by (apply sqrt_square; lra). apply sqrt_le_1_alt. lra.
Qed.

Lemma eps_small : 0 < eps <= 1 / 8000000.
Proof. unfold eps. split; [apply bpow_gt_0|]. cbn. lra. Qed.

(** Size and centred value of a stored float, from the square it was computed from. *)
Lemma map_square c z : in_bounds d c = true -> fst (sdf_get s c) = signed_value (filled c) (Some z) r ->
  (1 <= z <= 2147483647)%Z -> exists v,
  v = real32 (rounded_distance (Some z) r) /\
  (1 - eps) * (R_ * sqrt (IZR z)) <= v <= (1 + eps) * (R_ * sqrt (IZR z)) /\
  value (real_field s) c = (if filled c then - v else v) /\
  centered_value (real_field s) c = (if filled c then - (v - R_ / 2) else v - R_ / 2).
Proof.
  intros Hc E B. destruct map_dims as (_ & FR & Rp).
  pose proof HM as (Hs & Hr & (L & U) & _). destruct Hr as (Rf & _).
  pose proof (root_bound z B) as Rb. pose proof eps_small as Es. fold R_ in Rp, L, U.
  assert (Small : sqrt (IZR z) * R_ <= bpow radix2 127).
  { apply Rle_trans with (bpow radix2 16 * bpow radix2 100).
    - apply Rmult_le_compat; try lra. change (bpow radix2 16) with 65536. lra.
    - rewrite <- bpow_plus. apply bpow_le. lia. }
  destruct (rounded_accuracy z r B Rf) as (Fi & Ac); auto.
  { eapply Rle_trans; [|exact L]. apply bpow_le. lia. }
  change (B2R 24 128 (rounded_distance (Some z) r)) with (real32 (rounded_distance (Some z) r)) in Ac.
  change (B2R 53 1024 r) with R_ in Ac. fold eps in Ac.
  set (v := real32 (rounded_distance (Some z) r)) in *.
  exists v. split; [reflexivity|].
  apply Rabs_le_inv in Ac. rewrite (Rmult_comm (sqrt _)) in Ac.
  assert (V : (1 - eps) * (R_ * sqrt (IZR z)) <= v <= (1 + eps) * (R_ * sqrt (IZR z))) by lra.
  split; [exact V|].
  assert (Pz : R_ * 1 <= R_ * sqrt (IZR z)) by (apply Rmult_le_compat_l; lra).
  assert (Vp : 0 < v).
  { eapply Rlt_le_trans; [|apply V]. apply Rmult_lt_0_compat; lra. }
  assert (Ev : value (real_field s) c = (if filled c then - v else v)).
  { rewrite real_field_value, E. unfold signed_value. destruct (filled c); [rewrite real_opp|]; reflexivity. }
  split; [exact Ev|].
  unfold centered_value. rewrite Ev, FR. fold R_.
  destruct (filled c); destruct (Rle_dec 0 _); lra.
Qed.

Lemma map_value c : in_bounds d c = true -> exists z v,
  fst (sdf_get s c) = signed_value (filled c) (Some z) r /\ (1 <= z <= 2147483647)%Z /\
  (exists p, other_class d filled c p /\ distsq c p = z) /\
  (forall w, nearest_other d filled c w -> (w <= 6)%Z -> z = w) /\
  (flat d -> forall w, nearest_other d filled c w -> (z <= 2 * w)%Z) /\
  v = real32 (rounded_distance (Some z) r) /\
  (1 - eps) * (R_ * sqrt (IZR z)) <= v <= (1 + eps) * (R_ * sqrt (IZR z)) /\
  centered_value (real_field s) c = (if filled c then - (v - R_ / 2) else v - R_ / 2).
Proof.
  intros Hc. destruct (map_stored c Hc) as (z & E & B & P & N & Fl).
  destruct (map_square c z Hc E B) as (v & Hv & V & _ & Cv). exists z, v. repeat (split; [assumption|]). exact Cv.
Qed.

(** A cell next to one of the other class is no further from its class than that. *)
Lemma map_near i j : in_bounds d i = true -> in_bounds d j = true -> within_one i j -> filled i <> filled j ->
  forall z, (forall w, nearest_other d filled j w -> (w <= 6)%Z -> z = w) -> (z <= distsq i j <= 3)%Z.
Proof.
  intros Hi Hj W Ne z Hz.
  assert (O : other_class d filled j i) by (split; auto).
  assert (D3 : (distsq i j <= 3)%Z).
  { unfold within_one in W. unfold distsq. destruct W as (A & B & C).
    assert (forall a, Z.abs a <= 1 -> a * a <= 1)%Z by (intros; nia).
    pose proof (H _ A). pose proof (H _ B). pose proof (H _ C). lia. }
  assert (Sy : distsq j i = distsq i j) by (unfold distsq; ring).
  destruct (nearest_exists (cells_of d (others filled (filled j))) j i) as (w & Hw).
  { apply others_spec. exact O. }
  apply others_nearest in Hw. pose proof (proj2 Hw i O). rewrite Sy in H.
  rewrite (Hz w Hw) by lia. lia.
Qed.

Lemma root2 : 1.414 <= sqrt 2 <= 1.4143.
Proof.
  split.
  - replace 1.414 with (sqrt (1.414 * 1.414)) by (apply sqrt_square; lra). apply sqrt_le_1_alt. lra.
  - replace 1.4143 with (sqrt (1.4143 * 1.4143)) by (apply sqrt_square; lra). apply sqrt_le_1_alt. lra.
Qed.
Lemma root3 : 1.732 <= sqrt 3 <= 1.7321.
Proof.
  split.
  - replace 1.732 with (sqrt (1.732 * 1.732)) by (apply sqrt_square; lra). apply sqrt_le_1_alt. lra.
  - replace 1.7321 with (sqrt (1.7321 * 1.7321)) by (apply sqrt_square; lra). apply sqrt_le_1_alt. lra.
Qed.

Variable p : pose reals.
Hypothesis G : geometry (real64 r) p.
Variable q : rvec.
Hypothesis Bq : in_bounds d (index_of p q) = true.
Hypothesis Cq : between_centers (real_field s) q.

Let side (b : bool) : R := if b then 1 else -1.

Lemma own_class : exists e, estimate_distance (real_field s) p (to_world p q) = Ok (e, true) /\
  side (filled (index_of p q)) * e <= 5 / 8 * real64 r.
Proof.
  destruct map_dims as (FD & FR & Rp). pose proof eps_small as Es. pose proof root2 as R2. pose proof root3 as R3.
  fold R_ in Rp.
  destruct (estimate_by_distance (real_field s) p q (side (filled (index_of p q)))
    (- (1/2 - eps) * R_) ((1/2 + eps) * R_) (((1 + eps) * 1.4143 - 1/2) * R_) (((1 + eps) * 1.7321 - 1/2) * R_))
    as (e & E & He); rewrite ?FR, ?FD; auto.
  - nra.
  - nra.
  - nra.
  - intros j Hj W. set (i := index_of p q) in *.
    destruct (map_value j Hj) as (z & v & _ & Bz & _ & Nz & _ & _ & V & Ec). rewrite Ec.
    pose proof (root_bound z Bz) as Rb.
    assert (RR : R_ * 1 <= R_ * sqrt (IZR z)) by (apply Rmult_le_compat_l; lra).
    assert (Vl : (1 - eps) * R_ <= v).
    { eapply Rle_trans; [|apply V]. apply Rmult_le_compat_l; lra. }
    assert (D0 : (0 <= distsq i j)%Z) by apply distsq_nonneg.
    assert (GG : - (1/2 - eps) * R_ <= match distsq i j with 0%Z => - (1/2 - eps) * R_ | 1%Z => (1/2 + eps) * R_
         | 2%Z => ((1 + eps) * 1.4143 - 1/2) * R_ | _ => ((1 + eps) * 1.7321 - 1/2) * R_ end).
    { destruct (distsq i j) as [|[k|[k|k|]|]|k]; nra. }
    destruct (Bool.bool_dec (filled i) (filled j)) as [Same|Ne].
    + eapply Rle_trans; [|exact GG]. rewrite Same. unfold side. destruct (filled j); nra.
    + destruct (map_near i j Bq Hj W Ne z Nz) as (Z1 & Z3).
      assert (Ev : side (filled i) * (if filled j then - (v - R_ / 2) else v - R_ / 2) = v - R_ / 2).
      { unfold side. destruct (filled i), (filled j); try congruence; ring. }
      rewrite Ev. destruct V as (_ & V).
      assert (VV : v <= (1 + eps) * (R_ * sqrt (IZR (distsq i j)))).
      { eapply Rle_trans; [exact V|]. apply Rmult_le_compat_l; [lra|]. apply Rmult_le_compat_l; [lra|].
        apply sqrt_le_1_alt. apply IZR_le. exact Z1. }
      assert (distsq i j = 1 \/ distsq i j = 2 \/ distsq i j = 3)%Z as [D|[D|D]] by lia; rewrite D in *.
      * rewrite sqrt_1 in VV. lra.
      * assert (R_ * sqrt 2 <= R_ * 1.4143) by (apply Rmult_le_compat_l; lra). nra.
      * assert (R_ * sqrt 3 <= R_ * 1.7321) by (apply Rmult_le_compat_l; lra). nra.
  - exists e. split; [exact E|]. eapply Rle_trans; [exact He|]. fold R_. nra.
Qed.

Lemma map_accuracy z : (1 <= z <= 2147483647)%Z ->
  (1 - eps) * (R_ * sqrt (IZR z)) <= real32 (rounded_distance (Some z) r) <= (1 + eps) * (R_ * sqrt (IZR z)).
Proof.
  intros B. destruct map_dims as (_ & _ & Rp). pose proof HM as (_ & (Rf & _) & (L & U) & _).
  pose proof (root_bound z B) as Rb. fold R_ in Rp, L, U.
  assert (Small : sqrt (IZR z) * R_ <= bpow radix2 127).
  { apply Rle_trans with (bpow radix2 16 * bpow radix2 100).
    - apply Rmult_le_compat; try lra. change (bpow radix2 16) with 65536. lra.
    - rewrite <- bpow_plus. apply bpow_le. lia. }
  destruct (rounded_accuracy z r B Rf) as (Fi & Ac); auto.
  { eapply Rle_trans; [|exact L]. apply bpow_le. lia. }
  change (B2R 24 128 (rounded_distance (Some z) r)) with (real32 (rounded_distance (Some z) r)) in Ac.
  change (B2R 53 1024 r) with R_ in Ac. fold eps in Ac. apply Rabs_le_inv in Ac. rewrite (Rmult_comm (sqrt _)) in Ac. lra.
Qed.

(** If the free cells around store at most F times their distance from the filled
    cell [b], the estimate is at most about F times the distance from [b]. *)
Lemma clearance_factor F b : 1 <= F <= 2 -> in_bounds d b = true -> filled b = true ->
  (forall j z, in_bounds d j = true -> within_one (index_of p q) j -> filled j = false ->
     fst (sdf_get s j) = signed_value false (Some z) r -> (1 <= z <= 2147483647)%Z ->
     (flat d -> forall w, nearest_other d filled j w -> (z <= 2 * w)%Z) ->
     real32 (rounded_distance (Some z) r) <= (1 + eps) * (R_ * (F * sqrt (IZR (distsq j b))))) ->
  exists e, estimate_distance (real_field s) p (to_world p q) = Ok (e, true) /\
    e <= (1 + eps) * F * gap q (center_of p b) + ((1 + eps) * F * (1.7321 / 2) - 1/2 + eps) * real64 r.
Proof.
  intros HF Hb Fb H. destruct map_dims as (FD & FR & Rp). pose proof eps_small as Es. pose proof root3 as R3.
  fold R_ in Rp. set (B := gap q (center_of p b)). set (a := 1.7321 / 2 * R_).
  assert (Ha : 0 < a) by (unfold a; lra). pose proof (gap_pos q (center_of p b)) as Bp. fold B in Bp.
  assert (F1 : 0 < (1 + eps) * F) by (apply Rmult_lt_0_compat; lra).
  assert (Aa : 0 <= (1 + eps) * F * / (2 * a)).
  { apply Rmult_le_pos; [lra|]. left. apply Rinv_0_lt_compat. lra. }
  destruct (estimate_by_square (real_field s) p q 1
    ((1 + eps) * F * (B + a / 2) - R_ / 2 + eps * R_) ((1 + eps) * F * / (2 * a))) as (e & E & He); rewrite ?FR, ?FD; auto.
  - intros j Hj W c.
    pose proof (gap_quadratic a q c Ha) as Q. 
    set (S := (vx q - vx c) * (vx q - vx c) + (vy q - vy c) * (vy q - vy c) + (vz q - vz c) * (vz q - vz c)) in Q |- *.
    assert (Q' : (1 + eps) * F * gap q c <= (1 + eps) * F * (a / 2) + (1 + eps) * F * / (2 * a) * S).
    { replace ((1 + eps) * F * (a / 2) + (1 + eps) * F * / (2 * a) * S)
        with ((1 + eps) * F * (a / 2 + / (2 * a) * S)) by ring. apply Rmult_le_compat_l; lra. }
    destruct (map_value j Hj) as (z & v & Ez & Bz & _ & Nz & Fz & Ev & V & Ec). rewrite Ec.
    pose proof (gap_pos q c) as Gp.
    assert (0 <= (1 + eps) * F * gap q c) by (apply Rmult_le_pos; lra).
    assert (0 <= (1 + eps) * F * B) by (apply Rmult_le_pos; lra).
    destruct (filled j) eqn:Ej.
    + pose proof (root_bound z Bz) as Rb.
      assert (RR : R_ * 1 <= R_ * sqrt (IZR z)) by (apply Rmult_le_compat_l; lra).
      assert (Vl : (1 - eps) * R_ <= v).
      { eapply Rle_trans; [|apply V]. apply Rmult_le_compat_l; lra. }
      lra.
    + specialize (H j z Hj W Ej Ez Bz Fz). rewrite <- Ev in H.
      assert (T : R_ * sqrt (IZR (distsq j b)) <= gap q c + B).
      { rewrite <- (gap_centers R_ p j b Rp G). fold c. rewrite (gap_sym q c). unfold B. apply gap_triangle. }
      assert (T' : (1 + eps) * F * (R_ * sqrt (IZR (distsq j b))) <= (1 + eps) * F * (gap q c + B)).
      { apply Rmult_le_compat_l; lra. }
      replace ((1 + eps) * (R_ * (F * sqrt (IZR (distsq j b))))) with ((1 + eps) * F * (R_ * sqrt (IZR (distsq j b)))) in H by ring.
      assert (0 <= eps * R_) by (apply Rmult_le_pos; lra). lra.
  - exists e. split; [exact E|]. rewrite FR, Rmult_1_l in He. eapply Rle_trans; [exact He|]. fold R_.
    assert (RI : 3 / 4 * (R_ * R_) * / (2 * a) <= a / 2).
    { apply Rmult_le_reg_r with (2 * a); [lra|]. rewrite Rmult_assoc, Rinv_l by lra.
      unfold a. assert (0 < R_ * R_) by (apply Rmult_lt_0_compat; lra). lra. }
    assert (RI' : (1 + eps) * F * (3 / 4 * (R_ * R_) * / (2 * a)) <= (1 + eps) * F * (a / 2)) by (apply Rmult_le_compat_l; lra).
    assert (Ea : (1 + eps) * F * a = (1 + eps) * F * (1.7321 / 2) * R_) by (unfold a; ring).
    clearbody a. lra.
Qed.

Lemma clearance_planar b : flat d -> in_bounds d b = true -> filled b = true ->
  exists e, estimate_distance (real_field s) p (to_world p q) = Ok (e, true) /\
    e <= 1.42 * gap q (center_of p b) + 3 / 4 * real64 r.
Proof.
  intros Fl Hb Fb. destruct map_dims as (_ & _ & Rp). pose proof eps_small as Es. pose proof root2 as R2. fold R_ in Rp.
  destruct (clearance_factor (sqrt 2) b) as (e & E & He); auto; [lra| |].
  - intros j z Hj W Fj Ez Bz Hz. eapply Rle_trans; [apply map_accuracy; exact Bz|].
    apply Rmult_le_compat_l; [lra|]. apply Rmult_le_compat_l; [lra|].
    rewrite <- sqrt_mult_alt by lra. apply sqrt_le_1_alt. rewrite <- mult_IZR. apply IZR_le.
    destruct (nearest_exists (cells_of d (others filled (filled j))) j b) as (w & Hw).
    { apply others_spec. split; [exact Hb|]. rewrite Fb, Fj. discriminate. }
    apply others_nearest in Hw. specialize (Hz Fl w Hw).
    assert (O : other_class d filled j b) by (split; [exact Hb|rewrite Fb, Fj; discriminate]).
    pose proof (proj2 Hw b O). lia.
  - exists e. split; [exact E|]. eapply Rle_trans; [exact He|]. fold R_.
    pose proof (gap_pos q (center_of p b)) as Gp.
    apply Rplus_le_compat; [apply Rmult_le_compat_r; nra|]. apply Rmult_le_compat_r; nra.
Qed.

Lemma clearance_exact b : in_bounds d b = true -> filled b = true ->
  (forall j, in_bounds d j = true -> within_one (index_of p q) j -> exact_at d r filled s j) ->
  exists e, estimate_distance (real_field s) p (to_world p q) = Ok (e, true) /\
    e <= (1 + bpow radix2 (-23)) * gap q (center_of p b) + 3 / 8 * real64 r.
Proof.
  intros Hb Fb Ex. destruct map_dims as (_ & _ & Rp). pose proof eps_small as Es. fold R_ in Rp.
  destruct (clearance_factor 1 b) as (e & E & He); auto; [lra| |].
  - intros j z Hj W Fj Ez Bz Hz.
    assert (O : other_class d filled j b) by (split; [exact Hb|rewrite Fb, Fj; discriminate]).
    destruct (nearest_exists (cells_of d (others filled (filled j))) j b) as (w & Hw).
    { apply others_spec. exact O. }
    apply others_nearest in Hw. pose proof (Ex j Hj W w Hw) as Ew. rewrite Ez, Fj in Ew. unfold signed_value in Ew. rewrite Ew.
    assert (Bw : (1 <= w <= 2147483647)%Z).
    { destruct Hw as ((p' & (Bp' & Np') & <-) & _). destruct HM as (Hs & _).
      pose proof (distsq_bound d Hs j p' Hj Bp').
      assert (distsq j p' <> 0%Z); [|lia]. intros Z0. apply distsq_zero in Z0. congruence. }
    eapply Rle_trans; [apply map_accuracy; exact Bw|]. rewrite Rmult_1_l.
    apply Rmult_le_compat_l; [lra|]. apply Rmult_le_compat_l; [lra|]. apply sqrt_le_1_alt. apply IZR_le. apply (proj2 Hw b O).
  - exists e. split; [exact E|]. eapply Rle_trans; [exact He|]. fold R_ eps. rewrite !Rmult_1_r.
    apply Rplus_le_compat_l. apply Rmult_le_compat_r; lra.
Qed.

(** From a point of a free cell every filled cell is at most about the estimate
    away ... the estimate is not much less than the distance from the nearest. *)
Lemma clearance_below D : 0 <= D -> filled (index_of p q) = false ->
  (forall b, in_bounds d b = true -> filled b = true -> D <= gap q (center_of p b)) ->
  exists e, estimate_distance (real_field s) p (to_world p q) = Ok (e, true) /\
    (1 - bpow radix2 (-23)) * D - 2.1 * real64 r <= e.
Proof.
  intros HD Fq H. destruct map_dims as (FD & FR & Rp). pose proof eps_small as Es. pose proof root3 as R3.
  fold R_ in Rp. set (a := 1.7321 / 2 * R_).
  assert (Ha : 0 < a) by (unfold a; lra).
  destruct (estimate_by_square (real_field s) p q (-1)
    (- (1 - eps) * D + (1.2322 * R_) + a / 2) (/ (2 * a))) as (e & E & He); rewrite ?FR, ?FD; auto.
  - left. apply Rinv_0_lt_compat. lra.
  - intros j Hj W c.
    pose proof (gap_quadratic a q c Ha) as Q. 
    set (S := (vx q - vx c) * (vx q - vx c) + (vy q - vy c) * (vy q - vy c) + (vz q - vz c) * (vz q - vz c)) in Q |- *.
    destruct (map_value j Hj) as (z & v & Ez & Bz & (b & (Bb & Nb) & Db) & Nz & Fz & Ev & V & Ec). rewrite Ec.
    destruct (filled j) eqn:Ej.
    + destruct (map_near (index_of p q) j Bq Hj W) with (z := z) as (Z1 & Z3); [congruence|exact Nz|].
      assert (VV : v <= (1 + eps) * (R_ * sqrt 3)).
      { eapply Rle_trans; [apply V|]. apply Rmult_le_compat_l; [lra|]. apply Rmult_le_compat_l; [lra|].
        apply sqrt_le_1_alt. apply IZR_le. lia. }
      assert (R_ * sqrt 3 <= R_ * 1.7321) by (apply Rmult_le_compat_l; lra).
      specialize (H j Hj Ej). fold c in H.
      assert (VW : v <= (1 + eps) * (R_ * 1.7321)).
      { eapply Rle_trans; [exact VV|]. apply Rmult_le_compat_l; lra. }
      assert (eps * R_ <= 1 / 8000000 * R_) by (apply Rmult_le_compat_r; lra).
      assert (0 <= eps * D) by (apply Rmult_le_pos; lra). lra.
    + assert (Fb : filled b = true) by (destruct (filled b); congruence).
      specialize (H b Bb Fb).
      pose proof (gap_triangle q c (center_of p b)) as T. unfold c in T at 2. rewrite (gap_centers R_ p j b Rp G), Db in T.
      destruct V as (V & _).
      assert (L1 : (1 - eps) * (D - gap q c) <= v).
      { eapply Rle_trans; [|exact V]. apply Rmult_le_compat_l; lra. }
      pose proof (gap_pos q c) as Gp. assert (0 <= eps * gap q c) by (apply Rmult_le_pos; lra). lra.
  - exists e. split; [exact E|]. rewrite FR in He. fold R_ in He. fold R_ eps.
    assert (RI : / (2 * a) * (3 / 4 * (R_ * R_)) <= a / 2).
    { rewrite Rmult_comm. apply Rmult_le_reg_r with (2 * a); [lra|]. rewrite Rmult_assoc, Rinv_l by lra.
      unfold a. assert (0 < R_ * R_) by (apply Rmult_lt_0_compat; lra). lra. }
    assert (Ea : a = 1.7321 / 2 * R_) by reflexivity. clearbody a. lra.
Qed.
End Map.

(** Estimates in doubles and in exact arithmetic. *)
From Coq Require Import Reals Lra Lia Psatz.
From Flocq Require Import Core.Core IEEE754.Binary IEEE754.Bits.
From Verif Require Import Base BaseFacts Floats Grid GridFacts Arith SdfQuery QuerySpec QueryProofs QueryReal QueryThms
  SdfField QueryWitness AutoDiff AutoDiffSpec AutoDiffProofs AutoDiffThms EstimateSteps
  DoubleSpec DoubleQuery DoubleEstimate DoubleGrid IdealSpec.
Open Scope R_scope.

Lemma view_value f i : value (real_view f) i = real32 (value f i).
Proof.
  unfold value, real_view, get, f_dims. cbn [f_grid gdims gdata goob].
  destruct (in_bounds (gdims (f_grid f)) i); cbn [fst]; auto. apply (map_nth real32).
Qed.

Lemma view_centered f i : centered_value (real_view f) i = centered_real f i.
Proof. unfold centered_value, centered_real. rewrite view_value. reflexivity. Qed.

Section Axis.
  Variables (r delta : R).
  Hypotheses (Hr : 0 < r) (D0 : 0 <= delta) (D1 : delta <= 1 / 16).

  (** The weights of the two cells. *)
  Lemma weights n x c v lo hi : cells_on_axis n x c v lo hi -> Rabs (v - r * (IZR x + 1 / 2)) <= r * (9 / 16) ->
    Rabs (1 - progress r lo v) + Rabs (progress r lo v) <= 17 / 8.
  Proof using Hr.
    intros (R_ & X & Hh & _) B. apply Rabs_le_inv in B.
    assert (L : forall a b, r * a <= v - r * (IZR lo + 1 / 2) <= r * b -> a <= progress r lo v <= b).
    { intros a b (H1 & H2). unfold progress. split; apply Rmult_le_reg_l with r; auto;
        replace (r * ((v - r * (IZR lo + 1 / 2)) / r)) with (v - r * (IZR lo + 1 / 2)) by (field; lra); lra. }
    assert (T : - (9 / 16) <= progress r lo v <= 25 / 16).
    { assert (Xc : x = lo \/ x = (lo + 1)%Z) by (destruct (Z.eqb_spec n 1); lia).
      destruct Xc as [->| ->]; apply L; [|rewrite plus_IZR in B]; lra. }
    unfold Rabs. destruct (Rcase_abs _), (Rcase_abs _); lra.
  Qed.

  Lemma between_values t a b a' b' e : Rabs (1 - t) + Rabs t <= 17 / 8 -> 0 <= e -> Rabs (a - a') <= e -> Rabs (b - b') <= e ->
    Rabs (between t a b - between t a' b') <= 17 / 8 * e.
  Proof using.
    intros T E A B. unfold between. replace (_ - _) with ((1 - t) * (a - a') + t * (b - b')) by ring.
    eapply Rle_trans; [apply Rabs_triang|]. rewrite !Rabs_mult.
    pose proof (Rabs_pos (1 - t)). pose proof (Rabs_pos t). nra.
  Qed.

  Lemma ipol_bound i n v d B : inside r i n v -> 0 <= B -> (forall j, (0 <= j < n)%Z -> Rabs (d j) <= B) ->
    Rabs (ipol r i n v d) <= 2 * B.
  Proof using Hr.
    intros Hi HB H.
    pose proof (ipol_values r Hr i n v 2 d (fun _ => 0) B Hi (or_introl eq_refl) HB) as K.
    assert (Z0 : ipol r i n v (fun _ => 0) = 0).
    { unfold ipol, lerp. ring. }
    rewrite Z0, Rminus_0_r in K. apply K. intros j Hj. rewrite Rminus_0_r. auto.
  Qed.

  Lemma step_value (a b t : R) B e : Rabs a <= B -> Rabs b <= B -> Rabs t <= e -> Rabs (t * (b - a)) <= 2 * B * e.
  Proof using.
    intros A Bb T. rewrite Rabs_mult. assert (Rabs (b - a) <= 2 * B).
    { unfold Rminus. eapply Rle_trans; [apply Rabs_triang|]. rewrite Rabs_Ropp. lra. }
    pose proof (Rabs_pos (b - a)). pose proof (Rabs_pos t). pose proof (Rabs_pos a). nra.
  Qed.

  (** The doubles may choose other cells than exact arithmetic only near a centre. *)
  Lemma axis_close n x c v lo hi i v' d B : cells_on_axis n x c v lo hi ->
    Rabs (c - r * (IZR x + 1 / 2)) <= delta * r -> Rabs (v - r * (IZR x + 1 / 2)) <= r * (9 / 16) ->
    inside r i n v' -> Rabs (v - v') <= delta * r -> 0 <= B -> (forall j, (0 <= j < n)%Z -> Rabs (d j) <= B) ->
    Rabs (between (progress r lo v) (d lo) (d hi) - ipol r i n v' d) <= 6 * delta * B.
  Proof.
    intros (Rg & X & Hh & Near) Cc Cv In Vv HB Hd.
    destruct (ipol_level r Hr i n v' d In) as (k & Hk & E). rewrite E. clear E.
    unfold level_pair. destruct (Z.eqb_spec n 1) as [N|N]; cbn [fst snd].
    { assert (lo = 0 /\ hi = 0)%Z as (-> & ->) by lia. unfold between, lerp.
      replace (_ - _) with 0 by ring. rewrite Rabs_R0. pose proof (Rmult_le_pos _ _ D0 HB). lra. }
    subst hi. set (l := Z.max 0 (Z.min (n - 2) k)).
    apply Rabs_le_inv in Cc. apply Rabs_le_inv in Cv. apply Rabs_le_inv in Vv.
    assert (Dr : 0 <= delta * r <= 1 / 16 * r).
    { split; [apply Rmult_le_pos; lra|]. apply Rmult_le_compat_r; lra. }
    assert (Sm : forall w e, - (e * r) <= w <= e * r -> Rabs (w / r) <= e).
    { intros w e (W1 & W2). apply Rabs_le. split; apply Rmult_le_reg_r with r; auto;
        replace (w / r * r) with w by (field; lra); lra. }
    assert (OB : 0 <= delta * B) by (apply Rmult_le_pos; lra).
    assert (Mono : forall a b : Z, (a <= b)%Z -> r * IZR a <= r * IZR b).
    { intros a b Hab. apply Rmult_le_compat_l; [lra|]. apply IZR_le; auto. }
    destruct (Z.lt_trichotomy l lo) as [C|[C|C]].
    - assert (Kl : (k <= l)%Z) by lia.
      pose proof (Mono _ _ Kl) as K1.
      destruct (Z.eq_dec lo (l + 1)) as [El|El].
      + destruct X as [X|X].
        * subst x. assert (Hc : c <= v) by (apply Near; auto; lia).
          set (C0 := r * (IZR lo + 1 / 2)) in *.
          assert (EC : C0 = r * IZR l + r * (3 / 2)) by (unfold C0; rewrite El, plus_IZR; field).
          unfold between, lerp, local, progress. fold C0.
          assert (El' : (v' - r * (IZR l + 1 / 2)) / r = 1 + (v' - C0) / r) by (rewrite EC; field; lra). rewrite El'.
          replace (l + 1)%Z with lo by lia.
          assert (T1 : Rabs ((v - C0) / r) <= delta) by (apply Sm; lra).
          assert (T2 : Rabs ((v' - C0) / r) <= 2 * delta) by (apply Sm; lra).
          pose proof (step_value (d lo) (d (lo + 1)%Z) ((v - C0) / r) B delta (Hd lo ltac:(lia)) (Hd (lo + 1)%Z ltac:(lia)) T1) as S1.
          pose proof (step_value (d l) (d lo) ((v' - C0) / r) B (2 * delta) (Hd l ltac:(lia)) (Hd lo ltac:(lia)) T2) as S2.
          replace (_ - _) with ((v - C0) / r * (d (lo + 1)%Z - d lo) - (v' - C0) / r * (d lo - d l)) by ring.
          unfold Rminus at 1. eapply Rle_trans; [apply Rabs_triang|]. rewrite Rabs_Ropp. lra.
        * exfalso. rewrite X, El, !plus_IZR in Cv. lra.
      + exfalso. assert (Kx : (l + 2 <= x)%Z) by lia. pose proof (Mono _ _ Kx) as K2. rewrite plus_IZR in K2. lra.
    - assert (S1 : Rabs ((v - v') / r * (d (lo + 1)%Z - d lo)) <= 2 * B * delta).
      { apply step_value; [apply Hd; lia|apply Hd; lia|]. apply Sm. lra. }
      rewrite C. unfold between, lerp, local, progress.
      replace (_ - _) with ((v - v') / r * (d (lo + 1)%Z - d lo)) by (field; lra). lra.
    - assert (Kl : (l <= k)%Z) by lia.
      pose proof (Mono _ _ Kl) as K1.
      destruct (Z.eq_dec l (lo + 1)) as [El|El].
      + destruct X as [X|X].
        * exfalso. subst x. rewrite El, plus_IZR in K1. lra.
        * rewrite <- El in X. subst x. assert (Hc : v < c).
          { apply Rnot_le_lt. intros Q. apply Near in Q; lia. }
          set (C0 := r * (IZR l + 1 / 2)) in *.
          assert (EC : C0 = r * IZR lo + r * (3 / 2)) by (unfold C0; rewrite El, plus_IZR; field).
          unfold between, lerp, local, progress. fold C0.
          assert (El' : (v - r * (IZR lo + 1 / 2)) / r = 1 + (v - C0) / r) by (rewrite EC; field; lra). rewrite El'.
          replace (lo + 1)%Z with l by lia.
          assert (K2 : C0 <= v') by (unfold C0; lra).
          assert (T1 : Rabs ((v - C0) / r) <= delta) by (apply Sm; lra).
          assert (T2 : Rabs ((v' - C0) / r) <= 2 * delta) by (apply Sm; lra).
          pose proof (step_value (d lo) (d l) ((v - C0) / r) B delta (Hd lo ltac:(lia)) (Hd l ltac:(lia)) T1) as S1.
          pose proof (step_value (d l) (d (l + 1)%Z) ((v' - C0) / r) B (2 * delta) (Hd l ltac:(lia)) (Hd (l + 1)%Z ltac:(lia)) T2) as S2.
          replace (_ - _) with ((v - C0) / r * (d l - d lo) - (v' - C0) / r * (d (l + 1)%Z - d l)) by ring.
          unfold Rminus at 1. eapply Rle_trans; [apply Rabs_triang|]. rewrite Rabs_Ropp. lra.
      + exfalso. assert (Kx : (x + 1 <= l)%Z) by lia. pose proof (Mono _ _ Kx) as K2. rewrite plus_IZR in K2. lra.
  Qed.
End Axis.

Lemma interpolation_close (f : field ieee) p (q q' : rvec) (i i' : idx) delta W xl xu yl yu zl zu :
  let r := real64 (f_res f) in
  0 < r -> 0 <= delta <= 1 / 16 -> 0 <= W ->
  (forall j, in_bounds (f_dims f) j = true -> Rabs (centered_real f j) <= W) ->
  centers_within f p delta -> in_bounds (f_dims f) i = true -> lies_in r q i ->
  cells_on_axis (nx (f_dims f)) (ix i) (real64 (vx (center_of p i))) (vx q) xl xu ->
  cells_on_axis (ny (f_dims f)) (iy i) (real64 (vy (center_of p i))) (vy q) yl yu ->
  cells_on_axis (nz (f_dims f)) (iz i) (real64 (vz (center_of p i))) (vz q) zl zu ->
  apart_at_most (delta * r) q q' ->
  inside r (ix i') (nx (f_dims f)) (vx q') -> inside r (iy i') (ny (f_dims f)) (vy q') ->
  inside r (iz i') (nz (f_dims f)) (vz q') ->
  Rabs (interpolation f q xl xu yl yu zl zu -
    ipol r (iz i') (nz (f_dims f)) (vz q') (fun c =>
    ipol r (iy i') (ny (f_dims f)) (vy q') (fun b =>
    ipol r (ix i') (nx (f_dims f)) (vx q') (fun a => centered_real f (I a b c))))) <= 77 * delta * W.
Proof.
  intros r Hr (D0 & D1) HW Vals Cen Hi (Lx & Ly & Lz) Ax Ay Az (Qx & Qy & Qz) Ix Iy Iz.
  destruct (Cen i Hi) as (_ & Cx & Cy & Cz). fold r in Cx, Cy, Cz.
  pose proof (weights r Hr _ _ _ _ _ _ Ay Ly) as Wy. pose proof (weights r Hr _ _ _ _ _ _ Az Lz) as Wz.
  unfold interpolation. cbv zeta. fold r.
  set (tx := progress r xl (vx q)). set (ty := progress r yl (vy q)) in *. set (tz := progress r zl (vz q)) in *.
  assert (OW : 0 <= delta * W) by (apply Rmult_le_pos; lra).
  set (C := fun a b c => centered_real f (I a b c)).
  set (gx := fun b c => ipol r (ix i') (nx (f_dims f)) (vx q') (fun a => C a b c)).
  set (hx := fun b c => between tx (C xl b c) (C xu b c)).
  assert (VC : forall a b c, (0 <= a < nx (f_dims f))%Z -> (0 <= b < ny (f_dims f))%Z -> (0 <= c < nz (f_dims f))%Z -> Rabs (C a b c) <= W).
  { intros a b c Ha Hb Hc. apply Vals. apply in_bounds_spec. cbn [ix iy iz]. lia. }
  assert (Sx : forall b c, (0 <= b < ny (f_dims f))%Z -> (0 <= c < nz (f_dims f))%Z ->
    Rabs (hx b c - gx b c) <= 6 * (delta * W) /\ Rabs (gx b c) <= 2 * W).
  { intros b c Hb Hc. split.
    - rewrite <- Rmult_assoc. apply (axis_close r delta Hr D0 D1 _ _ _ _ _ _ _ _ (fun a => C a b c) W Ax Cx Lx Ix Qx HW). auto.
    - apply ipol_bound; auto. }
  set (gy := fun c => ipol r (iy i') (ny (f_dims f)) (vy q') (fun b => gx b c)).
  set (hy := fun c => between ty (hx yl c) (hx yu c)).
  assert (Ry : (0 <= yl < ny (f_dims f))%Z /\ (0 <= yu < ny (f_dims f))%Z) by (destruct Ay as (? & _); lia).
  assert (Rz : (0 <= zl < nz (f_dims f))%Z /\ (0 <= zu < nz (f_dims f))%Z) by (destruct Az as (? & _); lia).
  assert (Sy : forall c, (0 <= c < nz (f_dims f))%Z -> Rabs (hy c - gy c) <= 24.75 * (delta * W) /\ Rabs (gy c) <= 4 * W).
  { intros c Hc. split.
    - assert (H1 : Rabs (hy c - between ty (gx yl c) (gx yu c)) <= 17 / 8 * (6 * (delta * W))).
      { apply between_values; auto; try lra; apply Sx; lia || tauto. }
      assert (H2 : Rabs (between ty (gx yl c) (gx yu c) - gy c) <= 6 * delta * (2 * W)).
      { apply (axis_close r delta Hr D0 D1 _ _ _ _ _ _ _ _ (fun b => gx b c) (2 * W) Ay Cy Ly Iy Qy); [lra|].
        intros j Hj. apply Sx; auto. }
      replace (hy c - gy c) with ((hy c - between ty (gx yl c) (gx yu c)) + (between ty (gx yl c) (gx yu c) - gy c)) by ring.
      eapply Rle_trans; [apply Rabs_triang|]. lra.
    - replace (4 * W) with (2 * (2 * W)) by ring. apply ipol_bound; auto; [lra|]. intros j Hj. apply Sx; auto. }
  change (Rabs (between tz (hy zl) (hy zu) - ipol r (iz i') (nz (f_dims f)) (vz q') gy) <= 77 * delta * W).
  assert (H1 : Rabs (between tz (hy zl) (hy zu) - between tz (gy zl) (gy zu)) <= 17 / 8 * (24.75 * (delta * W))).
  { apply between_values; auto; try lra; apply Sy; tauto. }
  assert (H2 : Rabs (between tz (gy zl) (gy zu) - ipol r (iz i') (nz (f_dims f)) (vz q') gy) <= 6 * delta * (4 * W)).
  { apply (axis_close r delta Hr D0 D1 _ _ _ _ _ _ _ _ gy (4 * W) Az Cz Lz Iz Qz); [lra|]. intros j Hj. apply Sy; auto. }
  set (hz := between tz (hy zl) (hy zu)) in *. set (mz := between tz (gy zl) (gy zu)) in *.
  set (gz := ipol r (iz i') (nz (f_dims f)) (vz q') gy) in *.
  replace (hz - gz) with ((hz - mz) + (mz - gz)) by ring.
  eapply Rle_trans; [apply Rabs_triang|]. lra.
Qed.

Lemma centered_small (f : field ieee) W : 0 < real64 (f_res f) ->
  (forall j, in_bounds (f_dims f) j = true -> Rabs (real32 (value f j)) + real64 (f_res f) <= W) ->
  forall j, in_bounds (f_dims f) j = true -> Rabs (centered_real f j) <= W.
Proof.
  intros Hr H j Hj. specialize (H j Hj). unfold centered_real. revert H. generalize (real32 (value f j)). intros v H.
  unfold Rabs in *. destruct (Rle_dec 0 v); destruct (Rcase_abs _) in H; destruct (Rcase_abs _); lra.
Qed.

Lemma ideal_estimate (f : field ieee) p loc P L delta W :
  let r := real64 (f_res f) in let q := to_grid p loc in let i := index_of p q in
  finite_double (f_res f) -> bpow radix2 (-100) <= r <= bpow radix2 100 -> W <= bpow radix2 100 ->
  (forall j, in_bounds (f_dims f) j = true ->
     finite_float (value f j) /\ Rabs (real32 (value f j)) + r <= W) ->
  centers_within f p delta -> delta <= 1 / 16 ->
  (IZR (nx (f_dims f)) + 1) * bpow radix2 (-53) <= delta -> (IZR (ny (f_dims f)) + 1) * bpow radix2 (-53) <= delta ->
  finite_vec q -> in_bounds (f_dims f) i = true -> lies_in r (real_vec q) i ->
  geometry r P -> apart_at_most (delta * r) (real_vec q) (to_grid P L) ->
  in_bounds (f_dims f) (index_of P (to_grid P L)) = true ->
  exists e, estimate_distance f p loc = Ok (e, true) /\ finite_double e /\
    Rabs (real64 e - estimated (real_view f) P L) <= (bpow radix2 (-42) + 205 * delta) * W.
Proof.
  intros r q i Fr Rr HW Vals Cen Hd Hx Hy Fq Hi Hq G Ap HI.
  destruct (estimate_double f p loc delta W Fr Rr HW Vals Cen Hd Hx Hy Fq Hi Hq)
    as (e & xl & xu & yl & yu & zl & zu & E & Fe & Ax & Ay & Az & Err).
  exists e. split; [exact E|]. split; [exact Fe|].
  assert (Rp : 0 < r) by (pose proof (bpow_gt_0 radix2 (-100)); lra).
  assert (W0 : 0 <= W). { destruct (Vals i Hi) as (_ & V). pose proof (Rabs_pos (real32 (value f i))). lra. }
  assert (D0 : 0 <= delta).
  { apply Rle_trans with (2 := Hx). pose proof Hi as Hb. apply in_bounds_spec in Hb. destruct Hb as (Hb & _).
    assert (0 <= IZR (nx (f_dims f))) by (apply IZR_le; lia). pose proof (bpow_gt_0 radix2 (-53)). apply Rmult_le_pos; lra. }
  set (q' := to_grid P L) in *.
  pose proof (estimated_ipol (real_view f) P q' Rp G HI) as Ei. cbv zeta in Ei.
  unfold q' in Ei at 1. rewrite (g_back_and_there _ _ G) in Ei.
  assert (Bd := HI). apply in_bounds_spec in Bd.
  pose proof (interpolation_close f p (real_vec q) q' i (index_of P q') delta W xl xu yl yu zl zu Rp (conj D0 Hd) W0
    (centered_small f W Rp (fun j Hj => proj2 (Vals j Hj))) Cen Hi Hq Ax Ay Az Ap
    (conj (proj1 Bd) (g_index_x _ _ G q')) (conj (proj1 (proj2 Bd)) (g_index_y _ _ G q'))
    (conj (proj2 (proj2 Bd)) (g_index_z _ _ G q'))) as Cl. cbv zeta in Cl.
  assert (Ee : forall c b a, centered_value (real_view f) (I a b c) = centered_real f (I a b c)) by (intros; apply view_centered).
  match type of Cl with Rabs (?a - ?b) <= _ => set (x1 := a) in Cl; assert (E2 : estimated (real_view f) P L = b) end.
  { rewrite Ei. unfold ipol. rewrite !Ee. reflexivity. }
  rewrite <- E2 in Cl. fold q in Err. fold x1 in Err.
  replace (real64 e - _) with ((real64 e - x1) + (x1 - estimated (real_view f) P L)) by ring.
  eapply Rle_trans; [apply Rabs_triang|]. lra.
Qed.

Lemma ideal_at_origin (f : field ieee) loc N W :
  let r := real64 (f_res f) in let p := ieee_pose (f_res f) in let q := real_vec loc in
  finite_double (f_res f) -> bpow radix2 (-100) <= r <= bpow radix2 100 -> W <= bpow radix2 100 ->
  (forall j, in_bounds (f_dims f) j = true ->
     finite_float (value f j) /\ Rabs (real32 (value f j)) + r <= W) ->
  4 * (N + 1) * bpow radix2 (-53) <= 1 / 16 ->
  IZR (nx (f_dims f)) <= N -> IZR (ny (f_dims f)) <= N -> IZR (nz (f_dims f)) <= N ->
  usable_point loc -> in_bounds (f_dims f) (index_of p loc) = true ->
  in_bounds (f_dims f) (index_of (plain_pose r) q) = true ->
  exists e, estimate_distance f p loc = Ok (e, true) /\ finite_double e /\
    Rabs (real64 e - estimated (real_view f) (plain_pose r) q)
      <= (bpow radix2 (-42) + 205 * (4 * (N + 1) * bpow radix2 (-53))) * W.
Proof.
  intros r p q Fr Rr HW Vals SN Hnx Hny Hnz (Fq & Bx & By & Bz) Hi HI.
  assert (Rp : 0 < r) by (pose proof (bpow_gt_0 radix2 (-100)); lra).
  pose proof (bpow_gt_0 radix2 (-53)) as U0. change (bpow radix2 (-53)) with u in *.
  assert (NP : 1 <= N).
  { pose proof Hi as Hb. apply in_bounds_spec in Hb. destruct Hb as (B & _).
    assert (1 <= IZR (nx (f_dims f))) by (apply IZR_le; lia). lra. }
  assert (K : forall n, IZR n <= N -> (IZR n + 1) * u <= 4 * (N + 1) * u).
  { intros n Hn. apply Rmult_le_compat_r; lra. }
  apply (ideal_estimate f p loc (plain_pose r) q (4 * (N + 1) * u) W Fr Rr HW Vals); auto.
  - eapply identity_centers; eauto.
  - eapply identity_lies; eauto.
  - apply plain_geometry. exact Rp.
  - assert (0 <= 4 * (N + 1) * u * r) by (repeat apply Rmult_le_pos; lra).
    unfold apart_at_most. change (to_grid p loc) with loc. change (to_grid (plain_pose r) q) with q. fold q.
    rewrite !Rminus_diag_eq, Rabs_R0 by reflexivity. auto.
Qed.

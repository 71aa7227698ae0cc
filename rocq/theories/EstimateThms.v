(** Distance estimates against the cells of the map, real arithmetic. *)
From Coq Require Import Reals Lra Lia.
From Flocq Require Import Core.Core IEEE754.Binary IEEE754.Bits.
From Verif Require Import Base BaseFacts Floats FloatFacts FloatFacts2 Grid GridFacts DistSpec DistModel DistProofs DistThms
  DistPlanar CollisionMap SdfGen SdfSpec SdfGenProofs SdfThms SdfExact SdfShapes Arith SdfQuery SdfField QuerySpec
  QueryReal DoubleSpec WallSpec WallExtract EstimateSpec.
Open Scope R_scope.

(** On one axis: the point's own cell [i] is one of the two and has at least half
    the weight. *)
Inductive own_half (i l u : Z) (t : R) : Prop :=
| Own_single : l = i -> u = i -> own_half i l u t
| Own_low : l = i -> u = (i + 1)%Z -> 0 <= t <= 1 / 2 -> own_half i l u t
| Own_high : u = i -> l = (i - 1)%Z -> 1 / 2 <= t <= 1 -> own_half i l u t.

Lemma axis_own r i n v l u : 0 < r -> (0 <= i < n)%Z -> r * IZR i <= v < r * (IZR i + 1) ->
  axis_ok r i n v l u -> between_centers_axis r n v ->
  own_half i l u ((v - r * (IZR l + 1/2)) / r).
Proof.
  intros Hr Hi Hv X C. pose proof (ax_range _ _ _ _ _ _ X) as R. pose proof (ax_pair _ _ _ _ _ _ X) as P.
  destruct P as [P|(P & N)]; [|apply Own_single; lia].
  destruct (ax_t _ _ _ _ _ _ X C) as [T|T]; [lia|].
  set (t := (v - r * (IZR l + 1/2)) / r) in *.
  assert (Ev : v = r * (t + IZR l + 1/2)) by (unfold t; field; lra).
  assert (L1 : IZR i <= t + IZR l + 1/2). { apply Rmult_le_reg_l with r; auto. lra. }
  assert (L2 : t + IZR l + 1/2 < IZR i + 1). { apply Rmult_lt_reg_l with r; auto. lra. }
  assert (H : (i = l \/ i = l + 1)%Z).
  { assert (IZR i < IZR (l + 2)) by (rewrite plus_IZR; lra).
    assert (IZR l < IZR (i + 1)) by (rewrite plus_IZR; lra).
    apply lt_IZR in H. apply lt_IZR in H0. lia. }
  destruct H as [H|H]; subst i.
  - apply Own_low; auto. lra.
  - rewrite plus_IZR in L1, L2. apply Own_high; auto; [lia|]. lra.
Qed.

Lemma half_lerp i l u t (F : Z -> R) A B : own_half i l u t -> A <= B -> F i <= A ->
  ((i + 1 = u)%Z -> F (i + 1)%Z <= B) -> ((i - 1 = l)%Z -> F (i - 1)%Z <= B) ->
  lerp t (F l) (F u) <= (A + B) / 2.
Proof.
  unfold lerp. intros [-> ->| -> -> T| -> -> T] AB Hi Hu Hl.
  - lra.
  - specialize (Hu eq_refl). assert (t * (F (i + 1)%Z - A) <= t * (B - A)) by (apply Rmult_le_compat_l; lra).
    assert (t * (B - A) <= 1/2 * (B - A)) by (apply Rmult_le_compat_r; lra).
    assert ((1 - t) * F i <= (1 - t) * A) by (apply Rmult_le_compat_l; lra). lra.
  - specialize (Hl eq_refl).
    assert ((1 - t) * (F (i - 1)%Z - A) <= (1 - t) * (B - A)) by (apply Rmult_le_compat_l; lra).
    assert ((1 - t) * (B - A) <= 1/2 * (B - A)) by (apply Rmult_le_compat_r; lra).
    assert (t * F i <= t * A) by (apply Rmult_le_compat_l; lra). lra.
Qed.

Lemma lerp_scale sg t a b : sg * lerp t a b = lerp t (sg * a) (sg * b).
Proof. unfold lerp. ring. Qed.


Lemma there_again r l v : 0 < r -> v = r * (l + 1/2 + (v - r * (l + 1/2)) / r).
Proof. intros. field. lra. Qed.

(** The cells used for a point, and the weights. *)
Lemma estimate_own (f : rfield) p q :
  0 < f_res f -> geometry (f_res f) p -> in_bounds (f_dims f) (index_of p q) = true -> between_centers f q ->
  exists xl xu yl yu zl zu tx ty tz,
    own_half (ix (index_of p q)) xl xu tx /\ own_half (iy (index_of p q)) yl yu ty /\
    own_half (iz (index_of p q)) zl zu tz /\
    vx q = f_res f * (IZR xl + 1/2 + tx) /\ vy q = f_res f * (IZR yl + 1/2 + ty) /\
    vz q = f_res f * (IZR zl + 1/2 + tz) /\
    (0 <= xl /\ xu < nx (f_dims f))%Z /\ (0 <= yl /\ yu < ny (f_dims f))%Z /\ (0 <= zl /\ zu < nz (f_dims f))%Z /\
    let c x y z := centered_value f (I x y z) in
    estimate_distance f p (to_world p q) = Ok (
      lerp tz (lerp ty (lerp tx (c xl yl zl) (c xu yl zl)) (lerp tx (c xl yu zl) (c xu yu zl)))
              (lerp ty (lerp tx (c xl yl zu) (c xu yl zu)) (lerp tx (c xl yu zu) (c xu yu zu))), true).
Proof.
  intros Hr G B (Cx & Cy & Cz).
  destruct (estimate_lerp f p q Hr G B) as (xl & xu & yl & yu & zl & zu & X & Y & Z & E).
  pose proof B as B'. apply in_bounds_spec in B'. destruct B' as (Bx & By & Bz).
  exists xl, xu, yl, yu, zl, zu.
  exists ((vx q - f_res f * (IZR xl + 1/2)) / f_res f), ((vy q - f_res f * (IZR yl + 1/2)) / f_res f),
    ((vz q - f_res f * (IZR zl + 1/2)) / f_res f).
  split; [eapply axis_own; eauto; apply (g_index_x _ _ G)|].
  split; [eapply axis_own; eauto; apply (g_index_y _ _ G)|].
  split; [eapply axis_own; eauto; apply (g_index_z _ _ G)|].
  split; [apply there_again; auto|]. split; [apply there_again; auto|]. split; [apply there_again; auto|].
  split; [apply (ax_range _ _ _ _ _ _ X)|]. split; [apply (ax_range _ _ _ _ _ _ Y)|].
  split; [apply (ax_range _ _ _ _ _ _ Z)|].
  cbv zeta. unfold estimate_distance. rewrite (g_there_and_back _ _ G), B, E. reflexivity.
Qed.

(** A bound on the cells around by how many coordinates they differ from the
    point's own cell. *)
Lemma estimate_by_distance (f : rfield) p q sg (g0 g1 g2 g3 : R) :
  0 < f_res f -> geometry (f_res f) p -> in_bounds (f_dims f) (index_of p q) = true -> between_centers f q ->
  g0 <= g1 -> g1 <= g2 -> g2 <= g3 ->
  (forall j, in_bounds (f_dims f) j = true -> within_one (index_of p q) j ->
     sg * centered_value f j <= match distsq (index_of p q) j with 0%Z => g0 | 1%Z => g1 | 2%Z => g2 | _ => g3 end) ->
  exists e, estimate_distance f p (to_world p q) = Ok (e, true) /\
    sg * e <= (g0 + 3 * g1 + 3 * g2 + g3) / 8.
Proof.
  intros Hr G B C H01 H12 H23 H.
  destruct (estimate_own f p q Hr G B C) as (xl & xu & yl & yu & zl & zu & tx & ty & tz & X & Y & Z & _ & _ & _ & Rx & Ry & Rz & E).
  cbv zeta in E. eexists. split; [exact E|]. clear E.
  apply in_bounds_spec in B. destruct (index_of p q) as [i j k]. cbn [ix iy iz] in *.
  set (c := fun x y z => sg * centered_value f (I x y z)).
  assert (K : forall a b e, (a = 0 \/ a = 1 \/ a = -1)%Z -> (b = 0 \/ b = 1 \/ b = -1)%Z -> (e = 0 \/ e = 1 \/ e = -1)%Z ->
    (0 <= i + a < nx (f_dims f))%Z -> (0 <= j + b < ny (f_dims f))%Z -> (0 <= k + e < nz (f_dims f))%Z ->
    c (i + a)%Z (j + b)%Z (k + e)%Z <= match (a * a + b * b + e * e)%Z with 0%Z => g0 | 1%Z => g1 | 2%Z => g2 | _ => g3 end).
  { intros a b e Ha Hb He Ia Ib Ie. unfold c.
    replace (a * a + b * b + e * e)%Z with (distsq (I i j k) (I (i + a) (j + b) (k + e))).
    2:{ unfold distsq. cbn [ix iy iz]. ring. }
    apply H; [apply in_bounds_spec; cbn [ix iy iz]; lia|]. unfold within_one. cbn [ix iy iz]. lia. }
  rewrite lerp_scale, !lerp_scale with (t := ty), !lerp_scale with (t := tx).
  fold (c xl yl zl) (c xu yl zl) (c xl yu zl) (c xu yu zl) (c xl yl zu) (c xu yl zu) (c xl yu zu) (c xu yu zu).
  set (g := fun n => match n with 0%Z => g0 | 1%Z => g1 | 2%Z => g2 | _ => g3 end) in *.
  assert (Ux : forall b e, (b = 0 \/ b = 1 \/ b = -1)%Z -> (e = 0 \/ e = 1 \/ e = -1)%Z ->
    (0 <= j + b < ny (f_dims f))%Z -> (0 <= k + e < nz (f_dims f))%Z ->
    lerp tx (c xl (j + b)%Z (k + e)%Z) (c xu (j + b)%Z (k + e)%Z) <= (g (b * b + e * e)%Z + g (b * b + e * e + 1)%Z) / 2).
  { intros b e Hb He Ib Ie. apply (half_lerp i xl xu tx (fun v => c v (j + b)%Z (k + e)%Z)); auto.
    - destruct Hb as [->|[->| ->]], He as [->|[->| ->]]; cbn; lra.
    - replace i with (i + 0)%Z by lia. apply (K 0 b e)%Z; auto. lia.
    - intros U. replace (b * b + e * e + 1)%Z with (1 * 1 + b * b + e * e)%Z by ring. apply K; auto. lia.
    - intros L. replace (b * b + e * e + 1)%Z with (-1 * -1 + b * b + e * e)%Z by ring.
      replace (i - 1)%Z with (i + -1)%Z by lia. apply K; auto. lia. }
  assert (Uy : forall e, (e = 0 \/ e = 1 \/ e = -1)%Z -> (0 <= k + e < nz (f_dims f))%Z ->
    lerp ty (lerp tx (c xl yl (k + e)%Z) (c xu yl (k + e)%Z)) (lerp tx (c xl yu (k + e)%Z) (c xu yu (k + e)%Z))
    <= ((g (e * e)%Z + g (e * e + 1)%Z) / 2 + (g (e * e + 1)%Z + g (e * e + 2)%Z) / 2) / 2).
  { intros e He Ie.
    apply (half_lerp j yl yu ty (fun v => lerp tx (c xl v (k + e)%Z) (c xu v (k + e)%Z))); auto.
    - destruct He as [->|[->| ->]]; cbn; lra.
    - pose proof (Ux 0%Z e ltac:(lia) He ltac:(lia) Ie) as U. rewrite Z.add_0_r in U.
      destruct He as [->|[->| ->]]; exact U.
    - intros U. pose proof (Ux 1%Z e ltac:(lia) He ltac:(lia) Ie) as V. 
      destruct He as [->|[->| ->]]; exact V.
    - intros U. pose proof (Ux (-1)%Z e ltac:(lia) He ltac:(lia) Ie) as V. 
      destruct He as [->|[->| ->]]; exact V. }
  pose proof (half_lerp k zl zu tz (fun v => lerp ty (lerp tx (c xl yl v) (c xu yl v)) (lerp tx (c xl yu v) (c xu yu v)))
    ((g0 + 2 * g1 + g2) / 4) ((g1 + 2 * g2 + g3) / 4) Z) as F.
  cbv beta in F. eapply Rle_trans; [apply F|]; [lra| | | |lra].
  - pose proof (Uy 0%Z ltac:(lia) ltac:(lia)) as V. rewrite Z.add_0_r in V. eapply Rle_trans; [exact V|]. cbn. lra.
  - intros U. pose proof (Uy 1%Z ltac:(lia) ltac:(lia)) as V. eapply Rle_trans; [exact V|]. cbn. lra.
  - intros U. pose proof (Uy (-1)%Z ltac:(lia) ltac:(lia)) as V. eapply Rle_trans; [exact V|]. cbn. lra.
Qed.

Lemma axis_square r i l u t v : 0 < r -> own_half i l u t -> v = r * (IZR l + 1/2 + t) ->
  r * IZR i <= v < r * (IZR i + 1) ->
  let sq x := (v - r * (IZR x + 1/2)) * (v - r * (IZR x + 1/2)) in
  lerp t (sq l) (sq u) <= r * r / 4.
Proof.
  intros Hr O Ev Hv sq. unfold lerp, sq. destruct O as [-> ->| -> -> T| -> -> T].
  - replace ((1 - t) * _ + t * _) with ((v - r * (IZR i + 1/2)) * (v - r * (IZR i + 1/2))) by ring.
    assert (- (r / 2) <= v - r * (IZR i + 1/2) <= r / 2) by lra. nra.
  - rewrite plus_IZR. subst v. replace ((1 - t) * _ + t * _) with (r * r * (t * (1 - t))) by ring.
    assert (t * (1 - t) <= 1 / 4) by nra. assert (0 < r * r) by nra. nra.
  - rewrite minus_IZR in *. subst v. replace ((1 - t) * _ + t * _) with (r * r * (t * (1 - t))) by ring.
    assert (t * (1 - t) <= 1 / 4) by nra. assert (0 < r * r) by nra. nra.
Qed.

Lemma own_weight i l u t : own_half i l u t -> l = u \/ 0 <= t <= 1.
Proof. intros [-> ->| -> -> T| -> -> T]; [left; auto|right; lra|right; lra]. Qed.

Lemma lerp_mono t a b a' b' (same : a = b /\ a' = b' \/ 0 <= t <= 1) : a <= a' -> b <= b' -> lerp t a b <= lerp t a' b'.
Proof. unfold lerp. destruct same as [(-> & ->)|T]; intros; [lra|nra]. Qed.

Lemma own_near i l u t : own_half i l u t -> (Z.abs (i - l) <= 1 /\ Z.abs (i - u) <= 1)%Z.
Proof. intros [-> ->| -> -> T| -> -> T]; lia. Qed.

Lemma three_quarters (a b c r : R) : a <= r * r / 4 -> b <= r * r / 4 -> c <= r * r / 4 -> a + b + c <= 3 / 4 * (r * r).
Proof. lra. Qed.

(** A bound on the cells around that grows with the squared distance to the point. *)
Lemma estimate_by_square (f : rfield) p q sg K A :
  0 < f_res f -> geometry (f_res f) p -> in_bounds (f_dims f) (index_of p q) = true -> between_centers f q ->
  0 <= A ->
  (forall j, in_bounds (f_dims f) j = true -> within_one (index_of p q) j ->
     let c := center_of p j in
     sg * centered_value f j <= K + A * ((vx q - vx c) * (vx q - vx c) + (vy q - vy c) * (vy q - vy c) + (vz q - vz c) * (vz q - vz c))) ->
  exists e, estimate_distance f p (to_world p q) = Ok (e, true) /\
    sg * e <= K + A * (3 / 4 * (f_res f * f_res f)).
Proof.
  intros Hr G B C HA H.
  destruct (estimate_own f p q Hr G B C) as (xl & xu & yl & yu & zl & zu & tx & ty & tz & X & Y & Z & Ex & Ey & Ez & Rx & Ry & Rz & E).
  cbv zeta in E. eexists. split; [exact E|]. clear E.
  pose proof (g_index_x _ _ G q) as Gx. pose proof (g_index_y _ _ G q) as Gy. pose proof (g_index_z _ _ G q) as Gz.
  set (r := f_res f) in *.
  pose proof (axis_square r _ xl xu tx (vx q) Hr X Ex Gx) as Sx.
  pose proof (axis_square r _ yl yu ty (vy q) Hr Y Ey Gy) as Sy.
  pose proof (axis_square r _ zl zu tz (vz q) Hr Z Ez Gz) as Sz.
  cbv zeta in Sx, Sy, Sz.
  pose proof (own_near _ _ _ _ X) as Nx. pose proof (own_near _ _ _ _ Y) as Ny. pose proof (own_near _ _ _ _ Z) as Nz.
  assert (XX : (xl <= xu)%Z) by (destruct X; lia). assert (YY : (yl <= yu)%Z) by (destruct Y; lia).
  assert (ZZ : (zl <= zu)%Z) by (destruct Z; lia).
  set (sqx := fun x => (vx q - r * (IZR x + 1/2)) * (vx q - r * (IZR x + 1/2))).
  set (sqy := fun x => (vy q - r * (IZR x + 1/2)) * (vy q - r * (IZR x + 1/2))).
  set (sqz := fun x => (vz q - r * (IZR x + 1/2)) * (vz q - r * (IZR x + 1/2))).
  fold (sqx xl) (sqx xu) in Sx. fold (sqy yl) (sqy yu) in Sy. fold (sqz zl) (sqz zu) in Sz.
  assert (KK : forall x y z, (x = xl \/ x = xu)%Z -> (y = yl \/ y = yu)%Z -> (z = zl \/ z = zu)%Z ->
              sg * centered_value f (I x y z) <= K + A * (sqx x + sqy y + sqz z)).
  { intros x y z Hx Hy Hz.
    pose proof (H (I x y z)) as H'. cbv zeta in H'. rewrite (g_center _ _ G) in H'. cbn [vx vy vz ix iy iz] in H'.
    apply H'; [apply in_bounds_spec; cbn [ix iy iz]; lia|]. unfold within_one. cbn [ix iy iz]. lia. }
  rewrite lerp_scale, !lerp_scale with (t := ty), !lerp_scale with (t := tx).
  apply own_weight in X, Y, Z.
  set (b := fun x y z => K + A * (sqx x + sqy y + sqz z)) in KK.
  apply Rle_trans with
    (lerp tz (lerp ty (lerp tx (b xl yl zl) (b xu yl zl)) (lerp tx (b xl yu zl) (b xu yu zl)))
             (lerp ty (lerp tx (b xl yl zu) (b xu yl zu)) (lerp tx (b xl yu zu) (b xu yu zu)))).
  - apply lerp_mono; [destruct Z as [T|T]; [left; rewrite T; split; reflexivity|right; exact T]| |];
      (apply lerp_mono; [destruct Y as [T|T]; [left; rewrite T; split; reflexivity|right; exact T]| |]);
      (apply lerp_mono; [destruct X as [T|T]; [left; rewrite T; split; reflexivity|right; exact T]| |]);
      apply KK; auto.
  - replace (lerp tz _ _) with (K + A * (lerp tx (sqx xl) (sqx xu) + lerp ty (sqy yl) (sqy yu) + lerp tz (sqz zl) (sqz zu))).
    2:{ unfold lerp, b. ring. }
    apply Rplus_le_compat_l. apply Rmult_le_compat_l; [exact HA|]. fold r in Sx, Sy, Sz |- *.
    apply three_quarters; assumption.
Qed.

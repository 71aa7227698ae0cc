From Coq Require Import Reals Lra Psatz.
From Verif Require Import Base BaseFacts Grid GridFacts Arith SdfQuery QuerySpec QueryProofs.
Open Scope R_scope.

Ltac rsimp := cbn [dadd dsub dmul ddiv of_int dlt dle deq dsqrt dabs widen fsub reals flt dbl] in *.

Ltac asR := match goal with |- @eq _ ?a ?b => change (@eq R a b) end.

(** ** Gradient of an affine field *)
Definition slope (n : Z) (a r : R) : R := if (n =? 1)%Z then 0 else a / r.

Lemma one_sided_affine (f : rfield) lo hi at_ a b :
  0 < f_res f -> (lo < hi)%Z ->
  (forall t, (t = lo \/ t = hi)%Z -> value f (at_ t) = b + a * IZR t) ->
  one_sided (A := reals) f lo hi at_ = a / f_res f.
Proof.
  intros Hr Hl Hv. unfold one_sided. rsimp. rewrite (Hv hi), (Hv lo) by auto.
  assert (Hd : 0 < IZR (hi - lo)) by (apply IZR_lt; lia).
  destruct (Rlt_dec 0 (IZR (hi - lo) * f_res f)) as [H|H].
  - rewrite minus_IZR in *. field. split; lra.
  - exfalso. apply H. apply Rmult_lt_0_compat; auto.
Qed.

Lemma one_sided_zero (f : rfield) t at_ : one_sided (A := reals) f t t at_ = 0.
Proof.
  unfold one_sided. rsimp. rewrite Z.sub_diag. destruct (Rlt_dec 0 (0 * f_res f)); auto. lra.
Qed.

Lemma central_affine (f : rfield) hi lo a t :
  0 < f_res f -> value f hi - value f lo = a * 2 -> t = a / f_res f ->
  central (A := reals) f hi lo = t.
Proof.
  intros Hr Hv ->. unfold central. rsimp. rewrite Hv. field. lra.
Qed.

Lemma affine_gradient (f : rfield) c a b g i e :
  0 < f_res f -> affine_values f c a b g -> in_bounds (f_dims f) i = true ->
  e = true \/ strictly_inside (f_dims f) i ->
  grid_aligned_gradient f i e =
    Some (V (A := reals) (slope (nx (f_dims f)) a (f_res f)) (slope (ny (f_dims f)) b (f_res f))
            (slope (nz (f_dims f)) g (f_res f))).
Proof.
  intros Hr Ha B He. unfold grid_aligned_gradient. destruct i as [x y z]. rewrite B.
  apply in_bounds_spec in B. cbn [ix iy iz] in B.
  destruct (interior (f_dims f) (I x y z)) eqn:Ei.
  - apply interior_spec in Ei. unfold strictly_inside in Ei. cbn [ix iy iz] in Ei.
    unfold slope. rewrite !(proj2 (Z.eqb_neq _ _)) by lia.
    f_equal. f_equal; (eapply central_affine; [auto| |reflexivity]);
      rewrite !Ha by (apply in_bounds_spec; cbn [ix iy iz]; lia);
      cbn [ix iy iz]; rewrite ?plus_IZR, ?minus_IZR; asR; ring.
  - destruct He as [He|He].
    2:{ apply interior_spec in He. congruence. }
    rewrite He. unfold low_index, high_index, slope.
    f_equal. f_equal.
    + destruct (Z.eqb_spec (nx (f_dims f)) 1) as [E|E].
      * replace (Z.max 0 (x - 1)) with (Z.min (nx (f_dims f) - 1) (x + 1)) by lia. apply one_sided_zero.
      * apply one_sided_affine with (b := c + b * IZR y + g * IZR z); auto; [lia|].
        intros t Ht. rewrite Ha by (apply in_bounds_spec; cbn [ix iy iz]; lia). cbn [ix iy iz]. asR. ring.
    + destruct (Z.eqb_spec (ny (f_dims f)) 1) as [E|E].
      * replace (Z.max 0 (y - 1)) with (Z.min (ny (f_dims f) - 1) (y + 1)) by lia. apply one_sided_zero.
      * apply one_sided_affine with (b := c + a * IZR x + g * IZR z); auto; [lia|].
        intros t Ht. rewrite Ha by (apply in_bounds_spec; cbn [ix iy iz]; lia). cbn [ix iy iz]. asR. ring.
    + destruct (Z.eqb_spec (nz (f_dims f)) 1) as [E|E].
      * replace (Z.max 0 (z - 1)) with (Z.min (nz (f_dims f) - 1) (z + 1)) by lia. apply one_sided_zero.
      * apply one_sided_affine with (b := c + a * IZR x + b * IZR y); auto; [lia|].
        intros t Ht. rewrite Ha by (apply in_bounds_spec; cbn [ix iy iz]; lia). cbn [ix iy iz]. asR. ring.
Qed.

(** ** Rotation *)
Lemma rotate_length (p : pose reals) (g : rvec) :
  rot_w p * rot_w p + length_squared (rot_v p) <> 0 ->
  length_squared (rotate p g) = length_squared g.
Proof.
  unfold length_squared, rotate, qmul, qinv. destruct (rot_v p) as [a b c]. destruct g as [x y z].
  generalize (rot_w p). intros w. cbn [vx vy vz qv qw]. rsimp. cbn [vx vy vz qv qw].
  intros H. destruct (Rlt_dec _ _) as [Hn|Hn].
  2:{ exfalso. apply Hn. nra. }
  cbn [vx vy vz qv qw].
  assert (a * a + b * b + c * c + w * w <> 0) by lra. field. auto.
Qed.

(** ** Interpolation *)
Definition lerp (t a b : R) : R := (1 - t) * a + t * b.

Lemma lerp_bounds t a b lo hi :
  a = b \/ 0 <= t <= 1 -> lo <= a <= hi -> lo <= b <= hi -> lo <= lerp t a b <= hi.
Proof. unfold lerp. intros [<-|H] Ha Hb; [|split; nra]. replace ((1 - t) * a + t * a) with a by ring. auto. Qed.

Lemma trilinear_lerp r (c q : rvec) mmm mmp mpm mpp pmm pmp ppm ppp :
  0 < r ->
  trilinear (A := reals) r c q mmm mmp mpm mpp pmm pmp ppm ppp =
    let tx := (vx q - vx c) / r in let ty := (vy q - vy c) / r in let tz := (vz q - vz c) / r in
    lerp tz (lerp ty (lerp tx mmm pmm) (lerp tx mpm ppm)) (lerp ty (lerp tx mmp pmp) (lerp tx mpp ppp)).
Proof.
  intros Hr. unfold trilinear, bilinear_xy, bilinear, lerp. rsimp. field. lra.
Qed.

Lemma corrected_centered (f : rfield) i : in_bounds (f_dims f) i = true ->
  corrected_center_distance f i = Ok (centered_value f i).
Proof.
  intros B. unfold corrected_center_distance, centered_value, value. rewrite get_eq.
  unfold f_dims in B. rewrite B. cbn [fst]. apply f_equal.
  generalize (gget (f_grid f) i), (f_res f). intros v r. change (flt reals) with R in v.
  change (dbl reals) with R in r. unfold lit. rsimp. asR. destruct (Rle_dec 0 v); asR; field.
Qed.

(** What the interpolation indices mean on one axis. *)
Record axis_ok (r : R) (i n : Z) (v : R) (l u : Z) : Prop := {
  ax_range : (0 <= l /\ u < n)%Z;
  ax_pair : (u = l + 1 \/ (u = l /\ n = 1))%Z;
  ax_near_l : (n = 1%Z \/ r / 2 <= v <= r * IZR n - r / 2) -> Rabs (v - r * (IZR l + 1/2)) <= r;
  ax_near_u : (n = 1%Z \/ r / 2 <= v <= r * IZR n - r / 2) -> Rabs (v - r * (IZR u + 1/2)) <= r;
  ax_t : (n = 1%Z \/ r / 2 <= v <= r * IZR n - r / 2) -> l = u \/ 0 <= (v - r * (IZR l + 1/2)) / r <= 1;
  ax_center : v = r * (IZR i + 1/2) ->
    (l = i /\ (v - r * (IZR l + 1/2)) / r = 0) \/ (u = i /\ (v - r * (IZR l + 1/2)) / r = 1)
}.

Lemma axis_real r i n v :
  0 < r -> (0 <= i < n)%Z -> r * IZR i <= v < r * (IZR i + 1) ->
  forall l u, axis_interpolation_indices (A := reals) i n (v - r * (IZR i + 1/2)) = (l, u) ->
  axis_ok r i n v l u.
Proof.
  intros Hr Hi Hv l u E.
  assert (Hin : IZR i + 1 <= IZR n) by (rewrite <- plus_IZR; apply IZR_le; lia).
  assert (Hi0 : 0 <= IZR i) by (apply IZR_le; lia).
  assert (Dv : forall w, (r * w) / r = w) by (intros; field; lra).
  unfold axis_interpolation_indices in E. rsimp.
  destruct (Rle_dec 0 (v - r * (IZR i + 1 / 2))) as [Ho|Ho].
  - destruct (Z.leb_spec n (i + 1)) as [Hn|Hn].
    + assert (n = i + 1)%Z by lia. subst n. rewrite plus_IZR in *.
      destruct (Z.ltb_spec (i - 1) 0) as [H0|H0]; injection E as <- <-.
      * assert (i = 0)%Z by lia. subst i. split; try (lia || (intros; apply Rabs_le; lra)).
        intros ->. left. split; auto. unfold Rdiv. ring.
      * split.
        -- lia.
        -- lia.
        -- intros [H|H]; [lia|]. rewrite plus_IZR in H. rewrite minus_IZR. apply Rabs_le. lra.
        -- intros [H|H]; [lia|]. rewrite plus_IZR in H. apply Rabs_le. lra.
        -- intros [H|H]; [lia|]. rewrite plus_IZR in H. right. rewrite minus_IZR.
           assert (v = r * (IZR i + 1/2)) by lra. subst v.
           replace ((r * (IZR i + 1 / 2) - r * (IZR i - 1 + 1 / 2)) / r) with 1 by (field; lra). lra.
        -- intros ->. right. split; auto. rewrite minus_IZR. field; lra.
    + injection E as <- <-. split.
      * lia.
      * lia.
      * intros _. apply Rabs_le. lra.
      * intros _. rewrite plus_IZR. apply Rabs_le. lra.
      * intros _. right. split.
        -- apply Rmult_le_reg_r with r; auto. unfold Rdiv. rewrite Rmult_assoc, Rinv_l by lra. lra.
        -- apply Rmult_le_reg_r with r; auto. unfold Rdiv. rewrite Rmult_assoc, Rinv_l by lra. lra.
      * intros ->. left. split; auto. unfold Rdiv. ring.
  - destruct (Z.ltb_spec (i - 1) 0) as [H0|H0].
    + assert (i = 0)%Z by lia. subst i. destruct (Z.leb_spec n (0 + 1)) as [Hn|Hn]; injection E as <- <-.
      * assert (n = 1)%Z by lia. subst n. split; try (lia || (intros; apply Rabs_le; lra)).
        intros ->. exfalso. lra.
      * split.
        -- lia.
        -- lia.
        -- intros [H|H]; [lia|]. exfalso. lra.
        -- intros [H|H]; [lia|]. exfalso. lra.
        -- intros [H|H]; [lia|]. exfalso. lra.
        -- intros ->. exfalso. lra.
    + injection E as <- <-. split.
      * lia.
      * lia.
      * intros _. rewrite minus_IZR. apply Rabs_le. lra.
      * intros _. apply Rabs_le. lra.
      * intros _. right. rewrite minus_IZR. split.
        -- apply Rmult_le_reg_r with r; auto. unfold Rdiv. rewrite Rmult_assoc, Rinv_l by lra. lra.
        -- apply Rmult_le_reg_r with r; auto. unfold Rdiv. rewrite Rmult_assoc, Rinv_l by lra. lra.
      * intros ->. exfalso. lra.
Qed.

Lemma estimate_lerp (f : rfield) p q :
  0 < f_res f -> geometry (f_res f) p -> in_bounds (f_dims f) (index_of p q) = true ->
  exists xl xu yl yu zl zu,
    axis_ok (f_res f) (ix (index_of p q)) (nx (f_dims f)) (vx q) xl xu /\
    axis_ok (f_res f) (iy (index_of p q)) (ny (f_dims f)) (vy q) yl yu /\
    axis_ok (f_res f) (iz (index_of p q)) (nz (f_dims f)) (vz q) zl zu /\
    estimate_from_neighbors f p q (index_of p q) = Ok (
      let tx := (vx q - f_res f * (IZR xl + 1/2)) / f_res f in
      let ty := (vy q - f_res f * (IZR yl + 1/2)) / f_res f in
      let tz := (vz q - f_res f * (IZR zl + 1/2)) / f_res f in
      let c x y z := centered_value f (I x y z) in
      lerp tz (lerp ty (lerp tx (c xl yl zl) (c xu yl zl)) (lerp tx (c xl yu zl) (c xu yu zl)))
              (lerp ty (lerp tx (c xl yl zu) (c xu yl zu)) (lerp tx (c xl yu zu) (c xu yu zu)))).
Proof.
  intros Hr G B. unfold estimate_from_neighbors.
  pose proof B as B'. apply in_bounds_spec in B'. destruct B' as (Bx & By & Bz).
  rewrite (g_center _ _ G). unfold vsub. cbn [vx vy vz].
  change (dsub reals) with Rminus.
  destruct (axis_interpolation_indices (ix (index_of p q)) _ _) as [xl xu] eqn:Ex.
  destruct (axis_interpolation_indices (iy (index_of p q)) _ _) as [yl yu] eqn:Ey.
  destruct (axis_interpolation_indices (iz (index_of p q)) _ _) as [zl zu] eqn:Ez.
  apply axis_real in Ex; auto; [|apply (g_index_x _ _ G)].
  apply axis_real in Ey; auto; [|apply (g_index_y _ _ G)].
  apply axis_real in Ez; auto; [|apply (g_index_z _ _ G)].
  exists xl, xu, yl, yu, zl, zu. split; auto. split; auto. split; auto.
  pose proof (ax_range _ _ _ _ _ _ Ex). pose proof (ax_pair _ _ _ _ _ _ Ex).
  pose proof (ax_range _ _ _ _ _ _ Ey). pose proof (ax_pair _ _ _ _ _ _ Ey).
  pose proof (ax_range _ _ _ _ _ _ Ez). pose proof (ax_pair _ _ _ _ _ _ Ez).
  rewrite !corrected_centered by (apply in_bounds_spec; cbn [ix iy iz]; lia). cbn [bind].
  rewrite trilinear_lerp by auto. rewrite (g_center _ _ G). reflexivity.
Qed.

(** The estimate at the centre of a cell. *)
Lemma estimate_at_center (f : rfield) p i :
  0 < f_res f -> geometry (f_res f) p -> in_bounds (f_dims f) i = true ->
  index_of p (center_of p i) = i /\
  estimate_distance f p (to_world p (center_of p i)) = Ok (centered_value f i, true).
Proof.
  intros Hr G B.
  assert (Ei : index_of p (center_of p i) = i).
  { pose proof (g_index_x _ _ G (center_of p i)) as Hx.
    pose proof (g_index_y _ _ G (center_of p i)) as Hy.
    pose proof (g_index_z _ _ G (center_of p i)) as Hz.
    destruct (index_of p (center_of p i)) as [a b c]. rewrite (g_center _ _ G) in *.
    destruct i as [x y z]. cbn [ix iy iz vx vy vz] in *.
    assert (K : forall m n, f_res f * IZR m <= f_res f * (IZR n + 1/2) < f_res f * (IZR m + 1) -> m = n).
    { intros m n (H1 & H2). apply Rmult_le_reg_l in H1; auto. apply Rmult_lt_reg_l in H2; auto.
      assert (IZR m < IZR (n + 1)) by (rewrite plus_IZR; lra).
      assert (IZR n < IZR (m + 1)) by (rewrite plus_IZR; lra).
      apply lt_IZR in H. apply lt_IZR in H0. lia. }
    f_equal; apply K; auto. }
  split; auto. unfold estimate_distance. rewrite (g_there_and_back _ _ G), Ei, B.
  pose proof B as B2. rewrite <- Ei in B2.
  destruct (estimate_lerp f p (center_of p i) Hr G B2) as (xl & xu & yl & yu & zl & zu & X & Y & Z & E).
  rewrite Ei in E, X, Y, Z. rewrite E. cbn [bind]. cbv zeta.
  apply f_equal. apply f_equal2; auto.
  rewrite (g_center _ _ G) in *. cbn [vx vy vz] in *. asR.
  destruct (ax_center _ _ _ _ _ _ X eq_refl) as [(X1 & X2)|(X1 & X2)]; rewrite X2;
  destruct (ax_center _ _ _ _ _ _ Y eq_refl) as [(Y1 & Y2)|(Y1 & Y2)]; rewrite Y2;
  destruct (ax_center _ _ _ _ _ _ Z eq_refl) as [(Z1 & Z2)|(Z1 & Z2)]; rewrite Z2;
  unfold lerp; rewrite X1, Y1, Z1; destruct i as [x y z]; cbn [ix iy iz]; ring.
Qed.

(** Between the centres of the outermost cells the estimate does not leave the
    range of the surrounding values. *)
Lemma estimate_between (f : rfield) p q lo hi :
  0 < f_res f -> geometry (f_res f) p -> in_bounds (f_dims f) (index_of p q) = true ->
  between_centers f q ->
  (forall j, around f p q j -> lo <= centered_value f j <= hi) ->
  exists e, estimate_distance f p (to_world p q) = Ok (e, true) /\ lo <= e <= hi.
Proof.
  intros Hr G B (Cx & Cy & Cz) H. unfold estimate_distance.
  rewrite (g_there_and_back _ _ G), B.
  destruct (estimate_lerp f p q Hr G B) as (xl & xu & yl & yu & zl & zu & X & Y & Z & E).
  rewrite E. cbn [bind]. cbv zeta. eexists. split; [reflexivity|].
  pose proof (ax_range _ _ _ _ _ _ X). pose proof (ax_pair _ _ _ _ _ _ X).
  pose proof (ax_range _ _ _ _ _ _ Y). pose proof (ax_pair _ _ _ _ _ _ Y).
  pose proof (ax_range _ _ _ _ _ _ Z). pose proof (ax_pair _ _ _ _ _ _ Z).
  assert (K : forall x y z, (x = xl \/ x = xu)%Z -> (y = yl \/ y = yu)%Z -> (z = zl \/ z = zu)%Z ->
              lo <= centered_value f (I x y z) <= hi).
  { intros x y z Hx Hy Hz. apply H. split; [apply in_bounds_spec; cbn [ix iy iz]; lia|].
    rewrite (g_center _ _ G). cbn [vx vy vz ix iy iz]. split; [|split].
    - destruct Hx as [Hx|Hx]; subst x; [apply (ax_near_l _ _ _ _ _ _ X Cx)|apply (ax_near_u _ _ _ _ _ _ X Cx)].
    - destruct Hy as [Hy|Hy]; subst y; [apply (ax_near_l _ _ _ _ _ _ Y Cy)|apply (ax_near_u _ _ _ _ _ _ Y Cy)].
    - destruct Hz as [Hz|Hz]; subst z; [apply (ax_near_l _ _ _ _ _ _ Z Cz)|apply (ax_near_u _ _ _ _ _ _ Z Cz)]. }
  assert (Tx : forall y z, centered_value f (I xl y z) = centered_value f (I xu y z) \/
               0 <= (vx q - f_res f * (IZR xl + 1/2)) / f_res f <= 1).
  { intros y z. destruct (ax_t _ _ _ _ _ _ X Cx) as [T|T]; [rewrite T; auto|auto]. }
  apply lerp_bounds.
  - destruct (ax_t _ _ _ _ _ _ Z Cz) as [T|T]; [rewrite T; auto|auto].
  - apply lerp_bounds.
    + destruct (ax_t _ _ _ _ _ _ Y Cy) as [T|T]; [rewrite T; auto|auto].
    + apply lerp_bounds; auto.
    + apply lerp_bounds; auto.
  - apply lerp_bounds.
    + destruct (ax_t _ _ _ _ _ _ Y Cy) as [T|T]; [rewrite T; auto|auto].
    + apply lerp_bounds; auto.
    + apply lerp_bounds; auto.
Qed.

(** If the centred values are an affine function of the position the estimate is
    that function, everywhere in the grid. *)
Lemma estimate_affine (f : rfield) p q c a b g :
  0 < f_res f -> geometry (f_res f) p -> in_bounds (f_dims f) (index_of p q) = true ->
  (nx (f_dims f) = 1%Z -> a = 0) -> (ny (f_dims f) = 1%Z -> b = 0) -> (nz (f_dims f) = 1%Z -> g = 0) ->
  (forall j, in_bounds (f_dims f) j = true -> centered_value f j =
     c + a * vx (center_of p j) + b * vy (center_of p j) + g * vz (center_of p j)) ->
  estimate_distance f p (to_world p q) = Ok (c + a * vx q + b * vy q + g * vz q, true).
Proof.
  intros Hr G B Nx Ny Nz H. unfold estimate_distance.
  rewrite (g_there_and_back _ _ G), B.
  destruct (estimate_lerp f p q Hr G B) as (xl & xu & yl & yu & zl & zu & X & Y & Z & E).
  rewrite E. cbn [bind]. cbv zeta. apply f_equal. apply f_equal2; auto.
  pose proof (ax_range _ _ _ _ _ _ X). pose proof (ax_pair _ _ _ _ _ _ X) as Px.
  pose proof (ax_range _ _ _ _ _ _ Y). pose proof (ax_pair _ _ _ _ _ _ Y) as Py.
  pose proof (ax_range _ _ _ _ _ _ Z). pose proof (ax_pair _ _ _ _ _ _ Z) as Pz.
  rewrite !H by (apply in_bounds_spec; cbn [ix iy iz]; lia).
  rewrite !(g_center _ _ G). cbn [vx vy vz ix iy iz]. unfold lerp. asR.
  assert (K : forall (u l n : BinNums.Z) k v, ((u = l + 1)%Z \/ (u = l /\ n = 1)%Z) -> (n = 1%Z -> k = 0) ->
     (1 - (v - f_res f * (IZR l + 1/2)) / f_res f) * (k * (f_res f * (IZR l + 1/2))) +
     (v - f_res f * (IZR l + 1/2)) / f_res f * (k * (f_res f * (IZR u + 1/2))) = k * v).
  { intros u l n k v [P|(P & Pn)] Hk; subst u.
    - rewrite plus_IZR. field. lra.
    - rewrite (Hk Pn). ring. }
  pose proof (K _ _ _ a (vx q) Px Nx) as Kx.
  pose proof (K _ _ _ b (vy q) Py Ny) as Ky.
  pose proof (K _ _ _ g (vz q) Pz Nz) as Kz.
  set (tx := (vx q - f_res f * (IZR xl + 1/2)) / f_res f) in *.
  set (ty := (vy q - f_res f * (IZR yl + 1/2)) / f_res f) in *.
  set (tz := (vz q - f_res f * (IZR zl + 1/2)) / f_res f) in *.
  rewrite <- Kx at 1. rewrite <- Ky at 1. rewrite <- Kz at 1. ring.
Qed.

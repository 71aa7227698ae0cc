(** Distances and gradients around a flat wall, in doubles. *)
From Coq Require Import Reals Lra Lia Psatz.
From Flocq Require Import Core.Core IEEE754.Binary IEEE754.Bits.
From Verif Require Import Base Floats FloatFacts FloatFacts2 Grid GridFacts DistSpec CollisionMap SdfGen SdfSpec SdfThms
  Arith SdfQuery SdfField QuerySpec QueryReal DoubleSpec DoubleQuery DoubleEstimate DoubleGrid SmoothSpec DoubleSmooth
  WallSpec WallThms WallExtract.
Open Scope R_scope.

Lemma wall_centre r k h : 0 < r ->
  (if Rle_dec 0 (wall_value r k h) then wall_value r k h - r / 2 else wall_value r k h + r / 2) = r * (IZR h + 1 / 2 - IZR k).
Proof.
  intros P. unfold wall_value. destruct (Z.ltb_spec h k) as [L|L].
  - assert (1 <= IZR (k - h)) by (apply IZR_le; lia). destruct (Rle_dec 0 (- (r * IZR (k - h)))); [nra|].
    rewrite minus_IZR. lra.
  - assert (1 <= IZR (h + 1 - k)) by (apply IZR_le; lia). destruct (Rle_dec 0 (r * IZR (h + 1 - k))) as [|n]; [|exfalso; apply n; nra].
    rewrite minus_IZR, plus_IZR. lra.
Qed.

Lemma between_same t a : between t a a = a.
Proof. unfold between. ring. Qed.

Lemma between_line r lo v n s c : 0 < r ->
  between (progress r lo v) (s * (r * (IZR lo + 1 / 2)) + c) (s * (r * (IZR (lo + 1) + 1 / 2)) + c) = n ->
  n = s * v + c.
Proof. intros P <-. unfold between, progress. rewrite plus_IZR. field. lra. Qed.

Section Plane.
  Variables (f : field ieee) (a : axis_name) (low : bool) (k : Z).
  Notation r := (real64 (f_res f)).
  Notation n := (cells_along a (f_dims f)).
  Hypotheses (P : 0 < r) (Wl : double_wall f a low k).

  (** Sign and offset of the distance along the axis. *)
  Definition sgn : R := if low then 1 else - (1).
  Definition off : R := if low then - (r * IZR k) else r * IZR (n - k).

  Lemma plane_centre i : in_bounds (f_dims f) i = true ->
    centered_real f i = sgn * (r * (IZR (coordinate a i) + 1 / 2)) + off.
  Proof using P Wl.
    intros Hi. unfold centered_real. rewrite (proj2 (proj2 Wl i Hi)), wall_centre by exact P.
    unfold depth, sgn, off. destruct low; [ring|]. rewrite !minus_IZR. lra.
  Qed.

  Lemma wall_interpolated p q E : inside f p q -> interpolated f p q E ->
    E = above_wall r n a low k (real_vec (to_grid p q)).
  Proof.
    intros In (xl & xu & yl & yu & zl & zu & (Xr & Xi & Xu & _) & (Yr & Yi & Yu & _) & (Zr & Zi & Zu & _) & ->).
    set (v := to_grid p q) in *.
    assert (C : forall x y z, (x = xl \/ x = xu) -> (y = yl \/ y = yu) -> (z = zl \/ z = zu) ->
                centered_real f (I x y z) = sgn * (r * (IZR (coordinate a (I x y z)) + 1 / 2)) + off).
    { intros x y z Hx Hy Hz. apply plane_centre. apply in_bounds_spec. cbn [ix iy iz]. lia. }
    unfold interpolation. cbn [real_vec vx vy vz]. rewrite !C by auto.
    assert (Fin : forall c, c = sgn * match a with AlongX => real64 (vx v) | AlongY => real64 (vy v) | AlongZ => real64 (vz v) end + off ->
                  c = above_wall r n a low k (@V reals (real64 (vx v)) (real64 (vy v)) (real64 (vz v)))).
    { intros c ->. unfold above_wall, sgn, off. cbn [vx vy vz]. destruct a, low; asR; ring. }
    apply Fin. pose proof (proj1 Wl) as Hn. destruct a; cbn [coordinate ix iy iz cells_along] in *; rewrite ?between_same.
    - destruct (Z.eqb_spec (nx (f_dims f)) 1) as [E1|E1]; [lia|]. rewrite Xu.
      eapply between_line; [exact P|reflexivity].
    - destruct (Z.eqb_spec (ny (f_dims f)) 1) as [E1|E1]; [lia|]. rewrite Yu.
      eapply between_line; [exact P|reflexivity].
    - destruct (Z.eqb_spec (nz (f_dims f)) 1) as [E1|E1]; [lia|]. rewrite Zu.
      eapply between_line; [exact P|reflexivity].
  Qed.

  Lemma wall_bound N j : (nx (f_dims f) <= N)%Z -> (ny (f_dims f) <= N)%Z -> (nz (f_dims f) <= N)%Z ->
    in_bounds (f_dims f) j = true -> Rabs (real32 (value f j)) + r <= r * IZR N.
  Proof using P Wl.
    intros X Y Z Hj. rewrite (proj2 (proj2 Wl j Hj)). pose proof (proj1 Wl) as Hk.
    assert (HN : (n <= N)%Z) by (destruct a; cbn [cells_along]; lia).
    pose proof (depth_bounds a low (f_dims f) j Hj) as Hh. unfold wall_value. set (h := depth _ _ _ _) in *.
    destruct (Z.ltb_spec h k) as [L|L].
    - assert (K : 1 <= IZR (k - h) <= IZR N - 1).
      { rewrite <- minus_IZR. split; apply IZR_le; lia. }
      rewrite Rabs_Ropp, Rabs_pos_eq by nra. nra.
    - assert (K : 1 <= IZR (h + 1 - k) <= IZR N - 1).
      { rewrite <- minus_IZR. split; apply IZR_le; lia. }
      rewrite Rabs_pos_eq by nra. nra.
  Qed.
End Plane.

(** ** Queries *)
Section Queries.
  Variables (f : field ieee) (a : axis_name) (low : bool) (k N : Z).
  Notation r := (real64 (f_res f)).
  Notation p := (ieee_pose (f_res f)).
  Notation n := (cells_along a (f_dims f)).
  Notation W := (r * IZR N).
  Notation tol := ((bpow radix2 (-42) + 128 * (4 * (IZR N + 1) * u)) * W).
  Hypotheses (Fr : finite_double (f_res f)) (Rr : bpow radix2 (-100) <= r <= bpow radix2 80)
    (Wl : double_wall f a low k) (HN : (N <= 46340)%Z)
    (Hnx : (nx (f_dims f) <= N)%Z) (Hny : (ny (f_dims f) <= N)%Z) (Hnz : (nz (f_dims f) <= N)%Z).

  Lemma r_pos : 0 < r.
  Proof using Rr. pose proof (bpow_gt_0 radix2 (-100)). lra. Qed.

  Lemma N_real : 1 <= IZR N <= 46340.
  Proof using HN Wl Hnx Hny Hnz.
    pose proof (proj1 Wl). split; apply IZR_le; [|exact HN]. destruct a; cbn [cells_along] in *; lia.
  Qed.

  Lemma r_range : bpow radix2 (-100) <= r <= bpow radix2 100.
  Proof using Rr. split; [apply Rr|]. eapply Rle_trans; [apply Rr|]. apply bpow_le. lia. Qed.

  Lemma W_small : W <= bpow radix2 100.
  Proof using HN Wl Hnx Hny Hnz Rr.
    pose proof N_real as NR. pose proof r_pos. apply Rle_trans with (bpow radix2 80 * bpow radix2 20).
    - apply Rmult_le_compat; try lra. change (bpow radix2 20) with 1048576. lra.
    - rewrite <- bpow_plus. apply bpow_le. lia.
  Qed.

  Lemma wall_vals j : in_bounds (f_dims f) j = true -> finite_float (value f j) /\ Rabs (real32 (value f j)) + r <= W.
  Proof using Rr Wl Hnx Hny Hnz.
    intros Hj. split; [apply (proj2 Wl j Hj)|]. apply (wall_bound f a low k r_pos Wl); auto.
  Qed.

  Lemma N_small : 4 * (IZR N + 1) * u <= 1 / 16.
  Proof using HN Wl Hnx Hny Hnz. pose proof N_real. pose proof u_le. pose proof u_pos. nra. Qed.

  Lemma wall_estimate_double loc : finite_vec loc -> Rabs (real64 (vx loc)) <= bpow radix2 800 ->
    Rabs (real64 (vy loc)) <= bpow radix2 800 -> Rabs (real64 (vz loc)) <= bpow radix2 800 -> inside f p loc ->
    exists e, estimate_distance f p loc = Ok (e, true) /\ finite_double e /\
      Rabs (real64 e - above_wall r n a low k (real_vec loc)) <= tol.
  Proof.
    intros Fv X Y Z In.
    destruct (identity_estimate f loc (IZR N) W Fr r_range W_small wall_vals N_small (IZR_le _ _ Hnx) (IZR_le _ _ Hny) (IZR_le _ _ Hnz)
      Fv X Y Z In) as (e & xl & xu & yl & yu & zl & zu & E & Fe & Ax & Ay & Az & Err).
    exists e. split; [exact E|]. split; [exact Fe|].
    assert (K : interpolated f p loc (interpolation f (real_vec loc) xl xu yl yu zl zu)).
    { exists xl, xu, yl, yu, zl, zu. auto. }
    pose proof (wall_interpolated f a low k r_pos Wl p loc _ In K) as Eq. change (to_grid p loc) with loc in Eq.
    rewrite <- Eq. exact Err.
  Qed.

  Lemma wall_slope (c : vec ieee -> binary64) a' b' (m w g : binary64) (s : R) :
    inside f p a' -> inside f p b' -> 0 < real64 w ->
    (forall q q' : vec ieee, q = a' -> q' = b' ->
      above_wall r n a low k (real_vec q') - above_wall r n a low k (real_vec q) = s * (real64 (c q') - real64 (c q))) ->
    3 / 4 * real64 w <= real64 (c b') - real64 (c a') ->
    slope_between f p c a' b' (3 * tol) g -> 0 <= tol -> finite_double g /\ Rabs (real64 g - s) <= 4 * tol / real64 w.
  Proof.
    intros Ia Ib Pw Ab Run (Fg & Pr & Ea & Eb & Ka & Kb & Err) T0. split; [exact Fg|].
    rewrite (wall_interpolated f a low k r_pos Wl p a' Ea Ia Ka) in Err.
    rewrite (wall_interpolated f a low k r_pos Wl p b' Eb Ib Kb) in Err.
    change (to_grid p a') with a' in Err. change (to_grid p b') with b' in Err.
    rewrite (Ab a' b' eq_refl eq_refl) in Err. set (run := real64 (c b') - real64 (c a')) in *.
    replace (s * run / run) with s in Err by (field; lra). eapply Rle_trans; [exact Err|].
    apply Rmult_le_reg_r with (run * real64 w); [apply Rmult_lt_0_compat; lra|].
    replace (3 * tol / run * (run * real64 w)) with (3 * tol * real64 w) by (field; lra).
    replace (4 * tol / real64 w * (run * real64 w)) with (4 * tol * run) by (field; lra).
    nra.
  Qed.
End Queries.

Section Gradient.
  Variables (f : field ieee) (a : axis_name) (low : bool) (k N : Z) (x y z window : binary64).
  Notation r := (real64 (f_res f)).
  Notation p := (ieee_pose (f_res f)).
  Notation n := (cells_along a (f_dims f)).
  Notation W := (r * IZR N).
  Notation tol := ((bpow radix2 (-42) + 128 * (4 * (IZR N + 1) * u)) * W).
  Notation w := (b64_abs window).
  Notation loc := (@V ieee x y z).
  Hypotheses (Fr : finite_double (f_res f)) (Rr : bpow radix2 (-100) <= r <= bpow radix2 80)
    (Wl : double_wall f a low k) (HN : (N <= 46340)%Z)
    (Hnx : (nx (f_dims f) <= N)%Z) (Hny : (ny (f_dims f) <= N)%Z) (Hnz : (nz (f_dims f) <= N)%Z)
    (Fx : finite_double x) (Fy : finite_double y) (Fz : finite_double z) (Fw : finite_double window)
    (Bw : bpow radix2 (-200) <= Rabs (real64 window) <= bpow radix2 700)
    (Bx : Rabs (real64 x) <= bpow radix2 50 * Rabs (real64 window))
    (By : Rabs (real64 y) <= bpow radix2 50 * Rabs (real64 window))
    (Bz : Rabs (real64 z) <= bpow radix2 50 * Rabs (real64 window))
    (Hi : inside f p loc).
  Notation west := (@V ieee (sub64 x w) y z). Notation east := (@V ieee (add64 x w) y z).
  Notation south := (@V ieee x (sub64 y w) z). Notation north := (@V ieee x (add64 y w) z).
  Notation down := (@V ieee x y (sub64 z w)). Notation up := (@V ieee x y (add64 z w)).
  Hypotheses (Hx : inside f p west \/ inside f p east) (Hy : inside f p south \/ inside f p north)
    (Hz : inside f p down \/ inside f p up).

  (** The points used on an axis are at least three quarters of the window apart. *)
  Lemma used_points c (lo hi : vec ieee) (cf : vec ieee -> binary64) a' b' : finite_double c ->
    Rabs (real64 c) <= bpow radix2 50 * Rabs (real64 window) ->
    cf lo = sub64 c w -> cf loc = c -> cf hi = add64 c w -> inside f p lo \/ inside f p hi ->
    window_points f p lo loc hi a' b' ->
    inside f p a' /\ inside f p b' /\ (a' = lo \/ a' = loc) /\ (b' = hi \/ b' = loc) /\
    3 / 4 * real64 w <= real64 (cf b') - real64 (cf a').
  Proof using Fw Bw Hi.
    clear Hx Hy Hz Rr. intros Fc Bc El Em Eh In (Wa & Wb). destruct (abs_window window Fw) as (Faw & Ew).
    destruct (window_ends c w Fc Faw) as (_ & _ & D1 & D2); [rewrite Ew; exact Bw|rewrite Ew; exact Bc|].
    pose proof (bpow_gt_0 radix2 (-200)). apply Rabs_le_inv in D1. apply Rabs_le_inv in D2.
    destruct Wa as [(Ia & ->)|(Ia & ->)]; destruct Wb as [(Ib & ->)|(Ib & ->)]; rewrite ?El, ?Em, ?Eh;
      try (repeat split; auto; lra). tauto.
  Qed.

  Lemma wall_gradient_double : exists g, smooth_gradient f p loc window = Ok (Some g) /\ finite_vec g /\
    Rabs (real64 (vx g) - vx (outward a low)) <= 4 * tol / Rabs (real64 window) /\
    Rabs (real64 (vy g) - vy (outward a low)) <= 4 * tol / Rabs (real64 window) /\
    Rabs (real64 (vz g) - vz (outward a low)) <= 4 * tol / Rabs (real64 window).
  Proof.
    pose proof (r_pos f Rr) as P. pose proof (N_real f a low k N Wl HN Hnx Hny Hnz) as NR. pose proof u_pos as U.
    assert (T0 : 0 <= tol).
    { pose proof (bpow_gt_0 radix2 (-42)). repeat apply Rmult_le_pos; try lra. nra. }
    destruct (abs_window window Fw) as (Faw & Ew). rewrite <- Ew.
    assert (Pw : 0 < real64 w) by (pose proof (bpow_gt_0 radix2 (-200)); rewrite Ew; lra).
    destruct (proj1 (smooth_double f x y z window (IZR N) W Fr (r_range f Rr)
      (W_small f a low k N Rr Wl HN Hnx Hny Hnz) (wall_vals f a low k N Rr Wl Hnx Hny Hnz)
      (N_small f a low k N Wl HN Hnx Hny Hnz) (IZR_le _ _ Hnx) (IZR_le _ _ Hny) (IZR_le _ _ Hnz)
      Fx Fy Fz Fw Bw Bx By
      Bz Hi) Hx Hy Hz)
      as (g & E & (ax & bx & Wx & Sx) & (ay & by_ & Wy & Sy) & (az & bz & Wz & Sz)).
    exists g. split; [exact E|].
    destruct (used_points x west east vx ax bx Fx Bx eq_refl eq_refl eq_refl Hx Wx) as (Iax & Ibx & Qax & Qbx & Rx).
    destruct (used_points y south north vy ay by_ Fy By eq_refl eq_refl eq_refl Hy Wy) as (Iay & Iby & Qay & Qby & Ry).
    destruct (used_points z down up vz az bz Fz Bz eq_refl eq_refl eq_refl Hz Wz) as (Iaz & Ibz & Qaz & Qbz & Rz).
    destruct (wall_slope f a low k N Rr Wl vx ax bx x w (vx g) (vx (outward a low)) Iax Ibx Pw) as (F1 & D1); auto.
    { intros q q' -> ->. unfold above_wall, outward. destruct Qax as [->| ->], Qbx as [->| ->]; destruct a, low; cbn [real_vec vx vy vz]; asR; ring. }
    destruct (wall_slope f a low k N Rr Wl vy ay by_ y w (vy g) (vy (outward a low)) Iay Iby Pw) as (F2 & D2); auto.
    { intros q q' -> ->. unfold above_wall, outward. destruct Qay as [->| ->], Qby as [->| ->]; destruct a, low; cbn [real_vec vx vy vz]; asR; ring. }
    destruct (wall_slope f a low k N Rr Wl vz az bz z w (vz g) (vz (outward a low)) Iaz Ibz Pw) as (F3 & D3); auto.
    { intros q q' -> ->. unfold above_wall, outward. destruct Qaz as [->| ->], Qbz as [->| ->]; destruct a, low; cbn [real_vec vx vy vz]; asR; ring. }
    split; [split; [exact F1|split; [exact F2|exact F3]]|]. auto.
  Qed.
End Gradient.

(** ** Extracted fields *)
Lemma extracted_double_wall a low d r oob frame is_filled k s x :
  size_ok d -> usable_resolution r ->
  answers d is_filled (fun c => (depth a low d c <? k)%Z) -> (0 < k < cells_along a d)%Z ->
  stored_exactly r (cells_along a d) -> extract_sdf d r is_filled oob frame = Ok (s, x) ->
  double_wall (sdf_field s) a low k /\ f_dims (sdf_field s) = d /\ f_res (sdf_field s) = r.
Proof.
  intros Hs Hr HP Hk Ex He.
  destruct (wall_extracted a low d r oob frame is_filled k s x Hs Hr HP Hk Ex He) as ((_ & V) & FD & _).
  destruct (extract_sign d r oob frame is_filled _ Hs Hr HP) as (s' & x' & He' & Dd & Rr & _).
  rewrite He in He'. injection He' as <- <-.
  assert (FD' : f_dims (sdf_field s) = d) by exact Dd.
  assert (FR : f_res (sdf_field s) = r) by exact Rr.
  split; [|auto]. unfold double_wall. rewrite FD', FR. split; [exact Hk|]. intros i Hi.
  specialize (V i). rewrite FD in V. specialize (V Hi). rewrite real_field_value in V.
  change (f_res (real_field s)) with (real64 (s_res s)) in V. rewrite Rr in V.
  change (value (sdf_field s) i) with (fst (sdf_get s i)).
  split; [|exact V].
  assert (P : 0 < real64 r).
  { destruct Hr as (Fr & Gr). pose proof (res_pos r Fr Gr) as K. rewrite (r_val r Fr) in K. exact K. }
  assert (NZ : wall_value (real64 r) k (depth a low d i) <> 0).
  { unfold wall_value. destruct (Z.ltb_spec (depth a low d i) k).
    - assert (1 <= IZR (k - depth a low d i)) by (apply IZR_le; lia). nra.
    - assert (1 <= IZR (depth a low d i + 1 - k)) by (apply IZR_le; lia). nra. }
  rewrite <- V in NZ. unfold finite_float, real32 in *.
  destruct (fst (sdf_get s i)); cbn [B2R is_finite] in *; auto; exfalso; apply NZ; reflexivity.
Qed.

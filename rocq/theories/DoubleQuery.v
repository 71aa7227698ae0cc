(** What the queries return in doubles. *)
From Coq Require Import Reals Lra Lia.
From Flocq Require Import Core.Core Relative Plus_error Mult_error IEEE754.Binary IEEE754.Bits.
From Verif Require Import Base Floats FloatFacts FloatFacts2 Grid GridFacts Arith SdfQuery SdfField QuerySpec QueryProofs
  DisplaySdf DoubleSpec.
Open Scope R_scope.

Local Instance prec24 : Prec_gt_0 24 := eq_refl.
Local Instance prec53 : Prec_gt_0 53 := eq_refl.

(** ** Doubles as real numbers *)
Lemma nearest_rnd x : nearest_double x = rnd64 x.
Proof. reflexivity. Qed.

Lemma finite_not_nan x : finite_double x -> is_nan 53 1024 x = false.
Proof. unfold finite_double. destruct x; auto; discriminate. Qed.

Lemma finite_xr x : finite_double x -> xr64 x = real64 x /\ - bpow radix2 1024 < real64 x < bpow radix2 1024.
Proof.
  intros F. destruct (xr_finite 53 1024 x F) as (E & B). unfold xr64, real64. rewrite <- E. auto.
Qed.

Lemma xr_in_finite x : is_nan 53 1024 x = false -> - bpow radix2 1024 < xr64 x < bpow radix2 1024 ->
  finite_double x /\ real64 x = xr64 x.
Proof.
  intros N B. unfold finite_double, real64, xr64 in *. destruct x as [s|s|s p H|s m e H]; try discriminate; auto.
  exfalso. cbn [xr] in B. destruct s; lra.
Qed.

Lemma real_format x : generic_format radix2 (SpecFloat.fexp 53 1024) (real64 x).
Proof. apply generic_format_B2R. Qed.

Lemma nearest_id x : nearest_double (real64 x) = real64 x.
Proof. rewrite nearest_rnd. apply rnd_id. apply real_format. Qed.

Lemma nearest_le a b : a <= b -> nearest_double a <= nearest_double b.
Proof. rewrite !nearest_rnd. intros H. apply rnd_le; auto; reflexivity. Qed.

Lemma nearest_0 : nearest_double 0 = 0.
Proof. apply round_0. apply valid_rnd_N. Qed.

Lemma sub_xr x y : finite_double x -> finite_double y ->
  is_nan 53 1024 (sub64 x y) = false /\ xr64 (sub64 x y) = FloatFacts.clamp 1024 (nearest_double (real64 x - real64 y)).
Proof. intros Fx Fy. exact (minus_xr 53 1024 eq_refl eq_refl binop_nan_pl64 x y Fx Fy). Qed.

Lemma clamp_small a : - bpow radix2 1024 < a < bpow radix2 1024 -> FloatFacts.clamp 1024 a = a.
Proof. apply clamp_in. Qed.

Lemma zero_real : finite_double (b64_of_Z 0) /\ real64 (b64_of_Z 0) = 0.
Proof. apply of_Z_exact. cbn. lia. Qed.

Lemma clamp_nonneg a : 0 <= a <-> 0 <= FloatFacts.clamp 1024 a.
Proof.
  pose proof (B_pos 1024) as P. unfold FloatFacts.clamp, Rmax, Rmin.
  destruct (Rle_dec (bpow radix2 1024) a); destruct (Rle_dec _ _); lra.
Qed.

(** Subtraction keeps the sign. *)
Lemma nearest_sign a b : 0 <= nearest_double (real64 a - real64 b) <-> 0 <= real64 a - real64 b.
Proof.
  split; intros H.
  - destruct (Rle_lt_dec 0 (real64 a - real64 b)) as [L|L]; auto. exfalso.
    assert (E : nearest_double (real64 a - real64 b) <> 0).
    { unfold nearest_double. unfold Rminus. apply round_plus_neq_0.
      - apply FLT_exp_valid. reflexivity.
      - apply monotone_exp_not_FTZ; [apply FLT_exp_valid; reflexivity|apply FLT_exp_monotone].
      - apply valid_rnd_N.
      - apply real_format.
      - apply generic_format_opp. apply real_format.
      - lra. }
    assert (nearest_double (real64 a - real64 b) <= 0) by (rewrite <- nearest_0; apply nearest_le; lra). lra.
  - rewrite <- nearest_0. apply nearest_le; auto.
Qed.

(** ** Distance to the boundary *)
Lemma dmin_ieee a b : is_nan 53 1024 a = false -> is_nan 53 1024 b = false ->
  is_nan 53 1024 (@dmin ieee a b) = false /\ xr64 (@dmin ieee a b) = Rmin (xr64 a) (xr64 b).
Proof.
  intros Na Nb. unfold dmin. cbn [dlt ieee].
  pose proof (lt64_spec b a Nb Na) as S. destruct (lt64 b a).
  - split; auto. assert (xr64 b < xr64 a) by (apply S; reflexivity). rewrite Rmin_right; lra.
  - split; auto. destruct (Rle_dec (xr64 a) (xr64 b)); [rewrite Rmin_left; auto|].
    assert (false = true) by (apply S; lra). discriminate.
Qed.

Lemma face_axis q s : finite_double q -> finite_double s ->
  let d := @dmin ieee q (sub64 s q) in
  is_nan 53 1024 d = false /\
  (le64 (b64_of_Z 0) d = true <-> 0 <= real64 q <= real64 s) /\
  (0 <= real64 q <= real64 s -> finite_double d /\ real64 d = nearest_double (Rmin (real64 q) (real64 s - real64 q)) /\
     0 <= real64 d).
Proof.
  intros Fq Fs d. destruct (sub_xr s q Fs Fq) as (Nd & Xd). destruct (finite_xr q Fq) as (Xq & Bq).
  destruct (finite_xr s Fs) as (Xs & Bs).
  destruct (dmin_ieee q (sub64 s q) (finite_not_nan q Fq) Nd) as (N & X). fold d in N, X.
  rewrite Xq, Xd in X.
  assert (Z0 : xr64 (b64_of_Z 0) = 0).
  { destruct (finite_xr _ (proj1 zero_real)) as (E & _). rewrite E. apply zero_real. }
  split; [exact N|]. split.
  - rewrite le64_spec by auto. rewrite Z0, X.
    pose proof (clamp_nonneg (nearest_double (real64 s - real64 q))) as C.
    pose proof (nearest_sign s q) as S.
    split.
    + intros H. pose proof (Rmin_l (real64 q) (FloatFacts.clamp 1024 (nearest_double (real64 s - real64 q)))).
      pose proof (Rmin_r (real64 q) (FloatFacts.clamp 1024 (nearest_double (real64 s - real64 q)))).
      assert (0 <= real64 s - real64 q) by (apply S; apply C; lra). lra.
    + intros H. apply Rmin_glb; [lra|]. apply C. apply S. lra.
  - intros H.
    assert (L1 : nearest_double (real64 s - real64 q) <= real64 s).
    { rewrite <- (nearest_id s) at 2. apply nearest_le. lra. }
    assert (L2 : 0 <= nearest_double (real64 s - real64 q)) by (apply nearest_sign; lra).
    assert (L3 : real64 q <= real64 s) by lra.
    rewrite clamp_small in X by lra.
    assert (E : Rmin (real64 q) (nearest_double (real64 s - real64 q)) =
                nearest_double (Rmin (real64 q) (real64 s - real64 q))).
    { unfold Rmin at 2. destruct (Rle_dec (real64 q) (real64 s - real64 q)) as [K|K].
      - rewrite nearest_id. apply Rmin_left. rewrite <- (nearest_id q) at 1. apply nearest_le; auto.
      - apply Rmin_right. rewrite <- (nearest_id q) at 2. apply nearest_le. lra. }
    assert (P : 0 <= xr64 d) by (rewrite X; apply Rmin_glb; lra).
    assert (U : xr64 d <= real64 q) by (rewrite X; apply Rmin_l).
    destruct (xr_in_finite d N) as (F & R); [pose proof (B_pos 1024); lra|].
    rewrite R. split; [auto|]. split; [rewrite X; exact E|exact P].
Qed.

Lemma abs_id x : finite_double x -> 0 <= real64 x -> finite_double (b64_abs x) /\ real64 (b64_abs x) = real64 x.
Proof.
  intros F P. unfold finite_double, real64, b64_abs in *. rewrite B2R_Babs, is_finite_Babs. split; auto.
  apply Rabs_pos_eq; auto.
Qed.

Lemma lt_finite x y : finite_double x -> finite_double y ->
  lt64 x y = if Rlt_dec (real64 x) (real64 y) then true else false.
Proof.
  intros Fx Fy. pose proof (lt64_spec x y (finite_not_nan x Fx) (finite_not_nan y Fy)) as S.
  rewrite (proj1 (finite_xr x Fx)), (proj1 (finite_xr y Fy)) in S.
  destruct (Rlt_dec (real64 x) (real64 y)) as [L|L].
  - apply S; auto.
  - destruct (lt64 x y); auto. exfalso. apply L. apply S. reflexivity.
Qed.

Lemma nearest_min a b : Rmin (nearest_double a) (nearest_double b) = nearest_double (Rmin a b).
Proof.
  unfold Rmin at 2. destruct (Rle_dec a b) as [L|L].
  - apply Rmin_left. apply nearest_le; auto.
  - apply Rmin_right. apply nearest_le. lra.
Qed.

Lemma boundary_double (f : field ieee) p loc :
  finite_vec (to_grid p loc) -> finite_vec (f_size f) ->
  let (v, inside) := distance_to_boundary f p loc in
  let q := real_vec (to_grid p loc) in let size := real_vec (f_size f) in
  (inside = true <-> in_box 0 size q) /\
  (inside = true -> finite_double v /\
     exists d, In d (face_distances size q) /\ (forall w, In w (face_distances size q) -> d <= w) /\
               real64 v = nearest_double d).
Proof.
  intros (Qx & Qy & Qz) (Sx & Sy & Sz). unfold distance_to_boundary.
  set (q := to_grid p loc) in *. set (s := f_size f) in *.
  cbn [dsub dle dabs of_int ieee].
  destruct (face_axis _ _ Qx Sx) as (Nx & Ix & Vx). destruct (face_axis _ _ Qy Sy) as (Ny & Iy & Vy).
  destruct (face_axis _ _ Qz Sz) as (Nz & Iz & Vz).
  set (dx := @dmin ieee (vx q) (sub64 (vx s) (vx q))) in *.
  set (dy := @dmin ieee (vy q) (sub64 (vy s) (vy q))) in *.
  set (dz := @dmin ieee (vz q) (sub64 (vz s) (vz q))) in *.
  assert (E : le64 (b64_of_Z 0) dx && le64 (b64_of_Z 0) dy && le64 (b64_of_Z 0) dz = true <->
              in_box 0 (real_vec s) (real_vec q)).
  { rewrite !andb_true_iff, Ix, Iy, Iz. unfold in_box, real_vec. cbn [vx vy vz]. lra. }
  split; [exact E|]. intros H. apply E in H. unfold in_box, real_vec in H. cbn [vx vy vz] in H.
  destruct Vx as (Fx & Rx & Px); [lra|]. destruct Vy as (Fy & Ry & Py); [lra|].
  destruct Vz as (Fz & Rz & Pz); [lra|].
  destruct (abs_id dx Fx Px) as (FAx & Ax). destruct (abs_id dy Fy Py) as (FAy & Ay).
  destruct (abs_id dz Fz Pz) as (FAz & Az).
  set (ex := Rmin (real64 (vx q)) (real64 (vx s) - real64 (vx q))) in *.
  set (ey := Rmin (real64 (vy q)) (real64 (vy s) - real64 (vy q))) in *.
  set (ez := Rmin (real64 (vz q)) (real64 (vz s) - real64 (vz q))) in *.
  set (v := if (min_index _ _ _ =? 0)%Z then dx else _).
  assert (K : finite_double v /\ real64 v = Rmin (Rmin (real64 dx) (real64 dy)) (real64 dz)).
  { unfold v, min_index. cbn [dlt ieee].
    rewrite (lt_finite _ _ FAy FAx). rewrite Ax, Ay.
    destruct (Rlt_dec (real64 dy) (real64 dx)) as [L1|L1].
    - rewrite (lt_finite _ _ FAz FAy). rewrite Ay, Az.
      destruct (Rlt_dec (real64 dz) (real64 dy)) as [L2|L2]; cbn; split; auto; unfold Rmin;
        repeat destruct (Rle_dec _ _); lra.
    - rewrite (lt_finite _ _ FAz FAx). rewrite Ax, Az.
      destruct (Rlt_dec (real64 dz) (real64 dx)) as [L2|L2]; cbn; split; auto; unfold Rmin;
        repeat destruct (Rle_dec _ _); lra. }
  destruct K as (FV & RV). split; [exact FV|].
  exists (Rmin (Rmin ex ey) ez).
  unfold face_distances, real_vec. cbn [vx vy vz].
  split; [|split].
  - unfold ex, ey, ez, Rmin. cbn [In]. repeat destruct (Rle_dec _ _); auto 8.
  - pose proof (Rmin_l (Rmin ex ey) ez). pose proof (Rmin_r (Rmin ex ey) ez).
    pose proof (Rmin_l ex ey). pose proof (Rmin_r ex ey).
    pose proof (Rmin_l (real64 (vx q)) (real64 (vx s) - real64 (vx q))) as X1.
    pose proof (Rmin_r (real64 (vx q)) (real64 (vx s) - real64 (vx q))) as X2.
    pose proof (Rmin_l (real64 (vy q)) (real64 (vy s) - real64 (vy q))) as Y1.
    pose proof (Rmin_r (real64 (vy q)) (real64 (vy s) - real64 (vy q))) as Y2.
    pose proof (Rmin_l (real64 (vz q)) (real64 (vz s) - real64 (vz q))) as Z1.
    pose proof (Rmin_r (real64 (vz q)) (real64 (vz s) - real64 (vz q))) as Z2.
    fold ex in X1, X2. fold ey in Y1, Y2. fold ez in Z1, Z2.
    intros w [<-|[<-|[<-|[<-|[<-|[<-|[]]]]]]]; lra.
  - rewrite RV, Rx, Ry, Rz. rewrite !nearest_min. reflexivity.
Qed.

(** ** Projection into the volume *)
Lemma eq_finite x y : finite_double x -> finite_double y ->
  eq64 x y = if Req_EM_T (real64 x) (real64 y) then true else false.
Proof.
  intros Fx Fy. pose proof (eq64_spec x y (finite_not_nan x Fx) (finite_not_nan y Fy)) as S.
  rewrite (proj1 (finite_xr x Fx)), (proj1 (finite_xr y Fy)) in S.
  destruct (Req_EM_T (real64 x) (real64 y)) as [L|L].
  - apply S; auto.
  - destruct (eq64 x y); auto. exfalso. apply L. apply S. reflexivity.
Qed.

Lemma upper_limit m s : finite_double m -> finite_double s -> 0 <= real64 m -> 2 * real64 m <= real64 s ->
  finite_double (sub64 s m) /\ real64 (sub64 s m) = nearest_double (real64 s - real64 m) /\
  real64 m <= real64 (sub64 s m).
Proof.
  intros Fm Fs Pm H. destruct (sub_xr s m Fs Fm) as (N & X). destruct (finite_xr s Fs) as (_ & Bs).
  assert (L1 : nearest_double (real64 s - real64 m) <= real64 s).
  { rewrite <- (nearest_id s) at 2. apply nearest_le. lra. }
  assert (L2 : real64 m <= nearest_double (real64 s - real64 m)).
  { rewrite <- (nearest_id m) at 1. apply nearest_le. lra. }
  rewrite clamp_small in X by (pose proof (B_pos 1024); lra).
  destruct (xr_in_finite _ N) as (F & R); [pose proof (B_pos 1024); lra|].
  rewrite R, X. auto.
Qed.

Section Axis.
  Variables (p : pose ieee) (v m s : binary64).
  Hypotheses (Cut : cuts_off p) (Fv : finite_double v) (Fm : finite_double m) (Fs : finite_double s)
    (Pm : 0 <= real64 m) (H2 : 2 * real64 m <= real64 s).
  Notation hi := (nearest_double (real64 s - real64 m)).

  Lemma axis_cut : let c := clamp p v m (sub64 s m) in
    finite_double c /\ real64 m <= real64 c <= hi /\
    (eq64 c v = true -> c = v) /\
    (real64 m <= real64 v <= hi -> c = v) /\
    (forall b, real64 m <= b <= hi -> Rabs (real64 c - real64 v) <= Rabs (b - real64 v)) /\
    clamp p c m (sub64 s m) = c.
  Proof.
    destruct (upper_limit m s Fm Fs Pm H2) as (Fh & Rh & Lh).
    destruct (Cut v m (sub64 s m) Fv Fm Fh Lh) as (C1 & C2 & C3). rewrite Rh in *.
    assert (Again : forall c, finite_double c -> real64 m <= real64 c <= hi -> clamp p c m (sub64 s m) = c).
    { intros c Fc B. apply (Cut c m (sub64 s m) Fc Fm Fh); [rewrite Rh; lra|]. rewrite Rh. auto. }
    intros c. unfold c.
    destruct (Rlt_le_dec (real64 v) (real64 m)) as [L|L]; [rewrite (C1 L)|].
    - split; [auto|]. split; [lra|]. split; [|split; [lra|split]].
      + rewrite (eq_finite _ _ Fm Fv). destruct (Req_EM_T _ _); [lra|discriminate].
      + intros b B. rewrite !Rabs_pos_eq; lra.
      + apply Again; auto. lra.
    - destruct (Rlt_le_dec hi (real64 v)) as [G|G]; [rewrite (C2 G)|rewrite C3 by lra].
      + split; [auto|]. split; [lra|]. split; [|split; [lra|split]].
        * rewrite (eq_finite _ _ Fh Fv), Rh. destruct (Req_EM_T _ _); [lra|discriminate].
        * intros b B. rewrite Rh. rewrite !Rabs_left1; lra.
        * apply Again; auto. lra.
      + split; [auto|]. split; [lra|]. split; [auto|]. split; [auto|]. split.
        * intros b B. rewrite Rminus_diag_eq by auto. rewrite Rabs_R0. apply Rabs_pos.
        * apply Again; auto.
  Qed.
End Axis.

Lemma projection_double (f : field ieee) p loc md m :
  cuts_off p -> m = add64 md (mul64 (f_res f) (div64 (b64_of_Z 1) (b64_of_Z 10000))) ->
  finite_double m -> 0 <= real64 m -> finite_vec (to_grid p loc) -> finite_vec (f_size f) ->
  2 * real64 m <= real64 (vx (f_size f)) -> 2 * real64 m <= real64 (vy (f_size f)) ->
  2 * real64 m <= real64 (vz (f_size f)) ->
  let q := to_grid p loc in
  let box c := in_double_box (real64 m) (real_vec (f_size f)) c in
  let w := project_into_valid_volume f p loc md in
  exists c, finite_vec c /\ box (real_vec c) /\
    (w = loc /\ c = q \/ w = to_world p c) /\
    (box (real_vec q) -> w = loc) /\
    (forall b, box b -> Rabs (real64 (vx c) - real64 (vx q)) <= Rabs (vx b - real64 (vx q)) /\
                        Rabs (real64 (vy c) - real64 (vy q)) <= Rabs (vy b - real64 (vy q)) /\
                        Rabs (real64 (vz c) - real64 (vz q)) <= Rabs (vz b - real64 (vz q))) /\
    (to_grid p (to_world p c) = c -> to_grid p w = c /\ project_into_valid_volume f p w md = w).
Proof.
  intros Cut Em Fm Pm (Qx & Qy & Qz) (Sx & Sy & Sz) Mx My Mz q box.
  assert (EqD : forall u, project_into_valid_volume f p u md =
     (let q := to_grid p u in
      let x := clamp p (vx q) m (sub64 (vx (f_size f)) m) in
      let y := clamp p (vy q) m (sub64 (vy (f_size f)) m) in
      let z := clamp p (vz q) m (sub64 (vz (f_size f)) m) in
      if negb (eq64 x (vx q)) || negb (eq64 y (vy q)) || negb (eq64 z (vz q))
      then to_world p (@V ieee x y z) else u)).
  { intros u. rewrite Em. reflexivity. }
  clear Em. rewrite EqD.
  destruct (axis_cut p _ m _ Cut Qx Fm Sx Pm Mx) as (Fx & Bx & Ex & Kx & Dx & Ax).
  destruct (axis_cut p _ m _ Cut Qy Fm Sy Pm My) as (Fy & By & Ey & Ky & Dy & Ay).
  destruct (axis_cut p _ m _ Cut Qz Fm Sz Pm Mz) as (Fz & Bz & Ez & Kz & Dz & Az).
  cbv zeta. fold q in Fx, Bx, Ex, Kx, Dx, Ax, Fy, By, Ey, Ky, Dy, Ay, Fz, Bz, Ez, Kz, Dz, Az |- *.
  set (x := clamp p (vx q) m (sub64 (vx (f_size f)) m)) in *.
  set (y := clamp p (vy q) m (sub64 (vy (f_size f)) m)) in *.
  set (z := clamp p (vz q) m (sub64 (vz (f_size f)) m)) in *.
  assert (Same : forall a, finite_double a -> eq64 a a = true).
  { intros a Fa. rewrite eq_finite by auto. destruct (Req_EM_T _ _); auto. }
  exists (@V ieee x y z).
  split; [split; [|split]; auto|]. split; [unfold box, in_double_box, real_vec; cbn [vx vy vz]; auto|].
  split; [|split; [|split]].
  - destruct (eq64 x (vx q)) eqn:X1; cbn [negb orb]; [|right; reflexivity].
    destruct (eq64 y (vy q)) eqn:Y1; cbn [negb orb]; [|right; reflexivity].
    destruct (eq64 z (vz q)) eqn:Z1; cbn [negb orb]; [|right; reflexivity].
    left. split; auto. rewrite (Ex eq_refl), (Ey eq_refl), (Ez eq_refl). destruct q; reflexivity.
  - unfold box, in_double_box, real_vec. cbn [vx vy vz]. intros (B1 & B2 & B3).
    rewrite (Kx B1), (Ky B2), (Kz B3). rewrite !Same by auto. reflexivity.
  - unfold box, in_double_box, real_vec. cbn [vx vy vz]. intros b (B1 & B2 & B3). auto.
  - intros Back.
    assert (W : forall u, to_grid p u = @V ieee x y z ->
       (if negb (eq64 (clamp p (vx (to_grid p u)) m (sub64 (vx (f_size f)) m)) (vx (to_grid p u)))
           || negb (eq64 (clamp p (vy (to_grid p u)) m (sub64 (vy (f_size f)) m)) (vy (to_grid p u)))
           || negb (eq64 (clamp p (vz (to_grid p u)) m (sub64 (vz (f_size f)) m)) (vz (to_grid p u)))
        then to_world p (@V ieee (clamp p (vx (to_grid p u)) m (sub64 (vx (f_size f)) m))
                          (clamp p (vy (to_grid p u)) m (sub64 (vy (f_size f)) m))
                          (clamp p (vz (to_grid p u)) m (sub64 (vz (f_size f)) m))) else u) = u).
    { intros u E. rewrite E. cbn [vx vy vz]. rewrite Ax, Ay, Az. rewrite !Same by auto. reflexivity. }
    destruct (eq64 x (vx q)) eqn:X1; cbn [negb orb]; [|split; [auto|rewrite EqD; apply W; auto]].
    destruct (eq64 y (vy q)) eqn:Y1; cbn [negb orb]; [|split; [auto|rewrite EqD; apply W; auto]].
    destruct (eq64 z (vz q)) eqn:Z1; cbn [negb orb]; [|split; [auto|rewrite EqD; apply W; auto]].
    assert (Q : q = @V ieee x y z) by (rewrite (Ex eq_refl), (Ey eq_refl), (Ez eq_refl); destruct q; reflexivity).
    split; [exact Q|rewrite EqD; apply W; exact Q].
Qed.

(** ** Gradients *)
Lemma finite_of_round z x : is_nan 53 1024 z = false ->
  xr64 z = FloatFacts.clamp 1024 (nearest_double x) -> Rabs x <= bpow radix2 1000 ->
  finite_double z /\ real64 z = nearest_double x.
Proof.
  intros N X H.
  assert (G : generic_format radix2 (SpecFloat.fexp 53 1024) (bpow radix2 1000)).
  { apply generic_format_bpow. unfold SpecFloat.fexp, SpecFloat.emin. lia. }
  assert (B : bpow radix2 1000 < bpow radix2 1024) by (apply bpow_lt; lia).
  apply Rabs_le_inv in H.
  assert (L1 : nearest_double x <= bpow radix2 1000).
  { change (rnd64 x <= bpow radix2 1000). rewrite <- (rnd_id 53 1024 _ G). apply rnd_le; [reflexivity|lra]. }
  assert (L2 : - bpow radix2 1000 <= nearest_double x).
  { change (- bpow radix2 1000 <= rnd64 x). rewrite <- (rnd_id 53 1024 _ G). rewrite <- rnd_opp. apply rnd_le; [reflexivity|lra]. }
  rewrite clamp_small in X by lra. rewrite <- X. apply xr_in_finite; auto. lra.
Qed.

Lemma factor_product a b x y : Rabs x <= a -> Rabs y <= b -> Rabs ((1 + x) * (1 + y) - 1) <= a + b + a * b.
Proof.
  intros Ha Hb. replace ((1 + x) * (1 + y) - 1) with (x + y + x * y) by ring.
  eapply Rle_trans; [apply Rabs_triang|]. rewrite Rabs_mult.
  pose proof (Rabs_triang x y). pose proof (Rabs_pos x). pose proof (Rabs_pos y).
  assert (Rabs x * Rabs y <= a * b) by (apply Rmult_le_compat; auto). lra.
Qed.

Lemma u_small : u_ro radix2 53 / (1 + u_ro radix2 53) <= bpow radix2 (-53).
Proof.
  eapply Rle_trans; [apply u_rod1pu_ro_le_u_ro|]. unfold u_ro.
  change (bpow radix2 (Z.opp 53 + 1)) with (bpow radix2 (1 + -53)). rewrite bpow_plus.
  change (bpow radix2 1) with 2. lra.
Qed.
Lemma u_small32 : u_ro radix2 24 / (1 + u_ro radix2 24) <= bpow radix2 (-24).
Proof.
  eapply Rle_trans; [apply u_rod1pu_ro_le_u_ro|]. unfold u_ro.
  change (bpow radix2 (Z.opp 24 + 1)) with (bpow radix2 (1 + -24)). rewrite bpow_plus.
  change (bpow radix2 1) with 2. lra.
Qed.

Lemma sub32_small x y : finite_float x -> finite_float y ->
  Rabs (real32 x) <= bpow radix2 126 -> Rabs (real32 y) <= bpow radix2 126 ->
  let d := b32_minus BinarySingleNaN.mode_NE x y in
  finite_float d /\ exists e, Rabs e <= bpow radix2 (-24) /\ real32 d = (real32 x - real32 y) * (1 + e).
Proof.
  intros Fx Fy Bx By d.
  assert (B2 : bpow radix2 127 = 2 * bpow radix2 126) by (change 127%Z with (1 + 126)%Z; rewrite bpow_plus; reflexivity).
  assert (G : generic_format radix2 (SpecFloat.fexp 24 128) (bpow radix2 127)).
  { apply generic_format_bpow. unfold SpecFloat.fexp, SpecFloat.emin. lia. }
  assert (H : Rabs (real32 x - real32 y) <= bpow radix2 127).
  { unfold Rminus. eapply Rle_trans; [apply Rabs_triang|]. rewrite Rabs_Ropp. lra. }
  apply Rabs_le_inv in H.
  assert (L : Rabs (rnd32 (real32 x - real32 y)) < bpow radix2 128).
  { apply Rle_lt_trans with (bpow radix2 127); [|apply bpow_lt; lia]. apply Rabs_le. split.
    - rewrite <- (rnd_id 24 128 _ G), <- rnd_opp. apply rnd_le; [reflexivity|lra].
    - rewrite <- (rnd_id 24 128 _ G). apply rnd_le; [reflexivity|lra]. }
  pose proof (Bminus_correct 24 128 eq_refl eq_refl binop_nan_pl32 BinarySingleNaN.mode_NE x y Fx Fy) as K.
  cbn [BinarySingleNaN.round_mode] in K. rewrite Rlt_bool_true in K by exact L.
  destruct K as (K1 & K2 & _). split; [exact K2|].
  destruct (FLT_plus_error_N_ex radix2 (-149) 24 (fun t => negb (Z.even t)) (real32 x) (- real32 y))
    as (e & He & Ee).
  - apply generic_format_B2R.
  - apply generic_format_opp. apply generic_format_B2R.
  - exists e. split; [eapply Rle_trans; [exact He|apply u_small32]|].
    unfold real32 at 1. unfold d, b32_minus. rewrite K1. exact Ee.
Qed.

Lemma sub64_small x y : finite_double x -> finite_double y ->
  Rabs (real64 x - real64 y) <= bpow radix2 1000 ->
  finite_double (sub64 x y) /\
  exists e, Rabs e <= bpow radix2 (-53) /\ real64 (sub64 x y) = (real64 x - real64 y) * (1 + e).
Proof.
  intros Fx Fy B. destruct (sub_xr x y Fx Fy) as (N & X).
  destruct (finite_of_round _ _ N X B) as (F & R). split; [exact F|].
  destruct (FLT_plus_error_N_ex radix2 (-1074) 53 (fun t => negb (Z.even t)) (real64 x) (- real64 y))
    as (e & He & Ee).
  - apply generic_format_B2R.
  - apply generic_format_opp. apply generic_format_B2R.
  - exists e. split; [eapply Rle_trans; [exact He|apply u_small]|]. rewrite R. exact Ee.
Qed.

Lemma div_one y : finite_double y -> bpow radix2 (-801) <= real64 y <= bpow radix2 801 ->
  finite_double (div64 (b64_of_Z 1) y) /\
  exists e, Rabs e <= bpow radix2 (-53) /\ real64 (div64 (b64_of_Z 1) y) = / real64 y * (1 + e).
Proof.
  intros Fy B. pose proof (bpow_gt_0 radix2 (-801)) as P0.
  destruct (of_Z_exact 1) as (F1 & R1); [cbn; lia|].
  assert (U : / real64 y <= bpow radix2 801).
  { rewrite <- (Rinv_inv (bpow radix2 801)).
    apply Rinv_le; [apply Rinv_0_lt_compat, bpow_gt_0|]. rewrite <- bpow_opp. apply B. }
  assert (W : bpow radix2 (-801) <= / real64 y).
  { change (-801)%Z with (- (801))%Z. rewrite bpow_opp. apply Rinv_le; lra. }
  assert (G : generic_format radix2 (SpecFloat.fexp 53 1024) (bpow radix2 801)).
  { apply generic_format_bpow. unfold SpecFloat.fexp, SpecFloat.emin. lia. }
  assert (E : real64 (b64_of_Z 1) / real64 y = / real64 y).
  { unfold real64 at 1. rewrite R1. unfold Rdiv. lra. }
  pose proof (Bdiv_correct 53 1024 eq_refl eq_refl binop_nan_pl64 BinarySingleNaN.mode_NE (b64_of_Z 1) y) as K.
  cbn [BinarySingleNaN.round_mode] in K.
  change (B2R 53 1024 y) with (real64 y) in K. change (B2R 53 1024 (b64_of_Z 1)) with (real64 (b64_of_Z 1)) in K.
  rewrite E in K. specialize (K ltac:(lra)).
  rewrite Rlt_bool_true in K.
  - destruct K as (K1 & K2 & _). split; [unfold finite_double, div64, b64_div; rewrite K2; exact F1|].
    destruct (relative_error_N_FLT_ex radix2 (-1074) 53 eq_refl (fun t => negb (Z.even t)) (/ real64 y))
      as (e & He & Ee).
    + rewrite Rabs_pos_eq by lra. eapply Rle_trans; [|exact W]. apply bpow_le. lia.
    + exists e. split.
      * eapply Rle_trans; [exact He|]. change (bpow radix2 (Z.opp 53 + 1)) with (bpow radix2 (1 + -53)). rewrite bpow_plus. right.
        change (bpow radix2 1) with 2. lra.
      * unfold real64 at 1, div64, b64_div. rewrite K1. exact Ee.
  - apply Rle_lt_trans with (bpow radix2 801); [|apply bpow_lt; lia]. apply Rabs_le. split.
    + apply Rle_trans with 0; [pose proof (bpow_gt_0 radix2 801); lra|]. apply rnd_sign_nonneg; [reflexivity|lra].
    + rewrite <- (rnd_id 53 1024 _ G). apply rnd_le; [reflexivity|lra].
Qed.

(** A rounded difference times a rounded reciprocal. *)
Lemma quotient_accurate d y D e1 :
  finite_double d -> finite_double y -> bpow radix2 (-801) <= real64 y <= bpow radix2 801 ->
  Rabs D <= bpow radix2 127 -> Rabs e1 <= bpow radix2 (-24) -> real64 d = D * (1 + e1) ->
  accurate (mul64 d (div64 (b64_of_Z 1) y)) (D / real64 y).
Proof.
  intros Fd Fy By BD He1 Ed. destruct (div_one y Fy By) as (Fi & e2 & He2 & Ei).
  set (i := div64 (b64_of_Z 1) y) in *.
  pose proof (bpow_gt_0 radix2 (-801)) as P0.
  destruct (mult_xr 53 1024 eq_refl eq_refl binop_nan_pl64 d i Fd Fi) as (N & X).
  change (is_nan 53 1024 (mul64 d i) = false) in N.
  change (xr64 (mul64 d i) = FloatFacts.clamp 1024 (nearest_double (real64 d * real64 i))) in X.
  assert (U : / real64 y <= bpow radix2 801).
  { rewrite <- (Rinv_inv (bpow radix2 801)).
    apply Rinv_le; [apply Rinv_0_lt_compat, bpow_gt_0|]. rewrite <- bpow_opp. apply By. }
  assert (Hi : 0 < / real64 y) by (apply Rinv_0_lt_compat; lra).
  assert (S24 : bpow radix2 (-24) <= 1) by (change 1 with (bpow radix2 0); apply bpow_le; lia).
  assert (S53 : bpow radix2 (-53) <= 1) by (change 1 with (bpow radix2 0); apply bpow_le; lia).
  assert (A1 : Rabs (1 + e1) <= 2).
  { eapply Rle_trans; [apply Rabs_triang|]. rewrite Rabs_R1. lra. }
  assert (A2 : Rabs (1 + e2) <= 2).
  { eapply Rle_trans; [apply Rabs_triang|]. rewrite Rabs_R1. lra. }
  assert (Bd : Rabs (real64 d) <= bpow radix2 128).
  { rewrite Ed, Rabs_mult. change 128%Z with (127 + 1)%Z. rewrite bpow_plus. change (bpow radix2 1) with 2.
    apply Rmult_le_compat; auto using Rabs_pos. }
  assert (Bi : Rabs (real64 i) <= bpow radix2 802).
  { rewrite Ei, Rabs_mult. change 802%Z with (801 + 1)%Z. rewrite bpow_plus. change (bpow radix2 1) with 2.
    apply Rmult_le_compat; auto using Rabs_pos. rewrite Rabs_pos_eq; lra. }
  assert (Bp : Rabs (real64 d * real64 i) <= bpow radix2 1000).
  { rewrite Rabs_mult. apply Rle_trans with (bpow radix2 128 * bpow radix2 802).
    - apply Rmult_le_compat; auto using Rabs_pos.
    - rewrite <- bpow_plus. apply bpow_le. lia. }
  destruct (finite_of_round _ _ N X Bp) as (F & R). split; [exact F|].
  destruct (relative_error_N_FLT'_ex radix2 (-1074) 53 eq_refl (fun t => negb (Z.even t)) (real64 d * real64 i))
    as (e3 & eta & He3 & Heta & _ & E3).
  assert (He3' : Rabs e3 <= bpow radix2 (-53)) by (eapply Rle_trans; [exact He3|apply u_small]).
  assert (Heta' : Rabs eta <= bpow radix2 (-1075)).
  { eapply Rle_trans; [exact Heta|]. change (-1074)%Z with (1 + -1075)%Z. rewrite bpow_plus.
    change (bpow radix2 1) with 2. lra. }
  rewrite R. unfold nearest_double. rewrite E3, Ed, Ei.
  set (t := D / real64 y).
  replace (D * (1 + e1) * (/ real64 y * (1 + e2)) * (1 + e3) + eta - t)
    with (t * ((1 + e1) * ((1 + e2) * (1 + e3)) - 1) + eta) by (unfold t, Rdiv; ring).
  eapply Rle_trans; [apply Rabs_triang|]. apply Rplus_le_compat; auto.
  rewrite Rabs_mult, Rmult_comm. apply Rmult_le_compat_r; [apply Rabs_pos|].
  pose proof (factor_product _ _ _ _ He2 He3') as K.
  set (k := (1 + e2) * (1 + e3) - 1) in K.
  replace ((1 + e2) * (1 + e3)) with (1 + k) by (unfold k; ring).
  eapply Rle_trans; [exact (factor_product _ _ _ _ He1 K)|].
  cbn -[Rmult Rplus Rinv IZR]. lra.
Qed.

Lemma scaled_exact k r : (k = 1 \/ k = 2)%Z -> finite_double r ->
  bpow radix2 (-800) <= real64 r <= bpow radix2 800 ->
  let y := mul64 (b64_of_Z k) r in
  finite_double y /\ real64 y = IZR k * real64 r /\ bpow radix2 (-801) <= real64 y <= bpow radix2 801.
Proof.
  intros Hk Fr Br y. pose proof (bpow_gt_0 radix2 (-800)) as P.
  destruct (of_Z_exact k) as (Fk & Rk); [cbn; lia|].
  assert (B1 : bpow radix2 801 = 2 * bpow radix2 800) by (change 801%Z with (1 + 800)%Z; rewrite bpow_plus; reflexivity).
  assert (B2 : bpow radix2 (-801) <= bpow radix2 (-800)) by (apply bpow_le; lia).
  destruct (mult_xr 53 1024 eq_refl eq_refl binop_nan_pl64 (b64_of_Z k) r Fk Fr) as (N & X).
  change (is_nan 53 1024 y = false) in N. rewrite Rk in X.
  change (xr64 y = FloatFacts.clamp 1024 (nearest_double (IZR k * real64 r))) in X.
  assert (V : 0 <= IZR k * real64 r <= bpow radix2 801) by (destruct Hk as [->| ->]; lra).
  destruct (finite_of_round _ _ N X) as (F & R).
  { rewrite Rabs_pos_eq by lra. apply Rle_trans with (bpow radix2 801); [lra|apply bpow_le; lia]. }
  assert (E : real64 y = IZR k * real64 r).
  { rewrite R. unfold nearest_double. apply round_generic; [apply valid_rnd_N|].
    destruct Hk as [->| ->]; [rewrite Rmult_1_l; apply real_format|].
    rewrite Rmult_comm. change 2 with (bpow radix2 1). apply mult_bpow_pos_exact_FLT; [apply real_format|lia]. }
  split; [exact F|]. split; [exact E|]. rewrite E. destruct Hk as [->| ->]; lra.
Qed.

Section Gradient.
  Variable f : field ieee.
  Hypotheses (Fr : finite_double (f_res f))
    (Br : bpow radix2 (-800) <= real64 (f_res f) <= bpow radix2 800)
    (Vals : forall j, in_bounds (f_dims f) j = true ->
       finite_float (value f j) /\ Rabs (real32 (value f j)) <= bpow radix2 126).

  Lemma diff_bound a b : Rabs a <= bpow radix2 126 -> Rabs b <= bpow radix2 126 -> Rabs (a - b) <= bpow radix2 127.
  Proof.
    intros Ha Hb. unfold Rminus. eapply Rle_trans; [apply Rabs_triang|]. rewrite Rabs_Ropp.
    change 127%Z with (1 + 126)%Z. rewrite bpow_plus. change (bpow radix2 1) with 2. lra.
  Qed.

  Lemma central_accurate hi lo : in_bounds (f_dims f) hi = true -> in_bounds (f_dims f) lo = true ->
    accurate (central f hi lo) ((real32 (value f hi) - real32 (value f lo)) / (IZR 2 * real64 (f_res f))).
  Proof.
    intros Hh Hl. destruct (Vals _ Hh) as (Fh & Bh). destruct (Vals _ Hl) as (Fl & Bl).
    destruct (sub32_small _ _ Fh Fl Bh Bl) as (Fd & e & He & Ed).
    destruct (widen_finite _ Fd) as (Fw & Ew).
    destruct (scaled_exact 2 (f_res f)) as (Fy & Ey & By); auto.
    unfold central. cbn [widen fsub dmul ddiv of_int ieee]. rewrite <- Ey.
    apply quotient_accurate with (e1 := e); auto.
    - apply diff_bound; auto.
    - unfold real64 at 1. rewrite Ew. exact Ed.
  Qed.

  Lemma zero_accurate : accurate (b64_of_Z 0) 0.
  Proof.
    destruct zero_real as (F & R). split; [exact F|]. rewrite R, Rminus_0_r, Rabs_R0, Rmult_0_r, Rplus_0_l.
    apply bpow_ge_0.
  Qed.

  Lemma flat_axis at_ l : @one_sided ieee f l l at_ = b64_of_Z 0.
  Proof.
    unfold one_sided. rewrite Z.sub_diag. cbn [dlt dmul of_int ieee].
    destruct (mult_xr 53 1024 eq_refl eq_refl binop_nan_pl64 (b64_of_Z 0) (f_res f) (proj1 zero_real) Fr) as (N & X).
    change (is_nan 53 1024 (mul64 (b64_of_Z 0) (f_res f)) = false) in N.
    change (B2R 53 1024 (b64_of_Z 0)) with (real64 (b64_of_Z 0)) in X. rewrite (proj2 zero_real) in X.
    rewrite Rmult_0_l in X.
    change (xr64 (mul64 (b64_of_Z 0) (f_res f)) = FloatFacts.clamp 1024 (nearest_double 0)) in X.
    rewrite nearest_0, clamp_small in X by (pose proof (B_pos 1024); lra).
    destruct (lt64 (b64_of_Z 0) (mul64 (b64_of_Z 0) (f_res f))) eqn:L; auto.
    apply lt64_spec in L; auto. rewrite X, (proj1 (finite_xr _ (proj1 zero_real))), (proj2 zero_real) in L. lra.
  Qed.

  Lemma one_sided_accurate lo hi at_ : (hi - lo = 1 \/ hi - lo = 2)%Z ->
    in_bounds (f_dims f) (at_ hi) = true -> in_bounds (f_dims f) (at_ lo) = true ->
    accurate (one_sided f lo hi at_)
      ((real32 (value f (at_ hi)) - real32 (value f (at_ lo))) / (IZR (hi - lo) * real64 (f_res f))).
  Proof.
    intros Hk Hh Hl. destruct (Vals _ Hh) as (Fh & Bh). destruct (Vals _ Hl) as (Fl & Bl).
    destruct (scaled_exact (hi - lo) (f_res f)) as (Fy & Ey & By); auto.
    pose proof (bpow_gt_0 radix2 (-801)) as P.
    destruct (widen_finite _ Fh) as (Fwh & Ewh). destruct (widen_finite _ Fl) as (Fwl & Ewl).
    unfold one_sided. cbn [widen dmul ddiv dsub dlt of_int ieee].
    rewrite lt_finite; [|apply zero_real|exact Fy]. rewrite (proj2 zero_real).
    destruct (Rlt_dec 0 _) as [_|n]; [|lra]. rewrite <- Ey.
    assert (EV : real64 (b64_of_b32 (value f (at_ hi))) - real64 (b64_of_b32 (value f (at_ lo))) =
                 real32 (value f (at_ hi)) - real32 (value f (at_ lo))).
    { unfold real64. rewrite Ewh, Ewl. reflexivity. }
    pose proof (diff_bound _ _ Bh Bl) as BD.
    destruct (sub64_small _ _ Fwh Fwl) as (Fd & e & He & Ed).
    { rewrite EV. eapply Rle_trans; [exact BD|]. apply bpow_le. lia. }
    apply quotient_accurate with (e1 := e); auto.
    - eapply Rle_trans; [exact He|]. apply bpow_le. lia.
    - rewrite Ed, EV. reflexivity.
  Qed.

  Lemma axis_edge n x at_ : (0 <= x < n)%Z ->
    (forall t, 0 <= t < n -> in_bounds (f_dims f) (at_ t) = true)%Z ->
    accurate (one_sided f (low_index x) (high_index n x) at_) (slope f n x at_).
  Proof.
    intros Hx Hin. unfold slope, low_index, high_index.
    destruct (Z.eqb_spec n 1) as [E|E].
    - replace (Z.min (n - 1) (x + 1)) with (Z.max 0 (x - 1)) by lia. rewrite flat_axis. apply zero_accurate.
    - apply one_sided_accurate; [lia| |]; apply Hin; lia.
  Qed.

  Lemma axis_inner n x at_ : (0 < x < n - 1)%Z ->
    (forall t, 0 <= t < n -> in_bounds (f_dims f) (at_ t) = true)%Z ->
    accurate (central f (at_ (x + 1)%Z) (at_ (x - 1)%Z)) (slope f n x at_).
  Proof.
    intros Hx Hin. unfold slope. destruct (Z.eqb_spec n 1) as [E|E]; [lia|].
    replace (Z.min (n - 1) (x + 1)) with (x + 1)%Z by lia. replace (Z.max 0 (x - 1)) with (x - 1)%Z by lia.
    replace (x + 1 - (x - 1))%Z with 2%Z by lia. apply central_accurate; apply Hin; lia.
  Qed.

  Lemma gradient_accurate i edges g : grid_aligned_gradient f i edges = Some g ->
    accurate (vx g) (slope f (nx (f_dims f)) (ix i) (fun t => I t (iy i) (iz i))) /\
    accurate (vy g) (slope f (ny (f_dims f)) (iy i) (fun t => I (ix i) t (iz i))) /\
    accurate (vz g) (slope f (nz (f_dims f)) (iz i) (fun t => I (ix i) (iy i) t)).
  Proof.
    destruct i as [x y z]. unfold grid_aligned_gradient. cbn [ix iy iz].
    destruct (in_bounds (f_dims f) (I x y z)) eqn:Hb; [|discriminate].
    pose proof Hb as Hb'. apply in_bounds_spec in Hb'. cbn [ix iy iz] in Hb'.
    assert (Inx : forall t, (0 <= t < nx (f_dims f))%Z -> in_bounds (f_dims f) (I t y z) = true).
    { intros t Ht. apply in_bounds_spec. cbn [ix iy iz]. lia. }
    assert (Iny : forall t, (0 <= t < ny (f_dims f))%Z -> in_bounds (f_dims f) (I x t z) = true).
    { intros t Ht. apply in_bounds_spec. cbn [ix iy iz]. lia. }
    assert (Inz : forall t, (0 <= t < nz (f_dims f))%Z -> in_bounds (f_dims f) (I x y t) = true).
    { intros t Ht. apply in_bounds_spec. cbn [ix iy iz]. lia. }
    destruct (interior (f_dims f) (I x y z)) eqn:Hi.
    - apply interior_spec in Hi. destruct Hi as (H1 & H2 & H3). cbn [ix iy iz] in *.
      intros E. injection E as <-. cbn [vx vy vz].
      split; [|split].
      + apply (axis_inner _ x (fun t => I t y z)); auto.
      + apply (axis_inner _ y (fun t => I x t z)); auto.
      + apply (axis_inner _ z (fun t => I x y t)); auto.
    - destruct edges; [|discriminate]. intros E. injection E as <-. cbn [vx vy vz].
      split; [|split]; apply axis_edge; auto; lia.
  Qed.
End Gradient.

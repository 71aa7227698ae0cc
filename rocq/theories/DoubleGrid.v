(** The distance estimate in doubles: bounds, and a grid at the origin. *)
From Coq Require Import Reals Lra Lia Psatz.
From Flocq Require Import Core.Core Relative Plus_error Mult_error IEEE754.Binary IEEE754.Bits.
From Verif Require Import Base Floats FloatFacts FloatFacts2 Grid GridFacts Arith SdfQuery SdfField QuerySpec QueryProofs
  QueryWitness DisplaySdf DoubleSpec DoubleQuery DoubleCase DoubleEstimate.
Open Scope R_scope.

Local Instance prec53 : Prec_gt_0 53 := eq_refl.

(** ** Interpolation stays between the values *)
Lemma between_within t a b lo hi : a = b \/ 0 <= t <= 1 -> lo <= a <= hi -> lo <= b <= hi -> lo <= between t a b <= hi.
Proof. unfold between. intros [->|H] Ha Hb; [replace ((1 - t) * b + t * b) with b by ring; auto|nra]. Qed.

Lemma interpolation_within (f : field ieee) (q : rvec) xl xu yl yu zl zu lo hi :
  let r := real64 (f_res f) in
  (xl = xu \/ 0 <= progress r xl (vx q) <= 1) -> (yl = yu \/ 0 <= progress r yl (vy q) <= 1) ->
  (zl = zu \/ 0 <= progress r zl (vz q) <= 1) ->
  (forall x y z, x = xl \/ x = xu -> y = yl \/ y = yu -> z = zl \/ z = zu ->
     lo <= centered_real f (I x y z) <= hi) ->
  lo <= interpolation f q xl xu yl yu zl zu <= hi.
Proof.
  intros r Hx Hy Hz V. unfold interpolation. fold r.
  apply between_within; [destruct Hz as [->|]; auto| |];
    (apply between_within; [destruct Hy as [->|]; auto| |]);
    (apply between_within; [destruct Hx as [->|]; auto| |]); auto.
Qed.

(** ** A grid at the origin *)
Lemma floor_spec x : finite_double x -> IZR (floor64 x) <= real64 x < IZR (floor64 x) + 1.
Proof.
  intros F. destruct x as [s|s|s p H|s m e H]; try discriminate F.
  - unfold real64, floor64. cbn [B2R]. lra.
  - unfold real64, floor64. cbn [B2R]. set (z := if s then Z.neg m else Z.pos m).
    assert (E : cond_Zopp s (Z.pos m) = z) by (destruct s; reflexivity). rewrite E. unfold F2R. cbn [Fnum Fexp].
    destruct (Z.leb_spec 0 e) as [L|L].
    + rewrite mult_IZR. change 2%Z with (radix_val radix2). rewrite (IZR_Zpower radix2 e L). lra.
    + assert (P : (0 < 2 ^ (- e))%Z) by (apply Z.pow_pos_nonneg; lia).
      assert (Q : bpow radix2 e = / IZR (2 ^ (- e))).
      { change 2%Z with (radix_val radix2). rewrite IZR_Zpower by lia. rewrite bpow_opp, Rinv_inv. reflexivity. }
      rewrite Q. set (d := (2 ^ (- e))%Z) in *. assert (PR : 0 < IZR d) by (apply IZR_lt; lia).
      pose proof (Z.div_mod z d ltac:(lia)) as DM. pose proof (Z.mod_pos_bound z d P) as MB.
      assert (R1 : IZR z = IZR d * IZR (z / d) + IZR (z mod d)) by (rewrite <- mult_IZR, <- plus_IZR, <- DM; reflexivity).
      assert (R2 : 0 <= IZR (z mod d) < IZR d) by (split; [apply IZR_le|apply IZR_lt]; lia).
      assert (R3 : IZR z * / IZR d = IZR (z / d) + IZR (z mod d) * / IZR d) by (rewrite R1; field; lra).
      rewrite R3.
      assert (0 <= IZR (z mod d) * / IZR d < 1).
      { split; [apply Rmult_le_pos; [lra|left; apply Rinv_0_lt_compat; lra]|].
        apply Rmult_lt_reg_r with (IZR d); auto. rewrite Rmult_assoc, Rinv_l by lra. lra. }
      lra.
Qed.

Lemma div64_small x y : finite_double x -> finite_double y -> real64 y <> 0 ->
  Rabs (real64 x / real64 y) <= bpow radix2 1000 ->
  finite_double (div64 x y) /\ exists e t, Rabs e <= u /\ Rabs t <= bpow radix2 (-1075) /\
    real64 (div64 x y) = real64 x / real64 y * (1 + e) + t.
Proof.
  intros Fx Fy Ny B.
  pose proof (Bdiv_correct 53 1024 eq_refl eq_refl binop_nan_pl64 BinarySingleNaN.mode_NE x y Ny) as K.
  cbn [BinarySingleNaN.round_mode] in K.
  assert (G : generic_format radix2 (SpecFloat.fexp 53 1024) (bpow radix2 1000)).
  { apply generic_format_bpow. unfold SpecFloat.fexp, SpecFloat.emin. lia. }
  apply Rabs_le_inv in B.
  rewrite Rlt_bool_true in K.
  - destruct K as (K1 & K2 & _). split; [unfold finite_double, div64, b64_div; rewrite K2; exact Fx|].
    destruct (relative_error_N_FLT'_ex radix2 (-1074) 53 eq_refl (fun t => negb (Z.even t)) (real64 x / real64 y))
      as (e & t & He & Ht & _ & E).
    exists e, t. split; [eapply Rle_trans; [exact He|apply u_small]|]. split.
    + eapply Rle_trans; [exact Ht|]. change (-1074)%Z with (1 + -1075)%Z. rewrite bpow_plus.
      change (bpow radix2 1) with 2. lra.
    + unfold real64 at 1, div64, b64_div. rewrite K1. exact E.
  - apply Rle_lt_trans with (bpow radix2 1000); [|apply bpow_lt; lia]. apply Rabs_le. split.
    + rewrite <- (rnd_id 53 1024 _ G), <- rnd_opp. apply rnd_le; [reflexivity|apply B].
    + rewrite <- (rnd_id 53 1024 _ G). apply rnd_le; [reflexivity|apply B].
Qed.

Section Origin.
  Variables (r : binary64) (N : R).
  Hypotheses (Fr : finite_double r) (Rr : bpow radix2 (-100) <= real64 r <= bpow radix2 100)
    (HN : 0 <= N) (SN : 4 * (N + 1) * u <= 1 / 16).

  Lemma pos_r : 0 < real64 r.
  Proof using Rr. pose proof (bpow_gt_0 radix2 (-100)). lra. Qed.

  Lemma tiny : bpow radix2 (-1075) <= u / 1000 * real64 r /\ bpow radix2 (-1075) <= u.
  Proof using Rr.
    split.
    - apply tiny_ok. eapply Rle_trans; [|exact (proj1 Rr)]. apply bpow_le. lia.
    - apply bpow_le. lia.
  Qed.

  Lemma center_axis k : (0 <= k)%Z -> IZR k + 1 <= N ->
    let c := mul64 r (add64 (b64_of_Z k) (div64 (b64_of_Z 1) (b64_of_Z 2))) in
    finite_double c /\ Rabs (real64 c - real64 r * (IZR k + 1 / 2)) <= 4 * (N + 1) * u * real64 r.
  Proof.
    intros Hk HkN. cbv zeta. pose proof pos_r as P. pose proof u_pos as U0. pose proof u_le as U1. destruct tiny as (Tn & _).
    assert (K0 : 0 <= IZR k) by (apply IZR_le; lia).
    assert (NB : N <= bpow radix2 53).
    { apply Rmult_le_reg_r with u; [exact U0|]. replace (bpow radix2 53 * u) with 1; [lra|].
      unfold u. rewrite <- bpow_plus. reflexivity. }
    destruct (of_Z_exact k) as (Fk & Rk).
    { rewrite Z.abs_eq by lia. apply le_IZR. change (IZR (2 ^ 53)) with (bpow radix2 53). lra. }
    change (B2R64 (b64_of_Z k)) with (real64 (b64_of_Z k)) in Rk.
    set (hf := div64 (b64_of_Z 1) (b64_of_Z 2)). assert (Fh : finite_double hf) by (vm_compute; reflexivity).
    assert (Rh : real64 hf = / 2).
    { assert (E : eq64 hf (B754_finite 53 1024 false 4503599627370496 (-53) eq_refl) = true) by (vm_compute; reflexivity).
      rewrite eq_finite in E by (auto; vm_compute; reflexivity).
      destruct (Req_EM_T _ _) as [K|]; [|discriminate]. rewrite K. unfold real64. cbn [B2R]. unfold F2R. cbn -[IZR]. lra. }
    clearbody hf.
    assert (S53 : bpow radix2 53 + 1 <= bpow radix2 54).
    { change 54%Z with (1 + 53)%Z. rewrite bpow_plus. change (bpow radix2 1) with 2.
      assert (bpow radix2 0 <= bpow radix2 53) by (apply bpow_le; lia). change (bpow radix2 0) with 1 in H. lra. }
    assert (S54 : bpow radix2 54 <= bpow radix2 1000) by (apply bpow_le; lia).
    destruct (add64_small (b64_of_Z k) hf Fk Fh) as (Fa & e & He & Ea).
    { rewrite Rk, Rh, Rabs_pos_eq; lra. }
    rewrite Rk, Rh in Ea. set (a := add64 (b64_of_Z k) hf) in *.
    set (m := IZR k + / 2) in *.
    assert (Bm : 0 < m <= N) by (unfold m; lra).
    pose proof He as He'. apply Rabs_le_inv in He'.
    destruct (mul64_small r a Fr Fa) as (F & e' & t & He2 & Ht & E).
    { rewrite Ea, Rabs_pos_eq.
      - apply Rle_trans with (bpow radix2 100 * (bpow radix2 53 * 2)).
        + apply Rmult_le_compat; [lra|nra|apply Rr|]. apply Rmult_le_compat; lra.
        + change 2 with (bpow radix2 1). rewrite <- !bpow_plus. apply bpow_le. lia.
      - apply Rmult_le_pos; [lra|]. apply Rmult_le_pos; lra. }
    split; [exact F|]. rewrite E, Ea.
    replace (real64 r * (m * (1 + e)) * (1 + e') + t - real64 r * (IZR k + 1 / 2))
      with (real64 r * m * ((1 + e) * (1 + e') - 1) + t) by (unfold m; field).
    eapply Rle_trans; [apply Rabs_triang|].
    pose proof (factor_product _ _ _ _ He He2) as FP.
    rewrite Rabs_mult, (Rabs_pos_eq (real64 r * m)) by (apply Rmult_le_pos; lra).
    assert (Q1 : real64 r * m * Rabs ((1 + e) * (1 + e') - 1) <= real64 r * N * (3 * u)).
    { apply Rmult_le_compat; [apply Rmult_le_pos; lra|apply Rabs_pos|apply Rmult_le_compat_l; lra|].
      eapply Rle_trans; [exact FP|]. nra. }
    assert (Q2 : 0 <= real64 r * u) by (apply Rmult_le_pos; lra).
    assert (Q3 : 0 <= real64 r * u * N) by (apply Rmult_le_pos; lra).
    unfold Rdiv in Tn. nra.
  Qed.

  Lemma index_axis v : finite_double v -> Rabs (real64 v) <= bpow radix2 800 ->
    (0 <= floor64 (div64 v r))%Z -> IZR (floor64 (div64 v r)) + 1 <= N ->
    Rabs (real64 v - real64 r * (IZR (floor64 (div64 v r)) + 1 / 2)) <= real64 r * (9 / 16).
  Proof.
    intros Fv Bv K0 KN. pose proof pos_r as P. pose proof u_pos as U0. pose proof u_le as U1. destruct tiny as (_ & Tn).
    destruct (div64_small v r Fv Fr) as (F & e & t & He & Ht & E); [lra| |].
    { unfold Rdiv. rewrite Rabs_mult, (Rabs_pos_eq (/ real64 r)) by (left; apply Rinv_0_lt_compat; auto).
      apply Rle_trans with (bpow radix2 800 * bpow radix2 100).
      - apply Rmult_le_compat; auto using Rabs_pos; [left; apply Rinv_0_lt_compat; auto|].
        rewrite <- (Rinv_inv (bpow radix2 100)). apply Rinv_le; [apply Rinv_0_lt_compat, bpow_gt_0|].
        rewrite <- bpow_opp. apply Rr.
      - rewrite <- bpow_plus. apply bpow_le. lia. }
    pose proof (floor_spec _ F) as Fl. set (k := floor64 (div64 v r)) in *. rewrite E in Fl.
    set (w := real64 v / real64 r) in *. assert (Ew : real64 v = real64 r * w) by (unfold w; field; lra).
    rewrite Ew. replace (real64 r * w - real64 r * (IZR k + 1 / 2)) with (real64 r * (w - (IZR k + 1 / 2))) by ring.
    rewrite Rabs_mult, (Rabs_pos_eq (real64 r)) by lra. apply Rmult_le_compat_l; [lra|].
    apply IZR_le in K0. apply Rabs_le_inv in He. apply Rabs_le_inv in Ht.
    assert (W0 : - 1 <= w <= 2 * (N + 1)) by nra.
    assert (We : - (2 * (N + 1) * u) <= w * e <= 2 * (N + 1) * u) by nra.
    apply Rabs_le. nra.
  Qed.
End Origin.

Section Identity.
  Variables (f : field ieee) (loc : vec ieee) (N W : R).
  Notation r := (f_res f).
  Notation p := (ieee_pose r).
  Notation i := (index_of p loc).
  Hypotheses (Fr : finite_double r) (Rr : bpow radix2 (-100) <= real64 r <= bpow radix2 100)
    (HW : W <= bpow radix2 100)
    (Vals : forall j, in_bounds (f_dims f) j = true ->
       finite_float (value f j) /\ Rabs (real32 (value f j)) + real64 r <= W)
    (SN : 4 * (N + 1) * u <= 1 / 16)
    (Hnx : IZR (nx (f_dims f)) <= N) (Hny : IZR (ny (f_dims f)) <= N) (Hnz : IZR (nz (f_dims f)) <= N)
    (Fq : finite_vec loc) (Bx : Rabs (real64 (vx loc)) <= bpow radix2 800)
    (By : Rabs (real64 (vy loc)) <= bpow radix2 800) (Bz : Rabs (real64 (vz loc)) <= bpow radix2 800)
    (Hi : in_bounds (f_dims f) i = true).

  Lemma N_pos : 1 <= N.
  Proof.
    pose proof Hi as Hb. apply in_bounds_spec in Hb. destruct Hb as (B & _).
    assert (1 <= IZR (nx (f_dims f))) by (apply IZR_le; lia). lra.
  Qed.

  Lemma identity_centers : centers_within f p (4 * (N + 1) * u).
  Proof.
    pose proof N_pos as NP.
    intros j Hj. apply in_bounds_spec in Hj. destruct Hj as (X & Y & Z).
    assert (K : forall n k, (0 <= k < n)%Z -> IZR n <= N -> IZR k + 1 <= N).
    { intros n k Hk Hn. apply Rle_trans with (2 := Hn). replace (IZR k + 1) with (IZR (k + 1)) by (rewrite plus_IZR; lra).
      apply IZR_le. lia. }
    destruct (center_axis r N Fr Rr (Rle_trans _ _ _ Rle_0_1 NP) SN (ix j) (proj1 X) (K _ _ X Hnx)) as (F1 & D1).
    destruct (center_axis r N Fr Rr (Rle_trans _ _ _ Rle_0_1 NP) SN (iy j) (proj1 Y) (K _ _ Y Hny)) as (F2 & D2).
    destruct (center_axis r N Fr Rr (Rle_trans _ _ _ Rle_0_1 NP) SN (iz j) (proj1 Z) (K _ _ Z Hnz)) as (F3 & D3).
    split; [split; [exact F1|split; [exact F2|exact F3]]|]. split; [exact D1|]. split; [exact D2|exact D3].
  Qed.

  Lemma identity_lies : lies_in (real64 r) (real_vec loc) i.
  Proof.
    pose proof N_pos as NP. destruct Fq as (Fx & Fy & Fz).
    pose proof Hi as Hb. apply in_bounds_spec in Hb. destruct Hb as (X & Y & Z).
    assert (K : forall n k, (0 <= k < n)%Z -> IZR n <= N -> IZR k + 1 <= N).
    { intros n k Hk Hn. apply Rle_trans with (2 := Hn). replace (IZR k + 1) with (IZR (k + 1)) by (rewrite plus_IZR; lra).
      apply IZR_le. lia. }
    split; [|split].
    - exact (index_axis r N Fr Rr (Rle_trans _ _ _ Rle_0_1 NP) SN (vx loc) Fx Bx (proj1 X) (K _ _ X Hnx)).
    - exact (index_axis r N Fr Rr (Rle_trans _ _ _ Rle_0_1 NP) SN (vy loc) Fy By (proj1 Y) (K _ _ Y Hny)).
    - exact (index_axis r N Fr Rr (Rle_trans _ _ _ Rle_0_1 NP) SN (vz loc) Fz Bz (proj1 Z) (K _ _ Z Hnz)).
  Qed.

  Lemma identity_estimate : exists e xl xu yl yu zl zu,
    estimate_distance f p loc = Ok (e, true) /\ finite_double e /\
    cells_on_axis (nx (f_dims f)) (ix i) (real64 (vx (center_of p i))) (real64 (vx loc)) xl xu /\
    cells_on_axis (ny (f_dims f)) (iy i) (real64 (vy (center_of p i))) (real64 (vy loc)) yl yu /\
    cells_on_axis (nz (f_dims f)) (iz i) (real64 (vz (center_of p i))) (real64 (vz loc)) zl zu /\
    Rabs (real64 e - interpolation f (real_vec loc) xl xu yl yu zl zu)
      <= (bpow radix2 (-42) + 128 * (4 * (N + 1) * u)) * W.
  Proof.
    pose proof u_pos as U0. pose proof N_pos as NP.
    assert (K : forall n, IZR n <= N -> (IZR n + 1) * u <= 4 * (N + 1) * u).
    { intros n Hn. apply Rmult_le_compat_r; lra. }
    exact (estimate_double f p loc (4 * (N + 1) * u) W Fr Rr HW Vals identity_centers SN
             (K _ Hnx) (K _ Hny) Fq Hi identity_lies).
  Qed.
End Identity.

(** ** Bounds *)
Lemma estimate_range (f : field ieee) p loc delta W lo hi :
  let r := real64 (f_res f) in let q := to_grid p loc in let i := index_of p q in
  finite_double (f_res f) -> bpow radix2 (-100) <= r <= bpow radix2 100 -> W <= bpow radix2 100 ->
  (forall j, in_bounds (f_dims f) j = true ->
     finite_float (value f j) /\ Rabs (real32 (value f j)) + r <= W) ->
  centers_within f p delta -> delta <= 1 / 16 ->
  (IZR (nx (f_dims f)) + 1) * bpow radix2 (-53) <= delta -> (IZR (ny (f_dims f)) + 1) * bpow radix2 (-53) <= delta ->
  finite_vec q -> in_bounds (f_dims f) i = true -> lies_in r (real_vec q) i ->
  (forall xl xu yl yu zl zu,
     cells_on_axis (nx (f_dims f)) (ix i) (real64 (vx (center_of p i))) (real64 (vx q)) xl xu ->
     cells_on_axis (ny (f_dims f)) (iy i) (real64 (vy (center_of p i))) (real64 (vy q)) yl yu ->
     cells_on_axis (nz (f_dims f)) (iz i) (real64 (vz (center_of p i))) (real64 (vz q)) zl zu ->
     (xl = xu \/ 0 <= progress r xl (real64 (vx q)) <= 1) /\
     (yl = yu \/ 0 <= progress r yl (real64 (vy q)) <= 1) /\
     (zl = zu \/ 0 <= progress r zl (real64 (vz q)) <= 1) /\
     (forall x y z, x = xl \/ x = xu -> y = yl \/ y = yu -> z = zl \/ z = zu ->
        lo <= centered_real f (I x y z) <= hi)) ->
  exists e, estimate_distance f p loc = Ok (e, true) /\ finite_double e /\
    lo - (bpow radix2 (-42) + 128 * delta) * W <= real64 e <= hi + (bpow radix2 (-42) + 128 * delta) * W.
Proof.
  intros r q i Fr Rr HW Vals Cen Hd Hx Hy Fq Hi Hq Cells.
  destruct (estimate_double f p loc delta W Fr Rr HW Vals Cen Hd Hx Hy Fq Hi Hq)
    as (e & xl & xu & yl & yu & zl & zu & E & Fe & Ax & Ay & Az & Err).
  destruct (Cells xl xu yl yu zl zu Ax Ay Az) as (Tx & Ty & Tz & V).
  exists e. split; [exact E|]. split; [exact Fe|].
  pose proof (interpolation_within f (real_vec q) xl xu yl yu zl zu lo hi Tx Ty Tz V) as B.
  fold q in Err. apply Rabs_le_inv in Err. lra.
Qed.

(** ** A case: half way down the slope *)
Definition down_point : vec ieee :=
  @V ieee (div64 (b64_of_Z 5) (b64_of_Z 4)) (div64 one64 (b64_of_Z 2)) (div64 one64 (b64_of_Z 2)).

Lemma estimate_case :
  finite_double (f_res slope_field) /\
  bpow radix2 (-100) <= real64 (f_res slope_field) <= bpow radix2 100 /\ 2 <= bpow radix2 100 /\
  (forall j, in_bounds (f_dims slope_field) j = true ->
     finite_float (value slope_field j) /\ Rabs (real32 (value slope_field j)) + real64 (f_res slope_field) <= 2) /\
  4 * (3 + 1) * bpow radix2 (-53) <= 1 / 16 /\
  IZR (nx (f_dims slope_field)) <= 3 /\ IZR (ny (f_dims slope_field)) <= 3 /\ IZR (nz (f_dims slope_field)) <= 3 /\
  finite_vec down_point /\ Rabs (real64 (vx down_point)) <= bpow radix2 800 /\
  Rabs (real64 (vy down_point)) <= bpow radix2 800 /\ Rabs (real64 (vz down_point)) <= bpow radix2 800 /\
  in_bounds (f_dims slope_field) (index_of (ieee_pose (f_res slope_field)) down_point) = true /\
  (cells_on_axis 3 1 (3 / 2) (5 / 4) 0 1 /\
   interpolation slope_field (real_vec down_point) 0 1 0 0 0 0 = 1 / 8).
Proof.
  destruct double_case as (_ & _ & _ & _ & _ & _ & _ & Fr & _ & Vals & _).
  assert (R1 : real64 (f_res slope_field) = 1) by (apply of_Z_exact; cbn; lia).
  assert (Mk : forall x m e H, eq64 x (B754_finite 53 1024 false m e H) = true -> finite_double x ->
            real64 x = F2R (Float radix2 (Z.pos m) e)).
  { intros x m e H E F. rewrite eq_finite in E by auto. destruct (Req_EM_T _ _) as [K|]; [|discriminate]. rewrite K.
    reflexivity. }
  assert (Hf : real64 (div64 one64 (b64_of_Z 2)) = 1 / 2).
  { rewrite (Mk _ 4503599627370496%positive (-53)%Z eq_refl); [|vm_compute; reflexivity|vm_compute; reflexivity].
    unfold F2R. cbn -[IZR]. lra. }
  assert (Hx : real64 (div64 (b64_of_Z 5) (b64_of_Z 4)) = 5 / 4).
  { rewrite (Mk _ 5629499534213120%positive (-52)%Z eq_refl); [|vm_compute; reflexivity|vm_compute; reflexivity].
    unfold F2R. cbn -[IZR]. lra. }
  assert (One32 : real32 one32 = 1) by (unfold real32, one32; cbn [B2R]; unfold F2R; cbn -[IZR]; lra).
  assert (Half32 : real32 half32 = 1 / 2) by (unfold real32, half32; cbn [B2R]; unfold F2R; cbn -[IZR]; lra).
  assert (Zero32 : real32 zero32 = 0) by reflexivity.
  assert (Big : 2 <= bpow radix2 800) by (change 2 with (bpow radix2 1); apply bpow_le; lia).
  split; [exact Fr|]. rewrite R1.
  split; [split; change 1 with (bpow radix2 0); apply bpow_le; lia|].
  split; [change 2 with (bpow radix2 1); apply bpow_le; lia|].
  split.
  { intros j Hj. split; [apply Vals; exact Hj|]. apply in_bounds_spec in Hj. cbn in Hj.
    assert (K : j = I 0 0 0 \/ j = I 1 0 0 \/ j = I 2 0 0).
    { destruct j as [a b c]. cbn in Hj. assert (b = 0 /\ c = 0)%Z as (-> & ->) by lia.
      assert (a = 0 \/ a = 1 \/ a = 2)%Z as [->|[->| ->]] by lia; auto. }
    destruct K as [->|[->| ->]].
    - change (value slope_field (I 0 0 0)) with one32. rewrite One32, Rabs_R1. lra.
    - change (value slope_field (I 1 0 0)) with half32. rewrite Half32, Rabs_pos_eq; lra.
    - change (value slope_field (I 2 0 0)) with zero32. rewrite Zero32, Rabs_R0. lra. }
  split; [pose proof u_le; change (bpow radix2 (-53)) with u; lra|].
  split; [apply IZR_le; cbn; lia|]. split; [apply IZR_le; cbn; lia|]. split; [apply IZR_le; cbn; lia|].
  split; [repeat split; vm_compute; reflexivity|].
  cbn [down_point vx vy vz]. rewrite Hf, Hx.
  split; [rewrite Rabs_pos_eq; lra|]. split; [rewrite Rabs_pos_eq; lra|]. split; [rewrite Rabs_pos_eq; lra|].
  split; [vm_compute; reflexivity|].
  split.
  - unfold cells_on_axis. cbn [Z.eqb Pos.eqb]. repeat split; auto; try lia; intros; exfalso; lra.
  - unfold interpolation, real_vec. cbn [down_point vx vy vz]. rewrite Hf, Hx, R1. unfold progress, centered_real. rewrite R1.
    change (value slope_field (I 0 0 0)) with one32. change (value slope_field (I 1 0 0)) with half32.
    rewrite One32, Half32. destruct (Rle_dec 0 1); [|lra]. destruct (Rle_dec 0 (1 / 2)); [|lra]. unfold between. lra.
Qed.

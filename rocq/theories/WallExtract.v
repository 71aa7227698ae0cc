(** The field extracted from a map with a flat wall is the field of a flat wall. *)
From Coq Require Import Reals Lra.
From Flocq Require Import Core.Core IEEE754.Binary IEEE754.Bits.
From Verif Require Import Base BaseFacts Floats FloatFacts FloatFacts2 Grid GridFacts
  DistSpec CollisionMap SdfGen SdfSpec SdfGenProofs SdfThms SdfExact SdfShapes
  Arith SdfQuery QuerySpec SdfField QueryThms DoubleSpec DisplaySdf WallSpec WallThms.
Open Scope Z_scope.

Lemma real_field_value s i : value (real_field s) i = real32 (fst (sdf_get s i)).
Proof.
  unfold value, real_field, sdf_get, get, sdf_dims. cbn [f_grid gdims gdata goob].
  destruct (in_bounds (gdims (s_grid s)) i); cbn [fst]; auto.
  apply (map_nth real32).
Qed.

Lemma format_64_32 w : finite_float w -> generic_format radix2 (SpecFloat.fexp 53 1024) (real32 w).
Proof.
  intros F. destruct (widen_finite w F) as (_ & E). unfold real32. rewrite <- E. apply generic_format_B2R.
Qed.

Lemma rounded_exact z r : 1 <= z -> z * z <= 2147483647 -> usable_resolution r ->
  (exists w : binary32, finite_float w /\ real32 w = (IZR z * real64 r)%R) ->
  finite_float (rounded_distance (Some (z * z)) r) /\
  real32 (rounded_distance (Some (z * z)) r) = (real64 r * IZR z)%R.
Proof.
  intros Hz Hb (Fr & Gr) (w & Fw & Ew).
  assert (Z46 : z <= 46340) by nia.
  destruct (of_Z_exact z) as (Fz & Ez); [lia|].
  pose proof (res_pos r Fr Gr) as Rp. pose proof (r_val r Fr) as Rv.
  destruct (scale_finite r Fr Rp (z * z)) as (N & X & _); [nia|].
  assert (S : sqrt (IZR (z * z)) = IZR z).
  { rewrite mult_IZR. apply sqrt_square. apply IZR_le. lia. }
  assert (Rz : rnd64 (IZR z) = IZR z).
  { apply rnd_id. rewrite <- Ez. apply generic_format_B2R. }
  rewrite S, Rz in X. change (B2R64 r) with (real64 r) in X. rewrite <- Ew in X.
  rewrite (rnd_id 53 1024 _ (format_64_32 w Fw)) in X.
  destruct (xr_finite 24 128 w Fw) as (Xw & Lw). rewrite Xw in Lw. fold (real32 w) in Lw.
  assert (BB : (bpow radix2 128 < bpow radix2 1024)%R) by (apply bpow_lt; lia).
  rewrite clamp_in in X by lra.
  destruct (to32_xr _ N) as (N2 & X2). rewrite X in X2.
  assert (R32 : rnd32 (real32 w) = real32 w) by (apply rnd_id; apply generic_format_B2R).
  rewrite R32, clamp_in in X2 by lra.
  change (b32_of_b64 (mul64 (sqrt64 (b64_of_Z (z * z))) r)) with (rounded_distance (Some (z * z)) r) in *.
  assert (F : finite_float (rounded_distance (Some (z * z)) r)).
  { unfold finite_float. destruct (rounded_distance (Some (z * z)) r) as [b|b|b pl H|b mm ee H]; auto; try discriminate.
    exfalso. unfold xr32 in X2. cbn [xr] in X2. destruct b; lra. }
  split; auto. destruct (xr_finite 24 128 _ F) as (E & _). unfold xr32 in X2.
  unfold real32 at 1. rewrite <- E, X2, Ew. ring.
Qed.

Lemma real_opp x : real32 (b32_opp x) = (- real32 x)%R.
Proof. unfold real32, b32_opp. apply B2R_Bopp. Qed.

(** The cell in line with [c] at depth [h]. *)
Definition at_depth (a : axis_name) (low : bool) (d : dims) (c : idx) (h : Z) : idx :=
  let x := if low then h else cells_along a d - 1 - h in
  match a with AlongX => I x (iy c) (iz c) | AlongY => I (ix c) x (iz c) | AlongZ => I (ix c) (iy c) x end.

Section Wall.
Variables (a : axis_name) (low : bool) (d : dims).

Lemma at_depth_depth c h : depth a low d (at_depth a low d c h) = h.
Proof. unfold depth, at_depth. destruct a, low; cbn [coordinate ix iy iz cells_along]; lia. Qed.

Lemma at_depth_bounds c h : in_bounds d c = true -> 0 <= h < cells_along a d -> in_bounds d (at_depth a low d c h) = true.
Proof. rewrite !in_bounds_spec. unfold at_depth. destruct a, low; cbn [coordinate ix iy iz cells_along]; lia. Qed.

Lemma depth_bounds c : in_bounds d c = true -> 0 <= depth a low d c < cells_along a d.
Proof. rewrite !in_bounds_spec. unfold depth. destruct a, low; cbn [coordinate ix iy iz cells_along]; lia. Qed.

Lemma at_depth_straight c h : straight c (at_depth a low d c h).
Proof. unfold straight, at_depth. destruct a; cbn [ix iy iz]; auto. Qed.

Lemma at_depth_distsq c h : distsq c (at_depth a low d c h) = (depth a low d c - h) * (depth a low d c - h).
Proof. unfold distsq, depth, at_depth. destruct a, low; cbn [coordinate ix iy iz cells_along]; ring. Qed.

Lemma depth_distsq c p : (depth a low d c - depth a low d p) * (depth a low d c - depth a low d p) <= distsq c p.
Proof.
  unfold distsq, depth. pose proof (Z.square_nonneg (ix c - ix p)). pose proof (Z.square_nonneg (iy c - iy p)).
  pose proof (Z.square_nonneg (iz c - iz p)).
  destruct a, low; cbn [coordinate cells_along];
  match goal with |- ?l <= _ => ring_simplify l end; lia.
Qed.

Lemma cells_along_small : size_ok d -> cells_along a d * cells_along a d <= 2147483647.
Proof.
  intros (H1 & H2 & H3 & H). pose proof (Z.square_nonneg (nx d)). pose proof (Z.square_nonneg (ny d)).
  pose proof (Z.square_nonneg (nz d)). destruct a; cbn [cells_along]; lia.
Qed.

Variables (r : binary64) (oob : binary32) (frame : String.string) (is_filled : idx -> res bool) (k : Z).
Variables (s : sdf) (x : binary64 * binary64).

Lemma wall_extracted : size_ok d -> usable_resolution r ->
  answers d is_filled (fun c => depth a low d c <? k) -> 0 < k < cells_along a d ->
  stored_exactly r (cells_along a d) ->
  extract_sdf d r is_filled oob frame = Ok (s, x) ->
  wall_field (real_field s) a low k /\ f_dims (real_field s) = d /\ f_res (real_field s) = real64 r.
Proof.
  intros Hs Hr HP Hk Ex He.
  destruct (extract_sign d r oob frame is_filled _ Hs Hr HP) as (s' & x' & He' & Dd & Rr & _).
  rewrite He in He'. injection He' as <- <-.
  assert (FD : f_dims (real_field s) = d) by exact Dd.
  assert (FR : f_res (real_field s) = real64 r) by (cbn; rewrite Rr; auto).
  split; [|auto]. unfold wall_field. rewrite FD, FR. split; [exact Hk|].
  intros c Hc. rewrite real_field_value.
  set (h := depth a low d c). pose proof (depth_bounds c Hc) as Hh. fold h in Hh.
  set (t := if h <? k then k else k - 1).
  assert (Ht : 0 <= t < cells_along a d) by (unfold t; destruct (h <? k); lia).
  assert (Near : sdf_get s c = (signed_value (h <? k) (Some ((h - t) * (h - t))) r, true)).
  { replace ((h - t) * (h - t)) with (distsq c (at_depth a low d c t)) by apply at_depth_distsq.
    apply (sdf_straight d r oob frame is_filled (fun c => depth a low d c <? k) s x Hs Hr HP He c); auto.
    - split; [apply at_depth_bounds; auto|]. rewrite at_depth_depth. fold h. unfold t.
      destruct (Z.ltb_spec h k); [rewrite Z.ltb_irrefl; discriminate|].
      destruct (Z.ltb_spec (k - 1) k); [discriminate|lia].
    - apply at_depth_straight.
    - split.
      + exists (at_depth a low d c t). split; auto. split; [apply at_depth_bounds; auto|].
        rewrite at_depth_depth. fold h. unfold t.
        destruct (Z.ltb_spec h k); [rewrite Z.ltb_irrefl; discriminate|].
        destruct (Z.ltb_spec (k - 1) k); [discriminate|lia].
      + intros p (Hp & Hf). cbv beta in Hf. fold h in Hf. rewrite at_depth_distsq. fold h.
        etransitivity; [|apply depth_distsq]. fold h. unfold t.
        destruct (Z.ltb_spec h k); destruct (Z.ltb_spec (depth a low d p) k); try congruence; nia. }
  rewrite Near. cbn [fst]. unfold signed_value, wall_value. unfold t.
  pose proof (cells_along_small Hs) as Small.
  destruct (Z.ltb_spec h k) as [L|L].
  - rewrite real_opp. replace ((h - k) * (h - k)) with ((k - h) * (k - h)) by ring.
    rewrite (proj2 (rounded_exact (k - h) r ltac:(lia) ltac:(nia) Hr (Ex (k - h) ltac:(lia)))). reflexivity.
  - replace ((h - (k - 1)) * (h - (k - 1))) with ((h + 1 - k) * (h + 1 - k)) by ring.
    rewrite (proj2 (rounded_exact (h + 1 - k) r ltac:(lia) ltac:(nia) Hr (Ex (h + 1 - k) ltac:(lia)))). reflexivity.
Qed.
End Wall.

(** Powers of two: every multiple that fits is a float. *)
Lemma power_stored r e n : -149 <= e <= 100 -> n <= 2 ^ 24 -> real64 r = bpow radix2 e -> stored_exactly r n.
Proof.
  intros He Hn Er z Hz.
  pose proof (binary_normalize_correct 24 128 eq_refl eq_refl BinarySingleNaN.mode_NE z e false) as K.
  cbn [BinarySingleNaN.round_mode] in K.
  assert (E : F2R (Float radix2 z e) = (IZR z * real64 r)%R) by (rewrite Er; reflexivity).
  assert (Gf : generic_format radix2 (SpecFloat.fexp 24 128) (F2R (Float radix2 z e))).
  { destruct (Z.eq_dec z (2 ^ 24)) as [Eq|Ne].
    - replace (F2R (Float radix2 z e)) with (bpow radix2 (24 + e)).
      + apply generic_format_bpow. unfold SpecFloat.fexp, SpecFloat.emin. lia.
      + rewrite bpow_plus. unfold F2R. cbn [Fnum Fexp]. rewrite Eq. f_equal. 
    - apply generic_format_FLT. exists (Float radix2 z e); auto.
      + cbn [Fnum]. change (radix2 ^ 24)%Z with (2 ^ 24)%Z. lia.
      + cbn [Fexp]. unfold SpecFloat.emin. lia. }
  rewrite (rnd_id 24 128) in K by exact Gf. rewrite E in K.
  rewrite Rlt_bool_true in K.
  - destruct K as (K1 & K2 & _). eexists. split; [exact K2|exact K1].
  - rewrite Rabs_pos_eq.
    + rewrite Er. apply Rle_lt_trans with (bpow radix2 24 * bpow radix2 100)%R.
      * apply Rmult_le_compat; [apply IZR_le; lia|apply bpow_ge_0| |apply bpow_le; lia].
        change (bpow radix2 24) with (IZR (2 ^ 24)). apply IZR_le. lia.
      * rewrite <- bpow_plus. apply bpow_lt. lia.
    + rewrite Er. apply Rmult_le_pos; [apply IZR_le; lia|apply bpow_ge_0].
Qed.

Lemma quarter_stored n : n <= 2 ^ 24 -> stored_exactly quarter64 n.
Proof. intros Hn. apply (power_stored quarter64 (-2)); auto; [lia|]. unfold real64, quarter64, B2R, F2R. cbn. lra. Qed.

Lemma extracted_projection : forall a low d r oob frame is_filled k s x p loc md mult e,
  size_ok d -> usable_resolution r -> (real64 r < 4)%R -> stored_exactly r (cells_along a d) ->
  answers d is_filled (fun c => depth a low d c <? k) -> 0 < k < cells_along a d ->
  extract_sdf d r is_filled oob frame = Ok (s, x) -> geometry (real64 r) p -> (0 < mult)%R ->
  estimate_distance (real_field s) p loc = Ok (e, true) -> (e <= md)%R ->
  exists t passes, (md < e + t <= md + real64 r * mult / 10000)%R /\
    forall fuel, (passes <= fuel)%nat ->
      project_out fuel (real_field s) p loc md mult =
      let target := vadd (to_grid p loc) (vscale (outward a low) t) in
      if in_bounds d (index_of p target)
      then Finished (to_world p target) else Failed "Index out of bounds".
Proof.
  intros a low d r oob frame is_filled k s x p loc md mult e Hs Hr R4 Ex HP Hk He Hg Hm Hest Hle.
  destruct (wall_extracted a low d r oob frame is_filled k s x Hs Hr HP Hk Ex He) as (W & FD & FR).
  assert (Rp : (0 < real64 r)%R).
  { destruct Hr as (Fr & Gr). pose proof (res_pos r Fr Gr) as P. rewrite (r_val r Fr) in P. exact P. }
  rewrite <- FR in Hg.
  destruct (wall_projection (real_field s) p a low k loc md mult e) as (t & n & T & K); auto.
  { rewrite FR. split; [exact Rp|exact R4]. }
  exists t, n. rewrite FR in T. split; [exact T|].
  intros fuel Hf. specialize (K fuel Hf). rewrite FD in K. exact K.
Qed.

(** A field and a point that meet the hypotheses of the theorems on doubles. *)
From Coq Require Import Reals Lra Lia.
From Flocq Require Import Core.Core IEEE754.Binary IEEE754.Bits.
From Verif Require Import Base Floats FloatFacts2 Grid GridFacts Arith SdfQuery SdfField QuerySpec QueryProofs
  QueryWitness DoubleSpec DoubleQuery.
Open Scope R_scope.

Lemma ieee_pose_cuts r : cuts_off (ieee_pose r).
Proof.
  intros v lo hi Fv Fl Fh H. cbn [clamp ieee_pose].
  rewrite (lt_finite v lo Fv Fl), (lt_finite hi v Fh Fv).
  destruct (Rlt_dec (real64 v) (real64 lo)), (Rlt_dec (real64 hi) (real64 v));
    (split; [|split]); intros; auto; lra.
Qed.

(** Three cells in a row with values 1, 1/2 and 0; cells of side 1. *)
Definition slope_field : field ieee :=
  @F ieee (G (D 3 1 1) [one32; half32; zero32] zero32) one64 (@V ieee (b64_of_Z 3) one64 one64).
Definition slope_point : vec ieee := @V ieee (b64_of_Z 2) (div64 one64 (b64_of_Z 2)) (b64_of_Z 7).
Definition tenth_margin : binary64 := add64 zero64 (mul64 one64 (div64 (b64_of_Z 1) (b64_of_Z 10000))).

Lemma double_case :
  let m := tenth_margin in
  finite_double m /\ 0 <= real64 m /\ finite_vec slope_point /\ finite_vec (f_size slope_field) /\
  2 * real64 m <= real64 (vx (f_size slope_field)) /\ 2 * real64 m <= real64 (vy (f_size slope_field)) /\
  2 * real64 m <= real64 (vz (f_size slope_field)) /\
  finite_double (f_res slope_field) /\
  bpow radix2 (-800) <= real64 (f_res slope_field) <= bpow radix2 800 /\
  (forall j, in_bounds (f_dims slope_field) j = true ->
     finite_float (value slope_field j) /\ Rabs (real32 (value slope_field j)) <= bpow radix2 126) /\
  (exists g, grid_aligned_gradient slope_field (I 1 0 0) true = Some g) /\
  slope slope_field 3 1 (fun t => I t 0 0) = - (1 / 2).
Proof.
  intros m.
  assert (R1 : real64 one64 = 1) by (apply of_Z_exact; cbn; lia).
  assert (R3 : real64 (b64_of_Z 3) = 3) by (apply of_Z_exact; cbn; lia).
  assert (Fm : finite_double m) by (vm_compute; reflexivity).
  assert (Le : forall a b, finite_double a -> finite_double b -> lt64 b a = false -> real64 a <= real64 b).
  { intros a b Fa Fb. rewrite (lt_finite b a Fb Fa). destruct (Rlt_dec _ _); [discriminate|lra]. }
  assert (Pm : 0 <= real64 m).
  { destruct zero_real as (F0 & R0). rewrite <- R0. apply Le; auto; vm_compute; reflexivity. }
  set (quarter := B754_finite 53 1024 false 4503599627370496 (-54) eq_refl).
  assert (Rq : real64 quarter = 1 / 4).
  { unfold real64, quarter. cbn [B2R]. unfold F2R. cbn -[IZR]. lra. }
  assert (Lm : real64 m <= 1 / 4).
  { rewrite <- Rq. apply Le; auto; vm_compute; reflexivity. }
  assert (One32 : real32 one32 = 1) by (unfold real32, one32; cbn [B2R]; unfold F2R; cbn -[IZR]; lra).
  assert (Half32 : real32 half32 = 1 / 2) by (unfold real32, half32; cbn [B2R]; unfold F2R; cbn -[IZR]; lra).
  assert (Big : 1 <= bpow radix2 126) by (change 1 with (bpow radix2 0); apply bpow_le; lia).
  split; [exact Fm|]. split; [exact Pm|].
  split; [repeat split; vm_compute; reflexivity|]. split; [repeat split; vm_compute; reflexivity|].
  cbn [slope_field f_size vx vy vz f_res]. rewrite R1, R3.
  split; [lra|]. split; [lra|]. split; [lra|].
  split; [vm_compute; reflexivity|].
  split; [split; change 1 with (bpow radix2 0); apply bpow_le; lia|].
  split.
  - intros j Hj. apply in_bounds_spec in Hj. cbn in Hj.
    assert (K : j = I 0 0 0 \/ j = I 1 0 0 \/ j = I 2 0 0).
    { destruct j as [a b c]. cbn in Hj. assert (b = 0 /\ c = 0)%Z as (-> & ->) by lia.
      assert (a = 0 \/ a = 1 \/ a = 2)%Z as [->|[->| ->]] by lia; auto. }
    destruct K as [->|[->| ->]]; (split; [reflexivity|]).
    + change (value slope_field (I 0 0 0)) with one32. rewrite One32, Rabs_R1. exact Big.
    + change (value slope_field (I 1 0 0)) with half32. rewrite Half32, Rabs_pos_eq; lra.
    + change (value slope_field (I 2 0 0)) with zero32. unfold real32, zero32. cbn [B2R]. rewrite Rabs_R0.
      apply bpow_ge_0.
  - split; [eexists; reflexivity|].
    unfold slope. cbn [Z.eqb Pos.eqb]. change (Z.min (3 - 1) (1 + 1)) with 2%Z. change (Z.max 0 (1 - 1)) with 0%Z.
    change (value slope_field (I 2 0 0)) with zero32. change (value slope_field (I 0 0 0)) with one32.
    cbn [slope_field f_res]. rewrite R1, One32. unfold real32, zero32. cbn [B2R]. cbn -[IZR]. lra.
Qed.

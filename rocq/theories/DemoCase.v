(** The demonstration script as a whole, and concrete clouds. *)
From Coq Require Import Reals Lra Lia Psatz.
From Flocq Require Import Core.Core IEEE754.Binary IEEE754.Bits.
From Verif Require Import Base BaseFacts Floats Grid GridFacts DistSpec SdfGen SdfSpec Arith SdfQuery Python PySpec
  PyProofs PyThms Node NodeProofs DoubleSpec Demo DemoSpec DemoProofs DemoDraw DemoThms DemoArrow.
Local Open Scope Z_scope.

Lemma demo_ok pc s0 s1 s2 r o p : 0 < s0 -> 0 < s1 -> 0 < s2 -> size_ok (D s1 s0 s2) -> usable_resolution r ->
  (forall q, In q pc -> ordinary r o q /\ inside_grid margin r o q [s0; s1; s2]) ->
  exists vg cloud arrows, demo pc s0 s1 s2 r o p = Ok (vg, cloud, arrows) /\
    Z.of_nat (length cloud) = s0 * s1 * s2 /\
    forall i j k, 0 <= i < s0 -> 0 <= j < s1 -> 0 <= k < s2 ->
      exists c, nth_error cloud (Z.to_nat ((i * s1 + j) * s2 + k)) = Some c /\
        (forall q, In q pc -> inside_voxel margin r o q [i; j; k] -> lt32 (p_distance c) zero32 = true) /\
        ((forall q, In q pc -> ~ inside_voxel (- margin) r o q [i; j; k]) -> gt32 (p_distance c) zero32 = true).
Proof.
  intros H0 H1 H2 Hs Hr H.
  destruct (voxel_grid_ok pc s0 s1 s2 r o ltac:(lia) ltac:(lia) ltac:(lia) H) as (vg & Ev & Sv & Wv & _ & V1 & V2).
  assert (He : env_3d vg (D s1 s0 s2)) by (split; [exact Wv|exact Sv]).
  assert (P : 0 < ncells (D s1 s0 s2)) by (unfold ncells; cbn [nx ny nz]; nia).
  destruct (whole_single vg (D s1 s0 s2) r p He Hs P Hr) as (a & g & E & Wa & Sa & Wg & Sg).
  destruct (python_3d vg (D s1 s0 s2) r p He Hs P Hr) as (s & a' & g' & _ & E' & _ & _ & _ & K).
  rewrite E in E'. injection E' as <- <-. cbn [nx ny nz] in *.
  destruct (arrow_ids g s0 s1 s2 r o Wg Sg ltac:(lia) ltac:(lia) ltac:(lia)) as (l & El & _).
  exists vg, (visualize_sdf a s0 s1 s2 r o), l. split; [|split].
  - unfold demo. rewrite Ev. cbn [bind]. rewrite E. cbn [bind snd fst]. rewrite El. reflexivity.
  - apply cloud_length; auto; lia.
  - intros i j k Hi Hj Hk. destruct (some_place s0 s1 ltac:(lia) ltac:(lia) i j Hi Hj) as (x & y & Hx & Hy & Exy).
    destruct (cloud_at a s0 s1 s2 r o Wa Sa ltac:(lia) ltac:(lia) ltac:(lia) i j k x y Hi Hj Hk Hx Hy Exy) as (v & V & N).
    eexists. split; [exact N|]. cbn [p_distance].
    destruct (K j i k) as (v' & w & _ & V' & Neg & Pos & _); [apply bounds_of; cbn [nx ny nz]; auto|].
    rewrite V in V'. injection V' as <-. split.
    + intros q Hq Iq. apply Neg. apply (V2 q); auto; repeat constructor; lia.
    + intros No. apply Pos. intros O. destruct (V1 _ O) as (q & Hq & Iq). exact (No q Hq Iq).
Qed.

(** ** Points below the grid *)
Definition unit64 : binary64 := B754_finite 53 1024 false 4503599627370496 (-52) eq_refl.
Definition half64 : binary64 := B754_finite 53 1024 false 4503599627370496 (-53) eq_refl.
Definition minus_half64 : binary64 := B754_finite 53 1024 true 4503599627370496 (-53) eq_refl.
Definition minus_three_halves64 : binary64 := B754_finite 53 1024 true 6755399441055744 (-52) eq_refl.

Definition zero_vec : vec ieee := @V ieee zero64 zero64 zero64.
Definition just_below : vec ieee := @V ieee minus_half64 half64 half64.
Definition further_below : vec ieee := @V ieee minus_three_halves64 half64 half64.

Lemma half_value : (real64 half64 = / 2)%R.
Proof. unfold real64. cbn -[IZR Rinv Rmult]. unfold F2R. cbn -[IZR Rinv Rmult]. lra. Qed.
Lemma minus_half_value : (real64 minus_half64 = - / 2)%R.
Proof. unfold real64. cbn -[IZR Rinv Rmult]. unfold F2R. cbn -[IZR Rinv Rmult]. lra. Qed.
Lemma minus_three_halves_value : (real64 minus_three_halves64 = - (3 / 2))%R.
Proof. unfold real64. cbn -[IZR Rinv Rmult]. unfold F2R. cbn -[IZR Rinv Rmult]. lra. Qed.
Lemma one_value : (real64 unit64 = 1)%R.
Proof. unfold real64. cbn -[IZR Rinv Rmult]. unfold F2R. cbn -[IZR Rinv Rmult]. lra. Qed.

Lemma in_units x : in_voxels unit64 zero64 x = real64 x.
Proof. unfold in_voxels. rewrite one_value. change (real64 zero64) with 0%R. field. Qed.

Lemma ordinary_units x : finite_double x -> (Rabs (real64 x) <= 2)%R ->
  ordinary unit64 zero_vec (@V ieee x half64 half64).
Proof.
  intros F B. split; [reflexivity|]. split.
  - rewrite one_value. change 1%R with (bpow radix2 0). split; apply bpow_le; lia.
  - split; [repeat split|]. split; [split; [exact F|repeat split]|].
    unfold all_in_voxels. cbn [vx vy vz zero_vec]. rewrite !in_units, half_value.
    assert (L : (2 <= bpow radix2 31)%R) by (change 2%R with (bpow radix2 1); apply bpow_le; lia).
    constructor; [lra|]. constructor; [apply Rabs_le; lra|]. constructor; [apply Rabs_le; lra|]. constructor.
Qed.

Lemma below_nowhere x s0 s1 s2 ix : (real64 x <= - / 2)%R -> Forall2 (fun i n => 0 <= i < n) ix [s0; s1; s2] ->
  ~ inside_voxel (- margin) unit64 zero_vec (@V ieee x half64 half64) ix.
Proof.
  intros B Hx K. unfold inside_voxel, all_in_voxels in K. cbn [vx vy vz zero_vec] in K. rewrite !in_units in K.
  inversion K as [|q i qs js Ki _]; subst. inversion Hx as [|i' n ? ? Hi _]; subst.
  assert (0 <= IZR i)%R by (apply IZR_le; lia). rewrite margin_value in Ki. lra.
Qed.

Lemma single_point x s0 s1 s2 i : 1 <= s0 -> 1 <= s1 -> 1 <= s2 ->
  point_index unit64 zero_vec (@V ieee x half64 half64) = Ok [i; 0; 0] -> 0 <= from_end s0 i < s0 ->
  exists vg, point_cloud_to_voxel_grid [@V ieee x half64 half64] s0 s1 s2 unit64 zero_vec = Ok vg /\
    item vg [from_end s0 i; 0; 0] = Some 1.
Proof.
  intros H0 H1 H2 E B. unfold point_cloud_to_voxel_grid.
  destruct (zeros_ok [s0; s1; s2]) as (z & -> & Pz & _); [apply shape_nonneg; lia|]. cbn [bind foldM]. rewrite E. cbn [bind app foldM].
  destruct (put_ok 1 [s0; s1; s2] z [i; 0; 0]) as (a & -> & _ & A & _); auto.
  - apply shape_nonneg; lia.
  - repeat constructor; cbn [fst snd]; try lia; change (from_end s1 0) with 0; change (from_end s2 0) with 0; lia.
  - exists a. split; [reflexivity|exact A].
Qed.

Lemma below_marks s0 s1 s2 : 1 <= s0 -> 1 <= s1 -> 1 <= s2 ->
  exists vg wg,
    point_cloud_to_voxel_grid [just_below] s0 s1 s2 unit64 zero_vec = Ok vg /\ item vg [0; 0; 0] = Some 1 /\
    point_cloud_to_voxel_grid [further_below] s0 s1 s2 unit64 zero_vec = Ok wg /\ item wg [s0 - 1; 0; 0] = Some 1 /\
    forall ix, Forall2 (fun i n => 0 <= i < n) ix [s0; s1; s2] ->
      ~ inside_voxel (- margin) unit64 zero_vec just_below ix /\ ~ inside_voxel (- margin) unit64 zero_vec further_below ix.
Proof.
  intros H0 H1 H2.
  destruct (single_point minus_half64 s0 s1 s2 0 H0 H1 H2) as (vg & Ev & Iv); [vm_compute; reflexivity|unfold from_end; cbn [Z.ltb Z.compare]; lia|].
  destruct (single_point minus_three_halves64 s0 s1 s2 (-1) H0 H1 H2) as (wg & Ew & Iw); [vm_compute; reflexivity|unfold from_end; cbn [Z.ltb Z.compare]; lia|].
  exists vg, wg. split; [exact Ev|]. split; [exact Iv|]. split; [exact Ew|]. split.
  - rewrite <- Iw. unfold from_end. cbn [Z.ltb Z.compare]. do 2 f_equal. lia.
  - intros ix Hx. split; apply (below_nowhere _ s0 s1 s2 ix); auto.
    + rewrite minus_half_value. lra.
    + rewrite minus_three_halves_value. lra.
Qed.

(** ** A cloud in the grid: one point in the middle of voxel [1, 0, 0] of a
    2 x 3 x 1 grid. *)
Definition three_halves64 : binary64 := B754_finite 53 1024 false 6755399441055744 (-52) eq_refl.
Definition one_point : vec ieee := @V ieee three_halves64 half64 half64.

Lemma three_halves_value : (real64 three_halves64 = 3 / 2)%R.
Proof. unfold real64. cbn -[IZR Rinv Rmult]. unfold F2R. cbn -[IZR Rinv Rmult]. lra. Qed.

Lemma one_point_case :
  ordinary unit64 zero_vec one_point /\ inside_grid margin unit64 zero_vec one_point [2; 3; 1] /\
  inside_voxel margin unit64 zero_vec one_point [1; 0; 0] /\ ~ inside_voxel (- margin) unit64 zero_vec one_point [0; 1; 0] /\
  size_ok (D 3 2 1) /\ usable_resolution unit64 /\ ordinary_size unit64 /\ at_zero zero_vec /\
  far_outside margin unit64 zero_vec one_point [1; 3; 1].
Proof.
  assert (Q : all_in_voxels unit64 zero_vec one_point = [3 / 2; / 2; / 2]%R).
  { unfold all_in_voxels. cbn [vx vy vz zero_vec one_point]. rewrite !in_units, three_halves_value, half_value. reflexivity. }
  pose proof margin_value as M.
  split; [apply ordinary_units; [reflexivity|rewrite three_halves_value; apply Rabs_le; lra]|].
  split; [unfold inside_grid; rewrite Q, M; repeat constructor; lra|].
  split; [unfold inside_voxel; rewrite Q, M; repeat constructor; lra|].
  split; [unfold inside_voxel; rewrite Q, M; intros K; inversion K; lra|].
  split; [unfold size_ok; cbn; lia|]. split; [split; reflexivity|].
  split; [split; [reflexivity|]; rewrite one_value; change 1%R with (bpow radix2 0); split; apply bpow_le; lia|].
  split; [repeat split|].
  exists 0%nat, (3 / 2)%R, 1. rewrite Q, M. split; [reflexivity|]. split; [reflexivity|]. left. lra.
Qed.

Lemma unit_bounds : (1 <= Rabs (real64 unit64) <= bpow radix2 90)%R.
Proof. rewrite one_value, Rabs_R1. split; [lra|]. change 1%R with (bpow radix2 0). apply bpow_le. lia. Qed.

Lemma scale_moderate : moderate grad_scale.
Proof.
  split; [reflexivity|]. rewrite scale_value. apply Rle_trans with (bpow radix2 0); [|apply bpow_le; lia].
  apply Rabs_le. cbn [bpow]. lra.
Qed.

(** The distances in the arrays of the Python helpers. *)
From Coq Require Import Lia.
From Flocq Require Import IEEE754.Binary.
From Verif Require Import Base BaseFacts Floats Grid GridFacts DistSpec CollisionMap SdfGen SdfSpec SdfGenProofs SdfThms SdfBorderThms
  Arith SdfQuery SdfField Python PySpec PyProofs PyThms.
Local Open Scope Z_scope.

(** The helper's field is the extraction for the marked cells. *)
Lemma env_extract env at_ d frame r :
  size_ok d -> usable_resolution r -> (forall i, in_bounds d i = true -> exists v, item env (at_ i) = Some v) ->
  exists s mx mn is_filled, env_sdf env at_ d frame r = Ok s /\ answers d is_filled (marked env at_) /\
    extract_sdf d r is_filled (c_occ outside_cell) frame = Ok (s, (mx, mn)).
Proof.
  intros Hs Hr Hi. destruct (fill_map_ok env at_ d frame Hs Hi) as (m & E & Dm & Fm & K).
  unfold env_sdf. rewrite E. cbn [bind].
  unfold cm_extract_sdf, extract_sdf_grid. rewrite ne64_refl by auto. cbn [orb negb].
  assert (HP := cm_answers m false). rewrite Dm, Fm in *.
  destruct (extract_facts d r (c_occ outside_cell) frame _ _ Hs Hr HP) as (s & mx & mn & E2 & _).
  rewrite E2. cbn [bind fst]. do 4 eexists. split; [reflexivity|]. split; [|exact E2].
  intros i Hb. rewrite (HP i Hb), K by auto. cbn [fst]. destruct (marked env at_ i); reflexivity.
Qed.

(** C98: three dimensions. *)
Lemma distances_3d env d r p : env_3d env d -> size_ok d -> 0 < ncells d -> usable_resolution r ->
  exists a g, compute_sdf_and_gradient_3d env r p = Ok (a, g) /\
    forall c, in_bounds d c = true ->
      exists m, item a [iy c; ix c; iz c] = Some (signed_value (marked_3d env c) m r) /\
        (forall z, m = Some z -> 1 <= z <= 2147483647 /\
           exists q, other_class d (marked_3d env) c q /\ distsq c q = z) /\
        (forall z, nearest_other d (marked_3d env) c z -> z <= 6 -> m = Some z).
Proof.
  intros He Hs P Hr. destruct (python_3d env d r p He Hs P Hr) as (s & a & g & E1 & E2 & Ds & _ & _ & K).
  exists a, g. split; [exact E2|]. intros [x y z] B.
  destruct (env_extract env (fun i => [iy i; ix i; iz i]) d "world" r Hs Hr) as (s' & mx & mn & f & E & A & X).
  { intros [x' y' z'] B'. eapply whole_3d; eauto. }
  assert (Es : s' = s).
  { pose proof He as (_ & S). unfold compute_sdf_3d, axis in E1. rewrite S in E1. cbn [nth_error bind] in E1.
    destruct d as [d1 d2 d3]. cbn [nx ny nz] in E1. rewrite E in E1. congruence. }
  subst s'. destruct (extract_magnitude d r _ "world" f _ Hs Hr A s mx mn X (I x y z) B) as (m & M1 & M2 & M3).
  destruct (K x y z B) as (v & w & K1 & K2 & _). exists m. cbn [ix iy iz]. rewrite K2.
  rewrite K1 in M1. injection M1 as ->. split; [reflexivity|]. split; [exact M2|exact M3].
Qed.

(** C98: two dimensions. *)
Lemma distances_2d env w h r p frame : env_2d env w h -> size_ok (D w h 1) -> 0 < w -> 0 < h -> usable_resolution r ->
  exists a g, compute_sdf_and_gradient_2d env r p frame = Ok (a, g) /\
    forall c, in_bounds (D w h 1) c = true ->
      ((forall q, ~ other_class (D w h 1) (marked_2d env) c q) ->
         item a [iy c; ix c] = Some (if marked_2d env c then ninf32 else inf32)) /\
      (forall q, other_class (D w h 1) (marked_2d env) c q ->
         exists z, item a [iy c; ix c] = Some (signed_value (marked_2d env c) (Some z) r) /\
           1 <= z <= manhattan c q * manhattan c q /\
           (exists q', other_class (D w h 1) (marked_2d env) c q' /\ distsq c q' = z) /\
           (forall z', nearest_other (D w h 1) (marked_2d env) c z' -> z' <= 6 -> item a [iy c; ix c] = Some (signed_value (marked_2d env c) (Some z') r))).
Proof.
  intros He Hs Pw Ph Hr. destruct (python_2d env w h r p frame He Hs Pw Ph Hr) as (s & a & g & E1 & E2 & Ds & _ & _ & K).
  exists a, g. split; [exact E2|]. intros [x y z] B. pose proof B as B0. apply bounds_of in B0 as (B1 & B2 & B3).
  cbn [nx ny nz] in B1, B2, B3. assert (z = 0) by lia. subst z.
  destruct (env_extract env (fun i => [iy i; ix i]) (D w h 1) frame r Hs Hr) as (s' & mx & mn & f & E & A & X).
  { intros [x' y' z'] B'. apply bounds_of in B' as (? & ? & _). eapply whole_2d; eauto. }
  assert (Es : s' = s).
  { pose proof He as (_ & S). unfold compute_sdf_2d, axis in E1. rewrite S in E1. cbn [nth_error bind] in E1.
    rewrite E in E1. congruence. }
  subst s'. destruct (K x y B1 B2) as (v & u & K1 & K2 & _). cbn [ix iy]. rewrite K2.
  destruct (extract_magnitude _ r _ frame f _ Hs Hr A s mx mn X (I x y 0) B) as (m & M1 & M2 & M3).
  rewrite K1 in M1. injection M1 as ->. split.
  - intros N. destruct m as [n|].
    + destruct (M2 n eq_refl) as (_ & q & Hq & _). destruct (N q). exact Hq.
    + unfold signed_value, rounded_distance. change (marked env (fun i => [iy i; ix i]) (I x y 0)) with (marked_2d env (I x y 0)).
      destruct (marked_2d env (I x y 0)); reflexivity.
  - intros q Hq. destruct (extract_flat _ r _ frame f _ Hs Hr A s mx mn X (I x y 0) q) as (n & F1 & F2 & F3); auto.
    { unfold flat. cbn [nx ny nz]. right; right. lia. }
    rewrite K1 in F1. injection F1 as F1. exists n. split; [f_equal; exact F1|]. split; [exact F2|]. split; [exact F3|].
    intros z' Hz L. rewrite (M3 z' Hz L). reflexivity.
Qed.

(** Exact distances in the arrays of the Python helpers. *)
From Coq Require Import Lia.
From Flocq Require Import IEEE754.Binary.
From Verif Require Import Base BaseFacts Floats Grid GridFacts DistSpec DistModel DistProofs CollisionMap SdfGen SdfSpec SdfGenProofs SdfThms
  SdfExact SdfShapes Arith SdfQuery SdfField QueryWitness Python PySpec PyProofs PyThms PyCase PyDist PyTest.
Local Open Scope Z_scope.

(** The array items are values of a field extracted for the marked items. *)
Lemma arrays_3d env d r p : env_3d env d -> size_ok d -> 0 < ncells d -> usable_resolution r ->
  exists a g s x f oob, compute_sdf_and_gradient_3d env r p = Ok (a, g) /\ answers d f (marked_3d env) /\
    extract_sdf d r f oob "world" = Ok (s, x) /\
    forall c, in_bounds d c = true -> item a [iy c; ix c; iz c] = Some (fst (sdf_get s c)).
Proof.
  intros He Hs P Hr. destruct (python_3d env d r p He Hs P Hr) as (s & a & g & E1 & E2 & Ds & _ & _ & K).
  destruct (env_extract env (fun i => [iy i; ix i; iz i]) d "world" r Hs Hr) as (s' & mx & mn & f & E & A & X).
  { intros [x' y' z'] B'. eapply whole_3d; eauto. }
  assert (Es : s' = s).
  { pose proof He as (_ & S). unfold compute_sdf_3d, axis in E1. rewrite S in E1. cbn [nth_error bind] in E1.
    destruct d as [d1 d2 d3]. cbn [nx ny nz] in E1. rewrite E in E1. congruence. }
  subst s'. exists a, g, s, (mx, mn), f, (c_occ outside_cell). split; [exact E2|]. split; [exact A|]. split; [exact X|].
  intros [x y z] B. destruct (K x y z B) as (v & w & K1 & K2 & _). cbn [ix iy iz]. rewrite K2, K1. reflexivity.
Qed.

Lemma arrays_2d env w h r p frame : env_2d env w h -> size_ok (D w h 1) -> 0 < w -> 0 < h -> usable_resolution r ->
  exists a g s x f oob, compute_sdf_and_gradient_2d env r p frame = Ok (a, g) /\ answers (D w h 1) f (marked_2d env) /\
    extract_sdf (D w h 1) r f oob frame = Ok (s, x) /\
    forall c, in_bounds (D w h 1) c = true -> item a [iy c; ix c] = Some (fst (sdf_get s c)).
Proof.
  intros He Hs Pw Ph Hr. destruct (python_2d env w h r p frame He Hs Pw Ph Hr) as (s & a & g & E1 & E2 & Ds & _ & _ & K).
  destruct (env_extract env (fun i => [iy i; ix i]) (D w h 1) frame r Hs Hr) as (s' & mx & mn & f & E & A & X).
  { intros [x' y' z'] B'. apply bounds_of in B' as (? & ? & _). eapply whole_2d; eauto. }
  assert (Es : s' = s).
  { pose proof He as (_ & S). unfold compute_sdf_2d, axis in E1. rewrite S in E1. cbn [nth_error bind] in E1.
    rewrite E in E1. congruence. }
  subst s'. exists a, g, s, (mx, mn), f, (c_occ outside_cell). split; [exact E2|]. split; [exact A|]. split; [exact X|].
  intros [x y z] B. apply bounds_of in B as (B1 & B2 & B3). cbn [nx ny nz] in B1, B2, B3. assert (z = 0) by lia. subst z.
  destruct (K x y B1 B2) as (v & u & K1 & K2 & _). cbn [ix iy]. rewrite K2, K1. reflexivity.
Qed.

Section Exact.
Variables (d : dims) (r : binary64) (marks : idx -> bool) (read : idx -> option binary32).
Variables (f : idx -> res bool) (oob : binary32) (frame : string) (s : sdf) (x : binary64 * binary64).
Hypotheses (Hs : size_ok d) (Hr : usable_resolution r) (A : answers d f marks)
  (X : extract_sdf d r f oob frame = Ok (s, x))
  (Rd : forall c, in_bounds d c = true -> read c = Some (fst (sdf_get s c))).

Lemma read_box lo hi boxed c m : (forall a, in_bounds d a = true -> (marks a = boxed <-> in_box lo hi a)) ->
  in_bounds d c = true -> nearest_other d marks c m -> read c = Some (signed_value (marks c) (Some m) r).
Proof.
  intros Hb Hc Hn. rewrite Rd by exact Hc. rewrite (sdf_box d r oob frame f marks s x Hs Hr A X lo hi boxed c m Hb Hc Hn). reflexivity.
Qed.

Lemma read_straight c p : in_bounds d c = true -> other_class d marks c p -> straight c p ->
  nearest_other d marks c (distsq c p) -> read c = Some (signed_value (marks c) (Some (distsq c p)) r).
Proof.
  intros Hc Ho St Hn. rewrite Rd by exact Hc. rewrite (sdf_straight d r oob frame f marks s x Hs Hr A X c p Hc Ho St Hn). reflexivity.
Qed.

Lemma read_one o c : in_bounds d o = true -> (forall a, in_bounds d a = true -> (marks a = true <-> a = o)) ->
  in_bounds d c = true -> c <> o -> read c = Some (rounded_distance (Some (distsq c o)) r).
Proof.
  intros Ho M Hc N.
  assert (Mc : marks c = false) by (destruct (marks c) eqn:E; [apply M in E; auto; congruence|reflexivity]).
  assert (Mo : marks o = true) by (apply M; auto).
  rewrite (read_box o o true c (distsq c o)); auto.
  - rewrite Mc. reflexivity.
  - intros a Ha. rewrite (M a Ha). unfold in_box. split; [intros ->; lia|]. destruct a, o. cbn. intros. f_equal; lia.
  - split.
    + exists o. split; [split; [exact Ho|congruence]|reflexivity].
    + intros q (Hq & Nq). rewrite Mc in Nq. assert (marks q = true) by (destruct (marks q); congruence).
      apply M in H; auto. subst q. lia.
Qed.
End Exact.

Lemma shapes_2d env w h r p frame : env_2d env w h -> size_ok (D w h 1) -> 0 < w -> 0 < h -> usable_resolution r ->
  let d := D w h 1 in let marks := marked_2d env in
  exists a g, compute_sdf_and_gradient_2d env r p frame = Ok (a, g) /\
    (forall o c, in_bounds d o = true -> (forall b, in_bounds d b = true -> (marks b = true <-> b = o)) ->
       in_bounds d c = true -> c <> o -> item a [iy c; ix c] = Some (rounded_distance (Some (distsq c o)) r)) /\
    (forall lo hi boxed c m, (forall b, in_bounds d b = true -> (marks b = boxed <-> in_box lo hi b)) ->
       in_bounds d c = true -> nearest_other d marks c m -> item a [iy c; ix c] = Some (signed_value (marks c) (Some m) r)) /\
    (forall c q, in_bounds d c = true -> other_class d marks c q -> straight c q -> nearest_other d marks c (distsq c q) ->
       item a [iy c; ix c] = Some (signed_value (marks c) (Some (distsq c q)) r)).
Proof.
  intros He Hs Pw Ph Hr d marks. destruct (arrays_2d env w h r p frame He Hs Pw Ph Hr) as (a & g & s & x & f & oob & E & A & X & K).
  exists a, g. split; [exact E|]. split; [|split].
  - intros. eapply (read_one d r marks (fun c => item a [iy c; ix c])); eauto.
  - intros. eapply (read_box d r marks (fun c => item a [iy c; ix c])); eauto.
  - intros. eapply (read_straight d r marks (fun c => item a [iy c; ix c])); eauto.
Qed.

Lemma shapes_3d env d r p : env_3d env d -> size_ok d -> 0 < ncells d -> usable_resolution r ->
  let marks := marked_3d env in
  exists a g, compute_sdf_and_gradient_3d env r p = Ok (a, g) /\
    (forall o c, in_bounds d o = true -> (forall b, in_bounds d b = true -> (marks b = true <-> b = o)) ->
       in_bounds d c = true -> c <> o -> item a [iy c; ix c; iz c] = Some (rounded_distance (Some (distsq c o)) r)) /\
    (forall lo hi boxed c m, (forall b, in_bounds d b = true -> (marks b = boxed <-> in_box lo hi b)) ->
       in_bounds d c = true -> nearest_other d marks c m -> item a [iy c; ix c; iz c] = Some (signed_value (marks c) (Some m) r)) /\
    (forall c q, in_bounds d c = true -> other_class d marks c q -> straight c q -> nearest_other d marks c (distsq c q) ->
       item a [iy c; ix c; iz c] = Some (signed_value (marks c) (Some (distsq c q)) r)).
Proof.
  intros He Hs P Hr marks. destruct (arrays_3d env d r p He Hs P Hr) as (a & g & s & x & f & oob & E & A & X & K).
  exists a, g. split; [exact E|]. split; [|split].
  - intros. eapply (read_one d r marks (fun c => item a [iy c; ix c; iz c])); eauto.
  - intros. eapply (read_box d r marks (fun c => item a [iy c; ix c; iz c])); eauto.
  - intros. eapply (read_straight d r marks (fun c => item a [iy c; ix c; iz c])); eauto.
Qed.

(** One marked item in the corner of two rows of four. *)
Lemma row_marks b : in_bounds (D 4 2 1) b = true -> (marked_2d env_row b = true <-> b = I 0 0 0).
Proof.
  destruct b as [x y z]. intros B. apply bounds_of in B as (B1 & B2 & B3). cbn [nx ny nz] in B1, B2, B3.
  assert (z = 0) by lia. subst z.
  assert (Cx : x = 0 \/ x = 1 \/ x = 2 \/ x = 3) by lia. assert (Cy : y = 0 \/ y = 1) by lia.
  destruct Cx as [->|[->|[->| ->]]], Cy as [->| ->]; vm_compute; split; congruence.
Qed.

Lemma row_shapes : env_2d env_row 4 2 /\ size_ok (D 4 2 1) /\ usable_resolution one64 /\
  (forall b, in_bounds (D 4 2 1) b = true -> (marked_2d env_row b = true <-> b = I 0 0 0)) /\
  in_bounds (D 4 2 1) (I 2 1 0) = true /\ distsq (I 2 1 0) (I 0 0 0) = 5.
Proof.
  split; [exact env_row_ok|]. split; [unfold size_ok; cbn; lia|]. split; [exact one64_usable|]. split; [exact row_marks|].
  split; reflexivity.
Qed.

(** The same in a block of 3 x 2 x 2 with one marked item. *)
Definition env_single : ndarray Z := ND [2; 3; 2] [6; 2; 1] [0; 0; 0; 0; 0; 0; 0; 0; 0; 1; 0; 0].

Lemma env_single_ok : env_3d env_single (D 3 2 2).
Proof.
  split; [|reflexivity]. intros l H. cbn [env_single shape] in H.
  inversion H as [|i n l1 s1 A H1]; subst. inversion H1 as [|j m l2 s2 B H2]; subst.
  inversion H2 as [|k o l3 s3 C H3]; subst. inversion H3; subst.
  assert (Ci : i = 0 \/ i = 1) by lia. assert (Cj : j = 0 \/ j = 1 \/ j = 2) by lia.
  assert (Ck : k = 0 \/ k = 1) by lia.
  destruct Ci as [->| ->], Cj as [->|[->| ->]], Ck as [->| ->]; eexists; reflexivity.
Qed.

Lemma single_marks b : in_bounds (D 3 2 2) b = true -> (marked_3d env_single b = true <-> b = I 1 1 1).
Proof.
  destruct b as [x y z]. intros B. apply bounds_of in B as (B1 & B2 & B3). cbn [nx ny nz] in B1, B2, B3.
  assert (Cx : x = 0 \/ x = 1 \/ x = 2) by lia. assert (Cy : y = 0 \/ y = 1) by lia. assert (Cz : z = 0 \/ z = 1) by lia.
  destruct Cx as [->|[->| ->]], Cy as [->| ->], Cz as [->| ->]; vm_compute; split; congruence.
Qed.

Lemma single_shapes : env_3d env_single (D 3 2 2) /\ size_ok (D 3 2 2) /\ 0 < ncells (D 3 2 2) /\ usable_resolution one64 /\
  (forall b, in_bounds (D 3 2 2) b = true -> (marked_3d env_single b = true <-> b = I 1 1 1)) /\
  in_bounds (D 3 2 2) (I 2 0 0) = true /\ distsq (I 2 0 0) (I 1 1 1) = 3.
Proof.
  split; [exact env_single_ok|]. split; [unfold size_ok; cbn; lia|]. split; [reflexivity|]. split; [exact one64_usable|].
  split; [exact single_marks|]. split; reflexivity.
Qed.

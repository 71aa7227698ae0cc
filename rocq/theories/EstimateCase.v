(** Concrete maps for the estimates: one cell of its class in the middle. *)
From Coq Require Import Reals Lra Lia.
From Flocq Require Import Core.Core IEEE754.Binary IEEE754.Bits.
From Verif Require Import Base BaseFacts Floats FloatFacts FloatFacts2 Grid GridFacts DistSpec DistModel DistProofs DistThms
  CollisionMap SdfGen SdfSpec SdfGenProofs SdfThms SdfExact SdfShapes Arith SdfQuery SdfField QuerySpec
  QueryReal QueryThms QueryWitness DoubleSpec WallSpec WallExtract EstimateSpec EstimateThms EstimateMap.
Open Scope R_scope.

Lemma class_from_estimate d r filled s p q :
  field_of_map d r filled s -> geometry (real64 r) p ->
  in_bounds d (index_of p q) = true -> between_centers (real_field s) q ->
  exists e, estimate_distance (real_field s) p (to_world p q) = Ok (e, true) /\
    (5 / 8 * real64 r < e -> filled (index_of p q) = false) /\
    (e < - (5 / 8 * real64 r) -> filled (index_of p q) = true).
Proof.
  intros H1 H2 H3 H4. destruct (own_class d r filled s H1 p H2 q H3 H4) as (e & E & B).
  exists e. split; [exact E|]. destruct (filled (index_of p q)); split; intros L; auto; exfalso; lra.
Qed.

(** Exactly the cell [o] is in the class. *)
Definition only (o i : idx) : bool := idx_eqb i o.

Definition cube : dims := D 3 3 3.
Definition in_class (class : bool) (i : idx) : bool := if class then only (I 1 1 1) i else negb (only (I 1 1 1) i).
Definition corner : vec ieee := @V ieee one64 one64 one64.

Definition all_finite (d : dims) (s : sdf) : bool :=
  forallb (fun c => is_finite 24 128 (fst (sdf_get s c))) (sweep d).

Lemma real_one : real64 one64 = 1.
Proof.
  assert (E : same64 one64 (B754_finite 53 1024 false 4503599627370496 (-52) eq_refl) = true) by (vm_compute; reflexivity).
  apply same64_eq in E. rewrite E. unfold real64, B2R, F2R. cbn -[IZR]. lra.
Qed.

Lemma map_field d filled s x : size_ok d ->
  extract_sdf d one64 (fun i => Ok (filled i)) zero32 "map" = Ok (s, x) -> all_finite d s = true ->
  field_of_map d one64 filled s.
Proof.
  intros Hs E Fi. split; [exact Hs|]. split; [split; reflexivity|]. split.
  { rewrite real_one. change 1 with (bpow radix2 0). split; apply bpow_le; lia. }
  split. { exists (fun i => Ok (filled i)), zero32, "map"%string, x. split; [intros i Hi; reflexivity|exact E]. }
  intros c Hc. unfold all_finite in Fi. rewrite forallb_forall in Fi. apply Fi. apply sweep_in. exact Hc.
Qed.

Definition sign_check (class : bool) : bool :=
  match extract_sdf cube one64 (fun i => Ok (in_class class i)) zero32 "map" with
  | Ok (s, _) =>
      all_finite cube s &&
      match estimate_distance (sdf_field s) (ieee_pose one64) corner with
      | Ok (e, true) => if class then lt64 half64 e else lt64 e (b64_opp half64)
      | _ => false
      end
  | _ => false
  end.

Lemma sign_check_true class : sign_check class = true.
Proof. destruct class; vm_compute; reflexivity. Qed.

Lemma corner_cell : index_of (ieee_pose one64) corner = I 1 1 1.
Proof. vm_compute. reflexivity. Qed.

Lemma sign_fails : forall class, exists d filled s loc e,
  field_of_map d one64 filled s /\
  in_bounds d (index_of (ieee_pose one64) loc) = true /\ filled (index_of (ieee_pose one64) loc) = class /\
  estimate_distance (sdf_field s) (ieee_pose one64) loc = Ok (e, true) /\
  (if class then lt64 half64 e else lt64 e (b64_opp half64)) = true.
Proof.
  intros class. pose proof (sign_check_true class) as H. unfold sign_check in H.
  destruct (extract_sdf _ _ _ _ _) as [(s & x)| |] eqn:E; try discriminate H.
  apply andb_prop in H. destruct H as (Fi & H).
  destruct (estimate_distance _ _ _) as [(e & [|])| |] eqn:Ee; try discriminate H.
  exists cube, (in_class class), s, corner, e. rewrite corner_cell.
  split; [apply (map_field _ _ _ x); auto; vm_compute; repeat split; discriminate|].
  split; [reflexivity|]. split; [destruct class; reflexivity|]. split; [exact Ee|exact H].
Qed.

Lemma near_exact d r filled s j b : field_of_map d r filled s -> in_bounds d j = true ->
  other_class d filled j b -> (distsq j b <= 6)%Z -> exact_at d r filled s j.
Proof.
  intros H Hj O L z Hz. destruct (map_stored d r filled s H j Hj) as (w & E & _ & _ & N & _).
  pose proof (proj2 Hz b O). rewrite (N z Hz) in E by lia. exact E.
Qed.

Definition small_check : bool :=
  match extract_sdf (D 3 3 1) one64 (fun i => Ok (only (I 1 1 0) i)) zero32 "map" with
  | Ok (s, _) => all_finite (D 3 3 1) s
  | _ => false
  end.
Lemma small_check_true : small_check = true.
Proof. vm_compute. reflexivity. Qed.

Lemma only_spec o i : only o i = true <-> i = o.
Proof. unfold only. destruct (idx_eqb_spec i o) as [->|N]; split; intros; congruence. Qed.

Lemma estimate_case : exists s,
  let q := @V reals (1/2) 1 (1/2) in let p := plain_pose (real64 one64) in
  field_of_map (D 3 3 1) one64 (only (I 1 1 0)) s /\ geometry (real64 one64) p /\
  in_bounds (D 3 3 1) (index_of p q) = true /\ between_centers (real_field s) q /\
  flat (D 3 3 1) /\ in_bounds (D 3 3 1) (I 1 1 0) = true /\ only (I 1 1 0) (I 1 1 0) = true /\
  only (I 1 1 0) (index_of p q) = false /\
  (forall b, in_bounds (D 3 3 1) b = true -> only (I 1 1 0) b = true -> 1 <= gap q (center_of p b)) /\
  (forall j, in_bounds (D 3 3 1) j = true -> exact_at (D 3 3 1) one64 (only (I 1 1 0)) s j).
Proof.
  pose proof small_check_true as H. unfold small_check in H.
  destruct (extract_sdf _ _ _ _ _) as [(s & x)| |] eqn:E; try discriminate H.
  assert (M : field_of_map (D 3 3 1) one64 (only (I 1 1 0)) s).
  { apply (map_field _ _ _ x); auto. unfold size_ok. cbn. lia. }
  exists s. cbv zeta. destruct (map_dims _ _ _ _ M) as (FD & FR & _). rewrite real_one in *.
  set (q := @V reals (1/2) 1 (1/2)).
  assert (Ei : index_of (plain_pose 1) q = I 0 1 0).
  { unfold q. cbn [index_of plain_pose vx vy vz]. f_equal; apply Int_part_unique; lra. }
  rewrite Ei.
  split; [exact M|]. split; [apply plain_geometry; lra|]. split; [reflexivity|]. split.
  { unfold between_centers, between_centers_axis. rewrite FD, FR. cbn [nx ny nz]. unfold q. cbn [vx vy vz].
    split; [right; lra|]. split; [right; lra|left; reflexivity]. }
  split; [right; right; cbn; lia|]. split; [reflexivity|]. split; [reflexivity|]. split; [reflexivity|]. split.
  - intros b _ Ob. apply only_spec in Ob. subst b. unfold gap, q. cbn [center_of plain_pose vx vy vz ix iy iz].
    rewrite <- sqrt_1 at 1. apply sqrt_le_1_alt. lra.
  - intros j Hj. destruct (only (I 1 1 0) j) eqn:Oj.
    + apply only_spec in Oj. subst j. apply (near_exact _ _ _ _ _ (I 0 1 0) M Hj); [|vm_compute; discriminate].
      split; [reflexivity|discriminate].
    + apply (near_exact _ _ _ _ _ (I 1 1 0) M Hj).
      * split; [reflexivity|]. rewrite Oj. discriminate.
      * destruct j as [a b c]. apply in_bounds_spec in Hj. cbn in Hj. unfold distsq. cbn [ix iy iz].
        assert (forall v, 0 <= v < 3 -> (v - 1) * (v - 1) <= 1)%Z by (intros; nia).
        pose proof (H0 a). pose proof (H0 b). assert (c = 0%Z) by lia. subst c. lia.
Qed.

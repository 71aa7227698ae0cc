(** Where points projected out of collision end up, in extracted fields. *)
From Coq Require Import Bool Reals Lra Lia.
From Flocq Require Import Core.Core IEEE754.Binary IEEE754.Bits.
From Verif Require Import Base BaseFacts Floats FloatFacts FloatFacts2 Grid GridFacts DistSpec CollisionMap SdfGen SdfSpec Arith SdfQuery SdfField
  QuerySpec QueryProofs QueryReal QueryThms QueryWitness AutoDiffSpec DoubleSpec WallSpec EstimateSpec EstimateMap EstimateCase
  SlopeThms IdealSpec IdealMap OuterThms.
Open Scope R_scope.

(** ** Estimates in doubles, anywhere in the grid *)
Section Doubles.
Variables (d : dims) (r : binary64) (filled : idx -> bool) (s : sdf).
Hypothesis HM : field_of_map d r filled s.
Hypothesis HX : flat d \/ forall c, in_bounds d c = true -> exact_at d r filled s c.
Hypothesis Small : real64 r <= bpow radix2 80.
Variable loc : vec ieee.
Let q := real_vec loc.
Let p := plain_pose (real64 r).
Hypotheses (Up : usable_point loc) (Hi : in_bounds d (index_of (ieee_pose r) loc) = true)
  (HI : in_bounds d (index_of p q) = true).

Lemma doubles_outer_class : exists e, estimate_distance (sdf_field s) (ieee_pose r) loc = Ok (e, true) /\ finite_double e /\
  (4.21 * real64 r < real64 e -> filled (index_of p q) = false) /\
  (real64 e < - (4.21 * real64 r) -> filled (index_of p q) = true) /\
  (flat d -> (2.17 * real64 r < real64 e -> filled (index_of p q) = false) /\
             (real64 e < - (2.17 * real64 r) -> filled (index_of p q) = true)).
Proof.
  destruct (map_dims _ _ _ _ HM) as (_ & _ & Rp).
  destruct (transfer d r filled s HM Small loc _ Up Hi HI (outer_class d r filled s HM HX p (plain_ok d r filled s HM) q HI))
    as (e & E & Fe & e' & (P1 & P2 & P3) & Err).
  exists e. split; [exact E|]. split; [exact Fe|]. apply Rabs_le_inv in Err.
  split; [intros; apply P1; lra|]. split; [intros; apply P2; lra|]. intros Fl. destruct (P3 Fl) as (Q1 & Q2).
  split; intros; [apply Q1|apply Q2]; lra.
Qed.

Lemma doubles_outer_above b : in_bounds d b = true -> filled b = true ->
  exists e, estimate_distance (sdf_field s) (ieee_pose r) loc = Ok (e, true) /\ finite_double e /\
  (flat d -> real64 e <= 1.42 * gap q (center_of p b) + 3.3 * real64 r) /\
  ((forall c, in_bounds d c = true -> exact_at d r filled s c) ->
   real64 e <= (1 + bpow radix2 (-23)) * gap q (center_of p b) + 4.83 * real64 r).
Proof.
  intros Hb Fb. destruct (map_dims _ _ _ _ HM) as (_ & _ & Rp).
  destruct (transfer d r filled s HM Small loc _ Up Hi HI (outer_above d r filled s HM HX p (plain_ok d r filled s HM) q HI b Hb Fb))
    as (e & E & Fe & e' & (P1 & P2) & Err).
  exists e. split; [exact E|]. split; [exact Fe|]. apply Rabs_le_inv in Err.
  split; intros X; [specialize (P1 X)|specialize (P2 X)]; lra.
Qed.
End Doubles.

(** ** Projection in exact arithmetic *)
Section Exact.
Variables (d : dims) (r : binary64) (filled : idx -> bool) (s : sdf).
Hypothesis HM : field_of_map d r filled s.
Variable p : pose reals.
Hypothesis G : geometry (real64 r) p.
Variables (fuel : nat) (loc : rvec) (md mult : R) (w : rvec).
Hypothesis HP : project_out fuel (real_field s) p loc md mult = Finished w.
Let q := to_grid p w.

Lemma out_estimate : in_bounds d (index_of p q) = true /\
  exists e, estimate_distance (real_field s) p (to_world p q) = Ok (e, true) /\ md < e.
Proof using HM G HP.
  destruct (map_dims _ _ _ _ HM) as (FD & FR & Rp).
  pose proof (project_out_real fuel (real_field s) p loc md mult) as K. rewrite FR, HP in K.
  destruct (K G) as (e & E & L). unfold q. rewrite (g_back_and_there _ _ G). split; [|eauto].
  unfold estimate_distance in E. rewrite FD in E. destruct (in_bounds d (index_of p (to_grid p w))); [reflexivity|discriminate E].
Qed.

Lemma out_free :
  (between_centers (real_field s) q -> 5 / 8 * real64 r <= md -> filled (index_of p q) = false) /\
  (flat d -> 2.16 * real64 r <= md -> filled (index_of p q) = false) /\
  ((forall c, in_bounds d c = true -> exact_at d r filled s c) -> 4.2 * real64 r <= md -> filled (index_of p q) = false).
Proof using HM G HP.
  destruct out_estimate as (B & e & E & L).
  split; [|split].
  - intros C M. destruct (class_from_estimate d r filled s p q HM G B C) as (e' & E' & P & _).
    rewrite E in E'. injection E' as <-. apply P. lra.
  - intros Fl M. destruct (outer_class d r filled s HM (or_introl Fl) p G q B) as (e' & E' & _ & _ & P).
    rewrite E in E'. injection E' as <-. apply (P Fl). lra.
  - intros X M. destruct (outer_class d r filled s HM (or_intror X) p G q B) as (e' & E' & P & _).
    rewrite E in E'. injection E' as <-. apply P. lra.
Qed.

Lemma out_clear b : in_bounds d b = true -> filled b = true ->
  (between_centers (real_field s) q -> flat d -> md < 1.42 * gap q (center_of p b) + 3 / 4 * real64 r) /\
  (between_centers (real_field s) q ->
   (forall j, in_bounds d j = true -> within_one (index_of p q) j -> exact_at d r filled s j) ->
   md < (1 + bpow radix2 (-23)) * gap q (center_of p b) + 3 / 8 * real64 r) /\
  (flat d -> md < 1.42 * gap q (center_of p b) + 3.29 * real64 r) /\
  ((forall c, in_bounds d c = true -> exact_at d r filled s c) ->
   md < (1 + bpow radix2 (-23)) * gap q (center_of p b) + 4.82 * real64 r).
Proof using HM G HP.
  intros Hb Fb. destruct out_estimate as (B & e & E & L).
  split; [|split; [|split]].
  - intros C Fl. destruct (clearance_planar d r filled s HM p G q B C b Fl Hb Fb) as (e' & E' & P).
    rewrite E in E'. injection E' as <-. lra.
  - intros C X. destruct (clearance_exact d r filled s HM p G q B C b Hb Fb X) as (e' & E' & P).
    rewrite E in E'. injection E' as <-. lra.
  - intros Fl. destruct (outer_above d r filled s HM (or_introl Fl) p G q B b Hb Fb) as (e' & E' & P & _).
    rewrite E in E'. injection E' as <-. specialize (P Fl). lra.
  - intros X. destruct (outer_above d r filled s HM (or_intror X) p G q B b Hb Fb) as (e' & E' & _ & P).
    rewrite E in E'. injection E' as <-. specialize (P X). lra.
Qed.
End Exact.

(** ** Projection in doubles *)
Lemma finite_not_nan a : finite_double a -> is_nan 53 1024 a = false.
Proof. unfold finite_double. destruct a; intros H; try discriminate H; reflexivity. Qed.

Lemma le64_real a b : finite_double a -> finite_double b -> le64 a b = false -> real64 b < real64 a.
Proof.
  intros Ha Hb H. pose proof (le64_spec a b (finite_not_nan a Ha) (finite_not_nan b Hb)) as K.
  rewrite H in K. unfold finite_double in Ha, Hb. unfold real64, xr64 in *.
  rewrite (proj1 (xr_finite 53 1024 a Ha)), (proj1 (xr_finite 53 1024 b Hb)) in K.
  apply Rnot_le_lt. intros C. apply K in C. discriminate C.
Qed.

Lemma lt64_not_nan a b : lt64 a b = true -> is_nan 53 1024 a = false /\ is_nan 53 1024 b = false.
Proof. unfold lt64. destruct a as [| | |], b as [| | |]; intros H; try (split; reflexivity); discriminate H. Qed.

Lemma le64_not_nan a b : le64 a b = true -> is_nan 53 1024 a = false /\ is_nan 53 1024 b = false.
Proof. unfold le64, lt64, eq64. destruct a as [| | |], b as [| | |]; intros H; try (split; reflexivity); discriminate H. Qed.

Section InDoubles.
Variables (d : dims) (r : binary64) (filled : idx -> bool) (s : sdf).
Hypothesis HM : field_of_map d r filled s.
Hypothesis Small : real64 r <= bpow radix2 80.
Variables (fuel : nat) (loc : vec ieee) (md mult : binary64) (w : vec ieee).
Hypothesis Fmd : finite_double md.
Hypothesis HP : project_out fuel (sdf_field s) (ieee_pose r) loc md mult = Finished w.
Let q := real_vec w.
Let p := plain_pose (real64 r).
Hypotheses (Fw : finite_vec w) (HI : in_bounds d (index_of p q) = true).

Lemma out_usable : usable_point w.
Proof using HM Small Fw HI.
  destruct (map_dims _ _ _ _ HM) as (_ & _ & Rp). pose proof (plain_ok d r filled s HM) as G. fold p in G.
  pose proof HM as (Hs & _). destruct (side_bound d Hs) as (Sx & Sy & Sz).
  pose proof HI as B. apply in_bounds_spec in B. destruct B as (Bx & By & Bz).
  assert (K : forall v i n, real64 r * IZR i <= v < real64 r * (IZR i + 1) -> (0 <= i < n)%Z -> (n <= 46340)%Z -> Rabs v <= bpow radix2 800).
  { intros v i n Hv Hi Hn. assert (0 <= IZR i) by (apply IZR_le; lia). assert (IZR i <= 46340) by (apply IZR_le; lia).
    assert (0 <= real64 r * IZR i) by (apply Rmult_le_pos; lra).
    assert (real64 r * (IZR i + 1) <= bpow radix2 80 * bpow radix2 16).
    { apply Rmult_le_compat; try lra. change (bpow radix2 16) with 65536. lra. }
    rewrite <- bpow_plus in H2. assert (bpow radix2 (80 + 16) <= bpow radix2 800) by (apply bpow_le; lia).
    rewrite Rabs_pos_eq; lra. }
  split; [exact Fw|]. split; [|split].
  - exact (K _ _ _ (g_index_x _ _ G q) Bx Sx).
  - exact (K _ _ _ (g_index_y _ _ G q) By Sy).
  - exact (K _ _ _ (g_index_z _ _ G q) Bz Sz).
Qed.

Lemma out_doubles : in_bounds d (index_of (ieee_pose r) w) = true /\
  exists e, estimate_distance (sdf_field s) (ieee_pose r) w = Ok (e, true) /\ real64 md < real64 e.
Proof using HM Small Fmd HP Fw HI.
  destruct (field_parts d r filled s HM) as (Ed & Er).
  assert (K : in_bounds d (index_of (ieee_pose r) w) = true /\
    exists e, estimate_distance (sdf_field s) (ieee_pose r) w = Ok (e, true) /\ le64 e md = false).
  { unfold project_out in HP. cbv zeta in HP. set (l1 := if in_bounds _ _ then _ else _) in HP.
    pose proof (project_out_grid_spec (A := ieee) fuel (sdf_field s) (ieee_pose r) (to_grid (ieee_pose r) l1) md mult) as H.
    destruct (project_out_grid_frame fuel (sdf_field s) (ieee_pose r) (to_grid (ieee_pose r) l1) md mult) as [a b c|q1|why];
      try discriminate HP.
    injection HP as <-. destruct H as (e & B & E & L). rewrite Ed in B. split; [exact B|].
    exists e. split; [|exact L]. unfold estimate_distance.
    change (to_grid (ieee_pose r) q1) with q1. rewrite Ed, B, E. reflexivity. }
  destruct K as (B & e & E & L). split; [exact B|]. exists e. split; [exact E|].
  destruct (map_doubles d r filled s HM Small w out_usable B HI) as (e' & E' & Fe & _).
  rewrite E in E'. assert (e = e') by congruence. subst e'. apply le64_real; assumption.
Qed.

Lemma out_free_doubles :
  (between_centers (real_field s) q -> 0.626 * real64 r <= real64 md -> filled (index_of p q) = false) /\
  (flat d -> 2.17 * real64 r <= real64 md -> filled (index_of p q) = false) /\
  ((forall c, in_bounds d c = true -> exact_at d r filled s c) -> 4.21 * real64 r <= real64 md -> filled (index_of p q) = false).
Proof using HM Small Fmd HP Fw HI.
  destruct out_doubles as (B & e & E & L). pose proof out_usable as U.
  split; [|split].
  - intros C M. destruct (doubles_class d r filled s HM Small w U B HI C) as (e' & E' & _ & P & _).
    assert (e = e') by congruence. subst e'. apply P. lra.
  - intros Fl M. destruct (doubles_outer_class d r filled s HM (or_introl Fl) Small w U B HI) as (e' & E' & _ & _ & _ & P).
    assert (e = e') by congruence. subst e'. apply (P Fl). lra.
  - intros X M. destruct (doubles_outer_class d r filled s HM (or_intror X) Small w U B HI) as (e' & E' & _ & P & _).
    assert (e = e') by congruence. subst e'. apply P. lra.
Qed.

Lemma out_clear_doubles b : in_bounds d b = true -> filled b = true ->
  (between_centers (real_field s) q -> flat d -> real64 md < 1.42 * gap q (center_of p b) + 0.751 * real64 r) /\
  (between_centers (real_field s) q ->
   (forall j, in_bounds d j = true -> within_one (index_of p q) j -> exact_at d r filled s j) ->
   real64 md < (1 + bpow radix2 (-23)) * gap q (center_of p b) + 0.376 * real64 r) /\
  (flat d -> real64 md < 1.42 * gap q (center_of p b) + 3.3 * real64 r) /\
  ((forall c, in_bounds d c = true -> exact_at d r filled s c) ->
   real64 md < (1 + bpow radix2 (-23)) * gap q (center_of p b) + 4.83 * real64 r).
Proof using HM Small Fmd HP Fw HI.
  intros Hb Fb. destruct out_doubles as (B & e & E & L). pose proof out_usable as U.
  split; [|split; [|split]].
  - intros C Fl. destruct (doubles_planar d r filled s HM Small w U B HI C b Fl Hb Fb) as (e' & E' & _ & P).
    assert (e = e') by congruence. subst e'. fold q p in P. lra.
  - intros C X. destruct (doubles_exact d r filled s HM Small w U B HI C b Hb Fb X) as (e' & E' & _ & P).
    assert (e = e') by congruence. subst e'. fold q p in P. lra.
  - intros Fl. destruct (doubles_outer_above d r filled s HM (or_introl Fl) Small w U B HI b Hb Fb) as (e' & E' & _ & P & _).
    assert (e = e') by congruence. subst e'. specialize (P Fl). fold q p in P. lra.
  - intros X. destruct (doubles_outer_above d r filled s HM (or_intror X) Small w U B HI b Hb Fb) as (e' & E' & _ & _ & P).
    assert (e = e') by congruence. subst e'. specialize (P X). fold q p in P. lra.
Qed.
End InDoubles.

(** ** With a smaller margin *)
Lemma out_fails : exists d filled s loc,
  field_of_map d one64 filled s /\
  in_bounds d (index_of (ieee_pose one64) loc) = true /\ filled (index_of (ieee_pose one64) loc) = true /\
  forall fuel md mult, le64 md half64 = true ->
    project_out (S fuel) (sdf_field s) (ieee_pose one64) loc md mult = Finished loc.
Proof.
  destruct (sign_fails true) as (d & filled & s & loc & e & H & B & Fl & E & L).
  exists d, filled, s, loc. split; [exact H|]. split; [exact B|]. split; [exact Fl|]. intros fuel md mult M.
  destruct (field_parts d one64 filled s H) as (Ed & _).
  assert (Lm : le64 e md = false).
  { destruct (lt64_not_nan _ _ L) as (_ & Ne). destruct (le64_not_nan _ _ M) as (Nm & Nh).
    apply (lt64_spec _ _ Nh Ne) in L. apply (le64_spec _ _ Nm Nh) in M.
    destruct (le64 e md) eqn:C; [|reflexivity]. apply (le64_spec _ _ Ne Nm) in C. lra. }
  unfold estimate_distance in E. rewrite Ed in E. change (to_grid (ieee_pose one64) loc) with loc in E. rewrite B in E.
  unfold project_out, project_out_grid_frame. cbv zeta. rewrite Ed. change (to_grid (ieee_pose one64) loc) with loc.
  rewrite B. change (to_grid (ieee_pose one64) loc) with loc.
  destruct (estimate_from_neighbors (sdf_field s) (ieee_pose one64) loc (index_of (ieee_pose one64) loc)) as [e'| |];
    try discriminate E. cbn [bind] in E. assert (e' = e) by congruence. subst e'.
  cbn [project_loop]. unfold project_step. change (dle ieee e md) with (le64 e md). rewrite Lm. reflexivity.
Qed.

(** ** A case: a row of nine cells, the first one filled *)
Definition row9 : dims := D 9 1 1.
Definition wall_point : vec ieee := @V ieee half64 half64 half64.
Definition three64 : binary64 := b64_of_Z 3.
(** Where the projection to distance 3 ends. *)
Definition end_point : vec ieee := @V ieee (B754_finite 53 1024 false 4503613701119332 (-50) eq_refl) half64 half64.

Definition row_check : bool :=
  match extract_sdf row9 one64 (fun i => Ok (only (I 0 0 0) i)) zero32 "map" with
  | Ok (s, _) =>
      all_finite row9 s &&
      match project_out 100 (sdf_field s) (ieee_pose one64) wall_point three64 eighth with
      | Finished w => same64 (vx w) (vx end_point) && same64 (vy w) (vy end_point) && same64 (vz w) (vz end_point)
      | _ => false
      end
  | _ => false
  end.
Lemma row_check_true : row_check = true.
Proof. vm_compute. reflexivity. Qed.

Lemma row_exact s : field_of_map row9 one64 (only (I 0 0 0)) s ->
  forall c, in_bounds row9 c = true -> exact_at row9 one64 (only (I 0 0 0)) s c.
Proof.
  intros M c Hc. destruct (only (I 0 0 0) c) eqn:O.
  - apply only_spec in O. subst c. apply (near_exact _ _ _ _ _ (I 1 0 0) M Hc); [|vm_compute; discriminate].
    split; [reflexivity|discriminate].
  - intros z Hz. destruct (map_stored _ _ _ _ M c Hc) as (w & E & _ & (b & (_ & Ob) & Db) & _).
    assert (One : forall k, only (I 0 0 0) k <> only (I 0 0 0) c -> k = I 0 0 0).
    { intros k Hk. rewrite O in Hk. apply only_spec. destruct (only (I 0 0 0) k); congruence. }
    apply One in Ob. subst b. destruct Hz as ((k & (_ & Ok_) & Dk) & _). apply One in Ok_. subst k.
    rewrite E. congruence.
Qed.

Lemma real_end : real_vec end_point = @V reals (4503613701119332 / 1125899906842624) (1/2) (1/2).
Proof.
  unfold real_vec, end_point. cbn [vx vy vz]. rewrite real_half. f_equal.
Qed.

Lemma project_case : exists s,
  let q := real_vec end_point in let p := plain_pose (real64 one64) in
  field_of_map row9 one64 (only (I 0 0 0)) s /\ real64 one64 <= bpow radix2 80 /\
  finite_double three64 /\ 2.17 * real64 one64 <= real64 three64 /\
  project_out 100 (sdf_field s) (ieee_pose one64) wall_point three64 eighth = Finished end_point /\
  only (I 0 0 0) (index_of (ieee_pose one64) wall_point) = true /\
  finite_vec end_point /\ in_bounds row9 (index_of p q) = true /\ between_centers (real_field s) q /\
  flat row9 /\ in_bounds row9 (I 0 0 0) = true /\ only (I 0 0 0) (I 0 0 0) = true /\
  (forall c, in_bounds row9 c = true -> exact_at row9 one64 (only (I 0 0 0)) s c).
Proof.
  pose proof row_check_true as H. unfold row_check in H.
  destruct (extract_sdf _ _ _ _ _) as [(s & x)| |] eqn:E; try discriminate H.
  apply andb_prop in H. destruct H as (Fi & H).
  assert (M : field_of_map row9 one64 (only (I 0 0 0)) s).
  { apply (map_field _ _ _ x); auto. unfold size_ok. cbn. lia. }
  destruct (project_out _ _ _ _ _ _) as [a b c|w|why] eqn:P; try discriminate H.
  apply andb_prop in H. destruct H as (H & Hz). apply andb_prop in H. destruct H as (Hx & Hy).
  apply same64_eq in Hx. apply same64_eq in Hy. apply same64_eq in Hz.
  assert (w = end_point) by (destruct w as [wx wy wz]; unfold end_point in *; cbn [vx vy vz] in *; subst; reflexivity). subst w.
  exists s. cbv zeta. destruct (map_dims _ _ _ _ M) as (FD & FR & _). rewrite real_one in *. rewrite real_end.
  set (q := @V reals (4503613701119332 / 1125899906842624) (1/2) (1/2)).
  assert (Ei : index_of (plain_pose 1) q = I 4 0 0).
  { unfold q. cbn [index_of plain_pose vx vy vz]. f_equal; apply Int_part_unique; lra. }
  rewrite Ei.
  split; [exact M|]. split. { change 1 with (bpow radix2 0). apply bpow_le. lia. }
  split; [vm_compute; reflexivity|]. split.
  { assert (E3 : same64 three64 (B754_finite 53 1024 false 6755399441055744 (-51) eq_refl) = true) by (vm_compute; reflexivity).
    apply same64_eq in E3. rewrite E3. unfold real64, B2R, F2R. cbn -[IZR Rdiv]. lra. }
  split; [exact P|]. split; [vm_compute; reflexivity|]. split; [repeat split; vm_compute; reflexivity|]. split; [reflexivity|]. split.
  { unfold between_centers, between_centers_axis. rewrite FD, FR. cbn [nx ny nz row9]. unfold q. cbn [vx vy vz].
    split; [right; lra|]. split; left; reflexivity. }
  split; [right; right; cbn; lia|]. split; [reflexivity|]. split; [reflexivity|]. exact (row_exact s M).
Qed.

(** In exact arithmetic a point far enough away stays. *)
Lemma exact_case : exists s, let p := plain_pose (real64 one64) in let w := @V reals (17/2) (1/2) (1/2) in
  field_of_map row9 one64 (only (I 0 0 0)) s /\ geometry (real64 one64) p /\
  project_out 1 (real_field s) p w 3 1 = Finished w /\
  between_centers (real_field s) (to_grid p w) /\ flat row9 /\ in_bounds row9 (I 0 0 0) = true /\ only (I 0 0 0) (I 0 0 0) = true /\
  (forall c, in_bounds row9 c = true -> exact_at row9 one64 (only (I 0 0 0)) s c).
Proof.
  destruct project_case as (s & M & _). exists s. cbv zeta. pose proof (plain_ok _ _ _ _ M) as G.
  destruct (map_dims _ _ _ _ M) as (FD & FR & _). rewrite real_one in *.
  set (q := @V reals (17/2) (1/2) (1/2)).
  assert (Ei : index_of (plain_pose 1) q = I 8 0 0).
  { unfold q. cbn [index_of plain_pose vx vy vz]. f_equal; apply Int_part_unique; lra. }
  assert (Fl : flat row9) by (right; right; cbn; lia).
  split; [exact M|]. split; [exact G|]. split.
  - assert (B : in_bounds row9 (index_of (plain_pose 1) q) = true) by (rewrite Ei; reflexivity).
    pose proof (outer_below row9 one64 (only (I 0 0 0)) s M (or_introl Fl) (plain_pose 1)) as K. rewrite real_one in K.
    destruct (K G q B 8) as (e & E & _ & L).
    + lra.
    + rewrite Ei. reflexivity.
    + intros b _ Ob. apply only_spec in Ob. subst b. unfold gap, q. cbn [center_of plain_pose vx vy vz ix iy iz].
      rewrite <- (sqrt_square 8) at 1 by lra. apply sqrt_le_1_alt. lra.
    + specialize (L Fl). assert (bpow radix2 (-23) <= 0.01) by (cbn; lra).
      apply (project_out_unchanged 0 (real_field s) (plain_pose 1) q 3 1 e); [rewrite FR; exact G|exact E|]. lra.
  - split.
    { change (to_grid (plain_pose 1) q) with q. unfold between_centers, between_centers_axis. rewrite FD, FR. cbn [nx ny nz row9].
      unfold q. cbn [vx vy vz]. split; [right; lra|]. split; left; reflexivity. }
    split; [exact Fl|]. split; [reflexivity|]. split; [reflexivity|]. exact (row_exact s M).
Qed.

(** The same row, a point in the outer half of the last cell. *)
Definition outer_point64 : vec ieee := @V ieee (B754_finite 53 1024 false 4925812092436480 (-49) eq_refl) half64 half64.
Lemma outer_case : exists s, let q := real_vec outer_point64 in let p := plain_pose (real64 one64) in
  field_of_map row9 one64 (only (I 0 0 0)) s /\ real64 one64 <= bpow radix2 80 /\ geometry (real64 one64) p /\
  usable_point outer_point64 /\ in_bounds row9 (index_of (ieee_pose one64) outer_point64) = true /\
  in_bounds row9 (index_of p q) = true /\ ~ between_centers (real_field s) q /\
  only (I 0 0 0) (index_of p q) = false /\ flat row9 /\
  in_bounds row9 (I 0 0 0) = true /\ only (I 0 0 0) (I 0 0 0) = true /\
  (forall b, in_bounds row9 b = true -> only (I 0 0 0) b = true -> 8 <= gap q (center_of p b)) /\
  (forall c, in_bounds row9 c = true -> exact_at row9 one64 (only (I 0 0 0)) s c).
Proof.
  destruct project_case as (s & M & Sm & _). exists s. cbv zeta. pose proof (plain_ok _ _ _ _ M) as G.
  destruct (map_dims _ _ _ _ M) as (FD & FR & _). rewrite real_one in *.
  assert (Eq : real_vec outer_point64 = @V reals (35/4) (1/2) (1/2)).
  { unfold real_vec, outer_point64. cbn [vx vy vz]. rewrite real_half. f_equal.
    unfold real64, B2R, F2R. cbn -[IZR Rdiv]. lra. }
  assert (U : usable_point outer_point64).
  { unfold usable_point, finite_vec, finite_double. 
    pose proof (f_equal vx Eq) as Ex. pose proof (f_equal vy Eq) as Ey. pose proof (f_equal vz Eq) as Ez.
    cbn [vx vy vz real_vec] in Ex, Ey, Ez. rewrite Ex, Ey, Ez.
    assert (65536 <= bpow radix2 800) by (change 65536 with (bpow radix2 16); apply bpow_le; lia).
    repeat split; try reflexivity; rewrite Rabs_pos_eq; lra. }
  rewrite Eq. set (q := @V reals (35/4) (1/2) (1/2)).
  assert (Ei : index_of (plain_pose 1) q = I 8 0 0).
  { unfold q. cbn [index_of plain_pose vx vy vz]. f_equal; apply Int_part_unique; lra. }
  rewrite Ei.
  split; [exact M|]. split; [exact Sm|]. split; [exact G|]. split; [exact U|]. split; [vm_compute; reflexivity|].
  split; [reflexivity|]. split.
  { intros (K & _). unfold between_centers_axis in K. rewrite FD, FR in K. cbn [nx row9] in K. unfold q in K. cbn [vx] in K.
    destruct K as [K|K]; [discriminate K|]. lra. }
  split; [reflexivity|]. split; [right; right; cbn; lia|]. split; [reflexivity|]. split; [reflexivity|]. split; [|exact (row_exact s M)].
  intros b _ Ob. apply only_spec in Ob. subst b. unfold gap, q. cbn [center_of plain_pose vx vy vz ix iy iz].
  rewrite <- (sqrt_square 8) at 1 by lra. apply sqrt_le_1_alt. lra.
Qed.

(** How steep extracted fields are. *)
From Coq Require Import Bool Reals Lra Lia.
From Flocq Require Import Core.Core IEEE754.Binary IEEE754.Bits.
From Verif Require Import Base BaseFacts Floats Grid GridFacts DistSpec DistModel DistProofs DistThms DistPlanar DistCompare
  CollisionMap SdfGen SdfSpec SdfGenProofs SdfThms SdfExact SdfShapes Arith SdfQuery SdfField QuerySpec QueryReal QueryThms
  AutoDiffSpec AutoDiffThms EstimateSteps DoubleSpec WallSpec WallExtract QueryWitness EstimateSpec EstimateMap EstimateCase.
Open Scope R_scope.

Section Slope.
Variables (d : dims) (r : binary64) (filled : idx -> bool) (s : sdf).
Hypothesis HM : field_of_map d r filled s.
Hypothesis HX : flat d \/ forall c, in_bounds d c = true -> exact_at d r filled s c.
Let R_ := real64 r.

(** Squares the values of two neighbours of one class come from. *)
Lemma slope_squares a b : in_bounds d a = true -> in_bounds d b = true -> distsq a b = 1%Z -> filled a = filled b ->
  exists m k, fst (sdf_get s a) = signed_value (filled a) (Some m) r /\
    fst (sdf_get s b) = signed_value (filled b) (Some k) r /\
    (1 <= m <= 2147483647)%Z /\ (1 <= k <= 2147483647)%Z /\ Rabs (sqrt (IZR m) - sqrt (IZR k)) <= 1.
Proof.
  intros Ha Hb Hd Hab.
  assert (Range : forall c p, in_bounds d c = true -> other_class d filled c p -> (1 <= distsq c p <= 2147483647)%Z).
  { intros c p Hc (Bp & Np). pose proof HM as (Hs & _). pose proof (distsq_bound d Hs c p Hc Bp).
    assert (distsq c p <> 0%Z); [|lia]. intros Z0. apply distsq_zero in Z0. congruence. }
  destruct HX as [Fl|X].
  - pose proof HM as (Hs & Hr & _ & (isf & oob & frame & x & A & E) & _).
    destruct (map_stored d r filled s HM a Ha) as (z & _ & _ & (p & Op & _) & _).
    destruct (own_field d r oob frame isf filled s x Hs Hr A E a Ha) as (f & B & Va).
    destruct (own_field d r oob frame isf filled s x Hs Hr A E b Hb) as (f' & B' & Vb).
    assert (f = f') by (rewrite <- Hab in B'; congruence). subst f'.
    pose proof (cells_of_inside d (others filled (filled a))) as In_.
    assert (Ip : In p (cells_of d (others filled (filled a)))) by (apply others_spec; auto).
    destruct (planar_finite d _ f a p Hs Fl In_ B Ha Ip) as (m & Em & _).
    destruct (planar_finite d _ f b p Hs Fl In_ B Hb Ip) as (k & Ek & _).
    exists m, k. rewrite Va, Vb, Em, Ek. split; [reflexivity|]. split; [reflexivity|].
    destruct (build_realised d _ Hs In_ f B a m Ha Em) as (pa & Ipa & <-). apply others_spec in Ipa.
    rewrite Hab in B.
    destruct (build_realised d _ Hs (cells_of_inside d _) f B b k Hb Ek) as (pb & Ipb & <-). apply others_spec in Ipb.
    split; [apply Range; auto|]. split; [apply Range; auto|].
    exact (planar_step d _ f a b _ _ Hs Fl (cells_of_inside d _) B Ha Hb Hd Em Ek).
  - assert (W : forall c, in_bounds d c = true -> exists w, nearest_distsq (cells_of d (others filled (filled c))) c w /\
       fst (sdf_get s c) = signed_value (filled c) (Some w) r /\ (1 <= w <= 2147483647)%Z).
    { intros c Hc. destruct (map_stored d r filled s HM c Hc) as (z & _ & _ & (p & Op & _) & _).
      destruct (nearest_exists (cells_of d (others filled (filled c))) c p) as (w & Hw); [apply others_spec; exact Op|].
      exists w. split; [exact Hw|]. apply others_nearest in Hw. split; [exact (X c Hc w Hw)|].
      destruct Hw as ((p' & Op' & <-) & _). apply Range; auto. }
    destruct (W a Ha) as (m & Nm & Em & Rm). destruct (W b Hb) as (k & Nk & Ek & Rk).
    exists m, k. repeat (split; [assumption|]). rewrite <- Hab in Nk. exact (nearest_step _ a b m k Hd Nm Nk).
Qed.

Lemma face_distsq a b : share_face a b -> distsq a b = 1%Z.
Proof.
  unfold share_face, distsq. intros H.
  assert (S : forall x, (x * x = Z.abs x * Z.abs x)%Z) by (intros; nia).
  rewrite (S (ix a - ix b)%Z), (S (iy a - iy b)%Z), (S (iz a - iz b)%Z).
  assert (C : (Z.abs (ix a - ix b) = 1 /\ Z.abs (iy a - iy b) = 0 /\ Z.abs (iz a - iz b) = 0)%Z \/
              (Z.abs (ix a - ix b) = 0 /\ Z.abs (iy a - iy b) = 1 /\ Z.abs (iz a - iz b) = 0)%Z \/
              (Z.abs (ix a - ix b) = 0 /\ Z.abs (iy a - iy b) = 0 /\ Z.abs (iz a - iz b) = 1)%Z) by lia.
  destruct C as [(-> & -> & ->)|[(-> & -> & ->)|(-> & -> & ->)]]; reflexivity.
Qed.

(** Centred values of neighbours differ by one cell, up to rounding. *)
Lemma map_gentle : gentle (real_field s) (1.02 * real64 r).
Proof.
  destruct (map_dims d r filled s HM) as (FD & FR & Rp).
  intros a b Ha Hb F. rewrite FD in Ha, Hb. pose proof (face_distsq a b F) as Hd.
  pose proof (eps_small) as Es. set (eps := bpow radix2 (-23)) in *.
  destruct (bool_dec (filled a) (filled b)) as [Hab|Hab].
  - destruct (slope_squares a b Ha Hb Hd Hab) as (m & k & Em & Ek & Rm & Rk & St).
    destruct (map_square d r filled s HM a m Ha Em Rm) as (va & _ & Va & _ & Ca).
    destruct (map_square d r filled s HM b k Hb Ek Rk) as (vb & _ & Vb & _ & Cb).
    fold eps in Va, Vb. pose proof (root_bound m Rm) as Bm. pose proof (root_bound k Rk) as Bk.
    rewrite Ca, Cb, <- Hab. set (sm := sqrt (IZR m)) in *. set (sk := sqrt (IZR k)) in *. clearbody sm sk.
    apply Rabs_le_inv in St. set (q := real64 r) in *. clearbody q.
    assert (T1 : eps * (q * sm) <= 0.006 * q).
    { replace (0.006 * q) with (1 / 8000000 * (q * 48000)) by lra. apply Rmult_le_compat; try lra.
      - apply Rmult_le_pos; lra.
      - apply Rmult_le_compat_l; lra. }
    assert (T2 : eps * (q * sk) <= 0.006 * q).
    { replace (0.006 * q) with (1 / 8000000 * (q * 48000)) by lra. apply Rmult_le_compat; try lra.
      - apply Rmult_le_pos; lra.
      - apply Rmult_le_compat_l; lra. }
    assert (T3 : q * (sm - sk) <= q * 1) by (apply Rmult_le_compat_l; lra).
    assert (T4 : q * (sk - sm) <= q * 1) by (apply Rmult_le_compat_l; lra).
    apply Rabs_le. destruct (filled a); lra.
  - assert (One : forall c c', in_bounds d c = true -> in_bounds d c' = true -> distsq c c' = 1%Z -> filled c <> filled c' ->
      exists v, (1 - eps) * real64 r <= v <= (1 + eps) * real64 r /\
        centered_value (real_field s) c = (if filled c then - (v - real64 r / 2) else v - real64 r / 2)).
    { intros c c' Hc Hc' D1 Ne. destruct (map_value d r filled s HM c Hc) as (z & v & _ & Rz & (p & Op & Dp) & N6 & _ & _ & V & C).
      assert (Z1 : z = 1%Z).
      { apply N6; [|lia]. split; [exists c'; split; [split; [exact Hc'|congruence]|exact D1]|].
        intros p' (Bp' & Np'). assert (distsq c p' <> 0%Z); [|pose proof (distsq_nonneg c p'); lia].
        intros Z0. apply distsq_zero in Z0. congruence. }
      rewrite Z1 in V. exists v. split; [|exact C]. rewrite sqrt_1, Rmult_1_r in V. exact V. }
    destruct (One a b Ha Hb Hd Hab) as (va & Va & Ca).
    rewrite distsq_sym in Hd. destruct (One b a Hb Ha Hd) as (vb & Vb & Cb); [congruence|].
    rewrite Ca, Cb. set (q := real64 r) in *. clearbody q.
    assert (eps * q <= 0.006 * q) by (apply Rmult_le_compat_r; lra).
    apply Rabs_le. destruct (filled a), (filled b); try congruence; lra.
Qed.

(** The estimate follows the point no faster. *)
Lemma map_lipschitz p q q' : geometry (real64 r) p ->
  in_bounds d (index_of p q) = true -> in_bounds d (index_of p q') = true ->
  between_centers (real_field s) q -> between_centers (real_field s) q' ->
  Rabs (estimated (real_field s) p (to_world p q) - estimated (real_field s) p (to_world p q')) <= 1.02 * path q q'.
Proof.
  intros G B B' C C'. destruct (map_dims d r filled s HM) as (FD & FR & Rp).
  rewrite <- FD in B, B'.
  pose proof (estimate_steps (real_field s) p q q' (1.02 * real64 r) 1) as St. rewrite FR in St.
  eapply Rle_trans; [apply St; auto; [lra|exact map_gentle]|]. apply Req_le. field. lra.
Qed.

Lemma map_lipschitz_anywhere p q q' : geometry (real64 r) p ->
  in_bounds d (index_of p q) = true -> in_bounds d (index_of p q') = true ->
  Rabs (estimated (real_field s) p (to_world p q) - estimated (real_field s) p (to_world p q')) <= 4.08 * path q q'.
Proof.
  intros G B B'. destruct (map_dims d r filled s HM) as (FD & FR & Rp).
  rewrite <- FD in B, B'.
  pose proof (estimate_steps (real_field s) p q q' (1.02 * real64 r) 2) as St. rewrite FR in St.
  eapply Rle_trans; [apply St; auto; [lra|exact map_gentle]|].
  apply Req_le. replace 4.08 with (4 * 1.02) by lra. field. lra.
Qed.

(** Stored values of cells up to two apart in one direction. *)
Lemma value_centered a : in_bounds d a = true ->
  Rabs (value (real_field s) a - centered_value (real_field s) a) = real64 r / 2.
Proof.
  intros Ha. destruct (map_dims d r filled s HM) as (_ & _ & Rp).
  destruct (map_value d r filled s HM a Ha) as (z & v & E & Rz & _).
  destruct (map_square d r filled s HM a z Ha E Rz) as (v' & _ & _ & Ev & Cv). rewrite Ev, Cv.
  destruct (filled a); [rewrite Rabs_left|rewrite Rabs_right]; lra.
Qed.

Lemma step_slope a b : in_bounds d a = true -> in_bounds d b = true -> share_face a b ->
  Rabs (value (real_field s) a - value (real_field s) b) <= 2.02 * real64 r.
Proof.
  intros Ha Hb F. destruct (map_dims d r filled s HM) as (FD & _ & Rp).
  pose proof (value_centered a Ha) as Va. pose proof (value_centered b Hb) as Vb.
  rewrite <- FD in Ha, Hb. pose proof (map_gentle a b Ha Hb F) as G.
  replace (value (real_field s) a - value (real_field s) b) with
    ((value (real_field s) a - centered_value (real_field s) a) + (centered_value (real_field s) a - centered_value (real_field s) b)
     - (value (real_field s) b - centered_value (real_field s) b)) by ring.
  eapply Rle_trans; [apply Rabs_triang|]. rewrite Rabs_Ropp.
  eapply Rle_trans; [apply Rplus_le_compat_r, Rabs_triang|]. lra.
Qed.

Lemma two_step_slope a b c : in_bounds d a = true -> in_bounds d b = true -> in_bounds d c = true ->
  share_face a b -> share_face b c -> Rabs (value (real_field s) a - value (real_field s) c) <= 3.04 * real64 r.
Proof.
  intros Ha Hb Hc F F'. destruct (map_dims d r filled s HM) as (FD & _ & Rp).
  pose proof (value_centered a Ha) as Va. pose proof (value_centered c Hc) as Vc.
  rewrite <- FD in Ha, Hb, Hc. pose proof (map_gentle a b Ha Hb F) as G. pose proof (map_gentle b c Hb Hc F') as G'.
  replace (value (real_field s) a - value (real_field s) c) with
    ((value (real_field s) a - centered_value (real_field s) a) + (centered_value (real_field s) a - centered_value (real_field s) b)
     + (centered_value (real_field s) b - centered_value (real_field s) c)
     - (value (real_field s) c - centered_value (real_field s) c)) by ring.
  eapply Rle_trans; [apply Rabs_triang|]. rewrite Rabs_Ropp.
  eapply Rle_trans; [apply Rplus_le_compat_r; eapply Rle_trans; [apply Rabs_triang|apply Rplus_le_compat_r, Rabs_triang]|]. lra.
Qed.

(** One component of the gradient at an edge, between clamped neighbours. *)
Lemma one_sided_slope n x at_ : 0 < real64 r -> f_res (real_field s) = real64 r -> (0 <= x < n)%Z ->
  (forall y, (0 <= y < n)%Z -> in_bounds d (at_ y) = true) -> (forall y, share_face (at_ (y + 1)%Z) (at_ y)) ->
  Rabs (one_sided (real_field s) (low_index x) (high_index n x) at_) <= 2.02.
Proof.
  intros Rp FR Hx B F. unfold one_sided, low_index, high_index. rsimp. rewrite FR.
  set (lo := Z.max 0 (x - 1)). set (hi := Z.min (n - 1) (x + 1)).
  assert (Hlo : (lo = Z.max 0 (x - 1))%Z) by reflexivity. assert (Hhi : (hi = Z.min (n - 1) (x + 1))%Z) by reflexivity.
  clearbody lo hi.
  destruct (Rlt_dec 0 (IZR (hi - lo) * real64 r)) as [L|L].
  2:{ rewrite Rabs_R0. lra. }
  assert (C : (hi = lo + 1 \/ hi = (lo + 1) + 1 \/ hi = lo)%Z) by lia.
  destruct C as [C|[C|C]].
  - rewrite C. replace (lo + 1 - lo)%Z with 1%Z by lia.
    rewrite Rabs_mult. pose proof (step_slope (at_ (lo + 1)%Z) (at_ lo) (B (lo + 1)%Z ltac:(lia)) (B lo ltac:(lia)) (F lo)) as S1.
    rewrite (Rabs_right (1 / (1 * real64 r))) by (apply Rle_ge, Rlt_le, Rdiv_lt_0_compat; lra).
    apply Rmult_le_reg_r with (real64 r); [lra|]. eapply Rle_trans; [|exact S1]. apply Req_le. field. lra.
  - rewrite C. replace (lo + 1 + 1 - lo)%Z with 2%Z by lia.
    rewrite Rabs_mult.
    pose proof (two_step_slope (at_ (lo + 1 + 1)%Z) (at_ (lo + 1)%Z) (at_ lo) (B (lo + 1 + 1)%Z ltac:(lia)) (B (lo + 1)%Z ltac:(lia)) (B lo ltac:(lia)) (F _) (F _)) as S1.
    rewrite (Rabs_right (1 / (2 * real64 r))) by (apply Rle_ge, Rlt_le, Rdiv_lt_0_compat; lra).
    apply Rle_trans with (3.04 * real64 r * (1 / (2 * real64 r))).
    + apply Rmult_le_compat_r; [apply Rlt_le, Rdiv_lt_0_compat; lra|exact S1].
    + replace (3.04 * real64 r * (1 / (2 * real64 r))) with (3.04 / 2) by (field; lra). lra.
  - rewrite C in L. replace (lo - lo)%Z with 0%Z in L by lia. lra.
Qed.

Lemma central_slope a b c : 0 < real64 r -> f_res (real_field s) = real64 r ->
  in_bounds d a = true -> in_bounds d b = true -> in_bounds d c = true -> share_face a b -> share_face b c ->
  Rabs (central (real_field s) a c) <= 1.52.
Proof.
  intros Rp FR Ha Hb Hc F F'. unfold central. rsimp. rewrite FR.
  pose proof (two_step_slope a b c Ha Hb Hc F F') as S1. rewrite Rabs_mult.
  rewrite (Rabs_right (1 / (2 * real64 r))) by (apply Rle_ge, Rlt_le, Rdiv_lt_0_compat; lra).
  apply Rle_trans with (3.04 * real64 r * (1 / (2 * real64 r))).
  + apply Rmult_le_compat_r; [apply Rlt_le, Rdiv_lt_0_compat; lra|exact S1].
  + replace (3.04 * real64 r * (1 / (2 * real64 r))) with (3.04 / 2) by (field; lra). lra.
Qed.

Lemma map_gradient i edges g : grid_aligned_gradient (real_field s) i edges = Some g ->
  Rabs (vx g) <= 2.02 /\ Rabs (vy g) <= 2.02 /\ Rabs (vz g) <= 2.02 /\
  (strictly_inside d i -> Rabs (vx g) <= 1.52 /\ Rabs (vy g) <= 1.52 /\ Rabs (vz g) <= 1.52).
Proof.
  destruct (map_dims d r filled s HM) as (FD & FR & Rp). destruct i as [x y z]. unfold grid_aligned_gradient. rewrite FD.
  destruct (in_bounds d (I x y z)) eqn:B; [|discriminate].
  pose proof B as C. apply in_bounds_spec in C. cbn [ix iy iz] in C.
  assert (Fx : forall a b c, share_face (I (a + 1) b c) (I a b c)) by (intros; unfold share_face; cbn [ix iy iz]; lia).
  assert (Fy : forall a b c, share_face (I a (b + 1) c) (I a b c)) by (intros; unfold share_face; cbn [ix iy iz]; lia).
  assert (Fz : forall a b c, share_face (I a b (c + 1)) (I a b c)) by (intros; unfold share_face; cbn [ix iy iz]; lia).
  assert (Bd : forall a b c, (0 <= a < nx d)%Z -> (0 <= b < ny d)%Z -> (0 <= c < nz d)%Z -> in_bounds d (I a b c) = true).
  { intros. apply in_bounds_spec. cbn [ix iy iz]. lia. }
  destruct (interior d (I x y z)) eqn:E.
  - intros [= <-]. cbn [vx vy vz]. unfold interior in E. cbn [ix iy iz] in E. rewrite !andb_true_iff, !Z.ltb_lt in E.
    assert (X : Rabs (central (real_field s) (I (x + 1) y z) (I (x - 1) y z)) <= 1.52).
    { apply (central_slope _ (I x y z)); auto; try (apply Bd; lia).
      replace x with (x - 1 + 1)%Z at 1 by lia. apply Fx. }
    assert (Y : Rabs (central (real_field s) (I x (y + 1) z) (I x (y - 1) z)) <= 1.52).
    { apply (central_slope _ (I x y z)); auto; try (apply Bd; lia).
      replace y with (y - 1 + 1)%Z at 1 by lia. apply Fy. }
    assert (Z' : Rabs (central (real_field s) (I x y (z + 1)) (I x y (z - 1))) <= 1.52).
    { apply (central_slope _ (I x y z)); auto; try (apply Bd; lia).
      replace z with (z - 1 + 1)%Z at 1 by lia. apply Fz. }
    repeat split; try (eapply Rle_trans; [eassumption|lra]); assumption.
  - destruct edges; [|discriminate]. intros [= <-]. cbn [vx vy vz].
    split; [|split; [|split]].
    + apply one_sided_slope; auto; try lia. intros a Ha. apply Bd; lia.
    + apply one_sided_slope; auto; try lia. intros a Ha. apply Bd; lia.
    + apply one_sided_slope; auto; try lia. intros a Ha. apply Bd; lia.
    + intros S. exfalso. unfold strictly_inside in S. unfold interior in E. cbn [ix iy iz] in *.
      apply not_true_iff_false in E. apply E. rewrite !andb_true_iff, !Z.ltb_lt. lia.
Qed.
End Slope.

(** ** A gradient longer than 1 *)
Definition two_check : bool :=
  match extract_sdf (D 2 1 1) one64 (fun i => Ok (only (I 0 0 0) i)) zero32 "map" with
  | Ok (s, _) =>
      all_finite (D 2 1 1) s &&
      match gradient (sdf_field s) (ieee_pose one64) (I 1 0 0) true with
      | Some g => eq64 (vx g) (b64_of_Z 2) && eq64 (vy g) zero64 && eq64 (vz g) zero64
      | _ => false
      end
  | _ => false
  end.

Lemma unit_fails : exists d filled s i g,
  field_of_map d one64 filled s /\ flat d /\ filled i = false /\
  gradient (sdf_field s) (ieee_pose one64) i true = Some g /\
  eq64 (vx g) (b64_of_Z 2) = true /\ eq64 (vy g) zero64 = true /\ eq64 (vz g) zero64 = true.
Proof.
  assert (H : two_check = true) by (vm_compute; reflexivity). unfold two_check in H.
  destruct (extract_sdf _ _ _ _ _) as [(s & x)| |] eqn:E; try discriminate H.
  apply andb_prop in H. destruct H as (Fi & H).
  destruct (gradient _ _ _ _) as [g|] eqn:Eg; try discriminate H.
  apply andb_prop in H. destruct H as (H & Hz). apply andb_prop in H. destruct H as (Hx & Hy).
  exists (D 2 1 1), (only (I 0 0 0)), s, (I 1 0 0), g.
  split; [apply (map_field _ _ _ x); auto; vm_compute; repeat split; discriminate|].
  split; [right; left; reflexivity|]. auto.
Qed.

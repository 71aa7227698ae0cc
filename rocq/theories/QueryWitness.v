From Coq Require Import Eqdep_dec.
From Verif Require Import Base Floats Grid GridFacts CollisionMap SdfGen Arith SdfQuery SdfField QueryProofs.

(** Equality of doubles, decided by computation. *)
Definition same64 (x y : binary64) : bool :=
  match x, y with
  | B754_zero _ _ s, B754_zero _ _ s' => Bool.eqb s s'
  | B754_infinity _ _ s, B754_infinity _ _ s' => Bool.eqb s s'
  | B754_finite _ _ s m e _, B754_finite _ _ s' m' e' _ =>
      Bool.eqb s s' && Pos.eqb m m' && Z.eqb e e'
  | _, _ => false
  end.

Lemma same64_eq x y : same64 x y = true -> x = y.
Proof.
  destruct x as [s|s|s pl Hpl|s m e Hb], y as [s'|s'|s' pl' Hpl'|s' m' e' Hb']; cbn; try discriminate.
  - intros H. apply eqb_prop in H. congruence.
  - intros H. apply eqb_prop in H. congruence.
  - intros H. apply andb_true_iff in H. destruct H as (H & He). apply andb_true_iff in H.
    destruct H as (Hs & Hm). apply eqb_prop in Hs. apply Pos.eqb_eq in Hm. apply Z.eqb_eq in He.
    subst. f_equal. apply UIP_dec. apply bool_dec.
Qed.

Definition running_at (r : step_result ieee) (q : vec ieee) (i : idx) (d : binary64) : bool :=
  match r with
  | Running q' i' d' => same64 (vx q') (vx q) && same64 (vy q') (vy q) && same64 (vz q') (vz q) &&
                        idx_eqb i' i && same64 d' d
  | _ => false
  end.

Lemma running_at_eq r q i d : running_at r q i d = true -> r = Running q i d.
Proof.
  unfold running_at. destruct r as [q' i' d'|q'|w]; try discriminate. intros H.
  apply andb_true_iff in H. destruct H as (H & Hd). apply andb_true_iff in H. destruct H as (H & Hi).
  apply andb_true_iff in H. destruct H as (H & Hz). apply andb_true_iff in H. destruct H as (Hx & Hy).
  apply same64_eq in Hx, Hy, Hz, Hd.
  assert (i' = i).
  { destruct i, i'. unfold idx_eqb in Hi. cbn in Hi. f_equal; lia. }
  destruct q, q'. cbn in *. subst. auto.
Qed.

(** A corridor: obstacles in cells 0 and 5 of six cells in a row. *)
Definition corridor : cmap :=
  fst (cm_set (fst (cm_set (cm_new "" (D 6 1 1) (CC zero32 0) (CC zero32 0)) (I 0 0 0) (CC one32 0)))
        (I 5 0 0) (CC one32 0)).
Definition one64 : binary64 := b64_of_Z 1.
Definition eighth : binary64 := div64 one64 (b64_of_Z 8).
(* 23/8 = 2.875: just left of the middle of the corridor *)
Definition mid : vec ieee :=
  @V ieee (div64 (b64_of_Z 23) (b64_of_Z 8)) (div64 one64 (b64_of_Z 2)) (div64 one64 (b64_of_Z 2)).

Definition corridor_sdf : res (sdf * (binary64 * binary64)) :=
  cm_extract_sdf corridor one64 one64 one64 inf32 false false.

Definition start_dist (f : field ieee) : binary64 :=
  match estimate_from_neighbors f (ieee_pose one64) mid (index_of (ieee_pose one64) mid) with
  | Ok d => d | _ => zero64
  end.

Definition stuck_check : bool :=
  match corridor_sdf with
  | Ok (s, _) =>
      let f := sdf_field s in let p := ieee_pose one64 in
      in_bounds (f_dims f) (index_of p mid) &&
      is_ok (estimate_from_neighbors f p mid (index_of p mid)) &&
      running_at (project_loop 2 f p (b64_of_Z 3) eighth mid (index_of p mid) (start_dist f))
        mid (index_of p mid) (start_dist f)
  | _ => false
  end.

Lemma stuck_check_true : stuck_check = true.
Proof. vm_compute. reflexivity. Qed.

Lemma projection_hangs :
  exists s x, corridor_sdf = Ok (s, x) /\
    in_bounds (f_dims (sdf_field s)) (index_of (ieee_pose one64) mid) = true /\
    forall fuel, exists q i d,
      project_out fuel (sdf_field s) (ieee_pose one64) mid (b64_of_Z 3) eighth = Running q i d.
Proof.
  pose proof stuck_check_true as H. unfold stuck_check in H.
  destruct corridor_sdf as [[s x]|w|w]; [|discriminate H|discriminate H]. exists s, x. split; auto.
  set (f := sdf_field s) in *. set (p := ieee_pose one64) in *.
  apply andb_true_iff in H. destruct H as (H & H3). apply andb_true_iff in H. destruct H as (H1 & H2).
  split; auto. intros fuel. unfold project_out. change (to_grid p mid) with mid. rewrite H1.
  change (to_grid p mid) with mid. unfold project_out_grid_frame.
  unfold start_dist in H3. fold p in H3.
  destruct (estimate_from_neighbors f p mid (index_of p mid)) as [d|w|w]; [|discriminate H2|discriminate H2].
  apply running_at_eq in H3.
  destruct (project_loop_cycle 2 f p (b64_of_Z 3) eighth mid (index_of p mid) d) with (fuel := fuel)
    as (q & i & d' & E); auto.
  rewrite E. eauto.
Qed.

(** ** Infinite values: a map with no free cell. *)
Definition solid : cmap := cm_new "" (D 2 1 1) (CC one32 0) (CC one32 0).
Definition solid_sdf : res (sdf * (binary64 * binary64)) :=
  cm_extract_sdf solid one64 one64 one64 inf32 false false.
Definition half64 : binary64 := div64 one64 (b64_of_Z 2).
Definition solid_point : vec ieee := @V ieee half64 half64 half64.

Definition is_nan64 (x : binary64) : bool := Binary.is_nan 53 1024 x.

Definition solid_check : bool :=
  match solid_sdf with
  | Ok (s, _) =>
      let f := sdf_field s in let p := ieee_pose one64 in
      lt32 (fst (sdf_get s (I 0 0 0))) zero32 && lt32 (fst (sdf_get s (I 1 0 0))) zero32 &&
      match estimate_distance f p solid_point with
      | Ok (e, true) => is_nan64 e
      | _ => false
      end &&
      match project_out 1 f p solid_point one64 eighth with
      | Finished q => same64 (vx q) half64 && same64 (vy q) half64 && same64 (vz q) half64
      | _ => false
      end
  | _ => false
  end.

Lemma solid_check_true : solid_check = true.
Proof. vm_compute. reflexivity. Qed.

Lemma projection_stays_in_solid :
  exists s x e, solid_sdf = Ok (s, x) /\
    (forall i, in_bounds (D 2 1 1) i = true -> lt32 (fst (sdf_get s i)) zero32 = true) /\
    estimate_distance (sdf_field s) (ieee_pose one64) solid_point = Ok (e, true) /\
    is_nan64 e = true /\
    project_out 1 (sdf_field s) (ieee_pose one64) solid_point one64 eighth = Finished solid_point.
Proof.
  pose proof solid_check_true as H. unfold solid_check in H.
  destruct solid_sdf as [[s x]|w|w]; [|discriminate H|discriminate H].
  set (f := sdf_field s) in *. set (p := ieee_pose one64) in *.
  apply andb_true_iff in H. destruct H as (H & Hq). apply andb_true_iff in H. destruct H as (H & He).
  apply andb_true_iff in H. destruct H as (H0 & H1).
  destruct (estimate_distance f p solid_point) as [[e [|]]|w|w] eqn:E;
    [|discriminate He|discriminate He|discriminate He].
  destruct (project_out 1 f p solid_point one64 eighth) as [|q|] eqn:Ep;
    [discriminate Hq| |discriminate Hq].
  exists s, x, e. fold f p. split; [reflexivity|]. split.
  { intros [a b c] B. apply in_bounds_spec in B. cbn [ix iy iz nx ny nz] in B.
    assert (b = 0) by lia. assert (c = 0) by lia.
    assert (a = 0 \/ a = 1) as [Ha|Ha] by lia; subst a b c; assumption. }
  split; [exact E|]. split; [exact He|].
  refine (eq_trans Ep _). apply f_equal.
  apply andb_true_iff in Hq. destruct Hq as (Hq & Hz). apply andb_true_iff in Hq. destruct Hq as (Hx & Hy).
  apply same64_eq in Hx, Hy, Hz. destruct q as [qx qy qz]. cbn [vx vy vz] in Hx, Hy, Hz.
  subst qx qy qz. reflexivity.
Qed.

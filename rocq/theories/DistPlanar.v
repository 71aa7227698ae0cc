(** Distance fields of grids one cell thick. *)
From Verif Require Import Base BaseFacts Grid GridFacts DistModel DistSpec DistProofs DistTrace
  DistChain DistPlane DistThms.

Section Planar.
  Variable d : dims.
  Variable pts : list idx.
  Hypothesis Hx : 0 <= nx d.
  Hypothesis Hy : 0 <= ny d.
  Hypothesis Hz : 0 <= nz d.
  Hypothesis Hmax : maxd d <= 2147483647.
  Hypothesis Hpts : forall p, In p pts -> in_bounds d p = true.
  Hypothesis Hflat : flat d.

  Section At.
    Variables (k : Z) (H : history) (s : dstate).
    Hypothesis T : trace d pts k H s.
    Variables (u v : Z * Z * Z) (o : idx).
    Hypothesis Hu : axis u.
    Hypothesis Hv : axis v.
    Hypothesis Huv : dot3 u v = 0.
    Hypothesis Pu : inplane d u.
    Hypothesis Pv : inplane d v.

    Let X := X u o.
    Let Y := Y v o.

    (** An entry of obstacle [q] at plane coordinates (x, y). *)
    Definition at_ (q : idx) (x y : Z) : Prop :=
      exists e, known pts H e /\ e_cp e = q /\ X (e_loc e) = x /\ Y (e_loc e) = y.

    (** The entry of [q] at (x', y') was accepted from its entry at (x, y). *)
    Definition step (q : idx) (x y x' y' : Z) : Prop :=
      exists p c, In (p, c) H /\ e_cp p = q /\ e_cp c = q /\
        X (e_loc p) = x /\ Y (e_loc p) = y /\ X (e_loc c) = x' /\ Y (e_loc c) = y'.

    Lemma in_known p c : In (p, c) H -> known pts H c.
    Proof. right; eauto. Qed.

    Lemma known_in e : known pts H e -> in_bounds d (e_loc e) = true /\ in_bounds d (e_cp e) = true.
    Proof.
      intros Ke. destruct (tr_ok _ _ _ _ _ T _ Ke) as (H1 & H2 & _). auto.
    Qed.

    Lemma at_parent q x y : at_ q x y ->
      2 <= Z.abs (x - X q) \/ 2 <= Z.abs (y - Y q) ->
      (at_ q (x - 1) y /\ step q (x - 1) y x y /\ X q <= x - 1) \/
      (at_ q (x + 1) y /\ step q (x + 1) y x y /\ x + 1 <= X q) \/
      (at_ q x (y - 1) /\ step q x (y - 1) x y /\ Y q <= y - 1) \/
      (at_ q x (y + 1) /\ step q x (y + 1) x y /\ y + 1 <= Y q).
    Proof.
      intros (e & Ke & <- & <- & <-) Hfar.
      destruct (known_kind d pts k H s T e Ke) as
        [(p & Hp & ->)|[(p & r & Hp & Hr & ->)|(p & r & Hpe & Kp & H1 & Hlt & Har & Ee & Hdot)]].
      - cbn [seed_entry e_loc e_cp] in Hfar. lia.
      - cbn [new_entry seed_entry e_loc e_cp] in Hfar.
        pose proof (coords_near d u v o Hu Hv Huv Pu Pv p r Hr) as Hn. fold X in Hn. fold Y in Hn. lia.
      - destruct (known_in _ Kp) as (Bp & Bq). destruct (known_in _ Ke) as (Be & _).
        assert (Ec : e_cp e = e_cp p) by (rewrite Ee; reflexivity).
        assert (El : e_loc e = add (e_loc p) r) by (rewrite Ee; reflexivity).
        assert (Hd : e_d p < e_d e) by auto.
        rewrite (known_dist d pts k H s T p Kp), (known_dist d pts k H s T e Ke), Ec in Hd.
        rewrite (coords_dist d Hflat u v o Hu Hv Huv Pu Pv) in Hd by auto.
        rewrite (coords_dist d Hflat u v o Hu Hv Huv Pu Pv (e_loc e)) in Hd by auto.
        rewrite El in Be.
        pose proof (coords_step d Hflat u v o Hu Hv Huv Pu Pv (e_loc p) r Bp Be Har) as Hs.
        rewrite <- El in Hs. fold X in Hd, Hs. fold Y in Hd, Hs.
        assert (Ha : forall x y, X (e_loc p) = x -> Y (e_loc p) = y ->
                  at_ (e_cp e) x y /\ step (e_cp e) x y (X (e_loc e)) (Y (e_loc e))).
        { intros x y E1 E2. split; [exists p; auto|]. exists p, e. auto 8. }
        rewrite Ec in *.
        destruct Hs as [(E1 & E2)|[(E1 & E2)|[(E1 & E2)|(E1 & E2)]]].
        + left. destruct (Ha (X (e_loc e) - 1) (Y (e_loc e))) as (A1 & A2); try lia.
          split; [exact A1|]. split; [exact A2|]. rewrite E1, E2 in Hd. lia.
        + right; left. destruct (Ha (X (e_loc e) + 1) (Y (e_loc e))) as (A1 & A2); try lia.
          split; [exact A1|]. split; [exact A2|]. rewrite E1, E2 in Hd. lia.
        + right; right; left. destruct (Ha (X (e_loc e)) (Y (e_loc e) - 1)) as (A1 & A2); try lia.
          split; [exact A1|]. split; [exact A2|]. rewrite E1, E2 in Hd. lia.
        + right; right; right. destruct (Ha (X (e_loc e)) (Y (e_loc e) + 1)) as (A1 & A2); try lia.
          split; [exact A1|]. split; [exact A2|]. rewrite E1, E2 in Hd. lia.
    Qed.

    (** Squared distance of plane coordinates to an obstacle. *)
    Definition off (q : idx) (x y : Z) : Z :=
      (x - X q) * (x - X q) + (y - Y q) * (y - Y q).

    Lemma known_off e : known pts H e -> e_d e = off (e_cp e) (X (e_loc e)) (Y (e_loc e)).
    Proof.
      intros Ke. destruct (known_in _ Ke) as (B1 & B2).
      rewrite (known_dist d pts k H s T e Ke).
      apply (coords_dist d Hflat u v o Hu Hv Huv Pu Pv); auto.
    Qed.

    Lemma at_beats q1 q2 x y x' y' :
      at_ q1 x y -> step q2 x y x' y' -> off q1 x y < off q2 x y -> off q2 x' y' < off q1 x' y'.
    Proof.
      intros (e & Ke & <- & <- & <-) (p & c & Hpc & <- & Ec & Ex & Ey & <- & <-) Hlt.
      destruct (tr_pair _ _ _ _ _ T _ _ Hpc) as (Kp & _ & _ & t & Ht & Et).
      pose proof (in_known _ _ Hpc) as Kc.
      destruct (known_in _ Ke) as (B1 & B2). destruct (known_in _ Kp) as (B3 & B4).
      destruct (known_in _ Kc) as (B5 & _).
      assert (El : e_loc e = e_loc p).
      { apply (coords_eq d Hflat u v o Hu Hv Huv Pu Pv); auto. }
      rewrite <- Ex, <- Ey in Hlt at 2. rewrite <- !known_off in Hlt by auto.
      pose proof (known_nonneg d pts k H s T e Ke).
      assert (Ha : axis t).
      { destruct (tr_ok _ _ _ _ _ T _ Kp) as (_ & _ & _ & src & Hs & Ed).
        unfold targets in Ht. rewrite Ed in Ht.
        apply neighborhood_in in Ht; auto. destruct Ht as (Htd & Hk).
        replace (Z.min (e_d p) 1) with 1 in Hk by lia. eapply keep_is_axis; eauto. }
      assert (Hb : e_d c < distsq (e_loc c) (e_cp e)).
      { apply (beats d pts k H s T e t p c); auto. rewrite El, Et. reflexivity. }
      rewrite known_off in Hb by auto. rewrite Ec in Hb.
      rewrite (coords_dist d Hflat u v o Hu Hv Huv Pu Pv) in Hb by auto. exact Hb.
    Qed.

    Lemma at_unique q1 q2 x y : at_ q1 x y -> at_ q2 x y -> off q1 x y = off q2 x y -> q1 = q2.
    Proof.
      intros (e & Ke & <- & <- & <-) (e' & Ke' & <- & Ex & Ey) Ho.
      destruct (known_in _ Ke) as (B1 & B2). destruct (known_in _ Ke') as (B3 & B4).
      assert (El : e_loc e = e_loc e').
      { apply (coords_eq d Hflat u v o Hu Hv Huv Pu Pv); auto. }
      rewrite <- Ex, <- Ey in Ho at 2. rewrite <- !known_off in Ho by auto.
      f_equal. apply (tr_unique _ _ _ _ _ T); auto.
    Qed.

    (** The crossing argument, with the first obstacle at the origin [o]. *)
    Lemma planar_cross q A B :
      at_ o A (B - 1) -> step o A (B - 1) A B -> at_ q (A - 1) (B - 1) ->
      1 <= A -> 1 <= B ->
      off q (A - 1) (B - 1) <= off o (A - 1) (B - 1) ->
      off o (A - 1) B < off q (A - 1) B -> False.
    Proof.
      intros Hp Hu' Hq HA HB G1 G2.
      destruct (coords_zero u v o) as (Ox & Oy). fold X in Ox. fold Y in Oy.
      set (a := X q). set (c := - Y q).
      assert (Eo : forall x y, off o x y = x * x + y * y).
      { intros x y. unfold off. rewrite Ox, Oy. ring. }
      assert (Eg : forall x y, off q x y - off o x y = gap a c x y).
      { intros x y. rewrite Eo. unfold off, gap, a, c. ring. }
      assert (Hc : 1 <= c).
      { pose proof (Eg (A - 1) B) as E1. pose proof (Eg (A - 1) (B - 1)) as E2. unfold gap in *. lia. }
      assert (HG : gap a c (A - 1) (B - 1) <= 0) by (rewrite <- Eg; lia).
      assert (HaA : 1 <= a /\ 2 <= A).
      { assert (0 <= c * (B - 1)) by (apply Z.mul_nonneg_nonneg; lia).
        pose proof (Z.square_nonneg a). assert (0 < c * c) by (apply Z.mul_pos_pos; lia).
        assert (Hm : 0 < a * (A - 1)) by (unfold gap in HG; lia).
        destruct (Z.eq_dec A 1) as [->|]; [lia|]. split; [|lia].
        apply (Z.mul_pos_cancel_r a (A - 1)) in Hm; lia. }
      destruct HaA as (Ha & HA2).
      assert (Hne : q <> o) by (intros ->; lia).
      apply (no_cross a c (at_ o) (at_ q)
               (fun x y => step o x y (x + 1) y) (fun x y => step o x y x (y + 1))
               (fun x y => step q x y (x + 1) y) (fun x y => step q x y x (y + 1))
               (fun x y => step q x y (x - 1) y) Ha Hc) with (A := A) (B := B); auto.
      - intros x y P1 X2 Y0. destruct (at_parent o x y P1) as
          [(A1 & A2 & A3)|[(A1 & A2 & A3)|[(A1 & A2 & A3)|(A1 & A2 & A3)]]]; try lia.
        + left. replace (x - 1 + 1) with x by lia. auto.
        + right. replace (y - 1 + 1) with y by lia. split; [lia|auto].
      - intros x y P1 X2 Y0. unfold a, c in *. destruct (at_parent q x y P1) as
          [(A1 & A2 & A3)|[(A1 & A2 & A3)|[(A1 & A2 & A3)|(A1 & A2 & A3)]]]; try lia.
        + left. replace (x - 1 + 1) with x by lia. split; [lia|auto].
        + right. replace (y - 1 + 1) with y by lia. auto.
      - intros x y P1 X2 Y0 Hf. unfold a, c in *. destruct (at_parent q x y P1) as
          [(A1 & A2 & A3)|[(A1 & A2 & A3)|[(A1 & A2 & A3)|(A1 & A2 & A3)]]]; try lia.
        + left. replace (x + 1 - 1) with x by lia. auto.
        + right. replace (y - 1 + 1) with y by lia. auto.
      - intros x y P1 Q1 G. rewrite <- Eg in G. apply Hne.
        apply (at_unique q o x y Q1 P1). lia.
      - intros x y S1 Q1 G. rewrite <- Eg in *.
        pose proof (at_beats q o x y (x + 1) y Q1 S1). lia.
      - intros x y S1 Q1 G. rewrite <- Eg in *.
        pose proof (at_beats q o x y x (y + 1) Q1 S1). lia.
      - intros x y P1 S1 G. rewrite <- Eg in *.
        pose proof (at_beats o q x y x (y + 1) P1 S1). lia.
      - replace (B - 1 + 1) with B by lia. auto.
    Qed.
  End At.

  Lemma dot_step t r z q : dot t (add z r) q = dot t z q + dot3 t r.
  Proof.
    destruct t as [[a b] c], r as [[x y] z']. unfold dot, add, dot3; cbn [ix iy iz]. ring.
  Qed.

  Lemma dot_neg t z q : dot (neg3 t) z q = - dot t z q.
  Proof. destruct t as [[a b] c]. unfold dot, neg3. ring. Qed.

  (** Two steps along different axes: the corner between them is inside too. *)
  Lemma corner_in z t r : axis t -> axis r -> dot3 t r = 0 ->
    in_bounds d z = true -> in_bounds d (add (add z r) t) = true ->
    in_bounds d (add z t) = true.
  Proof.
    intros Ht Hr H0 B1 B2. apply in_bounds_spec in B1. apply in_bounds_spec in B2.
    apply in_bounds_spec.
    destruct (axis_cases t Ht) as [E|[E|[E|[E|[E|E]]]]]; rewrite E in *;
    destruct (axis_cases r Hr) as [E'|[E'|[E'|[E'|[E'|E']]]]]; rewrite E' in *;
      unfold dot3 in H0; try (exfalso; lia); unfold add in *; cbn [ix iy iz] in *; lia.
  Qed.

  Lemma dot3_self t : axis t -> dot3 t t = 1.
  Proof. intros Ht. destruct (axis_cases t Ht) as [E|[E|[E|[E|[E|E]]]]]; rewrite E; reflexivity. Qed.

  (** A step that turns inward without opposing the last one is at right angles
      to it. *)
  Lemma perpendicular t b z q : axis t -> axis b -> 0 <= dot3 t b ->
    dot t z q + dot3 t b <= -1 -> 0 <= dot b z q -> dot3 t b = 0.
  Proof.
    intros Ht Hb. unfold dot.
    destruct (axis_cases t Ht) as [E|[E|[E|[E|[E|E]]]]]; rewrite E;
    destruct (axis_cases b Hb) as [E'|[E'|[E'|[E'|[E'|E']]]]]; rewrite E';
      unfold dot3; lia.
  Qed.

  (** In a flat grid no accepted entry lands below the current bucket. *)
  Lemma planar_none_lost : none_lost d pts.
  Proof.
    intros k H s e t Hk HI T Ke Ek Ht HA.
    pose proof HA as (Bx & Himp & Hne). cbn [new_entry e_loc e_d] in Bx, Himp, Hne.
    cbn [new_entry e_d].
    destruct (Z_lt_dec k (distsq (add (e_loc e) t) (e_cp e))) as [|Hn]; [assumption|exfalso].
    pose proof (tr_ok _ _ _ _ _ T _ Ke) as (By & Bq & Ed & src & Hsrc & Edir).
    assert (Hkeep : keep_target 1 src t = true /\ In t dirs3).
    { unfold targets in Ht. rewrite Edir in Ht. apply neighborhood_in in Ht; auto.
      replace (Z.min (e_d e) 1) with 1 in Ht by lia. tauto. }
    destruct Hkeep as (Hkeep & Htd).
    assert (Hat : axis t) by (eapply keep_is_axis; eauto).
    assert (Hdot : dot t (e_loc e) (e_cp e) <= -1).
    { rewrite distsq_axis in Hn, Hne by auto. lia. }
    assert (Hopp : forall r, In r dirs3 -> e_dir e = direction_number r -> 0 <= dot3 t r).
    { intros r Hr Er. assert (src = r) by (apply direction_number_inj; auto; congruence). subst src.
      destruct r as [[a b] c], t as [[x y] z]. unfold keep_target in Hkeep. unfold dot3.
      destruct ((x =? 0) && (y =? 0) && (z =? 0)); [discriminate|].
      change (1 <=? 1) with true in Hkeep. cbn iota in Hkeep.
      destruct (negb (Z.abs x + Z.abs y + Z.abs z =? 1)); [discriminate|].
      destruct ((a * x <? 0) || (b * y <? 0) || (c * z <? 0)) eqn:E; [discriminate|].
      apply orb_false_iff in E. destruct E as (E & E3). apply orb_false_iff in E.
      destruct E as (E1 & E2). apply Z.ltb_ge in E1, E2, E3. lia. }
    destruct (known_kind d pts k H s T e Ke) as
      [(p & Hp & ->)|[(p & r & Hp & Hr & E)|(p & b & Hpe & Kp & H1 & Hlt & Har & Ee & Hdr)]].
    - cbn in Ek. lia.
    - specialize (Hopp r Hr). rewrite E in Hdot, Hopp.
      cbn [new_entry seed_entry e_loc e_cp e_dir] in Hdot, Hopp.
      rewrite dot_step, dot_self in Hdot. specialize (Hopp eq_refl). lia.
    - set (q := e_cp e) in *. assert (Eq : e_cp e = q) by reflexivity. clearbody q.
      assert (Ecp : e_cp p = q) by (rewrite <- Eq, Ee; reflexivity).
      assert (El : e_loc e = add (e_loc p) b) by (rewrite Ee; reflexivity).
      specialize (Hopp b (axis_dirs _ Har)). rewrite Ee in Hopp. specialize (Hopp eq_refl).
      assert (H0 : dot3 t b = 0).
      { rewrite El, dot_step in Hdot. rewrite Ecp in Hdr.
        apply (perpendicular t b (e_loc p) q); auto. }
      assert (Bp : in_bounds d (e_loc p) = true) by apply (tr_ok _ _ _ _ _ T _ Kp).
      assert (BZ : in_bounds d (add (e_loc p) t) = true).
      { apply (corner_in (e_loc p) t b); auto. rewrite <- El. auto. }
      assert (Hdp : dot t (e_loc p) q <= -1).
      { rewrite El, dot_step in Hdot. lia. }
      destruct (offered d pts k H s T p t Kp ltac:(lia) Hat BZ) as (e0 & Ec0 & Hle0).
      rewrite Ecp in Hle0.
      pose proof (tr_cell _ _ _ _ _ T _ _ BZ Ec0) as K0.
      assert (El0 : e_loc e0 = add (e_loc p) t).
      { destruct HI as (_ & _ & _ & C & _). apply (C _ _ BZ Ec0). }
      assert (Hp0 : e_d p = distsq (e_loc p) q) by (rewrite (known_dist d pts k H s T p Kp), Ecp; auto).
      assert (Hk0 : e_d e0 < k).
      { rewrite distsq_axis in Hle0 by auto. lia. }
      assert (Ex : add (e_loc e0) b = add (e_loc e) t).
      { rewrite El0, El. destruct t as [[a1 a2] a3], b as [[b1 b2] b3]. unfold add; cbn [ix iy iz].
        f_equal; lia. }
      assert (Hsx : distsq (add (e_loc e) t) q < distsq (add (e_loc e) t) (e_cp e0)).
      { rewrite <- Ex in Bx. destruct (offered d pts k H s T e0 b K0 Hk0 Har Bx) as (e1 & Ec1 & Hle1).
        rewrite Ex in Ec1, Hle1. rewrite Ec1 in Himp. unfold improves in Himp.
        apply Z.ltb_lt in Himp. lia. }
      pose proof (inplane_step d (e_loc e) t By Bx) as Pt.
      assert (Pb : inplane d b).
      { apply (inplane_step d (e_loc p)); auto. rewrite <- El. auto. }
      assert (Hnb : dot3 (neg3 t) b = 0).
      { clear - H0. destruct t as [[a1 a2] a3], b as [[b1 b2] b3]. unfold dot3, neg3 in *. lia. }
      pose proof (known_in k H s T e0 K0) as (B0 & Bq0).
      assert (Bqq : in_bounds d q = true) by (apply Hpts; exact Bq).
      clear Hn Hne Himp HA Ht src Hsrc Edir Hkeep Htd Hopp Hp0 Hdp HI Ed Hx Hy Hz Hmax.
      assert (Hu : exists u, u = neg3 t) by eauto. destruct Hu as (u & Eu).
      assert (Xt : forall z, X u q (add z t) = X u q z - 1).
      { intros z. unfold X; rewrite Eu. rewrite dot_step.
        assert (dot3 (neg3 t) t = -1); [|lia]. pose proof (dot3_self t Hat) as E1.
        clear - E1. destruct t as [[a1 a2] a3]. unfold dot3, neg3 in *. lia. }
      assert (Yt : forall z, Y b q (add z t) = Y b q z).
      { intros z. unfold Y. rewrite dot_step. assert (dot3 b t = 0); [|lia].
        clear - H0. destruct t as [[a1 a2] a3], b as [[b1 b2] b3]. unfold dot3 in *. lia. }
      assert (Xb : forall z, X u q (add z b) = X u q z).
      { intros z. unfold X; rewrite Eu. rewrite dot_step. lia. }
      assert (Yb : forall z, Y b q (add z b) = Y b q z + 1).
      { intros z. unfold Y. rewrite dot_step. rewrite dot3_self by auto. lia. }
      assert (HAB : exists A B, A = X u q (e_loc e) /\ B = Y b q (e_loc e)) by eauto.
      destruct HAB as (A & B & DA & DB).
      assert (EA : X u q (e_loc p) = A) by (rewrite DA, El, Xb; auto).
      assert (EB : Y b q (e_loc p) = B - 1) by (rewrite DB, El, Yb; lia).
      assert (HA1 : 1 <= A).
      { rewrite DA. unfold X; rewrite Eu. rewrite dot_neg. lia. }
      assert (HB1 : 1 <= B).
      { rewrite Ecp in Hdr. unfold Y in EB. lia. }
      assert (Hax : axis u) by (rewrite Eu; apply axis_neg; auto).
      assert (Pu : inplane d u) by (rewrite Eu; apply inplane_neg; auto).
      rewrite <- Eu in Hnb.
      assert (CD := coords_dist d Hflat u b q Hax Har Hnb Pu Pb).
      apply (planar_cross k H s T u b q Hax Har Hnb Pu Pb (e_cp e0) A B); auto.
      + exists p. auto.
      + exists p, e. auto 8.
      + exists e0. rewrite El0, Xt, Yt, EA, EB. auto.
      + rewrite (known_dist d pts k H s T e0 K0), El0 in Hle0.
        rewrite !CD, Xt, Yt, EA, EB in Hle0 by auto. unfold off. lia.
      + rewrite !CD, Xt, Yt, <- DA, <- DB in Hsx by auto. exact Hsx.
  Qed.

  Lemma planar_trace :
    exists s H, build_distance_field d pts = Ok (ds_field s) /\ Inv d pts s /\
      trace d pts (maxd d + 1) H s.
  Proof. apply trace_final; auto. apply planar_none_lost. Qed.
End Planar.

(** ** What a field without lost entries satisfies *)
Section Consistent.
  Variable d : dims.
  Variable pts : list idx.
  Hypothesis Hpts : forall p, In p pts -> in_bounds d p = true.
  Variables (H : history) (s : dstate).
  Hypothesis HI : Inv d pts s.
  Hypothesis T : trace d pts (maxd d + 1) H s.

  Lemma dot_sq t z q : axis t -> dot t z q * dot t z q <= distsq z q.
  Proof.
    intros Ht. unfold distsq. pose proof (Z.square_nonneg (ix z - ix q)).
    pose proof (Z.square_nonneg (iy z - iy q)). pose proof (Z.square_nonneg (iz z - iz q)).
    destruct (axis_cases t Ht) as [E|[E|[E|[E|[E|E]]]]]; rewrite E; unfold dot; lia.
  Qed.

  Lemma stored_step z t m : in_bounds d z = true -> in_bounds d (add z t) = true -> axis t ->
    0 <= m -> stored_le s z (m * m) -> stored_le s (add z t) ((m + 1) * (m + 1)).
  Proof.
    intros Bz Bt Ht Hm (e & Ec & Hle).
    pose proof (tr_cell _ _ _ _ _ T _ _ Bz Ec) as Ke.
    assert (El : e_loc e = z) by (destruct HI as (_ & _ & _ & C & _); apply (C _ _ Bz Ec)).
    assert (Hd : e_d e < maxd d + 1).
    { pose proof (ent_ok_range d pts Hpts e (tr_ok _ _ _ _ _ T _ Ke)). lia. }
    rewrite <- El in Bt.
    destruct (offered d pts _ H s T e t Ke Hd Ht Bt) as (e' & Ec' & Hle').
    rewrite El in Ec', Hle'. exists e'. split; auto.
    rewrite distsq_axis in Hle' by auto.
    pose proof (known_dist d pts _ H s T e Ke) as Ed. rewrite El in Ed.
    pose proof (dot_sq t z (e_cp e) Ht) as Hsq.
    assert (dot t z (e_cp e) <= m) by nia. lia.
  Qed.

  Lemma toward c p : in_bounds d c = true -> in_bounds d p = true -> c <> p ->
    exists z t, axis t /\ c = add z t /\ in_bounds d z = true /\ manhattan z p = manhattan c p - 1.
  Proof.
    intros Bc Bp Hne. apply in_bounds_spec in Bc. apply in_bounds_spec in Bp.
    destruct c as [cx cy cz], p as [px py pz]. unfold manhattan. cbn [ix iy iz] in *.
    destruct (Z.eq_dec cx px) as [E1|E1]; [destruct (Z.eq_dec cy py) as [E2|E2];
      [destruct (Z.eq_dec cz pz) as [E3|E3]|]|].
    - exfalso. apply Hne. congruence.
    - exists (I cx cy (cz - Z.sgn (cz - pz))), (0, 0, Z.sgn (cz - pz)).
      unfold axis, add. rewrite in_bounds_spec. cbn [ix iy iz].
      split; [lia|]. split; [f_equal; lia|]. split; lia.
    - exists (I cx (cy - Z.sgn (cy - py)) cz), (0, Z.sgn (cy - py), 0).
      unfold axis, add. rewrite in_bounds_spec. cbn [ix iy iz].
      split; [lia|]. split; [f_equal; lia|]. split; lia.
    - exists (I (cx - Z.sgn (cx - px)) cy cz), (Z.sgn (cx - px), 0, 0).
      unfold axis, add. rewrite in_bounds_spec. cbn [ix iy iz].
      split; [lia|]. split; [f_equal; lia|]. split; lia.
  Qed.

  Lemma stored_manhattan p : In p pts -> forall n c, Z.to_nat (manhattan c p) = n ->
    in_bounds d c = true -> stored_le s c (manhattan c p * manhattan c p).
  Proof.
    intros Hp. pose proof (Hpts p Hp) as Bp.
    induction n as [|n IH]; intros c En Bc.
    - assert (E : c = p).
      { destruct c as [cx cy cz], p as [px py pz]. unfold manhattan in En. cbn [ix iy iz] in En.
        f_equal; lia. }
      subst c. pose proof (tr_stored _ _ _ _ _ T (seed_entry p)) as Hs.
      cbn [seed_entry e_loc e_d] in Hs.
      replace (manhattan p p) with 0 by (unfold manhattan; lia). apply Hs. left; eauto.
    - destruct (idx_eq_dec c p) as [->|Hne].
      { unfold manhattan in En. lia. }
      destruct (toward c p Bc Bp Hne) as (z & t & Ht & Ec & Bz & Em).
      subst c.
      assert (Hz : 0 <= manhattan z p) by (unfold manhattan; lia).
      replace (manhattan (add z t) p) with (manhattan z p + 1) by lia.
      apply stored_step; auto. apply IH; auto. lia.
  Qed.
End Consistent.

(** Every cell of a flat grid gets a distance, at most the Manhattan distance
    to any obstacle. *)
Lemma planar_finite d pts f c p :
  size_ok d -> flat d -> all_inside d pts -> build_distance_field d pts = Ok f ->
  in_bounds d c = true -> In p pts ->
  exists m, cell_distsq f c = Some m /\ m <= manhattan c p * manhattan c p.
Proof.
  intros (H1 & H2 & H3 & H4) Hf Hp Hb Hc Hin.
  destruct (planar_trace d pts H1 H2 H3 H4 Hp Hf) as (s & H & E & HI & T).
  assert (f = ds_field s) by congruence. subst f.
  destruct (stored_manhattan d pts Hp H s HI T p Hin _ c eq_refl Hc) as (e & Ec & Hle).
  unfold cell_distsq. fold (cell s c). rewrite Ec. eauto.
Qed.

(** Neighbouring cells are consistent: a cell is never further than the nearest
    obstacle recorded for a face neighbour. *)
Lemma planar_consistent d pts f z t :
  size_ok d -> flat d -> all_inside d pts -> build_distance_field d pts = Ok f ->
  in_bounds d z = true -> in_bounds d (add z t) = true -> axis t ->
  forall m, cell_distsq f z = Some m ->
  exists q m', In q pts /\ distsq z q = m /\ cell_distsq f (add z t) = Some m' /\
    m' <= distsq (add z t) q.
Proof.
  intros (H1 & H2 & H3 & H4) Hf Hp Hb Hz Hzt Ht m Hm.
  destruct (planar_trace d pts H1 H2 H3 H4 Hp Hf) as (s & H & E & HI & T).
  assert (f = ds_field s) by congruence. subst f.
  unfold cell_distsq in *. fold (cell s z) in Hm. fold (cell s (add z t)).
  destruct (cell s z) as [e|] eqn:Ec; [|discriminate]. injection Hm as <-.
  pose proof (tr_cell _ _ _ _ _ T _ _ Hz Ec) as Ke.
  assert (El : e_loc e = z) by (destruct HI as (_ & _ & _ & C & _); apply (C _ _ Hz Ec)).
  assert (Hd : e_d e < maxd d + 1).
  { pose proof (ent_ok_range d pts Hp e (tr_ok _ _ _ _ _ T _ Ke)). lia. }
  pose proof (tr_ok _ _ _ _ _ T _ Ke) as (_ & Hcp & Ed & _).
  rewrite <- El in Hzt.
  destruct (offered d pts _ H s T e t Ke Hd Ht Hzt) as (e' & Ec' & Hle').
  rewrite El in *. exists (e_cp e), (e_d e'). rewrite Ec'. auto.
Qed.

Lemma planar_all_finite d pts f c : size_ok d -> flat d -> all_inside d pts -> pts <> [] ->
  build_distance_field d pts = Ok f -> in_bounds d c = true -> exists m, cell_distsq f c = Some m.
Proof.
  intros Hs Hf Hp Hne Hb Hc. destruct pts as [|p l]; [congruence|].
  destruct (planar_finite d (p :: l) f c p Hs Hf Hp Hb Hc (or_introl eq_refl)) as (m & E & _). eauto.
Qed.

Lemma planar_straight d pts f c p : size_ok d -> flat d -> all_inside d pts ->
  build_distance_field d pts = Ok f -> in_bounds d c = true -> In p pts ->
  distsq c p = manhattan c p * manhattan c p -> nearest_distsq pts c (distsq c p) ->
  cell_distsq f c = Some (distsq c p).
Proof.
  intros Hs Hf Hp Hb Hc Hi He Hn. destruct (planar_finite d pts f c p Hs Hf Hp Hb Hc Hi) as (m & E & Hle).
  destruct (build_never_under d pts f Hs Hp Hb c m Hc E) as (_ & Hge). specialize (Hge _ Hn).
  rewrite E. f_equal. lia.
Qed.

(** In a planar grid at most two coordinates differ. *)
Lemma flat_manhattan d c p : flat d -> in_bounds d c = true -> in_bounds d p = true ->
  manhattan c p * manhattan c p <= 2 * distsq c p.
Proof.
  intros Hf Hc Hp. apply in_bounds_spec in Hc. apply in_bounds_spec in Hp.
  unfold manhattan, distsq. unfold flat in Hf.
  assert (Sq : forall t, t * t = Z.abs t * Z.abs t) by (intros t; rewrite <- Z.abs_mul, Z.abs_eq; nia).
  rewrite (Sq (ix c - ix p)), (Sq (iy c - iy p)), (Sq (iz c - iz p)).
  assert (K : Z.abs (ix c - ix p) = 0 \/ Z.abs (iy c - iy p) = 0 \/ Z.abs (iz c - iz p) = 0) by lia.
  revert K. generalize (Z.abs (ix c - ix p)) (Z.abs (iy c - iy p)) (Z.abs (iz c - iz p)).
  intros u v w K. pose proof (Z.square_nonneg (u - v)). pose proof (Z.square_nonneg (u - w)).
  pose proof (Z.square_nonneg (v - w)). destruct K as [->|[->| ->]]; lia.
Qed.

Lemma planar_ratio d pts f c v : size_ok d -> flat d -> all_inside d pts ->
  build_distance_field d pts = Ok f -> in_bounds d c = true -> nearest_distsq pts c v ->
  exists m, cell_distsq f c = Some m /\ v <= m <= 2 * v.
Proof.
  intros Hs Hf Hp Hb Hc Hn. pose proof Hn as ((p & Hi & Hd) & _).
  destruct (planar_finite d pts f c p Hs Hf Hp Hb Hc Hi) as (m & E & Hle). exists m. split; auto.
  destruct (build_never_under d pts f Hs Hp Hb c m Hc E) as (_ & Hge). specialize (Hge _ Hn).
  pose proof (flat_manhattan d c p Hf Hc (Hp p Hi)). lia.
Qed.

Lemma planar_neighbours d pts f a b m : size_ok d -> flat d -> all_inside d pts ->
  build_distance_field d pts = Ok f -> in_bounds d a = true -> in_bounds d b = true ->
  distsq a b = 1 -> cell_distsq f a = Some m ->
  exists q k, In q pts /\ distsq a q = m /\ cell_distsq f b = Some k /\ k <= distsq b q.
Proof.
  intros Hs Hf Hp Hb Ha Hbb Hd Em.
  assert (K : exists t, axis t /\ b = add a t).
  { destruct a as [ax ay az], b as [bx by_ bz]. exists (bx - ax, by_ - ay, bz - az).
    split; [|unfold add; cbn [ix iy iz]; f_equal; lia].
    unfold distsq in Hd. cbn [ix iy iz] in Hd. unfold axis. cbn [ix iy iz].
    replace (bx - ax) with (- (ax - bx)) by lia. replace (by_ - ay) with (- (ay - by_)) by lia.
    replace (bz - az) with (- (az - bz)) by lia.
    revert Hd. generalize (ax - bx) (ay - by_) (az - bz). clear. intros u v w Hd.
    pose proof (Z.square_nonneg u). pose proof (Z.square_nonneg v). pose proof (Z.square_nonneg w).
    assert (B : forall t, t * t <= 1 -> t = -1 \/ t = 0 \/ t = 1) by (intros t Ht; nia).
    destruct (B u) as [->|[->| ->]]; [lia| | |]; (destruct (B v) as [->|[->| ->]]; [lia| | |]);
      (destruct (B w) as [->|[->| ->]]; [lia| | |]); lia. }
  destruct K as (t & Ht & ->).
  destruct (planar_consistent d pts f a t Hs Hf Hp Hb Ha Hbb Ht m Em) as (q & k & A). exists q, k. tauto.
Qed.

Lemma planar_example :
  let d := D 7 4 1 in let pts := [I 1 1 0; I 2 2 0; I 4 3 0] in
  size_ok d /\ flat d /\ all_inside d pts /\
  match build_distance_field d pts with
  | Ok f => cell_distsq f (I 4 0 0) = Some 9 /\ cell_distsq f (I 6 0 0) = Some 13 /\
            cell_distsq f (I 6 3 0) = Some 4
  | _ => False
  end.
Proof.
  cbn zeta. split; [vm_compute; intuition discriminate|]. split; [right; right; vm_compute; discriminate|].
  split; [|vm_compute; auto].
  intros p [<-|[<-|[<-|[]]]]; reflexivity.
Qed.

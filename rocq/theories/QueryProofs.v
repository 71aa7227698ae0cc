From Coq Require Import Reals Lra Psatz.
From Verif Require Import Base BaseFacts Grid GridFacts Arith SdfQuery QuerySpec.
Open Scope Z_scope.

Lemma interior_spec d i : interior d i = true <-> strictly_inside d i.
Proof. unfold interior, strictly_inside. lia. Qed.

Section Any.
  Context {A : arith}.
  Implicit Types (f : field A) (p : pose A).

  Lemma aligned_none f i e :
    grid_aligned_gradient f i e = None <->
    in_bounds (f_dims f) i = false \/ (e = false /\ ~ strictly_inside (f_dims f) i).
  Proof.
    rewrite <- interior_spec. unfold grid_aligned_gradient. destruct i as [x y z].
    destruct (in_bounds (f_dims f) (I x y z)) eqn:B.
    - destruct (interior (f_dims f) (I x y z)) eqn:E.
      + split; [discriminate|]. intros [H|(_ & H)]; [discriminate|congruence].
      + destruct e; split; try discriminate.
        * intros [H|(H & _)]; discriminate.
        * intros _. right. split; auto.
        * auto.
    - split; auto.
  Qed.

  Lemma gradient_none f p i e :
    gradient f p i e = None <->
    in_bounds (f_dims f) i = false \/ (e = false /\ ~ strictly_inside (f_dims f) i).
  Proof.
    rewrite <- aligned_none. unfold gradient. destruct (grid_aligned_gradient f i e); split; congruence.
  Qed.

  Lemma gradient_at_none f p loc e :
    gradient_at f p loc e = None <->
    in_bounds (f_dims f) (index_of p (to_grid p loc)) = false \/
    (e = false /\ ~ strictly_inside (f_dims f) (index_of p (to_grid p loc))).
  Proof.
    unfold gradient_at. destruct (in_bounds _ _) eqn:B.
    - rewrite gradient_none, B. reflexivity.
    - split; auto.
  Qed.

  Lemma fill_all {T} (g : idx -> T) d (a b : T) i :
    0 <= nx d -> 0 <= ny d -> 0 <= nz d ->
    gget (fold_left (fun acc j => fst (set acc j (g j))) (sweep d) (mk_grid d a b)) i =
      if in_bounds d i then g i else b.
  Proof.
    intros H1 H2 H3.
    assert (K : wf_grid (fold_left (fun acc j => fst (set acc j (g j))) (sweep d) (mk_grid d a b)) /\
      gdims (fold_left (fun acc j => fst (set acc j (g j))) (sweep d) (mk_grid d a b)) = d /\
      goob (fold_left (fun acc j => fst (set acc j (g j))) (sweep d) (mk_grid d a b)) = b /\
      forall j, In j (sweep d) ->
        gget (fold_left (fun acc j => fst (set acc j (g j))) (sweep d) (mk_grid d a b)) j = g j).
    { apply fold_left_inv_prefix with
        (I := fun pre acc => wf_grid acc /\ gdims acc = d /\ goob acc = b /\
                             forall j, In j pre -> gget acc j = g j).
      - split; [apply mk_grid_wf; auto|]. split; auto. split; auto. intros j [].
      - intros pre c post acc E (W & D1 & O & H).
        change (fst (set acc c (g c))) with (gset acc c (g c)).
        assert (Hc : in_bounds (gdims acc) c = true).
        { rewrite D1. apply sweep_in. rewrite E. apply in_app_iff. right; left; auto. }
        split; [apply gset_wf; auto|]. split; [rewrite gset_dims; auto|].
        split; [rewrite gset_oob; auto|]. intros j Hj. rewrite gget_gset by auto.
        destruct (idx_eqb_spec c j) as [<-|Hn]; auto.
        apply in_app_iff in Hj. destruct Hj as [Hj|[Hj|[]]]; [auto|congruence]. }
    destruct K as (W & D1 & O & H). destruct (in_bounds d i) eqn:B.
    - apply H. apply sweep_in. auto.
    - rewrite gget_oob; [auto|rewrite D1; auto].
  Qed.

  Lemma full_gradient_spec f (g : idx -> option (vec A)) i :
    wf_grid (f_grid f) -> in_bounds (f_dims f) i = true -> gget (full_gradient f g) i = g i.
  Proof.
    intros (H1 & H2 & H3 & _) B. unfold full_gradient, f_dims in *. rewrite fill_all by auto.
    rewrite B. auto.
  Qed.

  (** ** Estimates *)

  Lemma axis_indices_cases initial size (o : dbl A) :
    0 <= initial < size ->
    let (l, u) := axis_interpolation_indices initial size o in
    0 <= l <= u /\ u < size /\ l <= initial <= u /\ u - l <= 1 /\ (u = l -> size = 1).
  Proof.
    intros H. unfold axis_interpolation_indices.
    destruct (dle A _ o); [destruct (Z.leb_spec size (initial + 1))|];
      (destruct (Z.ltb_spec (initial - 1) 0)); try lia.
    destruct (Z.leb_spec size (initial + 1)); lia.
  Qed.

  Lemma axis_indices_initial initial size (o : dbl A) :
    let (l, u) := axis_interpolation_indices initial size o in l = initial \/ u = initial.
  Proof.
    unfold axis_interpolation_indices.
    destruct (dle A _ o); [destruct (size <=? initial + 1)|]; destruct (initial - 1 <? 0); auto.
    destruct (size <=? initial + 1); auto.
  Qed.

  Lemma corrected_ok f i : in_bounds (f_dims f) i = true -> exists v, corrected_center_distance f i = Ok v.
  Proof.
    intros B. unfold corrected_center_distance. rewrite get_eq. unfold f_dims in B. rewrite B. eauto.
  Qed.

  Lemma corrected_oob f i : in_bounds (f_dims f) i = false ->
    corrected_center_distance f i = Throw "Index out of bounds".
  Proof.
    intros B. unfold corrected_center_distance. rewrite get_eq. unfold f_dims in B. rewrite B. auto.
  Qed.

  Lemma estimate_ok f p q i : in_bounds (f_dims f) i = true ->
    exists e, estimate_from_neighbors f p q i = Ok e.
  Proof.
    intros B. unfold estimate_from_neighbors.
    apply in_bounds_spec in B. destruct B as (Bx & By & Bz).
    set (o := vsub q (center_of p i)).
    pose proof (axis_indices_cases (ix i) (nx (f_dims f)) (vx o) Bx) as Hx.
    pose proof (axis_indices_cases (iy i) (ny (f_dims f)) (vy o) By) as Hy.
    pose proof (axis_indices_cases (iz i) (nz (f_dims f)) (vz o) Bz) as Hz.
    destruct (axis_interpolation_indices (ix i) _ _) as [xl xu].
    destruct (axis_interpolation_indices (iy i) _ _) as [yl yu].
    destruct (axis_interpolation_indices (iz i) _ _) as [zl zu].
    assert (K : forall x y z, (x = xl \/ x = xu) -> (y = yl \/ y = yu) -> (z = zl \/ z = zu) ->
                exists v, corrected_center_distance f (I x y z) = Ok v).
    { intros x y z Hx' Hy' Hz'. apply corrected_ok. apply in_bounds_spec; cbn [ix iy iz]. lia. }
    destruct (K xl yl zl) as (v1 & E1); auto. rewrite E1; cbn [bind].
    destruct (K xl yl zu) as (v2 & E2); auto. rewrite E2; cbn [bind].
    destruct (K xl yu zl) as (v3 & E3); auto. rewrite E3; cbn [bind].
    destruct (K xl yu zu) as (v4 & E4); auto. rewrite E4; cbn [bind].
    destruct (K xu yl zl) as (v5 & E5); auto. rewrite E5; cbn [bind].
    destruct (K xu yl zu) as (v6 & E6); auto. rewrite E6; cbn [bind].
    destruct (K xu yu zl) as (v7 & E7); auto. rewrite E7; cbn [bind].
    destruct (K xu yu zu) as (v8 & E8); auto. rewrite E8; cbn [bind].
    eauto.
  Qed.

  Lemma estimate_inb f p q i :
    in_bounds (f_dims f) i = false ->
    estimate_from_neighbors f p q i = Throw "Index out of bounds".
  Proof.
    intros B. unfold estimate_from_neighbors.
    set (o := vsub q (center_of p i)).
    pose proof (axis_indices_initial (ix i) (nx (f_dims f)) (vx o)) as Hx.
    pose proof (axis_indices_initial (iy i) (ny (f_dims f)) (vy o)) as Hy.
    pose proof (axis_indices_initial (iz i) (nz (f_dims f)) (vz o)) as Hz.
    destruct (axis_interpolation_indices (ix i) _ _) as [xl xu].
    destruct (axis_interpolation_indices (iy i) _ _) as [yl yu].
    destruct (axis_interpolation_indices (iz i) _ _) as [zl zu].
    assert (K : forall j, exists r, corrected_center_distance f j = r /\
              ((exists v, r = Ok v) \/ r = Throw "Index out of bounds")).
    { intros j. destruct (in_bounds (f_dims f) j) eqn:E.
      - destruct (corrected_ok f j E) as (v & Ev). eauto.
      - rewrite corrected_oob by auto. eauto. }
    assert (T : corrected_center_distance f (I (ix i) (iy i) (iz i)) = Throw "Index out of bounds").
    { apply corrected_oob. destruct i; auto. }
    Ltac stepc K :=
      match goal with
      | |- bind (corrected_center_distance ?f ?j) _ = _ =>
          let r := fresh "r" in let E := fresh "E" in let v := fresh "v" in
          let H := fresh "H" in
          destruct (K j) as (r & E & H); rewrite E;
          destruct H as [(v & H)|H]; rewrite H in *; cbn [bind]; [|reflexivity]
      end.
    do 8 (stepc K). exfalso.
    destruct Hx as [Hx|Hx], Hy as [Hy|Hy], Hz as [Hz|Hz]; rewrite <- Hx, <- Hy, <- Hz in T; congruence.
  Qed.

  Lemma estimate_distance_spec f p loc :
    (in_bounds (f_dims f) (index_of p (to_grid p loc)) = true ->
       exists e, estimate_distance f p loc = Ok (e, true)) /\
    (in_bounds (f_dims f) (index_of p (to_grid p loc)) = false ->
       estimate_distance f p loc = Ok (widen A (goob (f_grid f)), false)).
  Proof.
    unfold estimate_distance. split; intros B; rewrite B; auto.
    destruct (estimate_ok f p (to_grid p loc) _ B) as (e & ->). cbn [bind]. eauto.
  Qed.

  (** ** Smooth gradient *)

  Definition inside f p (loc : vec A) : bool := in_bounds (f_dims f) (index_of p (to_grid p loc)).

  Lemma estimate_flag f p loc : exists e, estimate_distance f p loc = Ok (e, inside f p loc).
  Proof.
    destruct (estimate_distance_spec f p loc) as (H1 & H2). unfold inside.
    destruct (in_bounds _ _); eauto.
  Qed.

  Lemma axis_smooth_spec (e1 e2 e3 : dbl A) b2 b3 v v2 v3 :
    (b2 || b3 = true -> exists g, axis_smooth_gradient (e1, true) (e2, b2) (e3, b3) v v2 v3 = Ok g) /\
    (b2 || b3 = false -> axis_smooth_gradient (e1, true) (e2, b2) (e3, b3) v v2 v3 =
       Throw "Window size for GetSmoothGradient is too large for SDF").
  Proof.
    unfold axis_smooth_gradient; cbn [fst snd]. destruct b2, b3; cbn; split; intros H; eauto; discriminate.
  Qed.

  Lemma smooth_gradient_spec f p x y z w :
    let a := dabs A w in
    let reach :=
      (inside f p (V (dsub A x a) y z) || inside f p (V (dadd A x a) y z)) &&
      (inside f p (V x (dsub A y a) z) || inside f p (V x (dadd A y a) z)) &&
      (inside f p (V x y (dsub A z a)) || inside f p (V x y (dadd A z a))) in
    (inside f p (V x y z) = false -> smooth_gradient f p (V x y z) w = Ok None) /\
    (inside f p (V x y z) = true -> reach = true ->
       exists g, smooth_gradient f p (V x y z) w = Ok (Some g)) /\
    (inside f p (V x y z) = true -> reach = false ->
       smooth_gradient f p (V x y z) w =
         Throw "Window size for GetSmoothGradient is too large for SDF").
  Proof.
    intros a reach. unfold smooth_gradient. fold a. fold (inside f p (V x y z)).
    split; [intros ->; auto|].
    destruct (inside f p (V x y z)) eqn:B; [|split; discriminate].
    destruct (estimate_flag f p (V x y z)) as (e0 & E0). rewrite E0, B; cbn [bind].
    destruct (estimate_flag f p (V (dsub A x a) y z)) as (e1 & E1). rewrite E1; cbn [bind].
    destruct (estimate_flag f p (V (dadd A x a) y z)) as (e2 & E2). rewrite E2; cbn [bind].
    destruct (estimate_flag f p (V x (dsub A y a) z)) as (e3 & E3). rewrite E3; cbn [bind].
    destruct (estimate_flag f p (V x (dadd A y a) z)) as (e4 & E4). rewrite E4; cbn [bind].
    destruct (estimate_flag f p (V x y (dsub A z a))) as (e5 & E5). rewrite E5; cbn [bind].
    destruct (estimate_flag f p (V x y (dadd A z a))) as (e6 & E6). rewrite E6; cbn [bind].
    unfold reach.
    destruct (axis_smooth_spec e0 e1 e2 (inside f p (V (dsub A x a) y z))
                (inside f p (V (dadd A x a) y z)) x (dsub A x a) (dadd A x a)) as (X1 & X2).
    destruct (axis_smooth_spec e0 e3 e4 (inside f p (V x (dsub A y a) z))
                (inside f p (V x (dadd A y a) z)) y (dsub A y a) (dadd A y a)) as (Y1 & Y2).
    destruct (axis_smooth_spec e0 e5 e6 (inside f p (V x y (dsub A z a)))
                (inside f p (V x y (dadd A z a))) z (dsub A z a) (dadd A z a)) as (Z1 & Z2).
    destruct (_ || _) eqn:Hx; [destruct (X1 eq_refl) as (gx & ->)|rewrite (X2 eq_refl)]; cbn [bind];
      [|split; [discriminate|reflexivity]].
    destruct (inside f p (V x (dsub A y a) z) || _) eqn:Hy;
      [destruct (Y1 eq_refl) as (gy & ->)|rewrite (Y2 eq_refl)]; cbn [bind];
      [|split; [discriminate|reflexivity]].
    destruct (inside f p (V x y (dsub A z a)) || _) eqn:Hz;
      [destruct (Z1 eq_refl) as (gz & ->)|rewrite (Z2 eq_refl)]; cbn [bind];
      [|split; [discriminate|reflexivity]].
    split; [eauto|discriminate].
  Qed.

  (** ** Projection out of collision *)

  Definition far_enough f p (md : dbl A) (q : vec A) : Prop :=
    exists dist, in_bounds (f_dims f) (index_of p q) = true /\
      estimate_from_neighbors f p q (index_of p q) = Ok dist /\ dle A dist md = false.

  Lemma estimate_ok_inb f p q i e : estimate_from_neighbors f p q i = Ok e ->
    in_bounds (f_dims f) i = true.
  Proof.
    intros E. destruct (in_bounds (f_dims f) i) eqn:B; auto. rewrite estimate_inb in E; auto. discriminate.
  Qed.

  Lemma project_loop_spec fuel f p md mult : forall q dist,
    estimate_from_neighbors f p q (index_of p q) = Ok dist ->
    match project_loop fuel f p md mult q (index_of p q) dist with
    | Finished q' => far_enough f p md q'
    | Failed why => why = "Encountered flat gradient - stuck"%string \/
                    why = "Index out of bounds"%string
    | Running q' i' dist' => i' = index_of p q' /\ estimate_from_neighbors f p q' i' = Ok dist'
    end.
  Proof.
    induction fuel as [|fuel IH]; intros q dist E; cbn [project_loop]; [auto|].
    unfold project_step. destruct (dle A dist md) eqn:Hd.
    - pose proof (estimate_ok_inb _ _ _ _ _ E) as B.
      destruct (grid_aligned_gradient f (index_of p q) true) as [g|] eqn:G.
      + destruct (dlt A _ (norm g)); [|auto].
        set (q' := vadd q _).
        destruct (in_bounds (f_dims f) (index_of p q')) eqn:B'.
        * destruct (estimate_ok f p q' _ B') as (d' & E'). rewrite E'. apply IH. auto.
        * rewrite (estimate_inb f p q' _ B'). auto.
      + apply aligned_none in G. destruct G as [G|(G & _)]; [congruence|discriminate].
    - exists dist. split; [eapply estimate_ok_inb; eauto|]. auto.
  Qed.

  Lemma project_out_grid_spec fuel f p q md mult :
    match project_out_grid_frame fuel f p q md mult with
    | Finished q' => far_enough f p md q'
    | Failed why => why = "Encountered flat gradient - stuck"%string \/
                    why = "Index out of bounds"%string
    | Running q' i' dist' => i' = index_of p q' /\ estimate_from_neighbors f p q' i' = Ok dist'
    end.
  Proof.
    unfold project_out_grid_frame.
    destruct (in_bounds (f_dims f) (index_of p q)) eqn:B.
    - destruct (estimate_ok f p q _ B) as (d & E). rewrite E. apply project_loop_spec; auto.
    - rewrite estimate_inb by auto. auto.
  Qed.

  (** The loop is deterministic: coming back to an earlier state it never ends. *)
  Lemma project_loop_add n m f p md mult : forall q i dist,
    project_loop (n + m) f p md mult q i dist =
    match project_loop n f p md mult q i dist with
    | Running q' i' d' => project_loop m f p md mult q' i' d'
    | r => r
    end.
  Proof.
    induction n as [|n IH]; intros q i dist; cbn [project_loop Nat.add]; auto.
    destruct (project_step f p md mult q i dist); auto.
  Qed.

  Lemma project_loop_cycle k f p md mult q i dist :
    (0 < k)%nat -> project_loop k f p md mult q i dist = Running q i dist ->
    forall fuel, exists q' i' d', project_loop fuel f p md mult q i dist = Running q' i' d'.
  Proof.
    intros Hk E fuel.
    assert (M : forall c, project_loop (c * k) f p md mult q i dist = Running q i dist).
    { induction c as [|c IH]; auto. cbn [Nat.mul]. rewrite project_loop_add, E. auto. }
    assert (L : exists m, (fuel + m = fuel * k)%nat).
    { exists (fuel * k - fuel)%nat. nia. }
    destruct L as (m & L). specialize (M fuel). rewrite <- L, project_loop_add in M.
    destruct (project_loop fuel f p md mult q i dist) as [q' i' d'|q'|w] eqn:Ef; try discriminate.
    eauto.
  Qed.
End Any.

(** The distances of the image node, their extremes and the published images. *)
From Coq Require Import Lia Reals Lra Psatz.
From Flocq Require Import Core.Core IEEE754.Binary IEEE754.Bits.
From Verif Require Import Base BaseFacts Floats FloatFacts FloatFacts2 Grid GridFacts QueryProofs
  Image ImageSpec ImageProofs ImagePath.
Local Open Scope Z_scope.

Section Mark.
  Variables (h w : Z) (pixel : Z -> Z -> Z) (source : Z -> bool).
  Hypothesis OK : image_ok h w.

  Definition pointers : grid (option (Z * Z)) :=
    fold_left (fun F p => gset F p (if source (pixel (ix p) (iy p)) then Some (pt p) else None))
      (sweep (D h w 1)) (mk_grid (D h w 1) None None).

  Lemma fill_shape {A} (v : idx -> A) a b : 
    wf_grid (fold_left (fun f p => gset f p (v p)) (sweep (D h w 1)) (mk_grid (D h w 1) a b)) /\
    gdims (fold_left (fun f p => gset f p (v p)) (sweep (D h w 1)) (mk_grid (D h w 1) a b)) = D h w 1 /\
    goob (fold_left (fun f p => gset f p (v p)) (sweep (D h w 1)) (mk_grid (D h w 1) a b)) = b.
  Proof.
    destruct OK as (H1 & H2 & _).
    apply fold_left_inv with (I := fun f => wf_grid f /\ gdims f = D h w 1 /\ goob f = b).
    - split; [apply mk_grid_wf; cbn; lia|split; reflexivity].
    - intros p f Hp (W & E & O). rewrite gset_dims, gset_oob. split; [apply gset_wf; auto|auto].
  Qed.
  Lemma fill_value {A} (v : idx -> A) a b p :
    gget (fold_left (fun f p => gset f p (v p)) (sweep (D h w 1)) (mk_grid (D h w 1) a b)) p =
      if in_bounds (D h w 1) p then v p else b.
  Proof. destruct OK as (H1 & H2 & _). apply fill_all; cbn; lia. Qed.

  Lemma mark_rel : rel h w (mark h w pixel source) pointers.
  Proof.
    unfold rel, mark, pointers. destruct (fill_shape (fun p => if source (pixel (ix p) (iy p)) then filled_cell else empty_cell) filled_cell empty_cell) as (A & B & C).
    destruct (fill_shape (fun p => if source (pixel (ix p) (iy p)) then Some (pt p) else None) None None) as (A' & B' & C').
    do 6 (split; [assumption|]). intros p Hp.
    rewrite (fill_value (fun p => if source (pixel (ix p) (iy p)) then filled_cell else empty_cell)).
    rewrite (fill_value (fun p => if source (pixel (ix p) (iy p)) then Some (pt p) else None)). rewrite Hp.
    apply in_bounds_spec in Hp. cbn in Hp.
    destruct (source _); cbn [cell_is].
    - split.
      + cbn [fst snd pt filled_cell]. rewrite !Z.sub_diag. split; exact int_zero.
      + intros s E. injection E as <-. unfold inside, pt. cbn. lia.
    - split; [reflexivity|discriminate].
  Qed.

  (** The pointers behind the finished field. *)
  Definition final : grid (option (Z * Z)) := fold_left vis (first_pass h w ++ second_pass h w) pointers.
  Lemma final_rel : rel h w (update_partial_sdf (mark h w pixel source)) final.
  Proof.
    unfold update_partial_sdf, final. pose proof mark_rel as R. destruct R as (E & _). rewrite E. cbn [nx ny].
    apply visits_rel; auto; [apply mark_rel|]. apply passes_ok.
  Qed.

  Definition is_source (s : Z * Z) : Prop := inside h w s /\ source (pixel (fst s) (snd s)) = true.

  Lemma pointers_source q u : gget pointers q = Some u -> is_source u.
  Proof.
    unfold pointers. rewrite (fill_value (fun p => if source (pixel (ix p) (iy p)) then Some (pt p) else None)).
    destruct (in_bounds (D h w 1) q) eqn:B; [|discriminate]. destruct (source _) eqn:S; [|discriminate].
    intros E. injection E as <-. apply in_bounds_spec in B. cbn in B. split; [unfold inside, pt; cbn; lia|exact S].
  Qed.
  Lemma source_pointer s : is_source s -> within pointers s 0.
  Proof.
    intros (P & S). exists s. unfold pointers.
    rewrite (fill_value (fun p => if source (pixel (ix p) (iy p)) then Some (pt p) else None)).
    rewrite inb by auto. cbn [ix iy]. rewrite S. split; [destruct s; reflexivity|].
    unfold dist, d2. rewrite !Z.sub_diag. cbn. rewrite sqrt_0. lra.
  Qed.

  Lemma final_some p s : inside h w p -> gget final (I (fst p) (snd p) 0) = Some s ->
    is_source s /\ forall t, is_source t -> (dist p s <= chain p t)%R.
  Proof.
    intros P E. destruct mark_rel as (_ & Dp & _ & Wp & _). split.
    - eapply (visits_from _ _ is_source Wp pointers_source); eauto.
    - intros t T. destruct (passes_reach h w t (proj1 T) pointers (conj Dp Wp) (source_pointer t T) p P) as (u & Eu & L).
      unfold final in E. rewrite E in Eu. injection Eu as <-. exact L.
  Qed.
  Lemma final_none p : inside h w p -> gget final (I (fst p) (snd p) 0) = None -> forall t, ~ is_source t.
  Proof.
    intros P E t T. destruct mark_rel as (_ & Dp & _ & Wp & _).
    destruct (passes_reach h w t (proj1 T) pointers (conj Dp Wp) (source_pointer t T) p P) as (u & Eu & L).
    unfold final in E. congruence.
  Qed.

  (** The distance read off the field. *)
  Definition rounded (v : binary64) (m : Z) : Prop := finite64 v /\ B2R64 v = rnd64 (sqrt (IZR m)).

  Lemma sqrt_int v m : is_int v m -> 0 <= m -> rounded (sqrt64 v) m.
  Proof.
    intros (F & E) Hm. pose proof (Bsqrt_correct 53 1024 eq_refl eq_refl unop_nan_pl64 NE v) as (HR & HF & _).
    cbn [BinarySingleNaN.round_mode] in HR. split.
    - unfold sqrt64, b64_sqrt. rewrite HF. destruct v as [s|s|s p H|s k e H]; auto.
      destruct s; auto. exfalso. cbn [B2R] in E.
      assert (F2R (Float radix2 (cond_Zopp true (Z.pos k)) e) < 0)%R by (apply F2R_lt_0; reflexivity).
      apply IZR_le in Hm. lra.
    - unfold sqrt64, b64_sqrt. rewrite HR, E. reflexivity.
  Qed.

  Lemma field_distance p : inside h w p ->
    let v := cell_distance (fst (get (update_partial_sdf (mark h w pixel source)) (I (fst p) (snd p) 0))) in
    (exists s, is_source s /\ rounded v (d2 p s) /\ forall t, is_source t -> (dist p s <= chain p t)%R) \/
    ((forall t, ~ is_source t) /\ v = inf64).
  Proof.
    intros P v. destruct (get_rel h w _ _ (I (fst p) (snd p) 0) final_rel eq_refl) as (C & S).
    change (fst (get final (I (fst p) (snd p) 0))) with (gget final (I (fst p) (snd p) 0)) in *.
    destruct (gget final (I (fst p) (snd p) 0)) as [s|] eqn:E.
    - left. exists s. destruct (final_some p s P E) as (T & L). split; auto. split; auto.
      destruct (S s eq_refl) as (Si & _). destruct C as (C1 & C2).
      assert (X : pt (I (fst p) (snd p) 0) = p) by (destruct p; reflexivity).
      pose proof (fun c => dist_int h w OK (I (fst p) (snd p) 0) c s) as K. rewrite X in K.
      apply sqrt_int; [apply K; auto|]. unfold d2. pose proof (Z.square_nonneg (fst s - fst p)). pose proof (Z.square_nonneg (snd s - snd p)). lia.
    - right. split; [apply final_none with p; auto|]. unfold v. cbn [cell_is] in C. rewrite C. reflexivity.
  Qed.
End Mark.

Lemma chain_self p : chain p p = 0%R.
Proof. unfold chain. rewrite !Z.sub_diag. cbn. ring. Qed.
Lemma dist_zero p q : (dist p q <= 0)%R -> q = p.
Proof.
  unfold dist. intros H. assert (d2 p q <= 0).
  { destruct (Z_le_gt_dec (d2 p q) 0); auto. exfalso.
    assert (0 < sqrt (IZR (d2 p q)))%R by (apply sqrt_lt_R0, IZR_lt; lia). lra. }
  clear H. unfold d2 in *. destruct p as [a b], q as [c d]. cbn [fst snd] in *.
  pose proof (Z.square_nonneg (c - a)). pose proof (Z.square_nonneg (d - b)).
  assert ((c - a) * (c - a) = 0) as X by lia. assert ((d - b) * (d - b) = 0) as Y by lia.
  apply Z.mul_eq_0 in X, Y. f_equal; lia.
Qed.

Section Distance.
  Variables (h w : Z) (pixel : Z -> Z -> Z).
  Hypothesis OK : image_ok h w.

  Definition nearest_like (P : Z * Z -> Prop) (p s : Z * Z) : Prop :=
    inside h w s /\ P s /\ forall t, inside h w t -> P t -> (dist p s <= chain p t)%R.

  Lemma source_field source p (P : Z * Z -> Prop) : (forall s, P s <-> source (pixel (fst s) (snd s)) = true) ->
    inside h w p ->
    let v := cell_distance (fst (get (update_partial_sdf (mark h w pixel source)) (I (fst p) (snd p) 0))) in
    (exists s, nearest_like P p s /\ rounded v (d2 p s)) \/
    ((forall t, inside h w t -> ~ P t) /\ v = inf64).
  Proof.
    intros HP Hp v. destruct (field_distance h w pixel source OK p Hp) as [(s & (A & B) & C & L)|(N & V)].
    - left. exists s. split; auto. split; auto. split; [apply HP, B|]. intros t T1 T2. apply L. split; auto. apply HP, T2.
    - right. split; auto. intros t T1 T2. apply (N t). split; auto. apply HP, T2.
  Qed.

  Lemma filled_source s : is_filled pixel s <-> (fun v => negb (v =? 0)) (pixel (fst s) (snd s)) = true.
  Proof. unfold is_filled. rewrite negb_true_iff, Z.eqb_neq. reflexivity. Qed.
  Lemma empty_source s : is_empty pixel s <-> (fun v => v =? 0) (pixel (fst s) (snd s)) = true.
  Proof. unfold is_empty. rewrite Z.eqb_eq. reflexivity. Qed.

  Lemma own_field (P : Z * Z -> Prop) p s v : P p -> inside h w p -> nearest_like P p s -> rounded v (d2 p s) -> finite64 v /\ B2R64 v = 0%R.
  Proof.
    intros Hp Ip (_ & _ & L) (F & R). split; auto. pose proof (L p Ip Hp) as K. rewrite chain_self in K.
    apply dist_zero in K. subst s. rewrite R. unfold d2. rewrite !Z.sub_diag. cbn. rewrite sqrt_0. apply round_0. typeclasses eauto.
  Qed.

  Lemma minus_fin a b : finite64 a -> finite64 b -> (Rabs (rnd64 (B2R64 a - B2R64 b)) < bpow radix2 1024)%R ->
    finite64 (sub64 a b) /\ B2R64 (sub64 a b) = rnd64 (B2R64 a - B2R64 b).
  Proof.
    intros Fa Fb L. pose proof (Bminus_correct 53 1024 eq_refl eq_refl binop_nan_pl64 NE a b Fa Fb) as K.
    cbn [BinarySingleNaN.round_mode] in K. rewrite Rlt_bool_true in K by exact L. destruct K as (R & F & _).
    split; [exact F|exact R].
  Qed.
  Lemma minus_zero_r a b : finite64 a -> finite64 b -> B2R64 b = 0%R -> finite64 (sub64 a b) /\ B2R64 (sub64 a b) = B2R64 a.
  Proof.
    intros Fa Fb E. destruct (minus_fin a b Fa Fb) as (F & R).
    - rewrite E, Rminus_0_r, round_generic; [|typeclasses eauto|apply generic_format_B2R]. apply abs_B2R_lt_emax.
    - split; auto. rewrite R, E, Rminus_0_r, round_generic; auto; [typeclasses eauto|apply generic_format_B2R].
  Qed.
  Lemma minus_zero_l a b : finite64 a -> finite64 b -> B2R64 a = 0%R -> finite64 (sub64 a b) /\ B2R64 (sub64 a b) = (- B2R64 b)%R.
  Proof.
    intros Fa Fb E. destruct (minus_fin a b Fa Fb) as (F & R).
    - rewrite E, Rminus_0_l, round_generic; [|typeclasses eauto|apply generic_format_opp, generic_format_B2R]. rewrite Rabs_Ropp. apply abs_B2R_lt_emax.
    - split; auto. rewrite R, E, Rminus_0_l, round_generic; auto; [typeclasses eauto|apply generic_format_opp, generic_format_B2R].
  Qed.

  (** An empty pixel shows the distance to a filled one. *)
  Lemma empty_pixel p : inside h w p -> is_empty pixel p ->
    let v := pixel_distance h w pixel (fst p) (snd p) in
    (exists s, nearest_like (is_filled pixel) p s /\ finite64 v /\ B2R64 v = rnd64 (dist p s)) \/
    ((forall t, inside h w t -> ~ is_filled pixel t) /\ v = inf64).
  Proof.
    intros Ip E v.
    destruct (source_field _ p (is_empty pixel) empty_source Ip) as [(s0 & N0 & R0)|(N0 & _)].
    2:{ exfalso. apply (N0 p Ip E). }
    destruct (own_field _ p s0 _ E Ip N0 R0) as (F0 & Z0).
    destruct (source_field _ p (is_filled pixel) filled_source Ip) as [(s & N & F & R)|(N & V)].
    - left. exists s. split; auto. destruct (minus_zero_r _ _ F F0 Z0) as (Fv & Rv). split; [exact Fv|]. 
      unfold v, pixel_distance, filled_field, empty_field. rewrite Rv. exact R.
    - right. split; auto. unfold v, pixel_distance, filled_field, empty_field. rewrite V.
      set (z := cell_distance _) in *. destruct z as [b|b|b m e|b m e H]; try discriminate; reflexivity.
  Qed.
  Lemma filled_pixel p : inside h w p -> is_filled pixel p ->
    let v := pixel_distance h w pixel (fst p) (snd p) in
    (exists s, nearest_like (is_empty pixel) p s /\ finite64 v /\ B2R64 v = (- rnd64 (dist p s))%R) \/
    ((forall t, inside h w t -> ~ is_empty pixel t) /\ v = ninf64).
  Proof.
    intros Ip E v.
    destruct (source_field _ p (is_filled pixel) filled_source Ip) as [(s0 & N0 & R0)|(N0 & _)].
    2:{ exfalso. apply (N0 p Ip E). }
    destruct (own_field _ p s0 _ E Ip N0 R0) as (F0 & Z0).
    destruct (source_field _ p (is_empty pixel) empty_source Ip) as [(s & N & F & R)|(N & V)].
    - left. exists s. split; auto. destruct (minus_zero_l _ _ F0 F Z0) as (Fv & Rv). split; [exact Fv|].
      unfold v, pixel_distance, filled_field, empty_field. rewrite Rv. f_equal. exact R.
    - right. split; auto. unfold v, pixel_distance, filled_field, empty_field. rewrite V.
      set (z := cell_distance _) in *. destruct z as [b|b|b m e|b m e H]; try discriminate; reflexivity.
  Qed.
End Distance.

(** What the image node publishes. *)
From Coq Require Import Lia Reals Lra Psatz.
From Flocq Require Import Core.Core IEEE754.Binary IEEE754.Bits.
From Verif Require Import Base BaseFacts Floats FloatFacts FloatFacts2 Grid GridFacts
  Image ImageSpec ImageProofs ImagePath ImageThms.
Local Open Scope Z_scope.

(** * Chains and straight lines *)
Lemma chain_bound p q : (chain p q * chain p q <= (4 - 2 * sqrt 2) * (dist p q * dist p q))%R.
Proof.
  unfold dist. rewrite sqrt_sqrt.
  2:{ apply IZR_le. unfold d2. pose proof (Z.square_nonneg (fst q - fst p)). pose proof (Z.square_nonneg (snd q - snd p)). lia. }
  unfold chain, d2. set (a := fst q - fst p). set (b := snd q - snd p).
  set (M := Z.max (Z.abs a) (Z.abs b)). set (m := Z.min (Z.abs a) (Z.abs b)).
  assert (E : a * a + b * b = M * M + m * m) 
    by (unfold M, m; rewrite <- (Z.abs_square a), <- (Z.abs_square b);
        destruct (Z.max_spec (Z.abs a) (Z.abs b)) as [(? & ->)|(? & ->)];
        [rewrite Z.min_l by lia|rewrite Z.min_r by lia]; lia). rewrite E, plus_IZR, !mult_IZR.
  assert (S : (sqrt 2 * sqrt 2 = 2)%R) by (apply sqrt_sqrt; lra). set (k := sqrt 2) in *.
  assert (C : (4 - 2 * k = 1 + (k - 1) * (k - 1))%R) by lra. rewrite C.
  pose proof (Rle_0_sqr ((k - 1) * IZR M - IZR m)) as Q. unfold Rsqr in Q. lra.
Qed.
Lemma chain_straight p q : fst p = fst q \/ snd p = snd q \/ Z.abs (fst q - fst p) = Z.abs (snd q - snd p) ->
  chain p q = dist p q.
Proof.
  intros H. unfold chain, dist, d2. set (a := fst q - fst p). set (b := snd q - snd p).
  assert (H' : a = 0 \/ b = 0 \/ Z.abs a = Z.abs b) by (unfold a, b; lia). clearbody a b.
  destruct H' as [->|[->|E]].
  - cbn [Z.abs Z.mul Z.add]. rewrite Z.max_r, Z.min_l by lia. rewrite Rmult_0_r, Rplus_0_r.
    replace (b * b) with (Z.abs b * Z.abs b) by (rewrite Z.abs_square; ring). rewrite mult_IZR, sqrt_square; auto. apply IZR_le. lia.
  - rewrite Z.mul_0_r, Z.add_0_r, Z.max_l, Z.min_r by lia. cbn [Z.abs]. rewrite Rmult_0_r, Rplus_0_r.
    replace (a * a) with (Z.abs a * Z.abs a) by (rewrite Z.abs_square; ring). rewrite mult_IZR, sqrt_square; auto. apply IZR_le. lia.
  - rewrite <- E, Z.max_id, Z.min_id. replace (a * a + b * b) with (2 * (Z.abs a * Z.abs a)) by (rewrite <- (Z.abs_square b), <- E, Z.abs_square; ring).
    rewrite mult_IZR, mult_IZR, sqrt_mult_alt by lra. rewrite sqrt_square by (apply IZR_le; lia). ring.
Qed.

(** * Shades *)
Lemma truncate64 v : finite64 v -> (0 <= B2R64 v)%R ->
  match v with
  | B754_zero _ _ _ => 0
  | B754_finite _ _ s m e _ =>
      let a := if e <? 0 then Z.pos m / 2 ^ (- e) else Z.pos m * 2 ^ e in if s then - a else a
  | _ => 0
  end = Zfloor (B2R64 v).
Proof.
  intros F P. destruct v as [s|s|s m e|s m e H]; try discriminate.
  - cbn [B2R]. symmetry. apply (Zfloor_IZR 0).
  - destruct s.
    + exfalso. cbn [B2R] in P. assert (F2R (Float radix2 (cond_Zopp true (Z.pos m)) e) < 0)%R by (apply F2R_lt_0; reflexivity). lra.
    + cbn [B2R cond_Zopp]. unfold F2R. cbn [Fnum Fexp]. destruct (Z.ltb_spec e 0).
      * replace (bpow radix2 e) with (/ IZR (2 ^ (- e)))%R.
        { symmetry. apply Zfloor_div. apply Z.pow_nonzero; lia. }
        change (IZR (2 ^ - e)) with (IZR (Zpower radix2 (- e))). rewrite IZR_Zpower by lia. rewrite <- bpow_opp. f_equal. lia.
      * rewrite <- IZR_Zpower by lia. rewrite <- mult_IZR, Zfloor_IZR. reflexivity.
Qed.

Lemma uint8_double v : finite64 v -> (0 <= B2R64 v < 256)%R -> uint8_of_double v = Ok (Zfloor (B2R64 v)).
Proof.
  intros F P. pose proof (truncate64 v F (proj1 P)) as T.
  assert (L : 0 <= Zfloor (B2R64 v) <= 255).
  { split; [apply Zfloor_lub; lra|]. apply Zlt_succ_le. apply lt_IZR.
    apply Rle_lt_trans with (B2R64 v); [apply Zfloor_lb|exact (proj2 P)]. }
  unfold uint8_of_double. destruct v as [s|s|s m e|s m e H]; try discriminate.
  - rewrite <- T. reflexivity.
  - cbn zeta in T. cbn zeta. rewrite T. destruct (Z.leb_spec 0 (Zfloor (B2R64 (B754_finite 53 1024 s m e H)))); [|lia].
    destruct (Z.leb_spec (Zfloor (B2R64 (B754_finite 53 1024 s m e H))) 255); [|lia]. reflexivity.
Qed.

Lemma rnd_between a b x : Z.abs a <= 2 ^ 53 -> Z.abs b <= 2 ^ 53 -> (IZR a <= x <= IZR b)%R -> (IZR a <= rnd64 x <= IZR b)%R.
Proof.
  intros A B (L & U). split.
  - apply Rle_trans with (rnd64 (IZR a)); [rewrite rnd_Z by auto; lra|]. apply rnd_le; try reflexivity; lra.
  - apply Rle_trans with (rnd64 (IZR b)); [|rewrite rnd_Z by auto; lra]. apply rnd_le; try reflexivity; lra.
Qed.
Lemma between_small a b x : Z.abs a <= 2 ^ 53 -> Z.abs b <= 2 ^ 53 -> (IZR a <= x <= IZR b)%R -> (Rabs x < bpow radix2 1024)%R.
Proof.
  intros A B (L & U). pose proof (small_B a A) as SA. pose proof (small_B b B) as SB.
  apply Rabs_def2 in SA, SB. apply Rabs_def1; lra.
Qed.

Lemma shade_between v x : finite64 v -> finite64 x ->
  (0 < B2R64 v <= B2R64 x \/ B2R64 x <= B2R64 v < 0)%R ->
  exists c, shade v x = Ok c /\ 64 <= c <= 128.
Proof.
  intros Fv Fx H. unfold shade.
  assert (X0 : B2R64 x <> 0%R) by lra.
  assert (Q : (0 <= B2R64 v / B2R64 x <= 1)%R).
  { destruct H as [(A & B)|(A & B)].
    - split; [apply Rlt_le, Rdiv_lt_0_compat; lra|]. apply Rmult_le_reg_r with (B2R64 x); [lra|]. unfold Rdiv. rewrite Rmult_assoc, Rinv_l by lra. lra.
    - replace (B2R64 v / B2R64 x)%R with ((- B2R64 v) / (- B2R64 x))%R by (field; lra).
      split; [apply Rlt_le, Rdiv_lt_0_compat; lra|]. apply Rmult_le_reg_r with (- B2R64 x)%R; [lra|].
      unfold Rdiv. rewrite Rmult_assoc, Rinv_l by lra. lra. }
  assert (Q' : (0 <= rnd64 (B2R64 v / B2R64 x) <= 1)%R) by (apply (rnd_between 0 1); lia || exact Q).
  assert (D : finite64 (div64 v x) /\ B2R64 (div64 v x) = rnd64 (B2R64 v / B2R64 x)).
  { pose proof (Bdiv_correct 53 1024 eq_refl eq_refl binop_nan_pl64 NE v x X0) as K.
    cbn [BinarySingleNaN.round_mode] in K. rewrite Rlt_bool_true in K by (apply (between_small 0 1); lia || exact Q').
    destruct K as (R & F & _). rewrite Fv in F. split; [exact F|exact R]. }
  destruct D as (Fd & Rd). set (q := div64 v x) in *.
  assert (Aq : finite64 (abs64 q) /\ (0 <= B2R64 (abs64 q) <= 1)%R).
  { unfold abs64. destruct (lt64 q zero64) eqn:L.
    - exfalso. apply lt64_spec in L; [|destruct q; auto; discriminate|reflexivity].
      rewrite xr_zero64 in L. unfold xr64 in L. destruct (xr_finite _ _ q Fd) as (E & _). lra.
    - rewrite Rd. auto. }
  destruct Aq as (Fq & Rq).
  assert (P64 : is_int (b64_of_Z 64) 64) by (apply int_of_Z; lia). destruct P64 as (F64 & R64).
  assert (M : finite64 (mul64 (b64_of_Z 64) (abs64 q)) /\ (0 <= B2R64 (mul64 (b64_of_Z 64) (abs64 q)) <= 64)%R).
  { pose proof (Bmult_correct 53 1024 eq_refl eq_refl binop_nan_pl64 NE (b64_of_Z 64) (abs64 q)) as K.
    cbn [BinarySingleNaN.round_mode] in K. rewrite R64 in K.
    assert (B : (0 <= rnd64 (64 * B2R64 (abs64 q)) <= 64)%R) by (apply (rnd_between 0 64); [lia|lia|lra]).
    rewrite Rlt_bool_true in K by (apply (between_small 0 64); lia || exact B). destruct K as (R & F & _).
    rewrite F64, Fq in F. split; [exact F|]. unfold mul64, b64_mult. rewrite R. exact B. }
  destruct M as (Fm & Rm). set (m := mul64 _ _) in *.
  assert (A : finite64 (add64 (b64_of_Z 64) m) /\ (64 <= B2R64 (add64 (b64_of_Z 64) m) <= 128)%R).
  { pose proof (Bplus_correct 53 1024 eq_refl eq_refl binop_nan_pl64 NE (b64_of_Z 64) m F64 Fm) as K.
    cbn [BinarySingleNaN.round_mode] in K. rewrite R64 in K.
    assert (B : (64 <= rnd64 (64 + B2R64 m) <= 128)%R) by (apply (rnd_between 64 128); [lia|lia|lra]).
    rewrite Rlt_bool_true in K by (apply (between_small 64 128); lia || exact B). destruct K as (R & F & _).
    split; [exact F|]. unfold add64, b64_plus. rewrite R. exact B. }
  destruct A as (Fa & Ra). exists (Zfloor (B2R64 (add64 (b64_of_Z 64) m))). split.
  - apply uint8_double; [exact Fa|lra].
  - split; [apply Zfloor_lub; lra|]. apply Zlt_succ_le, lt_IZR.
    apply Rle_lt_trans with (B2R64 (add64 (b64_of_Z 64) m)); [apply Zfloor_lb|]. change (Z.succ 128) with 129. lra.
Qed.

(** * Extremes *)
Section Extremes.
  Context {A : Type} (val : A -> binary64).

  Lemma max_fold l m : finite64 m -> (forall a, In a l -> finite64 (val a)) ->
    finite64 (fold_left (fun m a => if gt64 (val a) m then val a else m) l m) /\
    (B2R64 m <= B2R64 (fold_left (fun m a => if gt64 (val a) m then val a else m) l m))%R /\
    forall a, In a l -> (B2R64 (val a) <= B2R64 (fold_left (fun m a => if gt64 (val a) m then val a else m) l m))%R.
  Proof.
    revert m. induction l as [|b l IH]; intros m Fm H; cbn [fold_left].
    - split; auto. split; [lra|]. intros a [].
    - assert (Fb : finite64 (val b)) by (apply H; left; auto).
      set (m' := if gt64 (val b) m then val b else m).
      assert (K : finite64 m' /\ (B2R64 m <= B2R64 m')%R /\ (B2R64 (val b) <= B2R64 m')%R).
      { unfold m'. destruct (xr_finite _ _ m Fm) as (E1 & _). destruct (xr_finite _ _ _ Fb) as (E2 & _).
        destruct (gt64 (val b) m) eqn:G.
        - apply gt64_spec in G; [|destruct (val b); auto; discriminate|destruct m; auto; discriminate].
          unfold xr64 in G. split; auto. lra.
        - split; auto. split; [lra|]. destruct (Rle_lt_dec (B2R64 (val b)) (B2R64 m)) as [L|L]; auto. exfalso.
          assert (gt64 (val b) m = true); [|congruence].
          apply gt64_spec; [destruct (val b); auto; discriminate|destruct m; auto; discriminate|]. unfold xr64. lra. }
      destruct K as (F' & K1 & K2). destruct (IH m' F') as (F & L & U); [intros a Ha; apply H; right; auto|].
      split; auto. split; [lra|]. intros a [<-|Ha]; [lra|]. apply U, Ha.
  Qed.
  Lemma min_fold l m : finite64 m -> (forall a, In a l -> finite64 (val a)) ->
    finite64 (fold_left (fun m a => if lt64 (val a) m then val a else m) l m) /\
    (B2R64 (fold_left (fun m a => if lt64 (val a) m then val a else m) l m) <= B2R64 m)%R /\
    forall a, In a l -> (B2R64 (fold_left (fun m a => if lt64 (val a) m then val a else m) l m) <= B2R64 (val a))%R.
  Proof.
    revert m. induction l as [|b l IH]; intros m Fm H; cbn [fold_left].
    - split; auto. split; [lra|]. intros a [].
    - assert (Fb : finite64 (val b)) by (apply H; left; auto).
      set (m' := if lt64 (val b) m then val b else m).
      assert (K : finite64 m' /\ (B2R64 m' <= B2R64 m)%R /\ (B2R64 m' <= B2R64 (val b))%R).
      { unfold m'. destruct (xr_finite _ _ m Fm) as (E1 & _). destruct (xr_finite _ _ _ Fb) as (E2 & _).
        destruct (lt64 (val b) m) eqn:G.
        - apply lt64_spec in G; [|destruct (val b); auto; discriminate|destruct m; auto; discriminate].
          unfold xr64 in G. split; auto. lra.
        - split; auto. split; [lra|]. destruct (Rle_lt_dec (B2R64 m) (B2R64 (val b))) as [L|L]; auto. exfalso.
          assert (lt64 (val b) m = true); [|congruence].
          apply lt64_spec; [destruct (val b); auto; discriminate|destruct m; auto; discriminate|]. unfold xr64. lra. }
      destruct K as (F' & K1 & K2). destruct (IH m' F') as (F & L & U); [intros a Ha; apply H; right; auto|].
      split; auto. split; [lra|]. intros a [<-|Ha]; [lra|]. apply U, Ha.
  Qed.
  Lemma max_attained l m : fold_left (fun m a => if gt64 (val a) m then val a else m) l m = m \/
    exists a, In a l /\ fold_left (fun m a => if gt64 (val a) m then val a else m) l m = val a.
  Proof.
    revert m. induction l as [|b l IH]; intros m; cbn [fold_left]; auto.
    destruct (IH (if gt64 (val b) m then val b else m)) as [E|(a & Ha & E)].
    - rewrite E. destruct (gt64 (val b) m); [right; exists b; split; auto; left; auto|auto].
    - right. exists a. split; auto. right; auto.
  Qed.
  Lemma min_attained l m : fold_left (fun m a => if lt64 (val a) m then val a else m) l m = m \/
    exists a, In a l /\ fold_left (fun m a => if lt64 (val a) m then val a else m) l m = val a.
  Proof.
    revert m. induction l as [|b l IH]; intros m; cbn [fold_left]; auto.
    destruct (IH (if lt64 (val b) m then val b else m)) as [E|(a & Ha & E)].
    - rewrite E. destruct (lt64 (val b) m); [right; exists b; split; auto; left; auto|auto].
    - right. exists a. split; auto. right; auto.
  Qed.
  Lemma max_inf l : (forall a, In a l -> val a = inf64) -> l <> [] ->
    fold_left (fun m a => if gt64 (val a) m then val a else m) l zero64 = inf64.
  Proof.
    intros H N. destruct l as [|b l]; [congruence|]. cbn [fold_left]. rewrite (H b (or_introl eq_refl)).
    change (if gt64 inf64 zero64 then inf64 else zero64) with inf64.
    assert (G : forall a, In a l -> val a = inf64) by (intros a Ha; apply H; right; auto). clear H N.
    induction l as [|c l IH]; auto. cbn [fold_left]. rewrite (G c (or_introl eq_refl)).
    change (if gt64 inf64 inf64 then inf64 else inf64) with inf64. apply IH. intros a Ha. apply G. right; auto.
  Qed.
  Lemma min_ninf l : (forall a, In a l -> val a = ninf64) -> l <> [] ->
    fold_left (fun m a => if lt64 (val a) m then val a else m) l zero64 = ninf64.
  Proof.
    intros H N. destruct l as [|b l]; [congruence|]. cbn [fold_left]. rewrite (H b (or_introl eq_refl)).
    change (if lt64 ninf64 zero64 then ninf64 else zero64) with ninf64.
    assert (G : forall a, In a l -> val a = ninf64) by (intros a Ha; apply H; right; auto). clear H N.
    induction l as [|c l IH]; auto. cbn [fold_left]. rewrite (G c (or_introl eq_refl)).
    change (if lt64 ninf64 ninf64 then ninf64 else ninf64) with ninf64. apply IH. intros a Ha. apply G. right; auto.
  Qed.
End Extremes.

Lemma foldM_map {A B} (g : A -> res B) (c : A -> B) l acc : (forall a, In a l -> g a = Ok (c a)) ->
  foldM (fun l a => let* b := g a in Ok (l ++ [b])) l acc = Ok (acc ++ map c l).
Proof.
  revert acc. induction l as [|a l IH]; intros acc H; cbn [foldM map].
  - rewrite app_nil_r. reflexivity.
  - rewrite (H a (or_introl eq_refl)). cbn [bind]. rewrite IH by (intros b Hb; apply H; right; auto).
    rewrite <- app_assoc. reflexivity.
Qed.

Section Published.
  Variables (h w : Z) (pixel : Z -> Z -> Z).
  Hypothesis OK : image_ok h w.
  Notation val := (fun p : Z * Z => pixel_distance h w pixel (fst p) (snd p)).

  Lemma pixels_in p : In p (pixels h w) <-> inside h w p.
  Proof.
    unfold pixels, inside. rewrite in_flat_map. split.
    - intros (i & Hi & H). apply in_map_iff in H. destruct H as (j & <- & Hj). apply zrange_in in Hi, Hj. cbn. auto.
    - intros (A & B). exists (fst p). split; [apply zrange_in; auto|]. apply in_map_iff. exists (snd p).
      split; [destruct p; auto|apply zrange_in; auto].
  Qed.

  Lemma class p : is_empty pixel p \/ is_filled pixel p.
  Proof. unfold is_empty, is_filled. lia. Qed.

  Lemma apart p s : is_empty pixel p -> is_filled pixel s -> (1 <= rnd64 (dist p s))%R /\ (1 <= rnd64 (dist s p))%R.
  Proof.
    intros E F. assert (N : p <> s) by (unfold is_empty, is_filled in *; congruence).
    assert (K : forall p s : Z * Z, p <> s -> (1 <= rnd64 (dist p s))%R).
    { clear. intros p s N. apply Rle_trans with (rnd64 (IZR 1)); [rewrite rnd_Z by lia; lra|].
      apply rnd_le; try reflexivity. unfold dist. rewrite <- sqrt_1. apply sqrt_le_1_alt, IZR_le.
      destruct (Z_lt_le_dec (d2 p s) 1) as [L|L]; auto. exfalso. apply N. symmetry. apply dist_zero.
      unfold dist. replace (d2 p s) with 0; [rewrite sqrt_0; lra|]. unfold d2 in *.
      pose proof (Z.square_nonneg (fst s - fst p)). pose proof (Z.square_nonneg (snd s - snd p)). lia. }
    auto.
  Qed.

  Variables (e f : Z * Z).
  Hypothesis Ie : inside h w e.
  Hypothesis If : inside h w f.
  Hypothesis Ee : is_empty pixel e.
  Hypothesis Ff : is_filled pixel f.

  Lemma mixed_empty p : inside h w p -> is_empty pixel p ->
    exists s, nearest_like h w (is_filled pixel) p s /\ finite64 (val p) /\ B2R64 (val p) = rnd64 (dist p s) /\ (1 <= B2R64 (val p))%R.
  Proof.
    intros Ip E. destruct (empty_pixel h w pixel OK p Ip E) as [(s & N & F & R)|(N & _)]; [|exfalso; apply (N f If Ff)].
    exists s. do 3 (split; [auto|]). rewrite R. destruct N as (_ & N & _). destruct (apart p s E N). lra.
  Qed.
  Lemma mixed_filled p : inside h w p -> is_filled pixel p ->
    exists s, nearest_like h w (is_empty pixel) p s /\ finite64 (val p) /\ B2R64 (val p) = (- rnd64 (dist p s))%R /\ (B2R64 (val p) <= -1)%R.
  Proof.
    intros Ip E. destruct (filled_pixel h w pixel OK p Ip E) as [(s & N & F & R)|(N & _)]; [|exfalso; apply (N e Ie Ee)].
    exists s. do 3 (split; [auto|]). rewrite R. destruct N as (_ & N & _). destruct (apart s p N E). lra.
  Qed.
  Lemma mixed_finite p : inside h w p -> finite64 (val p).
  Proof.
    intros Ip. destruct (class p) as [E|E].
    - destruct (mixed_empty p Ip E) as (s & _ & F & _). exact F.
    - destruct (mixed_filled p Ip E) as (s & _ & F & _). exact F.
  Qed.

  Lemma mixed_extremes : finite64 (max_distance h w pixel) /\ finite64 (min_distance h w pixel) /\
    (forall p, inside h w p -> (B2R64 (min_distance h w pixel) <= B2R64 (val p) <= B2R64 (max_distance h w pixel))%R) /\
    (exists p, inside h w p /\ max_distance h w pixel = val p) /\ (exists p, inside h w p /\ min_distance h w pixel = val p).
  Proof.
    assert (Fin : forall a, In a (pixels h w) -> finite64 (val a)) by (intros a Ha; apply mixed_finite, pixels_in, Ha).
    destruct (max_fold val (pixels h w) zero64 eq_refl Fin) as (F1 & _ & U).
    destruct (min_fold val (pixels h w) zero64 eq_refl Fin) as (F2 & _ & L).
    destruct (mixed_empty e Ie Ee) as (_ & _ & _ & _ & Pe). destruct (mixed_filled f If Ff) as (_ & _ & _ & _ & Pf).
    split; [exact F1|]. split; [exact F2|]. split; [|split].
    - intros p Ip. apply pixels_in in Ip. split; [apply (L p Ip)|apply (U p Ip)].
    - destruct (max_attained val (pixels h w) zero64) as [E|(a & Ha & E)].
      + exfalso. pose proof (U e (proj2 (pixels_in e) Ie)) as K. rewrite E in K. change (B2R64 zero64) with 0%R in K. lra.
      + exists a. split; [apply pixels_in, Ha|exact E].
    - destruct (min_attained val (pixels h w) zero64) as [E|(a & Ha & E)].
      + exfalso. pose proof (L f (proj2 (pixels_in f) If)) as K. rewrite E in K. change (B2R64 zero64) with 0%R in K. lra.
      + exists a. split; [apply pixels_in, Ha|exact E].
  Qed.

  Lemma pos_tests v : finite64 v -> (1 <= B2R64 v)%R ->
    gt64 v zero64 = true /\ ge64 v zero64 = true /\ lt64 v zero64 = false.
  Proof.
    intros F P. destruct (xr_finite _ _ v F) as (E & _).
    assert (N : is_nan 53 1024 v = false) by (destruct v; auto; discriminate).
    assert (X : xr64 v = B2R64 v) by exact E.
    split; [apply gt64_spec; auto; rewrite xr_zero64; lra|].
    split; [apply ge64_spec; auto; rewrite xr_zero64; lra|].
    destruct (lt64 v zero64) eqn:L; auto. apply lt64_spec in L; auto. rewrite xr_zero64 in L. lra.
  Qed.
  Lemma neg_tests v : finite64 v -> (B2R64 v <= -1)%R ->
    gt64 v zero64 = false /\ ge64 v zero64 = false /\ lt64 v zero64 = true /\ eq64 v zero64 = false.
  Proof.
    intros F P. destruct (xr_finite _ _ v F) as (E & _).
    assert (N : is_nan 53 1024 v = false) by (destruct v; auto; discriminate).
    assert (X : xr64 v = B2R64 v) by exact E.
    split; [destruct (gt64 v zero64) eqn:L; auto; apply gt64_spec in L; auto; rewrite xr_zero64 in L; lra|].
    split; [destruct (ge64 v zero64) eqn:L; auto; apply ge64_spec in L; auto; rewrite xr_zero64 in L; lra|].
    split; [apply lt64_spec; auto; rewrite xr_zero64; lra|].
    destruct (eq64 v zero64) eqn:L; auto; apply eq64_spec in L; auto; rewrite xr_zero64 in L; lra.
  Qed.

  Lemma preview_ok p : inside h w p -> exists c, preview_pixel h w pixel (fst p) (snd p) = Ok c /\
    (is_empty pixel p -> exists r, c = (0, 0, r) /\ 64 <= r <= 128) /\
    (is_filled pixel p -> exists b, c = (b, 0, 0) /\ 64 <= b <= 128).
  Proof.
    intros Ip. destruct mixed_extremes as (F1 & F2 & B & _). pose proof (B p Ip) as (L & U). unfold preview_pixel.
    destruct (class p) as [E|E].
    - destruct (mixed_empty p Ip E) as (s & _ & F & _ & P). destruct (pos_tests _ F P) as (-> & _).
      destruct (shade_between (val p) (max_distance h w pixel) F F1) as (c & Ec & Rc); [left; lra|].
      rewrite Ec. cbn [bind]. eexists. split; [reflexivity|]. split; [eauto|]. unfold is_empty, is_filled in *. congruence.
    - destruct (mixed_filled p Ip E) as (s & _ & F & _ & P). destruct (neg_tests _ F P) as (-> & _ & _ & ->).
      destruct (shade_between (val p) (min_distance h w pixel) F F2) as (c & Ec & Rc); [right; lra|].
      rewrite Ec. cbn [bind]. eexists. split; [reflexivity|]. split; [unfold is_empty, is_filled in *; congruence|eauto].
  Qed.

  Lemma mixed_published : exists preview, camera_cb h w pixel =
      Ok (map (fun p => raw_pixel h w pixel (fst p) (snd p)) (pixels h w), preview) /\
      List.length preview = List.length (pixels h w).
  Proof.
    set (c := fun p => match preview_pixel h w pixel (fst p) (snd p) with Ok c => c | _ => (0, 0, 0) end).
    exists (map c (pixels h w)). split; [|apply map_length]. unfold camera_cb.
    rewrite (foldM_map _ c); [reflexivity|]. intros p Hp. apply pixels_in in Hp.
    destruct (preview_ok p Hp) as (x & E & _). unfold c. rewrite E. reflexivity.
  Qed.

  Lemma raw_empty p : inside h w p -> is_empty pixel p -> raw_pixel h w pixel (fst p) (snd p) = (b32_of_b64 (val p), zero32).
  Proof.
    intros Ip E. destruct (mixed_empty p Ip E) as (s & _ & F & _ & P). destruct (pos_tests _ F P) as (_ & G & L).
    unfold raw_pixel, abs64. rewrite G, L. reflexivity.
  Qed.
  Lemma raw_filled p : inside h w p -> is_filled pixel p -> raw_pixel h w pixel (fst p) (snd p) = (zero32, b32_of_b64 (opp64 (val p))).
  Proof.
    intros Ip E. destruct (mixed_filled p Ip E) as (s & _ & F & _ & P). destruct (neg_tests _ F P) as (_ & G & L & _).
    unfold raw_pixel, abs64. rewrite G, L. reflexivity.
  Qed.
End Published.

(** * Images of one colour *)
Section Uniform.
  Variables (h w : Z) (pixel : Z -> Z -> Z).
  Hypothesis OK : image_ok h w.
  Hypothesis Some_pixel : 0 < h /\ 0 < w.

  Lemma origin_inside : inside h w (0, 0).
  Proof. unfold inside. cbn. lia. Qed.
  Lemma pixels_some : exists l, pixels h w = (0, 0) :: l.
  Proof.
    unfold pixels, zrange. destruct Some_pixel. replace (Z.to_nat h) with (S (Z.to_nat (h - 1))) by lia.
    replace (Z.to_nat w) with (S (Z.to_nat (w - 1))) by lia. cbn. eauto.
  Qed.

  Lemma uniform_undefined : (forall p, inside h w p -> is_empty pixel p) \/ (forall p, inside h w p -> is_filled pixel p) ->
    exists e, camera_cb h w pixel = UB e.
  Proof.
    intros H. destruct pixels_some as (l & El). unfold camera_cb.
    assert (X : exists e, preview_pixel h w pixel 0 0 = UB e).
    { unfold preview_pixel. destruct H as [H|H].
      - assert (V : forall p, In p (pixels h w) -> pixel_distance h w pixel (fst p) (snd p) = inf64).
        { intros p Hp. apply pixels_in in Hp. destruct (empty_pixel h w pixel OK p Hp (H p Hp)) as [(s & (I & F & _) & _)|(_ & E)]; auto.
          exfalso. apply F. apply (H s I). }
        pose proof (V (0, 0) (proj2 (pixels_in h w (0, 0)) origin_inside)) as V0. cbn [fst snd] in V0. rewrite V0.
        change (gt64 inf64 zero64) with true. cbv iota.
        assert (M : max_distance h w pixel = inf64).
        { apply (max_inf (fun p : Z * Z => pixel_distance h w pixel (fst p) (snd p))); auto. rewrite El. discriminate. }
        rewrite M. eexists. reflexivity.
      - assert (V : forall p, In p (pixels h w) -> pixel_distance h w pixel (fst p) (snd p) = ninf64).
        { intros p Hp. apply pixels_in in Hp. destruct (filled_pixel h w pixel OK p Hp (H p Hp)) as [(s & (I & F & _) & _)|(_ & E)]; auto.
          exfalso. apply (H s I). apply F. }
        pose proof (V (0, 0) (proj2 (pixels_in h w (0, 0)) origin_inside)) as V0. cbn [fst snd] in V0. rewrite V0.
        change (gt64 ninf64 zero64) with false. change (eq64 ninf64 zero64) with false. cbv iota.
        assert (M : min_distance h w pixel = ninf64).
        { apply (min_ninf (fun p : Z * Z => pixel_distance h w pixel (fst p) (snd p))); auto. rewrite El. discriminate. }
        rewrite M. eexists. reflexivity. }
    destruct X as (e & X). exists e. rewrite El. cbn [foldM fst snd]. rewrite X. reflexivity.
  Qed.
End Uniform.

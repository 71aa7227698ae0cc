(** Concrete images, and the claims about one field. *)
From Coq Require Import Lia Reals Lra Psatz.
From Flocq Require Import Core.Core IEEE754.Binary IEEE754.Bits.
From Verif Require Import Base BaseFacts Floats FloatFacts FloatFacts2 Grid GridFacts
  Image ImageSpec ImageProofs ImagePath ImageThms ImageOut.
Local Open Scope Z_scope.

(** The distance in one partial field: zero exactly at sources, that to some
    source elsewhere, infinite only without sources. *)
Lemma partial_field h w pixel source p : image_ok h w -> inside h w p ->
  let src s := inside h w s /\ source (pixel (fst s) (snd s)) = true in
  let v := cell_distance (fst (get (update_partial_sdf (mark h w pixel source)) (I (fst p) (snd p) 0))) in
  ((exists s, src s) -> finite64 v /\ exists s, src s /\ B2R64 v = rnd64 (dist p s) /\ forall t, src t -> (dist p s <= chain p t)%R) /\
  ((forall s, ~ src s) -> v = inf64) /\ (finite64 v /\ B2R64 v = 0%R <-> src p).
Proof.
  intros OK Ip src v. unfold v. clear v. destruct (field_distance h w pixel source OK p Ip) as [(s & S & (F & R) & L)|(N & V)].
  - split; [|split].
    + intros _. split; [exact F|]. exists s. auto.
    + intros N. exfalso. apply (N s S).
    + split.
      * intros (_ & Z0). assert (s = p) as Es; [|rewrite Es in S; exact S]. apply dist_zero. unfold dist.
        destruct (Z_lt_le_dec (d2 p s) 1) as [Lt|Ge].
        -- replace (d2 p s) with 0; [rewrite sqrt_0; lra|]. unfold d2 in *.
           pose proof (Z.square_nonneg (fst s - fst p)). pose proof (Z.square_nonneg (snd s - snd p)). lia.
        -- exfalso. assert (1 <= rnd64 (sqrt (IZR (d2 p s))))%R; [|lra].
           apply Rle_trans with (rnd64 (IZR 1)); [rewrite rnd_Z by lia; lra|]. apply rnd_le; try reflexivity.
           rewrite <- sqrt_1. apply sqrt_le_1_alt, IZR_le. lia.
      * intros P. split; [exact F|]. pose proof (L p P) as K. rewrite chain_self in K. apply dist_zero in K. subst s.
        rewrite R. unfold d2. rewrite !Z.sub_diag. cbn. rewrite sqrt_0. apply round_0. typeclasses eauto.
  - split; [|split].
    + intros (s & S). exfalso. apply (N s S).
    + auto.
    + split; [rewrite V; intros (F & _); discriminate F|]. intros P. exfalso. apply (N p P).
Qed.

(** Three pixels of which the nearest is missed. *)
Definition three (i j : Z) : Z := if existsb (idx_eqb (I i j 0)) [I 12 5 0; I 13 1 0; I 11 7 0] then 255 else 0.

Lemma three_ok : image_ok 14 8.
Proof. unfold image_ok. lia. Qed.
Lemma three_pointer : gget (final 14 8 three (fun v => negb (v =? 0))) (I 0 0 0) = Some (13, 1).
Proof. vm_compute. reflexivity. Qed.

Lemma three_distance : inside 14 8 (12, 5) /\ is_filled three (12, 5) /\ is_empty three (0, 0) /\ dist (0, 0) (12, 5) = 13%R /\
  (13 + / 32 <= B2R64 (pixel_distance 14 8 three 0 0))%R.
Proof.
  split; [unfold inside; cbn; lia|]. split; [discriminate|]. split; [reflexivity|]. split.
  - unfold dist. change (d2 (0, 0) (12, 5)) with (13 * 13). rewrite mult_IZR. apply sqrt_square. lra.
  - assert (Io : inside 14 8 (0, 0)) by (unfold inside; cbn; lia).
    destruct (get_rel 14 8 _ _ (I 0 0 0) (final_rel 14 8 three (fun v => negb (v =? 0)) three_ok) eq_refl) as (C & S).
    change (fst (get (final 14 8 three (fun v => negb (v =? 0))) (I 0 0 0))) with
      (gget (final 14 8 three (fun v => negb (v =? 0))) (I 0 0 0)) in *.
    rewrite three_pointer in C, S. destruct C as (C1 & C2). destruct (S (13, 1) eq_refl) as (I1 & _).
    pose proof (dist_int 14 8 three_ok (I 0 0 0) _ (13, 1) Io I1 C1 C2) as K.
    assert (Rv : rounded (cell_distance (fst (get (filled_field 14 8 three) (I 0 0 0)))) 170).
    { apply sqrt_int; [exact K|lia]. }
    destruct Rv as (F & R).
    destruct (source_field 14 8 three three_ok _ (0, 0) (is_empty three) (empty_source three) Io) as [(s0 & N0 & R0)|(N0 & _)].
    2:{ exfalso. apply (N0 (0, 0) Io). reflexivity. }
    destruct (own_field 14 8 (is_empty three) (0, 0) s0 _ eq_refl Io N0 R0) as (F0 & Z0).
    destruct (minus_zero_r _ _ F F0 Z0) as (Fv & Rv). 
    change (pixel_distance 14 8 three 0 0) with
      (sub64 (cell_distance (fst (get (filled_field 14 8 three) (I 0 0 0))))
             (cell_distance (fst (get (empty_field 14 8 three) (I 0 0 0))))).
    unfold empty_field. cbn [fst snd] in Rv. rewrite Rv, R.
    assert (Fm : generic_format radix2 (SpecFloat.fexp 53 1024) (13 + / 32)%R).
    { replace (13 + / 32)%R with (F2R (Float radix2 417 (-5))) by (unfold F2R; cbn; lra).
      apply generic_format_F2R. intros _. unfold cexp, SpecFloat.fexp, SpecFloat.emin.
      rewrite (mag_unique_pos radix2 _ 4); [lia|]. unfold F2R. cbn. lra. }
    rewrite <- (round_generic radix2 _ ZnearestE _ Fm). apply rnd_le; try reflexivity.
    replace (13 + / 32)%R with (sqrt ((13 + / 32) * (13 + / 32))) by (apply sqrt_square; lra).
    apply sqrt_le_1_alt. lra.
Qed.

(** A small mixed image. *)
Definition mixed (i j : Z) : Z := if (i =? 0) && (j =? 0) then 1 else 0.
Lemma mixed_case : image_ok 2 3 /\ inside 2 3 (0, 0) /\ inside 2 3 (1, 2) /\ is_filled mixed (0, 0) /\ is_empty mixed (1, 2).
Proof. unfold image_ok, inside. cbn. repeat split; try lia; discriminate. Qed.

(** How far off the distances can be. *)
Definition straight (p t : Z * Z) : Prop :=
  fst p = fst t \/ snd p = snd t \/ Z.abs (fst t - fst p) = Z.abs (snd t - snd p).

Lemma chain_square p s t : (dist p s <= chain p t)%R -> (dist p s * dist p s <= (4 - 2 * sqrt 2) * (dist p t * dist p t))%R.
Proof.
  intros H. refine (Rle_trans _ _ _ _ (chain_bound p t)). apply Rmult_le_compat; try apply sqrt_pos; exact H.
Qed.

Section Error.
  Variables (h w : Z) (pixel : Z -> Z -> Z).
  Hypothesis OK : image_ok h w.
  Notation val p := (pixel_distance h w pixel (fst p) (snd p)).

  Lemma error_empty p : inside h w p -> is_empty pixel p -> (exists f, inside h w f /\ is_filled pixel f) ->
    exists s, inside h w s /\ is_filled pixel s /\ B2R64 (val p) = rnd64 (dist p s) /\
      forall t, inside h w t -> is_filled pixel t -> (dist p s * dist p s <= (4 - 2 * sqrt 2) * (dist p t * dist p t))%R.
  Proof.
    intros Ip E (f & If & Ff). destruct (empty_pixel h w pixel OK p Ip E) as [(s & (A & B & C) & _ & R)|(N & _)]; [|exfalso; apply (N f If Ff)].
    exists s. do 3 (split; [auto|]). intros t It Ft. apply chain_square. auto.
  Qed.
  Lemma error_filled p : inside h w p -> is_filled pixel p -> (exists e, inside h w e /\ is_empty pixel e) ->
    exists s, inside h w s /\ is_empty pixel s /\ B2R64 (val p) = (- rnd64 (dist p s))%R /\
      forall t, inside h w t -> is_empty pixel t -> (dist p s * dist p s <= (4 - 2 * sqrt 2) * (dist p t * dist p t))%R.
  Proof.
    intros Ip E (f & If & Ff). destruct (filled_pixel h w pixel OK p Ip E) as [(s & (A & B & C) & _ & R)|(N & _)]; [|exfalso; apply (N f If Ff)].
    exists s. do 3 (split; [auto|]). intros t It Ft. apply chain_square. auto.
  Qed.
  Lemma straight_empty p t : inside h w p -> is_empty pixel p -> inside h w t -> is_filled pixel t -> straight p t ->
    (forall u, inside h w u -> is_filled pixel u -> (dist p t <= dist p u)%R) -> B2R64 (val p) = rnd64 (dist p t).
  Proof.
    intros Ip E It Ft S N. destruct (empty_pixel h w pixel OK p Ip E) as [(s & (A & B & C) & _ & R)|(M & _)]; [|exfalso; apply (M t It Ft)].
    rewrite R. f_equal. pose proof (C t It Ft) as K. rewrite (chain_straight p t S) in K. pose proof (N s A B). lra.
  Qed.
  Lemma straight_filled p t : inside h w p -> is_filled pixel p -> inside h w t -> is_empty pixel t -> straight p t ->
    (forall u, inside h w u -> is_empty pixel u -> (dist p t <= dist p u)%R) -> B2R64 (val p) = (- rnd64 (dist p t))%R.
  Proof.
    intros Ip E It Ft S N. destruct (filled_pixel h w pixel OK p Ip E) as [(s & (A & B & C) & _ & R)|(M & _)]; [|exfalso; apply (M t It Ft)].
    rewrite R. do 2 f_equal. pose proof (C t It Ft) as K. rewrite (chain_straight p t S) in K. pose proof (N s A B). lra.
  Qed.
End Error.

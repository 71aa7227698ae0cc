(** Signed distance fields of related maps: inverted, mirrored, enlarged and with
    more obstacles. *)
From Coq Require Import Reals Lra.
From Flocq Require Import Core.Core IEEE754.Binary IEEE754.Bits.
From Verif Require Import Base BaseFacts Floats FloatFacts FloatFacts2 Grid GridFacts
  DistSpec DistModel DistProofs DistThms DistPlanar DistReach CollisionMap SdfGen SdfSpec SdfGenProofs SdfThms
  SdfBorderThms SdfExact SdfShapes FieldSpec DistCompare LongRow.
Open Scope Z_scope.

Lemma opp32_twice x : is_nan 24 128 x = false -> b32_opp (b32_opp x) = x.
Proof. destruct x; cbn; intros H; try discriminate; rewrite negb_involutive; reflexivity. Qed.

Lemma rounded_not_nan o r : usable_resolution r -> (forall z, o = Some z -> 1 <= z <= 2147483647) ->
  is_nan 24 128 (rounded_distance o r) = false.
Proof. intros Hr Ho. apply (signed_value_sign false o r Hr). exact Ho. Qed.

Lemma signed_inverted b o r : usable_resolution r -> (forall z, o = Some z -> 1 <= z <= 2147483647) ->
  signed_value (negb b) o r = b32_opp (signed_value b o r).
Proof.
  intros Hr Ho. unfold signed_value. destruct b; cbn [negb]; auto.
  symmetry. apply opp32_twice. apply rounded_not_nan; auto.
Qed.

Lemma cells_of_ext d P Q : (forall i, P i = Q i) -> cells_of d P = cells_of d Q.
Proof. intros H. unfold cells_of. apply filter_ext. exact H. Qed.

(** Inverting the map negates every value. *)
Lemma inverted_plain d r oob frame is_filled not_filled filled s x s' x' :
  size_ok d -> usable_resolution r -> answers d is_filled filled ->
  answers d not_filled (fun i => negb (filled i)) ->
  extract_sdf d r is_filled oob frame = Ok (s, x) -> extract_sdf d r not_filled oob frame = Ok (s', x') ->
  forall c, in_bounds d c = true -> sdf_get s' c = (b32_opp (fst (sdf_get s c)), true).
Proof.
  intros Hs Hr A A' E E' c Hc.
  destruct (extract_values d r oob frame _ _ s x Hs Hr A E) as (ff & fr & B1 & B2 & V).
  destruct (extract_values d r oob frame _ _ s' x' Hs Hr A' E') as (ff' & fr' & B1' & B2' & V').
  rewrite B2 in B1'. injection B1' as <-.
  rewrite (cells_of_ext d (fun i => negb (negb (filled i))) filled) in B2' by (intros; apply negb_involutive).
  rewrite B1 in B2'. injection B2' as <-.
  rewrite V, V' by auto. cbn [fst]. f_equal.
  replace (if negb (filled c) then ff else fr) with (if filled c then fr else ff) by (destruct (filled c); auto).
  apply signed_inverted; auto.
  intros z Hz. destruct x as (mx & mn). destruct (extract_magnitude d r oob frame _ _ Hs Hr A s mx mn E c Hc) as (m & G & M & _).
  destruct (filled c) eqn:Ef.
  - destruct (build_never_under d _ fr Hs (cells_of_inside d _) B2 c z Hc Hz) as ((p & Ip & Dp) & _).
    apply cells_of_in in Ip as (Hp & Np). assert (p <> c) by (intros ->; rewrite Ef in Np; discriminate).
    pose proof (distsq_bound d Hs c p Hc Hp). assert (distsq c p <> 0) by (intros HZ; apply distsq_zero in HZ; congruence). lia.
  - destruct (build_never_under d _ ff Hs (cells_of_inside d _) B1 c z Hc Hz) as ((p & Ip & Dp) & _).
    apply cells_of_in in Ip as (Hp & Np). assert (p <> c) by (intros ->; congruence).
    pose proof (distsq_bound d Hs c p Hc Hp). assert (distsq c p <> 0) by (intros HZ; apply distsq_zero in HZ; congruence). lia.
Qed.

Lemma with_layer_ext d P Q v : (forall i, P i = Q i) -> with_layer d P v = with_layer d Q v.
Proof. intros H. unfold with_layer. rewrite H. reflexivity. Qed.

Lemma inverted_border d r oob frame is_filled not_filled filled s x s' x' :
  size_ok (enlarged_dims d) -> 0 <= nx d /\ 0 <= ny d /\ 0 <= nz d -> usable_resolution r ->
  answers d is_filled filled -> answers d not_filled (fun i => negb (filled i)) ->
  extract_sdf_grid d r r r is_filled oob frame true = Ok (s, x) ->
  extract_sdf_grid d r r r not_filled oob frame true = Ok (s', x') ->
  forall c, in_bounds d c = true -> sdf_get s' c = (b32_opp (fst (sdf_get s c)), true).
Proof.
  intros Hs Hd0 Hr A A' E E' c Hc.
  destruct (border_values d r oob frame _ _ s x Hs Hd0 Hr A E) as (ff & fr & B1 & B2 & V).
  destruct (border_values d r oob frame _ _ s' x' Hs Hd0 Hr A' E') as (ff' & fr' & B1' & B2' & V').
  rewrite B2 in B1'. injection B1' as <-.
  rewrite (cells_of_ext _ (with_layer d (fun i => negb (negb (filled i)))) (with_layer d filled)) in B2'
    by (intros; apply with_layer_ext; intros; apply negb_involutive).
  rewrite B1 in B2'. injection B2' as <-.
  destruct (border_sign d r oob frame _ _ Hs Hd0 Hr A) as (s0 & x0 & E0 & _ & _ & _ & _ & _ & S0).
  rewrite E in E0. injection E0 as <- <-. destruct (S0 c Hc) as (v & Gv & Nv & _).
  rewrite V in Gv by auto. injection Gv as Gv.
  rewrite V, V' by auto. cbn [fst]. f_equal.
  replace (if negb (filled c) then ff else fr) with (if filled c then fr else ff) by (destruct (filled c); auto).
  unfold signed_value in *. destruct (filled c); cbn [negb]; [|reflexivity].
  symmetry. apply opp32_twice. rewrite <- Gv in Nv.
  destruct (rounded_distance (cell_distsq fr (shift_in d c)) r); auto.
Qed.

(** ** What is not preserved *)

(** Cells given by a list. *)
Definition listed (l : list idx) (i : idx) : bool := existsb (idx_eqb i) l.

Lemma mirror_fails : exists d filled s x s' x' c,
  size_ok d /\ in_bounds d c = true /\
  extract_sdf d quarter64 (fun i => Ok (filled i)) zero32 "map" = Ok (s, x) /\
  extract_sdf d quarter64 (fun i => Ok (filled (mirrored_x (nx d) i))) zero32 "map" = Ok (s', x') /\
  lt32 (fst (sdf_get s c)) (fst (sdf_get s' (mirrored_x (nx d) c))) = true.
Proof.
  pose (d := D 5 4 1). pose (l := [I 3 0 0; I 2 1 0; I 1 3 0]).
  assert (G : match extract_sdf d quarter64 (fun i => Ok (listed l i)) zero32 "map",
        extract_sdf d quarter64 (fun i => Ok (listed l (mirrored_x 5 i))) zero32 "map" with
    | Ok (s, _), Ok (s', _) => lt32 (fst (sdf_get s (I 4 3 0))) (fst (sdf_get s' (mirrored_x 5 (I 4 3 0)))) = true
    | _, _ => False end) by (vm_compute; auto).
  exists d, (listed l). change (nx d) with 5.
  destruct (extract_sdf d quarter64 (fun i => Ok (listed l i)) zero32 "map") as [[s x]| |]; [|destruct G|destruct G].
  destruct (extract_sdf d quarter64 (fun i => Ok (listed l (mirrored_x 5 i))) zero32 "map") as [[s' x']| |]; [|destruct G|destruct G].
  exists s, x, s', x', (I 4 3 0). split; [unfold size_ok; cbn; lia|]. auto.
Qed.

Lemma margin_fails : exists d filled s x s' x' c,
  size_ok d /\ in_bounds d c = true /\
  extract_sdf d quarter64 (fun i => Ok (filled i)) zero32 "map" = Ok (s, x) /\
  extract_sdf (D (nx d + 2) (ny d) (nz d)) quarter64
    (fun i => Ok ((1 <=? ix i) && (ix i <=? nx d) && filled (I (ix i - 1) (iy i) (iz i)))) zero32 "map" = Ok (s', x') /\
  lt32 (fst (sdf_get s' (moved_x c))) (fst (sdf_get s c)) = true.
Proof.
  pose (d := D 6 6 6). pose (l := [I 1 0 0; I 4 0 0; I 4 5 5; I 5 3 1]).
  pose (big := fun i => Ok ((1 <=? ix i) && (ix i <=? 6) && listed l (I (ix i - 1) (iy i) (iz i)))).
  assert (G : match extract_sdf d quarter64 (fun i => Ok (listed l i)) zero32 "map",
        extract_sdf (D 8 6 6) quarter64 big zero32 "map" with
    | Ok (s, _), Ok (s', _) => lt32 (fst (sdf_get s' (moved_x (I 5 0 5)))) (fst (sdf_get s (I 5 0 5))) = true
    | _, _ => False end) by (vm_compute; auto).
  exists d, (listed l). change (D (nx d + 2) (ny d) (nz d)) with (D 8 6 6). change (nx d) with 6. fold big.
  destruct (extract_sdf d quarter64 (fun i => Ok (listed l i)) zero32 "map") as [[s x]| |]; [|destruct G|destruct G].
  destruct (extract_sdf (D 8 6 6) quarter64 big zero32 "map") as [[s' x']| |]; [|destruct G|destruct G].
  exists s, x, s', x', (I 5 0 5). split; [unfold size_ok; cbn; lia|]. auto.
Qed.

Lemma added_fails : exists d filled filled' s x s' x' c,
  size_ok d /\ in_bounds d c = true /\ (forall i, filled i = true -> filled' i = true) /\ filled' c = false /\
  extract_sdf d quarter64 (fun i => Ok (filled i)) zero32 "map" = Ok (s, x) /\
  extract_sdf d quarter64 (fun i => Ok (filled' i)) zero32 "map" = Ok (s', x') /\
  lt32 (fst (sdf_get s c)) (fst (sdf_get s' c)) = true.
Proof.
  pose (d := D 4 4 1). pose (l := [I 0 0 0; I 2 1 0]). pose (l' := [I 3 3 0; I 0 0 0; I 2 1 0]).
  assert (G : match extract_sdf d quarter64 (fun i => Ok (listed l i)) zero32 "map",
        extract_sdf d quarter64 (fun i => Ok (listed l' i)) zero32 "map" with
    | Ok (s, _), Ok (s', _) => lt32 (fst (sdf_get s (I 0 3 0))) (fst (sdf_get s' (I 0 3 0))) = true
    | _, _ => False end) by (vm_compute; auto).
  exists d, (listed l), (listed l').
  destruct (extract_sdf d quarter64 (fun i => Ok (listed l i)) zero32 "map") as [[s x]| |]; [|destruct G|destruct G].
  destruct (extract_sdf d quarter64 (fun i => Ok (listed l' i)) zero32 "map") as [[s' x']| |]; [|destruct G|destruct G].
  exists s, x, s', x', (I 0 3 0). split; [unfold size_ok; cbn; lia|]. split; [reflexivity|]. split.
  { intros i Hi. unfold l', listed. cbn [existsb]. unfold listed in Hi. cbn [existsb l] in Hi.
    apply orb_true_iff. right. exact Hi. }
  split; [reflexivity|]. auto.
Qed.

(** Filling more cells does not raise the value of a cell that stays free and is near
    a filled cell. *)
Lemma added_near d r oob frame is_filled is_filled' filled filled' s x s' x' c v v' :
  size_ok d -> usable_resolution r -> answers d is_filled filled -> answers d is_filled' filled' ->
  extract_sdf d r is_filled oob frame = Ok (s, x) -> extract_sdf d r is_filled' oob frame = Ok (s', x') ->
  (forall i, filled i = true -> filled' i = true) -> in_bounds d c = true -> filled' c = false ->
  nearest_other d filled c v -> nearest_other d filled' c v' -> v' <= 6 ->
  le32 (fst (sdf_get s' c)) (fst (sdf_get s c)) = true.
Proof.
  intros Hs Hr A A' E E' Hi Hc Fc' Hv Hv' H6.
  assert (Fc : filled c = false) by (destruct (filled c) eqn:F; auto; rewrite (Hi c F) in Fc'; discriminate).
  destruct x as (mx & mn), x' as (mx' & mn').
  destruct (extract_magnitude d r oob frame _ _ Hs Hr A' s' mx' mn' E' c Hc) as (m' & G' & M' & N').
  pose proof (N' v' Hv' H6) as Em'. subst m'.
  destruct (M' v' eq_refl) as (V1 & _).
  destruct (extract_values d r oob frame _ _ s (mx, mn) Hs Hr A E) as (ff & fr & B1 & B2 & V).
  rewrite G', V by auto. rewrite Fc, Fc'. cbn [fst signed_value].
  destruct (cell_distsq ff c) as [m|] eqn:Em.
  - destruct (build_never_under d _ ff Hs (cells_of_inside d _) B1 c m Hc Em) as ((p & Ip & Dp) & _).
    apply cells_of_in in Ip as (Hp & Fp).
    assert (v' <= m).
    { destruct Hv' as (_ & N). rewrite <- Dp. apply N. split; auto. rewrite (Hi p Fp), Fc'. discriminate. }
    pose proof (distsq_bound d Hs c p Hc Hp). apply (rounded_monotone r Hr); lia.
  - assert (Nn : is_nan 24 128 (rounded_distance (Some v') r) = false).
    { apply rounded_not_nan; auto. intros z [= <-]. lia. }
    unfold rounded_distance at 2. destruct (rounded_distance (Some v') r) as [sg|sg|sg pl e|sg mm e Hb]; try discriminate Nn; try reflexivity; destruct sg; reflexivity.
Qed.

(** ** Long rows *)

Lemma long_row_sdf n r oob frame : 46342 <= n <= 2147483647 ->
  extract_sdf (D n 1 1) r (fun i => Ok (ix i =? 0)) oob frame = UB "signed overflow".
Proof.
  intros Hn. unfold extract_sdf. rewrite (classify_filter _ (fun i => ix i =? 0)) by reflexivity.
  cbn [bind app].
  replace (filter (fun i => ix i =? 0) (sweep (D n 1 1))) with [I 0 0 0].
  - rewrite long_row by auto. reflexivity.
  - assert (K : forall l, NoDup l -> (forall a : idx, In a l <-> a = I 0 0 0) -> [I 0 0 0] = l).
    { intros l ND H. destruct l as [|a l]; [destruct (proj2 (H (I 0 0 0)) eq_refl)|].
      pose proof (proj1 (H a) (or_introl eq_refl)) as ->. f_equal. destruct l as [|b l]; auto.
      pose proof (proj1 (H b) (or_intror (or_introl eq_refl))) as ->.
      inversion ND as [|? ? Hx _]. destruct Hx. left; auto. }
    apply K; [apply NoDup_filter, sweep_nodup|].
    intros a. rewrite filter_In, sweep_in, in_bounds_spec. cbn [nx ny nz]. destruct a as [x y z]; cbn [ix iy iz].
    split.
    + intros (H1 & H2). f_equal; lia.
    + intros [= -> -> ->]. split; lia.
Qed.

(** ** Neighbouring cells of a planar map *)
Lemma sdf_steps d r oob frame is_filled filled s x a b :
  size_ok d -> flat d -> usable_resolution r -> answers d is_filled filled ->
  extract_sdf d r is_filled oob frame = Ok (s, x) ->
  in_bounds d a = true -> in_bounds d b = true -> distsq a b = 1 -> filled a = filled b ->
  (exists p, other_class d filled a p) ->
  exists m k, sdf_get s a = (signed_value (filled a) (Some m) r, true) /\
    sdf_get s b = (signed_value (filled a) (Some k) r, true) /\
    (Rabs (sqrt (IZR m) - sqrt (IZR k)) <= 1)%R.
Proof.
  intros Hs Hf Hr A E Ha Hb Hd Hfab (p & Hp).
  destruct (extract_values d r oob frame _ _ s x Hs Hr A E) as (ff & fr & B1 & B2 & V).
  destruct (own_field d r oob frame is_filled filled s x Hs Hr A E a Ha) as (f & B & Va).
  destruct (own_field d r oob frame is_filled filled s x Hs Hr A E b Hb) as (f' & B' & Vb).
  rewrite <- Hfab in B', Vb. rewrite B in B'. injection B' as <-.
  assert (Ip : In p (cells_of d (others filled (filled a)))) by (apply others_spec; auto).
  destruct (planar_finite d _ f a p Hs Hf (cells_of_inside d _) B Ha Ip) as (m & Em & _).
  destruct (planar_finite d _ f b p Hs Hf (cells_of_inside d _) B Hb Ip) as (k & Ek & _).
  exists m, k. rewrite Va, Vb, Em, Ek. split; [reflexivity|]. split; [reflexivity|].
  exact (planar_step d _ f a b m k Hs Hf (cells_of_inside d _) B Ha Hb Hd Em Ek).
Qed.

(** The extrema reported with the field of an inverted map. *)
From Coq Require Import Reals Lra.
From Flocq Require Import Core.Core IEEE754.Binary IEEE754.Bits.
From Verif Require Import Base BaseFacts Floats FloatFacts FloatFacts2 Grid GridFacts
  DistSpec DistModel DistProofs DistThms SdfGen SdfSpec SdfGenProofs SdfThms SdfBorderThms SdfExact SdfShapes FieldSpec DistCompare SdfCompare.
Open Scope Z_scope.

Lemma opp64_twice x : is_nan 53 1024 x = false -> opp64 (opp64 x) = x.
Proof. destruct x; cbn; intros H; try discriminate; rewrite negb_involutive; reflexivity. Qed.

Lemma gt_opp x y : is_nan 53 1024 x = false -> is_nan 53 1024 y = false -> gt64 (opp64 x) (opp64 y) = lt64 x y.
Proof.
  intros Nx Ny. destruct (opp64_xr x Nx) as (Ox & Vx). destruct (opp64_xr y Ny) as (Oy & Vy).
  apply eq_true_iff_eq. rewrite (gt64_spec _ _ Ox Oy), (lt64_spec _ _ Nx Ny), Vx, Vy. split; intros H; lra.
Qed.

Lemma lt_opp x y : is_nan 53 1024 x = false -> is_nan 53 1024 y = false -> lt64 (opp64 x) (opp64 y) = gt64 x y.
Proof.
  intros Nx Ny. destruct (opp64_xr x Nx) as (Ox & Vx). destruct (opp64_xr y Ny) as (Oy & Vy).
  apply eq_true_iff_eq. rewrite (gt64_spec _ _ Nx Ny), (lt64_spec _ _ Ox Oy), Vx, Vy. split; intros H; lra.
Qed.

Lemma set_res s i v : s_res (fst (sdf_set s i v)) = s_res s.
Proof. unfold sdf_set. destruct (_ && _); reflexivity. Qed.

(** Two runs of the generation loop whose distances are opposite. *)
Lemma opposite_runs ff fr ff' fr' r l : forall s s' (mx mn : binary64),
  (forall i, In i l -> is_nan 53 1024 (cell_distance ff fr r i) = false /\ cell_distance ff' fr' r i = opp64 (cell_distance ff fr r i)) ->
  s_res s = r -> s_res s' = r -> is_nan 53 1024 mx = false -> is_nan 53 1024 mn = false ->
  let x := snd (fold_left (generate_cell ff fr) l (s, (mx, mn))) in
  snd (fold_left (generate_cell ff' fr') l (s', (opp64 mn, opp64 mx))) = (opp64 (snd x), opp64 (fst x)).
Proof.
  induction l as [|i l IH]; intros s s' mx mn H Er Er' Nx Nn; cbn [fold_left]; [reflexivity|].
  destruct (H i (or_introl eq_refl)) as (Nd & Ed). cbn [generate_cell]. rewrite Er, Er', Ed.
  set (v := cell_distance ff fr r i) in *. clearbody v.
  rewrite (gt_opp v mn Nd Nn), (lt_opp v mx Nd Nx).
  replace (if lt64 v mn then opp64 v else opp64 mn) with (opp64 (if lt64 v mn then v else mn)) by (destruct (lt64 v mn); reflexivity).
  replace (if gt64 v mx then opp64 v else opp64 mx) with (opp64 (if gt64 v mx then v else mx)) by (destruct (gt64 v mx); reflexivity).
  apply IH.
  - intros j Hj. apply H. right. exact Hj.
  - rewrite set_res. exact Er.
  - rewrite set_res. exact Er'.
  - destruct (gt64 v mx); assumption.
  - destruct (lt64 v mn); assumption.
Qed.

Lemma inverted_extrema d r oob oob' frame frame' is_filled not_filled filled s mx mn s' x' :
  size_ok d -> usable_resolution r -> answers d is_filled filled ->
  answers d not_filled (fun i => negb (filled i)) ->
  extract_sdf d r is_filled oob frame = Ok (s, (mx, mn)) -> extract_sdf d r not_filled oob' frame' = Ok (s', x') ->
  x' = (opp64 mn, opp64 mx).
Proof.
  intros Hs Hr A A'. unfold extract_sdf.
  assert (HD : 0 <= nx d /\ 0 <= ny d /\ 0 <= nz d) by (destruct Hs; lia).
  rewrite (classify_filter is_filled filled) by (intros i Hi; apply A; apply sweep_in; exact Hi).
  rewrite (classify_filter not_filled (fun i => negb (filled i))) by (intros i Hi; apply A'; apply sweep_in; exact Hi). cbn [bind app].
  rewrite (filter_ext (fun i => negb (negb (filled i))) filled (fun i => negb_involutive _)).
  destruct (build_distance_field d (filter filled (sweep d))) as [ff| |] eqn:Ef; cbn [bind]; try discriminate.
  destruct (build_distance_field d (filter (fun i => negb (filled i)) (sweep d))) as [fr| |] eqn:Er; cbn [bind]; try discriminate.
  intros E E'. injection E as E. injection E' as E'.
  pose proof (opposite_runs ff fr fr ff r (sweep d) (new_sdf d r oob frame) (new_sdf d r oob' frame') ninf64 inf64) as K. cbv zeta in K.
  assert (O1 : opp64 inf64 = ninf64) by reflexivity. assert (O2 : opp64 ninf64 = inf64) by reflexivity. rewrite O1, O2, E, E' in K. cbn [fst snd] in K. apply K; auto.
  intros i Hi. apply sweep_in in Hi.
  destruct (cell_distance_ok d r filled Hs Hr ff fr i Ef Er Hi) as (V & B & _).
  assert (Ef2 : build_distance_field d (free_cells d (fun i => negb (filled i))) = Ok ff).
  { rewrite <- Ef. f_equal. unfold free_cells. apply filter_ext. intros j. apply negb_involutive. }
  destruct (cell_distance_ok d r (fun i => negb (filled i)) Hs Hr fr ff i Er Ef2 Hi) as (V2 & _). cbv beta in V2.
  destruct (signed_double_ok r filled Hr i (cell_distsq (if filled i then fr else ff) i)) as (N & _); [intros m Hm; apply (B m Hm)|].
  rewrite V, V2. split; [exact N|].
  replace (if negb (filled i) then ff else fr) with (if filled i then fr else ff) by (destruct (filled i); reflexivity).
  revert N. unfold signed_double. destruct (filled i); cbn [negb]; intros N; [|reflexivity].
  symmetry. apply opp64_twice. revert N. destruct (mul64 _ r); cbn; auto.
Qed.

Lemma vfilled_negb d b P v : vfilled d b (fun i => negb (P i)) v = negb (vfilled d (negb b) P v).
Proof. unfold vfilled. destruct (border_cell d v); [rewrite negb_involutive|]; reflexivity. Qed.

Lemma inverted_extrema_border d r oob oob' frame frame' is_filled not_filled filled s mx mn s' x' :
  size_ok (enlarged_dims d) -> 0 <= nx d /\ 0 <= ny d /\ 0 <= nz d -> usable_resolution r ->
  answers d is_filled filled -> answers d not_filled (fun i => negb (filled i)) ->
  extract_sdf_grid d r r r is_filled oob frame true = Ok (s, (mx, mn)) ->
  extract_sdf_grid d r r r not_filled oob' frame' true = Ok (s', x') ->
  x' = (opp64 mn, opp64 mx).
Proof.
  intros Hs HD Hr A A'. unfold extract_sdf_grid. cbn [negb]. destruct (ne64 r r || ne64 r r); try discriminate.
  rewrite <- border_dims_eq in Hs.
  destruct (extract_sdf (border_dims d) r (border_filled d true is_filled) oob frame) as [[s1 [mx1 mn1]]| |] eqn:E1; cbn [bind]; try discriminate.
  destruct (extract_sdf (border_dims d) r (border_filled d false is_filled) oob frame) as [[s2 [mx2 mn2]]| |] eqn:E2; cbn [bind]; try discriminate.
  destruct (extract_sdf (border_dims d) r (border_filled d true not_filled) oob' frame') as [[s3 x3]| |] eqn:E3; cbn [bind]; try discriminate.
  destruct (extract_sdf (border_dims d) r (border_filled d false not_filled) oob' frame') as [[s4 x4]| |] eqn:E4; cbn [bind]; try discriminate.
  intros E E'. injection E as _ <- <-. injection E' as _ <-.
  assert (K : forall b, answers (border_dims d) (border_filled d b not_filled) (fun i => negb (vfilled d (negb b) filled i))).
  { intros b v Hv. rewrite <- vfilled_negb. apply (border_answers d b not_filled _ A' v Hv). }
  rewrite (inverted_extrema _ r _ _ _ _ _ _ _ _ _ _ _ _ Hs Hr (border_answers d false is_filled filled A) (K true) E2 E3).
  rewrite (inverted_extrema _ r _ _ _ _ _ _ _ _ _ _ _ _ Hs Hr (border_answers d true is_filled filled A) (K false) E1 E4). reflexivity.
Qed.

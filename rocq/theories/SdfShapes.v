(** Signed distance fields that are exact: cells that see the nearest cell of the
    other class straight ahead, boxes and rooms, single cells and pairs. *)
From Coq Require Import Reals Lra.
From Flocq Require Import Core.Core IEEE754.Binary IEEE754.Bits.
From Verif Require Import Base BaseFacts Floats FloatFacts FloatFacts2 Grid GridFacts
  DistSpec DistModel DistProofs DistThms DistReach DistShapes CollisionMap SdfGen SdfSpec SdfGenProofs SdfThms
  SdfBorderThms SdfExact.
Open Scope Z_scope.

Lemma cells_of_in d Q c : In c (cells_of d Q) <-> in_bounds d c = true /\ Q c = true.
Proof. unfold cells_of. rewrite filter_In, sweep_in. tauto. Qed.

Lemma cells_of_inside d Q : all_inside d (cells_of d Q).
Proof. intros c Hc. apply cells_of_in in Hc. tauto. Qed.

(** The point set whose distance a cell of class [b] stores. *)
Definition others (filled : idx -> bool) (b : bool) (i : idx) : bool := if b then negb (filled i) else filled i.

Lemma others_spec d filled c p : In p (cells_of d (others filled (filled c))) <-> other_class d filled c p.
Proof.
  rewrite cells_of_in. unfold others, other_class. destruct (filled c), (filled p); cbn; intuition congruence.
Qed.

Lemma others_nearest d filled c m :
  nearest_other d filled c m <-> nearest_distsq (cells_of d (others filled (filled c))) c m.
Proof.
  unfold nearest_other, nearest_distsq. setoid_rewrite others_spec. reflexivity.
Qed.

Section Plain.
Variables (d : dims) (r : binary64) (oob : binary32) (frame : String.string).
Variables (is_filled : idx -> res bool) (filled : idx -> bool) (s : sdf) (x : binary64 * binary64).
Hypothesis (Hs : size_ok d) (Hr : usable_resolution r) (HP : answers d is_filled filled).
Hypothesis (He : extract_sdf d r is_filled oob frame = Ok (s, x)).

Lemma own_field c : in_bounds d c = true -> exists f,
  build_distance_field d (cells_of d (others filled (filled c))) = Ok f /\
  sdf_get s c = (signed_value (filled c) (cell_distsq f c) r, true).
Proof.
  intros Hc. destruct (extract_values d r oob frame is_filled filled s x Hs Hr HP He) as (ff & fr & B1 & B2 & V).
  specialize (V c Hc). unfold others. destruct (filled c); [exists fr|exists ff]; auto.
Qed.

Lemma sdf_straight c p : in_bounds d c = true -> other_class d filled c p -> straight c p ->
  nearest_other d filled c (distsq c p) ->
  sdf_get s c = (signed_value (filled c) (Some (distsq c p)) r, true).
Proof.
  intros Hc Ho St Hn. destruct (own_field c Hc) as (f & B & ->). do 2 f_equal.
  apply (straight_exact d _ f c p Hs (cells_of_inside d _) B Hc); auto.
  - apply others_spec; auto.
  - apply others_nearest; auto.
Qed.

Lemma sdf_pair c p q : in_bounds d c = true -> other_class d filled c p -> other_class d filled c q ->
  (forall a, other_class d filled c a -> a = p \/ a = q) ->
  sdf_get s c = (signed_value (filled c) (Some (Z.min (distsq c p) (distsq c q))) r, true).
Proof.
  intros Hc Hp Hq Two. destruct (own_field c Hc) as (f & B & ->). do 2 f_equal.
  apply (two_exact d _ f c p q Hs B); auto; [apply Hp|apply Hq|].
  intros a. rewrite others_spec. split; [apply Two|intros [->| ->]; auto].
Qed.

(** The part of a box inside the grid is a box. *)
Lemma box_cut lo hi c : in_bounds d c = true ->
  (in_box lo hi c <-> in_box (I (Z.max 0 (ix lo)) (Z.max 0 (iy lo)) (Z.max 0 (iz lo)))
    (I (Z.min (nx d - 1) (ix hi)) (Z.min (ny d - 1) (iy hi)) (Z.min (nz d - 1) (iz hi))) c).
Proof. rewrite in_bounds_spec. unfold in_box. cbn [ix iy iz]. lia. Qed.

Lemma box_cut_inside lo hi c :
  in_box (I (Z.max 0 (ix lo)) (Z.max 0 (iy lo)) (Z.max 0 (iz lo)))
    (I (Z.min (nx d - 1) (ix hi)) (Z.min (ny d - 1) (iy hi)) (Z.min (nz d - 1) (iz hi))) c -> in_bounds d c = true.
Proof. rewrite in_bounds_spec. unfold in_box. cbn [ix iy iz]. lia. Qed.

Lemma sdf_box lo hi b c m : (forall a, in_bounds d a = true -> (filled a = b <-> in_box lo hi a)) ->
  in_bounds d c = true -> nearest_other d filled c m ->
  sdf_get s c = (signed_value (filled c) (Some m) r, true).
Proof.
  intros Box Hc Hn. destruct (own_field c Hc) as (f & B & ->). do 2 f_equal.
  apply others_nearest in Hn. pose proof (cells_of_inside d (others filled (filled c))) as Hin.
  destruct (Bool.bool_dec (filled c) b) as [E|E].
  - apply (outside_box_exact d _ f c lo hi m Hs Hin B); auto. intros q. rewrite others_spec. unfold other_class.
    split; intros (Iq & Nq); (split; [exact Iq|]); intros H; apply Nq.
    + apply Box in H; [congruence|exact Iq].
    + apply Box; [exact Iq|congruence].
  - pose proof Hn as ((q0 & Hq0 & _) & _).
    assert (Hin' : forall q, In q (cells_of d (others filled (filled c))) <->
      in_box (I (Z.max 0 (ix lo)) (Z.max 0 (iy lo)) (Z.max 0 (iz lo)))
        (I (Z.min (nx d - 1) (ix hi)) (Z.min (ny d - 1) (iy hi)) (Z.min (nz d - 1) (iz hi))) q).
    { intros q. rewrite others_spec. unfold other_class. split.
      - intros (Iq & Nq). apply (proj1 (box_cut lo hi q Iq)). apply Box; [exact Iq|]. destruct (filled q), (filled c), b; congruence.
      - intros H. pose proof (box_cut_inside _ _ _ H) as Iq. split; [exact Iq|]. apply (proj2 (box_cut lo hi q Iq)) in H.
        apply Box in H; [|exact Iq]. congruence. }
    destruct (box_exact d _ f c _ _ Hs Hin B Hin') as (V & N); auto.
    { intros E0. rewrite E0 in Hq0. contradiction. }
    rewrite V. f_equal. destruct N as ((p & Ip & Dp) & N1), Hn as ((p' & Ip' & Dp') & N2).
    specialize (N1 _ Ip'). specialize (N2 _ Ip). lia.
Qed.

(** A cell is exact if the nearest cell of the other class reaches it. *)
Lemma sdf_reached c p : in_bounds d c = true ->
  reached d (cells_of d (fun i => negb (Bool.eqb (filled i) (filled c)))) p c ->
  sdf_get s c = (signed_value (filled c) (Some (distsq c p)) r, true) /\ nearest_other d filled c (distsq c p).
Proof.
  intros Hc R. destruct (own_field c Hc) as (f & B & ->).
  assert (E : cells_of d (fun i => negb (Bool.eqb (filled i) (filled c))) = cells_of d (others filled (filled c))).
  { unfold cells_of. apply filter_ext. intros a. unfold others. destruct (filled a), (filled c); reflexivity. }
  rewrite E in R. destruct (reached_exact d _ f p c Hs (cells_of_inside d _) B R) as (V & N).
  rewrite V. split; [reflexivity|]. apply others_nearest. exact N.
Qed.

End Plain.

(** ** With a virtual border *)

Lemma shift_in_out d c : shift_out d (shift_in d c) = c.
Proof. destruct c as [a b e]. unfold shift_out, shift_in. cbn [ix iy iz]. f_equal; lia. Qed.
Lemma shift_out_in d c : shift_in d (shift_out d c) = c.
Proof. destruct c as [a b e]. unfold shift_out, shift_in. cbn [ix iy iz]. f_equal; lia. Qed.
Lemma shift_distsq d a b : distsq (shift_in d a) (shift_in d b) = distsq a b.
Proof. unfold distsq, shift_in. cbn [ix iy iz]. ring. Qed.
Lemma shift_straight d a b : straight a b -> straight (shift_in d a) (shift_in d b).
Proof. unfold straight, shift_in. cbn [ix iy iz]. lia. Qed.

Lemma shift_bounds d c : in_bounds (enlarged_dims d) (shift_in d c) = true <-> in_bounds d c = true \/ outside_shell d c.
Proof.
  unfold outside_shell, beyond. rewrite in_bounds_spec. unfold enlarged_dims, enlarged, shift_in, one_if_longer.
  cbn [nx ny nz ix iy iz]. pose proof (in_bounds_spec d c) as Sp. destruct (in_bounds d c).
  - destruct Sp as (Sp & _). specialize (Sp eq_refl). split; [auto|]. intros _.
    destruct (Z.ltb_spec 1 (nx d)), (Z.ltb_spec 1 (ny d)), (Z.ltb_spec 1 (nz d)); lia.
  - split.
    + intros H. right. split; [reflexivity|].
      destruct (Z.ltb_spec 1 (nx d)), (Z.ltb_spec 1 (ny d)), (Z.ltb_spec 1 (nz d)); lia.
    + intros [H|(_ & H)]; [discriminate|].
      destruct (Z.ltb_spec 1 (nx d)), (Z.ltb_spec 1 (ny d)), (Z.ltb_spec 1 (nz d)); lia.
Qed.

Lemma layer_spec d filled c p :
  In (shift_in d p) (cells_of (enlarged_dims d) (with_layer d (others filled (filled c)))) <-> other_or_outside d filled c p.
Proof.
  rewrite cells_of_in, shift_bounds. unfold with_layer. rewrite shift_in_out. unfold other_or_outside, other_class, others.
  unfold outside_shell. destruct (in_bounds d p), (filled c), (filled p); cbn; intuition congruence.
Qed.

Lemma layer_nearest d filled c m : nearest_other_or_outside d filled c m ->
  nearest_distsq (cells_of (enlarged_dims d) (with_layer d (others filled (filled c)))) (shift_in d c) m.
Proof.
  intros ((p & Hp & Dp) & Hn). split.
  - exists (shift_in d p). rewrite layer_spec, shift_distsq. auto.
  - intros q Hq. rewrite <- (shift_out_in d q) in *. rewrite layer_spec in Hq. rewrite shift_distsq. auto.
Qed.

Section Border.
Variables (d : dims) (r : binary64) (oob : binary32) (frame : String.string).
Variables (is_filled : idx -> res bool) (filled : idx -> bool) (s : sdf) (x : binary64 * binary64).
Hypothesis (Hs : size_ok (enlarged_dims d)) (Hd : 0 <= nx d /\ 0 <= ny d /\ 0 <= nz d).
Hypothesis (Hr : usable_resolution r) (HP : answers d is_filled filled).
Hypothesis (He : extract_sdf_grid d r r r is_filled oob frame true = Ok (s, x)).

Lemma border_straight c p : in_bounds d c = true -> other_or_outside d filled c p -> straight c p ->
  nearest_other_or_outside d filled c (distsq c p) ->
  sdf_get s c = (signed_value (filled c) (Some (distsq c p)) r, true).
Proof.
  intros Hc Ho St Hn.
  destruct (border_values d r oob frame is_filled filled s x Hs Hd Hr HP He) as (ff & fr & B1 & B2 & V).
  rewrite (V c Hc). do 2 f_equal. rewrite <- (shift_distsq d c p).
  assert (B : build_distance_field (enlarged_dims d) (cells_of (enlarged_dims d) (with_layer d (others filled (filled c)))) =
              Ok (if filled c then fr else ff)) by (unfold others; destruct (filled c); auto).
  apply (straight_exact _ _ _ _ _ Hs (cells_of_inside _ _) B).
  - apply shift_bounds. auto.
  - apply layer_spec. auto.
  - apply shift_straight. auto.
  - rewrite shift_distsq. apply layer_nearest. auto.
Qed.

(** The nearest cell just outside the grid is straight ahead. *)
Lemma shell_straight c q : in_bounds d c = true -> outside_shell d q ->
  exists p, outside_shell d p /\ straight c p /\ distsq c p <= distsq c q.
Proof.
  intros Hc (Oq & Bx & By & Bz).
  pose proof (proj1 (in_bounds_spec d c) Hc) as Ic.
  assert (Nq : ~ (0 <= ix q < nx d /\ 0 <= iy q < ny d /\ 0 <= iz q < nz d)).
  { rewrite <- in_bounds_spec. rewrite Oq. discriminate. }
  assert (Out : forall p, ~ (0 <= ix p < nx d /\ 0 <= iy p < ny d /\ 0 <= iz p < nz d) -> in_bounds d p = false).
  { intros p N. destruct (in_bounds d p) eqn:E; auto. apply in_bounds_spec in E. contradiction. }
  unfold outside_shell, beyond, straight, distsq in *.
  destruct c as [x0 y0 z0], q as [q1 q2 q3]. cbn [ix iy iz] in *.
  pose proof (Z.square_nonneg (x0 - q1)). pose proof (Z.square_nonneg (y0 - q2)). pose proof (Z.square_nonneg (z0 - q3)).
  assert (Cx : 0 <= q1 < nx d \/ (1 <? nx d = true /\ (q1 = -1 \/ q1 = nx d))) by (destruct (1 <? nx d); lia).
  assert (Cy : 0 <= q2 < ny d \/ (1 <? ny d = true /\ (q2 = -1 \/ q2 = ny d))) by (destruct (1 <? ny d); lia).
  assert (Cz : 0 <= q3 < nz d \/ (1 <? nz d = true /\ (q3 = -1 \/ q3 = nz d))) by (destruct (1 <? nz d); lia).
  assert (Fx : if 1 <? nx d then -1 <= x0 <= nx d else 0 <= x0 < nx d) by (destruct (1 <? nx d); lia).
  assert (Fy : if 1 <? ny d then -1 <= y0 <= ny d else 0 <= y0 < ny d) by (destruct (1 <? ny d); lia).
  assert (Fz : if 1 <? nz d then -1 <= z0 <= nz d else 0 <= z0 < nz d) by (destruct (1 <? nz d); lia).
  destruct Cx as [Cx|Cx]; [destruct Cy as [Cy|Cy]; [destruct Cz as [Cz|Cz]; [exfalso; lia|]|]|].
  - exists (I x0 y0 q3). cbn [ix iy iz]. split; [split; [apply Out; cbn; lia|auto]|]. split; [auto|]. nia.
  - exists (I x0 q2 z0). cbn [ix iy iz]. split; [split; [apply Out; cbn; lia|auto]|]. split; [auto|]. nia.
  - exists (I q1 y0 z0). cbn [ix iy iz]. split; [split; [apply Out; cbn; lia|auto]|]. split; [auto|]. nia.
Qed.

Lemma border_outside c q : in_bounds d c = true -> outside_shell d q ->
  nearest_other_or_outside d filled c (distsq c q) ->
  sdf_get s c = (signed_value (filled c) (Some (distsq c q)) r, true).
Proof.
  intros Hc Oq Hn. destruct (shell_straight c q Hc Oq) as (p & Op & St & L).
  assert (E : distsq c p = distsq c q) by (destruct Hn as (_ & Hn); specialize (Hn p (or_intror Op)); lia).
  rewrite <- E in *. apply border_straight; auto. right; auto.
Qed.

(** A map of a single class: every value is the distance to the outside. *)
Lemma border_uniform b c q : (forall a, in_bounds d a = true -> filled a = b) -> in_bounds d c = true ->
  outside_shell d q -> (forall p, outside_shell d p -> distsq c q <= distsq c p) ->
  sdf_get s c = (signed_value b (Some (distsq c q)) r, true).
Proof.
  intros U Hc Oq Hq. rewrite <- (U c Hc). apply border_outside; auto. split; [exists q; split; [right|]; auto|].
  intros p [(Ip & Np)|Op]; [|auto]. exfalso. apply Np. rewrite (U p Ip), (U c Hc). reflexivity.
Qed.

End Border.

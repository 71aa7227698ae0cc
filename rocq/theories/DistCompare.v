(** Distance fields of related obstacle sets, and of neighbouring cells. *)
From Coq Require Import Reals Lra Permutation.
From Verif Require Import Base BaseFacts Grid GridFacts DistModel DistSpec DistProofs DistThms DistPlanar DistReach FieldSpec.
Open Scope Z_scope.

Lemma nearest_unique pts c v w : nearest_distsq pts c v -> nearest_distsq pts c w -> v = w.
Proof.
  intros ((p & Ip & Dp) & N1) ((q & Iq & Dq) & N2). specialize (N1 _ Iq). specialize (N2 _ Ip). lia.
Qed.

Lemma nearest_same pts pts' c v : same_cells pts pts' -> nearest_distsq pts c v -> nearest_distsq pts' c v.
Proof.
  intros H ((p & Ip & Dp) & N). split.
  - exists p. split; auto. apply H; auto.
  - intros q Hq. apply N. apply H; auto.
Qed.

Lemma same_inside d pts pts' : same_cells pts pts' -> all_inside d pts -> all_inside d pts'.
Proof. intros H Hp p Hi. apply Hp. apply H; auto. Qed.

(** ** The order of the obstacles *)

Lemma order_fails : exists d pts pts' f f' c,
  size_ok d /\ all_inside d pts /\ NoDup pts /\ Permutation pts pts' /\
  build_distance_field d pts = Ok f /\ build_distance_field d pts' = Ok f' /\ in_bounds d c = true /\
  cell_distsq f c = Some 9 /\ cell_distsq f' c = Some 8.
Proof.
  pose (d := D 5 4 1). pose (pts := [I 1 0 0; I 2 1 0; I 3 3 0]).
  assert (G : match build_distance_field d pts, build_distance_field d (rev pts) with
              | Ok f, Ok f' => cell_distsq f (I 0 3 0) = Some 9 /\ cell_distsq f' (I 0 3 0) = Some 8
              | _, _ => False end) by (vm_compute; auto).
  exists d, pts, (rev pts).
  destruct (build_distance_field d pts) as [f| |]; [|destruct G|destruct G].
  destruct (build_distance_field d (rev pts)) as [f'| |]; [|destruct G|destruct G].
  exists f, f', (I 0 3 0). split; [unfold size_ok; cbn; lia|]. split.
  { intros p [<-|[<-|[<-|[]]]]; reflexivity. }
  split.
  { repeat constructor; cbn; intuition discriminate. }
  split; [apply Permutation_rev|]. split; [reflexivity|]. split; [reflexivity|]. split; [reflexivity|]. exact G.
Qed.

Lemma order_near d pts pts' f f' c v : size_ok d -> all_inside d pts -> same_cells pts pts' ->
  build_distance_field d pts = Ok f -> build_distance_field d pts' = Ok f' ->
  in_bounds d c = true -> nearest_distsq pts c v -> v <= 6 -> cell_distsq f c = cell_distsq f' c.
Proof.
  intros Hs Hp Hsame B B' Hc Hn Hv.
  rewrite (build_exact_6 d pts Hs Hp f B c v Hc Hn Hv).
  rewrite (build_exact_6 d pts' Hs (same_inside d pts pts' Hsame Hp) f' B' c v Hc (nearest_same _ _ c v Hsame Hn) Hv).
  reflexivity.
Qed.

Lemma held_same pts pts' o c : same_cells pts pts' -> held_by pts o c -> held_by pts' o c.
Proof. intros H Hh q Hq. apply Hh. apply H; auto. Qed.

Lemma reached_same d pts pts' o c : same_cells pts pts' -> reached d pts o c -> reached d pts' o c.
Proof.
  intros H R. induction R as [Ho|c c' R IH Hh D1 D2 Hb Hm].
  - apply reached_start. apply H; auto.
  - apply (reached_step d pts' o c c'); auto.
    + eapply held_same; eauto.
    + intros q Hq. apply Hm. apply H; auto.
Qed.

Lemma order_reached d pts pts' f f' c o : size_ok d -> all_inside d pts -> same_cells pts pts' ->
  build_distance_field d pts = Ok f -> build_distance_field d pts' = Ok f' ->
  reached d pts o c -> cell_distsq f c = cell_distsq f' c.
Proof.
  intros Hs Hp Hsame B B' R.
  destruct (reached_exact d pts f o c Hs Hp B R) as (-> & _).
  destruct (reached_exact d pts' f' o c Hs (same_inside d pts pts' Hsame Hp) B' (reached_same d pts pts' o c Hsame R)) as (-> & _).
  reflexivity.
Qed.

(** ** More obstacles *)

Lemma nearest_incl pts pts' c v v' : (forall p, In p pts -> In p pts') ->
  nearest_distsq pts c v -> nearest_distsq pts' c v' -> v' <= v.
Proof. intros H ((p & Ip & <-) & _) (_ & N). apply N. auto. Qed.

(** On a planar grid the value after adding obstacles is at most twice the value
    before, in squared distance. *)
Lemma added_planar d pts pts' f f' c m : size_ok d -> flat d -> all_inside d pts' ->
  (forall p, In p pts -> In p pts') ->
  build_distance_field d pts = Ok f -> build_distance_field d pts' = Ok f' ->
  in_bounds d c = true -> cell_distsq f c = Some m ->
  exists m', cell_distsq f' c = Some m' /\ m' <= 2 * m.
Proof.
  intros Hs Hf Hp Hi B B' Hc Em.
  assert (Hp0 : all_inside d pts) by (intros q Hq; auto).
  destruct (build_never_under d pts f Hs Hp0 B c m Hc Em) as ((p & Ip & Dp) & Hge).
  destruct (nearest_exists pts c p Ip) as (v & Hv). specialize (Hge _ Hv).
  destruct (nearest_exists pts' c p (Hi p Ip)) as (v' & Hv').
  pose proof (nearest_incl pts pts' c v v' Hi Hv Hv').
  destruct (planar_ratio d pts' f' c v' Hs Hf Hp B' Hc Hv') as (m' & E & L). exists m'. split; auto. lia.
Qed.

(** Where the new field is exact, it is not above the old one. *)
Lemma added_exact d pts pts' f f' c m v' : size_ok d -> all_inside d pts' ->
  (forall p, In p pts -> In p pts') ->
  build_distance_field d pts = Ok f -> build_distance_field d pts' = Ok f' ->
  in_bounds d c = true -> cell_distsq f c = Some m ->
  nearest_distsq pts' c v' -> v' <= 6 \/ (exists o, reached d pts' o c) ->
  exists m', cell_distsq f' c = Some m' /\ m' <= m.
Proof.
  intros Hs Hp Hi B B' Hc Em Hv' Hex.
  assert (Hp0 : all_inside d pts) by (intros q Hq; auto).
  destruct (build_never_under d pts f Hs Hp0 B c m Hc Em) as ((p & Ip & Dp) & Hge).
  assert (L : v' <= m) by (destruct Hv' as (_ & N); rewrite <- Dp; auto).
  exists v'. split; auto. destruct Hex as [H6|(o & R)].
  - apply (build_exact_6 d pts' Hs Hp f' B' c v'); auto.
  - destruct (reached_exact d pts' f' o c Hs Hp B' R) as (-> & N). f_equal. eapply nearest_unique; eauto.
Qed.

(** ** Neighbouring cells *)

Lemma sqrt_step m k dl : 0 <= m -> dl * dl <= m -> k <= m + 2 * dl + 1 -> (sqrt (IZR k) <= sqrt (IZR m) + 1)%R.
Proof.
  intros Hm Hd Hk. assert (Hm' : (0 <= IZR m)%R) by (apply IZR_le; auto).
  pose proof (sqrt_pos (IZR m)) as Hs. pose proof (sqrt_sqrt (IZR m) Hm') as Hss.
  assert (Hdl : (IZR dl <= sqrt (IZR m))%R).
  { destruct (Z_le_gt_dec dl 0) as [H|H].
    - assert (IZR dl <= 0)%R by (apply (IZR_le dl 0); auto). lra.
    - rewrite <- (sqrt_square (IZR dl)) by (apply (IZR_le 0); lia). apply sqrt_le_1_alt.
      rewrite <- mult_IZR. apply IZR_le; auto. }
  assert (HR : (IZR k <= (sqrt (IZR m) + 1) * (sqrt (IZR m) + 1))%R).
  { apply IZR_le in Hk. rewrite !plus_IZR, mult_IZR in Hk. nra. }
  rewrite <- (sqrt_square (sqrt (IZR m) + 1)) by lra. apply sqrt_le_1_alt. exact HR.
Qed.

Lemma unit_dot (u v w : Z) : u * u + v * v + w * w = 1 ->
  forall x y z, (u * x + v * y + w * z) * (u * x + v * y + w * z) <= x * x + y * y + z * z.
Proof.
  intros H x y z.
  pose proof (Z.square_nonneg u). pose proof (Z.square_nonneg v). pose proof (Z.square_nonneg w).
  pose proof (Z.square_nonneg x). pose proof (Z.square_nonneg y). pose proof (Z.square_nonneg z).
  assert (B : forall t, t * t <= 1 -> t = -1 \/ t = 0 \/ t = 1) by (intros t Ht; nia).
  destruct (B u) as [->|[->| ->]]; [lia| | |]; (destruct (B v) as [->|[->| ->]]; [lia| | |]);
    (destruct (B w) as [->|[->| ->]]; [lia| | |]); lia.
Qed.

(** A face neighbour is at most one cell further from any obstacle. *)
Lemma neighbour_further a b q : distsq a b = 1 -> (sqrt (IZR (distsq b q)) <= sqrt (IZR (distsq a q)) + 1)%R.
Proof.
  intros H.
  assert (Hu : (ix b - ix a) * (ix b - ix a) + (iy b - iy a) * (iy b - iy a) + (iz b - iz a) * (iz b - iz a) = 1).
  { rewrite <- H. unfold distsq. ring. }
  apply (sqrt_step _ _ ((ix b - ix a) * (ix a - ix q) + (iy b - iy a) * (iy a - iy q) + (iz b - iz a) * (iz a - iz q))).
  - apply distsq_nonneg.
  - exact (unit_dot _ _ _ Hu (ix a - ix q) (iy a - iy q) (iz a - iz q)).
  - rewrite <- Hu. unfold distsq. apply Z.eq_le_incl. ring.
Qed.

Lemma distsq_sym a b : distsq a b = distsq b a.
Proof. unfold distsq. ring. Qed.

Lemma planar_step_half d pts f a b m k : size_ok d -> flat d -> all_inside d pts ->
  build_distance_field d pts = Ok f -> in_bounds d a = true -> in_bounds d b = true -> distsq a b = 1 ->
  cell_distsq f a = Some m -> cell_distsq f b = Some k -> (sqrt (IZR k) <= sqrt (IZR m) + 1)%R.
Proof.
  intros Hs Hf Hp B Ha Hb Hd Em Ek.
  destruct (planar_neighbours d pts f a b m Hs Hf Hp B Ha Hb Hd Em) as (q & k' & Iq & Dq & Ek' & L).
  rewrite Ek in Ek'. injection Ek' as <-.
  eapply Rle_trans; [apply sqrt_le_1_alt, IZR_le, L|]. rewrite <- Dq. apply neighbour_further; auto.
Qed.

Lemma planar_step d pts f a b m k : size_ok d -> flat d -> all_inside d pts ->
  build_distance_field d pts = Ok f -> in_bounds d a = true -> in_bounds d b = true -> distsq a b = 1 ->
  cell_distsq f a = Some m -> cell_distsq f b = Some k -> (Rabs (sqrt (IZR m) - sqrt (IZR k)) <= 1)%R.
Proof.
  intros Hs Hf Hp B Ha Hb Hd Em Ek.
  pose proof (planar_step_half d pts f a b m k Hs Hf Hp B Ha Hb Hd Em Ek).
  rewrite distsq_sym in Hd.
  pose proof (planar_step_half d pts f b a k m Hs Hf Hp B Hb Ha Hd Ek Em).
  apply Rabs_le. lra.
Qed.

(** One step towards [b] inside the grid. *)
Lemma step_closer d a b : in_bounds d a = true -> in_bounds d b = true -> a <> b ->
  exists a', in_bounds d a' = true /\ distsq a a' = 1 /\ manhattan a' b = manhattan a b - 1.
Proof.
  rewrite !in_bounds_spec. destruct a as [x y z], b as [x' y' z']. cbn [ix iy iz]. intros Ha Hb Hne.
  assert (K : forall u v n, 0 <= u < n -> 0 <= v < n -> u <> v ->
    exists w, 0 <= w < n /\ (u - w) * (u - w) = 1 /\ Z.abs (w - v) = Z.abs (u - v) - 1).
  { intros u v n Hu Hv H. destruct (Z_lt_dec u v); [exists (u + 1)|exists (u - 1)]; split; [lia| |lia|]; split; lia. }
  destruct (Z.eq_dec x x') as [Ex|Ex]; [destruct (Z.eq_dec y y') as [Ey|Ey]|].
  - destruct (K z z' (nz d)) as (w & H1 & H2 & H3); [lia|lia|congruence|].
    exists (I x y w). rewrite in_bounds_spec. unfold distsq, manhattan; cbn [ix iy iz]. rewrite H2, H3, !Z.sub_diag. lia.
  - destruct (K y y' (ny d)) as (w & H1 & H2 & H3); [lia|lia|congruence|].
    exists (I x w z). rewrite in_bounds_spec. unfold distsq, manhattan; cbn [ix iy iz]. rewrite H2, H3, !Z.sub_diag. lia.
  - destruct (K x x' (nx d)) as (w & H1 & H2 & H3); [lia|lia|congruence|].
    exists (I w y z). rewrite in_bounds_spec. unfold distsq, manhattan; cbn [ix iy iz]. rewrite H2, H3, !Z.sub_diag. lia.
Qed.

Lemma planar_lipschitz d pts f a b m k : size_ok d -> flat d -> all_inside d pts ->
  build_distance_field d pts = Ok f -> in_bounds d a = true -> in_bounds d b = true ->
  cell_distsq f a = Some m -> cell_distsq f b = Some k ->
  (Rabs (sqrt (IZR m) - sqrt (IZR k)) <= IZR (manhattan a b))%R.
Proof.
  intros Hs Hf Hp B Ha Hb Em Ek.
  remember (Z.to_nat (manhattan a b)) as n eqn:En. revert a m Ha Em En.
  induction n as [n IH] using lt_wf_ind. intros a m Ha Em En.
  assert (Hmn : 0 <= manhattan a b) by (unfold manhattan; lia).
  destruct (idx_eq_dec a b) as [->|Hne].
  - rewrite Em in Ek. injection Ek as ->. unfold Rminus. rewrite Rplus_opp_r, Rabs_R0. apply IZR_le. auto.
  - destruct (step_closer d a b Ha Hb Hne) as (a' & Ha' & D1 & HM).
    destruct (planar_neighbours d pts f a a' m Hs Hf Hp B Ha Ha' D1 Em) as (_ & k' & _ & _ & Ek' & _).
    pose proof (planar_step d pts f a a' m k' Hs Hf Hp B Ha Ha' D1 Em Ek') as S1.
    assert (0 <= manhattan a' b) by (unfold manhattan; lia).
    pose proof (IH (Z.to_nat (manhattan a' b)) ltac:(lia) a' k' Ha' Ek' eq_refl) as S2.
    rewrite HM, minus_IZR in S2.
    replace (sqrt (IZR m) - sqrt (IZR k))%R with ((sqrt (IZR m) - sqrt (IZR k')) + (sqrt (IZR k') - sqrt (IZR k)))%R by ring.
    eapply Rle_trans; [apply Rabs_triang|]. lra.
Qed.

(** The true nearest distance has that property in every grid, and so has the stored
    one between cells where it is exact. *)
Lemma nearest_step pts a b v w : distsq a b = 1 -> nearest_distsq pts a v -> nearest_distsq pts b w ->
  (Rabs (sqrt (IZR v) - sqrt (IZR w)) <= 1)%R.
Proof.
  assert (G : forall a b v w, distsq a b = 1 -> nearest_distsq pts a v -> nearest_distsq pts b w ->
    (sqrt (IZR w) <= sqrt (IZR v) + 1)%R).
  { clear. intros a b v w Hd ((p & Ip & <-) & _) (_ & N). eapply Rle_trans; [|apply (neighbour_further a b p Hd)].
    apply sqrt_le_1_alt, IZR_le. auto. }
  intros Hd Hv Hw. pose proof (G a b v w Hd Hv Hw). rewrite distsq_sym in Hd. pose proof (G b a w v Hd Hw Hv).
  apply Rabs_le. lra.
Qed.

Lemma exact_step d pts f a b m k : size_ok d -> all_inside d pts -> build_distance_field d pts = Ok f ->
  in_bounds d a = true -> in_bounds d b = true -> distsq a b = 1 ->
  (exists v, nearest_distsq pts a v /\ v <= 6) \/ (exists o, reached d pts o a) ->
  (exists v, nearest_distsq pts b v /\ v <= 6) \/ (exists o, reached d pts o b) ->
  cell_distsq f a = Some m -> cell_distsq f b = Some k -> (Rabs (sqrt (IZR m) - sqrt (IZR k)) <= 1)%R.
Proof.
  intros Hs Hp B Ha Hb Hd Xa Xb Em Ek.
  assert (G : forall c z, in_bounds d c = true -> cell_distsq f c = Some z ->
     (exists v, nearest_distsq pts c v /\ v <= 6) \/ (exists o, reached d pts o c) -> nearest_distsq pts c z).
  { intros c z Hc Ez [(v & Hv & L)|(o & R)].
    - rewrite (build_exact_6 d pts Hs Hp f B c v Hc Hv L) in Ez. injection Ez as <-. auto.
    - destruct (reached_exact d pts f o c Hs Hp B R) as (E & N). rewrite E in Ez. injection Ez as <-. auto. }
  apply (nearest_step pts a b); auto.
Qed.

(** Local consistency is lost in three dimensions. *)
Lemma consistency_fails : exists d pts f a b m,
  size_ok d /\ all_inside d pts /\ build_distance_field d pts = Ok f /\
  in_bounds d a = true /\ in_bounds d b = true /\ distsq a b = 1 /\ cell_distsq f a = Some m /\
  forall q, In q pts -> distsq a q = m -> exists k, cell_distsq f b = Some k /\ distsq b q < k.
Proof.
  pose (d := D 8 8 8). pose (pts := [I 1 6 4; I 4 2 0; I 5 5 2; I 5 6 6]).
  assert (G : match build_distance_field d pts with
              | Ok f => cell_distsq f (I 6 1 5) = Some 26 /\ cell_distsq f (I 5 1 5) = Some 26
              | _ => False end) by (vm_compute; auto).
  exists d, pts. destruct (build_distance_field d pts) as [f| |]; [|destruct G|destruct G]. destruct G as (Ga & Gb).
  exists f, (I 6 1 5), (I 5 1 5), 26. split; [unfold size_ok; cbn; lia|]. split.
  { intros p [<-|[<-|[<-|[<-|[]]]]]; reflexivity. }
  split; [reflexivity|]. split; [reflexivity|]. split; [reflexivity|]. split; [reflexivity|]. split; [exact Ga|].
  intros q Hq D. exists 26. split; [exact Gb|].
  destruct Hq as [<-|[<-|[<-|[<-|[]]]]]; vm_compute in D |- *; congruence.
Qed.

(** Obstacles for which every distance is exact: straight lines of sight, pairs,
    boxes and rooms. *)
From Verif Require Import Base BaseFacts Grid GridFacts DistModel DistSpec DistProofs DistThms DistReach.

Lemma between_inside d a b c : in_bounds d a = true -> in_bounds d b = true ->
  Z.min (ix a) (ix b) <= ix c <= Z.max (ix a) (ix b) -> Z.min (iy a) (iy b) <= iy c <= Z.max (iy a) (iy b) ->
  Z.min (iz a) (iz b) <= iz c <= Z.max (iz a) (iz b) -> in_bounds d c = true.
Proof. rewrite !in_bounds_spec. lia. Qed.

(** One step from [c] towards [o] along an axis. *)
Definition toward (v : Z) : Z := if 0 <? v then 1 else if v <? 0 then -1 else 0.
Definition back (k : nat) (o c : idx) : idx :=
  match k with
  | 0%nat => I (ix c - toward (ix c - ix o)) (iy c) (iz c)
  | 1%nat => I (ix c) (iy c - toward (iy c - iy o)) (iz c)
  | _ => I (ix c) (iy c) (iz c - toward (iz c - iz o))
  end.
Definition along (k : nat) (o c : idx) : Z :=
  match k with 0%nat => ix c - ix o | 1%nat => iy c - iy o | _ => iz c - iz o end.

Lemma toward_cases v : (0 < v /\ toward v = 1) \/ (v < 0 /\ toward v = -1) \/ (v = 0 /\ toward v = 0).
Proof. unfold toward. destruct (Z.ltb_spec 0 v); [left; lia|]. destruct (Z.ltb_spec v 0); lia. Qed.

Lemma back_facts d k o c : in_bounds d o = true -> in_bounds d c = true -> along k o c <> 0 ->
  in_bounds d (back k o c) = true /\ distsq (back k o c) c = 1 /\ distsq (back k o c) o < distsq c o /\
  manhattan (back k o c) o = manhattan c o - 1.
Proof.
  intros Ho Hc Hk. destruct o as [a b e], c as [x y z]. destruct k as [|[|k]]; cbn [along back ix iy iz] in *.
  all: match goal with |- context [toward ?v] => destruct (toward_cases v) as [(S & ->)|[(S & ->)|(S & ->)]] end; try lia.
  all: split; [apply (between_inside d _ _ _ Hc Ho); cbn [ix iy iz]; lia|].
  all: unfold distsq, manhattan; cbn [ix iy iz]; split; [nia|]; split; [nia|lia].
Qed.

(** A cell is reached if each step back towards the obstacle ends in a cell the
    obstacle is strictly nearest to; [K] says which cells the path may use. *)
Lemma reached_back d pts o (K : idx -> Prop) : all_inside d pts -> In o pts ->
  (forall c, K c -> in_bounds d c = true -> c <> o -> exists k, along k o c <> 0 /\ K (back k o c) /\ held_by pts o (back k o c)) ->
  forall c, K c -> in_bounds d c = true -> (forall q, In q pts -> distsq c o <= distsq c q) -> reached d pts o c.
Proof.
  intros Hp Ho Step c. remember (Z.to_nat (manhattan c o)) as n eqn:En. revert c En.
  induction n as [n IH] using lt_wf_ind. intros c En Kc Ic Nc.
  destruct (idx_eqb_spec c o) as [->|Ne]; [apply reached_start; auto|].
  destruct (Step c Kc Ic Ne) as (k & Ak & Kb & Hb).
  destruct (back_facts d k o c (Hp _ Ho) Ic Ak) as (Ib & N1 & Out & M).
  assert (M0 : 0 <= manhattan (back k o c) o) by (unfold manhattan; lia).
  apply reached_step with (back k o c); auto.
  apply (IH (Z.to_nat (manhattan (back k o c) o))); auto; [lia|].
  intros q Hq. destruct (idx_eqb_spec q o) as [->|Nq]; [lia|]. specialize (Hb q Hq Nq). lia.
Qed.

(** ** A line of sight along an axis *)

Lemma apart_pos a b : a <> b -> 0 < distsq a b.
Proof.
  intros N. destruct (Z.lt_trichotomy (distsq a b) 0) as [L|[L|L]]; auto.
  - pose proof (distsq_nonneg a b). lia.
  - apply distsq_zero in L. contradiction.
Qed.

Lemma straight_arith m w n : 0 < m -> 0 < n -> 2 * w * m <= n -> 2 * w * (m - 1) < n.
Proof. intros Hm Hn H. destruct (Z.leb_spec w 0); nia. Qed.

(** Moving one step closer along an axis makes a tie a clear lead. *)
Lemma straight_lead x a w n : x <> a -> 0 < n -> 2 * w * (x - a) <= n -> 2 * w * (x - toward (x - a) - a) < n.
Proof.
  intros Nx Hn H. destruct (toward_cases (x - a)) as [(S & ->)|[(S & ->)|(S & ->)]]; [| |lia].
  - pose proof (straight_arith (x - a) w n S Hn H). nia.
  - pose proof (straight_arith (a - x) (- w) n ltac:(lia) Hn ltac:(nia)). nia.
Qed.

Lemma lead_cosine p q c : distsq c p <= distsq c q <->
  2 * ((ix q - ix p) * (ix c - ix p) + (iy q - iy p) * (iy c - iy p) + (iz q - iz p) * (iz c - iz p)) <= distsq q p.
Proof. unfold distsq. split; intros; nia. Qed.
Lemma lead_cosine_lt p q c : distsq c p < distsq c q <->
  2 * ((ix q - ix p) * (ix c - ix p) + (iy q - iy p) * (iy c - iy p) + (iz q - iz p) * (iz c - iz p)) < distsq q p.
Proof. unfold distsq. split; intros; nia. Qed.

Lemma straight_step pts c p : In p pts -> straight c p -> c <> p -> (forall q, In q pts -> distsq c p <= distsq c q) ->
  exists k, along k p c <> 0 /\ straight (back k p c) p /\ held_by pts p (back k p c).
Proof.
  intros Hi St Ne Hn. destruct p as [a b e], c as [x y z]. unfold straight in St. cbn [ix iy iz] in St.
  destruct St as [(-> & ->)|[(-> & ->)|(-> & ->)]]; [exists 0%nat|exists 1%nat|exists 2%nat]; cbn [along back ix iy iz].
  - assert (Nx : x <> a) by congruence. split; [lia|]. split; [left; cbn; lia|].
    intros q Hq Nq. specialize (Hn q Hq). apply lead_cosine in Hn. apply lead_cosine_lt. cbn [ix iy iz] in *.
    pose proof (straight_lead x a (ix q - a) _ Nx (apart_pos _ _ Nq) ltac:(lia)). lia.
  - assert (Nx : y <> b) by congruence. split; [lia|]. split; [right; left; cbn; lia|].
    intros q Hq Nq. specialize (Hn q Hq). apply lead_cosine in Hn. apply lead_cosine_lt. cbn [ix iy iz] in *.
    pose proof (straight_lead y b (iy q - b) _ Nx (apart_pos _ _ Nq) ltac:(lia)). lia.
  - assert (Nx : z <> e) by congruence. split; [lia|]. split; [right; right; cbn; lia|].
    intros q Hq Nq. specialize (Hn q Hq). apply lead_cosine in Hn. apply lead_cosine_lt. cbn [ix iy iz] in *.
    pose proof (straight_lead z e (iz q - e) _ Nx (apart_pos _ _ Nq) ltac:(lia)). lia.
Qed.

Lemma held_nearest pts o c q : held_by pts o c -> In q pts -> distsq c o <= distsq c q.
Proof. intros H Hq. destruct (idx_eqb_spec q o) as [->|N]; [lia|]. specialize (H q Hq N). lia. Qed.

Lemma straight_exact d pts f c p : size_ok d -> all_inside d pts -> build_distance_field d pts = Ok f ->
  in_bounds d c = true -> In p pts -> straight c p -> nearest_distsq pts c (distsq c p) ->
  cell_distsq f c = Some (distsq c p).
Proof.
  intros Hs Hp Hf Hc Hi St (_ & Hn). apply (reached_exact d pts f p c Hs Hp Hf).
  apply (reached_back d pts p (fun c => straight c p /\ forall q, In q pts -> distsq c p <= distsq c q)); auto.
  clear c Hc St Hn. intros c (St & Hn) Hc Ne. destruct (straight_step pts c p Hi St Ne Hn) as (k & A & B & C).
  exists k. split; [exact A|]. split; [|exact C]. split; [exact B|]. intros q Hq. eapply held_nearest; eauto.
Qed.

(** ** Two obstacles *)

Lemma pair_step p q c : c <> p -> distsq c p <= distsq c q ->
  exists k, along k p c <> 0 /\ (p = q \/ distsq (back k p c) p < distsq (back k p c) q).
Proof.
  intros Ne Hn. destruct (idx_eqb_spec p q) as [E|Npq].
  - destruct p as [a b e], c as [x y z]. cbn [along ix iy iz].
    destruct (Z.eq_dec x a); [destruct (Z.eq_dec y b)|]; [exists 2%nat|exists 1%nat|exists 0%nat]; (split; [|auto]); cbn; try lia.
    intros Z0. apply Ne. f_equal; lia.
  - assert (Hpos : 0 < distsq q p) by (apply apart_pos; congruence).
    apply lead_cosine in Hn. setoid_rewrite lead_cosine_lt.
    destruct p as [a b e], c as [x y z], q as [q1 q2 q3]. cbn [along ix iy iz] in *.
    set (w1 := q1 - a) in *. set (w2 := q2 - b) in *. set (w3 := q3 - e) in *.
    set (n := distsq _ _) in *. clearbody n.
    assert (Ex : exists k : nat, (match k with 0%nat => x - a | 1%nat => y - b | _ => z - e end) <> 0 /\
        2 * (w1 * (ix (back k (I a b e) (I x y z)) - a) + w2 * (iy (back k (I a b e) (I x y z)) - b) + w3 * (iz (back k (I a b e) (I x y z)) - e)) < n).
    2: { destruct Ex as (k & A & B). exists k. split; [exact A|right; exact B]. }
    destruct (Z.ltb_spec 0 (w1 * (x - a))) as [P1|P1].
    { exists 0%nat. cbn [back ix iy iz]. split; [nia|].
      destruct (toward_cases (x - a)) as [(S & ->)|[(S & ->)|(S & ->)]]; nia. }
    destruct (Z.ltb_spec 0 (w2 * (y - b))) as [P2|P2].
    { exists 1%nat. cbn [back ix iy iz]. split; [nia|].
      destruct (toward_cases (y - b)) as [(S & ->)|[(S & ->)|(S & ->)]]; nia. }
    destruct (Z.ltb_spec 0 (w3 * (z - e))) as [P3|P3].
    { exists 2%nat. cbn [back ix iy iz]. split; [nia|].
      destruct (toward_cases (z - e)) as [(S & ->)|[(S & ->)|(S & ->)]]; nia. }
    assert (Q : forall w v, w * v <= 0 -> w * (v - toward v) <= 0).
    { intros w v Hv. destruct (toward_cases v) as [(S & ->)|[(S & ->)|(S & ->)]]; nia. }
    destruct (Z.eq_dec x a) as [Ea|Na].
    2: { exists 0%nat. cbn [back ix iy iz]. split; [lia|]. specialize (Q w1 (x - a) P1).
         replace (x - toward (x - a) - a) with (x - a - toward (x - a)) by ring. lia. }
    destruct (Z.eq_dec y b) as [Eb|Nb].
    2: { exists 1%nat. cbn [back ix iy iz]. split; [lia|]. specialize (Q w2 (y - b) P2).
         replace (y - toward (y - b) - b) with (y - b - toward (y - b)) by ring. lia. }
    exists 2%nat. cbn [back ix iy iz]. split; [intros Z0; apply Ne; f_equal; lia|]. specialize (Q w3 (z - e) P3).
    replace (z - toward (z - e) - e) with (z - e - toward (z - e)) by ring. lia.
Qed.

Lemma pair_exact d pts f c p q : size_ok d -> all_inside d pts -> build_distance_field d pts = Ok f ->
  in_bounds d c = true -> In p pts -> (forall r, In r pts -> r = p \/ r = q) -> distsq c p <= distsq c q ->
  cell_distsq f c = Some (distsq c p).
Proof.
  intros Hs Hp Hf Hc Hi Two Hn. apply (reached_exact d pts f p c Hs Hp Hf).
  apply (reached_back d pts p (fun c => distsq c p <= distsq c q)); auto.
  - clear c Hc Hn. intros c Hn Hc Ne. destruct (pair_step p q c Ne Hn) as (k & A & B). exists k. split; [exact A|].
    split; [destruct B as [->|B]; lia|]. intros r Hr Nr. destruct (Two r Hr) as [->| ->]; [congruence|].
    destruct B as [->|B]; [congruence|exact B].
  - intros r Hr. destruct (Two r Hr) as [->| ->]; lia.
Qed.

Lemma two_exact d pts f c p q : size_ok d -> build_distance_field d pts = Ok f ->
  in_bounds d p = true -> in_bounds d q = true -> (forall r, In r pts <-> r = p \/ r = q) -> in_bounds d c = true ->
  cell_distsq f c = Some (Z.min (distsq c p) (distsq c q)).
Proof.
  intros Hs Hf Ip Iq Two Hc.
  assert (Hp : all_inside d pts) by (intros r Hr; apply Two in Hr as [->| ->]; auto).
  destruct (Z.leb_spec (distsq c p) (distsq c q)) as [L|L].
  - rewrite Z.min_l by lia. apply (pair_exact d pts f c p q); auto; [apply Two; auto|apply Two].
  - rewrite Z.min_r by lia. apply (pair_exact d pts f c q p); auto; [apply Two; auto| |lia].
    intros r Hr. apply Two in Hr. tauto.
Qed.

(** ** Boxes *)

Definition clampz (l h x : Z) : Z := Z.max l (Z.min x h).
Definition clamp_box (lo hi c : idx) : idx :=
  I (clampz (ix lo) (ix hi) (ix c)) (clampz (iy lo) (iy hi) (iy c)) (clampz (iz lo) (iz hi) (iz c)).

Lemma clampz_best l h x y : l <= h -> l <= y <= h ->
  (x - clampz l h x) * (x - clampz l h x) <= (x - y) * (x - y) /\
  (y <> clampz l h x -> (x - clampz l h x) * (x - clampz l h x) < (x - y) * (x - y)).
Proof.
  intros L Y. assert (C : (x < l /\ clampz l h x = l) \/ (h < x /\ clampz l h x = h) \/ clampz l h x = x) by (unfold clampz; lia).
  destruct C as [(A & ->)|[(A & ->)| ->]]; try (split; nia).
  pose proof (Z.square_nonneg (x - y)). split; [lia|]. intros N. assert (x < y \/ y < x) as [S|S] by lia; nia.
Qed.

Lemma clampz_back l h x : l <= h -> clampz l h (x - toward (x - clampz l h x)) = clampz l h x.
Proof. unfold clampz. intros L. destruct (toward_cases (x - Z.max l (Z.min x h))) as [(S & ->)|[(S & ->)|(S & ->)]]; lia. Qed.

Lemma clamp_best lo hi c q : in_box lo hi q -> q <> clamp_box lo hi c -> distsq c (clamp_box lo hi c) < distsq c q.
Proof.
  intros (X & Y & Z0) Nq. destruct q as [q1 q2 q3]. unfold distsq, clamp_box in *. cbn [ix iy iz] in *.
  destruct (clampz_best (ix lo) (ix hi) (ix c) q1 ltac:(lia) X) as (A1 & B1).
  destruct (clampz_best (iy lo) (iy hi) (iy c) q2 ltac:(lia) Y) as (A2 & B2).
  destruct (clampz_best (iz lo) (iz hi) (iz c) q3 ltac:(lia) Z0) as (A3 & B3).
  destruct (Z.eq_dec q1 (clampz (ix lo) (ix hi) (ix c))) as [E1|E1]; [|specialize (B1 E1); lia].
  destruct (Z.eq_dec q2 (clampz (iy lo) (iy hi) (iy c))) as [E2|E2]; [|specialize (B2 E2); lia].
  destruct (Z.eq_dec q3 (clampz (iz lo) (iz hi) (iz c))) as [E3|E3]; [|specialize (B3 E3); lia].
  exfalso. apply Nq. congruence.
Qed.

Lemma clamp_in_box lo hi c q : in_box lo hi q -> in_box lo hi (clamp_box lo hi c).
Proof. unfold in_box, clamp_box, clampz. cbn [ix iy iz]. lia. Qed.

Lemma clamp_back lo hi c k q : in_box lo hi q ->
  clamp_box lo hi (back k (clamp_box lo hi c) c) = clamp_box lo hi c.
Proof.
  intros (X & Y & Z0). destruct k as [|[|k]]; unfold clamp_box; cbn [back ix iy iz]; f_equal; apply clampz_back; lia.
Qed.

Lemma box_exact d pts f c lo hi : size_ok d -> all_inside d pts -> build_distance_field d pts = Ok f ->
  (forall q, In q pts <-> in_box lo hi q) -> pts <> [] -> in_bounds d c = true ->
  cell_distsq f c = Some (distsq c (clamp_box lo hi c)) /\ nearest_distsq pts c (distsq c (clamp_box lo hi c)).
Proof.
  intros Hs Hp Hf Box Hne Hc. destruct pts as [|q0 pts']; [congruence|]. set (pts := q0 :: pts') in *.
  assert (Hq0 : in_box lo hi q0) by (apply Box; left; auto).
  assert (Hi : In (clamp_box lo hi c) pts) by (apply Box; eapply clamp_in_box; eauto).
  assert (Hold : forall b q, In q pts -> q <> clamp_box lo hi b -> distsq b (clamp_box lo hi b) < distsq b q).
  { intros b q Hq. apply clamp_best. apply Box; auto. }
  apply (reached_exact d pts f _ c Hs Hp Hf).
  apply (reached_back d pts _ (fun b => clamp_box lo hi b = clamp_box lo hi c)); auto.
  - intros b Kb Ib Ne. set (o := clamp_box lo hi c) in *.
    assert (Ex : exists k, along k o b <> 0).
    { destruct o as [a1 a2 a3], b as [x y z]. destruct (Z.eq_dec x a1); [destruct (Z.eq_dec y a2)|]; [exists 2%nat|exists 1%nat|exists 0%nat]; cbn; try lia.
      intros Z0. apply Ne. f_equal; lia. }
    destruct Ex as (k & Ak). exists k. split; [exact Ak|].
    assert (Kk : clamp_box lo hi (back k o b) = o) by (rewrite <- Kb at 1; rewrite (clamp_back lo hi b k q0 Hq0); exact Kb).
    split; [exact Kk|]. intros q Hq Nq. rewrite <- Kk. rewrite Kk. rewrite <- Kk in Nq. specialize (Hold _ q Hq Nq). rewrite Kk in Hold. exact Hold.
  - intros q Hq. destruct (idx_eqb_spec q (clamp_box lo hi c)) as [->|N]; [lia|]. specialize (Hold c q Hq N). lia.
Qed.

Lemma in_box_dec lo hi c : in_box lo hi c \/ ~ in_box lo hi c.
Proof. unfold in_box. lia. Qed.

(** The cells outside a box: the nearest one is straight ahead. *)
Lemma leave_straight d lo hi c q : in_bounds d c = true -> in_bounds d q = true -> in_box lo hi c -> ~ in_box lo hi q ->
  exists p, in_bounds d p = true /\ ~ in_box lo hi p /\ straight c p /\ distsq c p <= distsq c q.
Proof.
  rewrite !in_bounds_spec. intros Bc Bq (X & Y & Z0) Nq. destruct c as [x y z], q as [q1 q2 q3], lo as [l1 l2 l3], hi as [h1 h2 h3].
  unfold in_box, straight, distsq in *. cbn [ix iy iz] in *.
  pose proof (Z.square_nonneg (x - q1)). pose proof (Z.square_nonneg (y - q2)). pose proof (Z.square_nonneg (z - q3)).
  destruct (Z.ltb_spec h1 q1). { exists (I (h1 + 1) y z). rewrite in_bounds_spec. cbn [ix iy iz]. repeat split; try lia; nia. }
  destruct (Z.ltb_spec q1 l1). { exists (I (l1 - 1) y z). rewrite in_bounds_spec. cbn [ix iy iz]. repeat split; try lia; nia. }
  destruct (Z.ltb_spec h2 q2). { exists (I x (h2 + 1) z). rewrite in_bounds_spec. cbn [ix iy iz]. repeat split; try lia; nia. }
  destruct (Z.ltb_spec q2 l2). { exists (I x (l2 - 1) z). rewrite in_bounds_spec. cbn [ix iy iz]. repeat split; try lia; nia. }
  destruct (Z.ltb_spec h3 q3). { exists (I x y (h3 + 1)). rewrite in_bounds_spec. cbn [ix iy iz]. repeat split; try lia; nia. }
  destruct (Z.ltb_spec q3 l3). { exists (I x y (l3 - 1)). rewrite in_bounds_spec. cbn [ix iy iz]. repeat split; try lia; nia. }
  exfalso. apply Nq. lia.
Qed.

(** Wherever one of the nearest obstacles is straight ahead the distance is exact. *)
Lemma straight_nearest d pts f c m : size_ok d -> all_inside d pts -> build_distance_field d pts = Ok f ->
  in_bounds d c = true -> nearest_distsq pts c m -> (exists p, In p pts /\ straight c p /\ distsq c p = m) ->
  cell_distsq f c = Some m.
Proof.
  intros Hs Hp Hf Hc Hn (p & Hi & St & <-). apply (straight_exact d pts f c p); auto.
Qed.

Lemma outside_box_exact d pts f c lo hi m : size_ok d -> all_inside d pts -> build_distance_field d pts = Ok f ->
  (forall q, In q pts <-> in_bounds d q = true /\ ~ in_box lo hi q) -> in_bounds d c = true ->
  nearest_distsq pts c m -> cell_distsq f c = Some m.
Proof.
  intros Hs Hp Hf Out Hc Hn. apply (straight_nearest d pts f c m); auto.
  destruct Hn as ((q & Hq & Dq) & Hn). pose proof (proj1 (Out q) Hq) as (Iq & Nq).
  destruct (in_box_dec lo hi c) as [Bc|Bc].
  - destruct (leave_straight d lo hi c q Hc Iq Bc Nq) as (p & Ip & Np & St & L).
    assert (Hpp : In p pts) by (apply Out; auto). specialize (Hn p Hpp). exists p. repeat split; auto. lia.
  - assert (Hcc : In c pts) by (apply Out; auto). specialize (Hn c Hcc). exists c. split; [auto|]. split; [left; auto|].
    assert (E0 : distsq c c = 0) by (unfold distsq; lia).
    pose proof (distsq_nonneg c q). lia.
Qed.

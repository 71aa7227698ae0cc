(** The size bound of the distance field cannot be dropped: a row of 46342 cells or
    more, with one obstacle at its start, makes the int32 arithmetic overflow. *)
From Verif Require Import Base BaseFacts Grid GridFacts DistModel DistSpec DistProofs.

Lemma zrange_upto a m : 0 <= a < m -> exists rest, zrange m = zrange a ++ a :: rest.
Proof.
  intros H. unfold zrange.
  replace (Z.to_nat m) with (Z.to_nat a + S (Z.to_nat m - Z.to_nat a - 1))%nat by lia.
  rewrite seq_app, map_app. cbn [seq map]. rewrite Nat.add_0_l, Z2Nat.id by lia. eauto.
Qed.

Section Row.
  Variable n : Z.
  Hypothesis Hn : 46342 <= n <= 2147483647.

  Let d := D n 1 1.
  Let M := n * n + 1 + 1.

  (** What the row holds: cell [x] is at squared distance [x * x]. *)
  Definition row_entry (x : Z) : entry :=
    E (x * x) (if x =? 0 then 13 else 22) (I x 0 0) (I 0 0 0).

  Definition row_state (j : Z) (s : dstate) : Prop :=
    wf_grid (ds_field s) /\ gdims (ds_field s) = d /\
    List.length (ds_buckets s) = Z.to_nat (M + 1) /\
    (forall x, 0 <= x < n -> gget (ds_field s) (I x 0 0) = if x <=? j then Some (row_entry x) else None) /\
    (forall k, 0 <= k -> nth (Z.to_nat k) (ds_buckets s) [] = if k =? j * j then [row_entry j] else []).

  Lemma in_row x : in_bounds d (I x 0 0) = (0 <=? x) && (x <? n).
  Proof. unfold in_bounds, d; cbn. rewrite !andb_true_r. reflexivity. Qed.

  Lemma offer_outside bq j s a b c : gdims (ds_field s) = d -> 0 <= j < n -> -1 <= a <= 1 -> -1 <= b <= 1 -> -1 <= c <= 1 ->
    (b <> 0 \/ c <> 0 \/ j + a < 0) -> offer M bq (row_entry j) s (a, b, c) = Ok s.
  Proof.
    intros Ed Hj Ha Hb Hc Ho. unfold offer, row_entry; cbn [e_loc ix iy iz].
    destruct (Z.eq_dec (j + a) 2147483648) as [E1|E1]; [lia|].
    rewrite !i32_ok by lia. cbn [bind]. rewrite Ed.
    replace (in_bounds d (I (j + a) (0 + b) (0 + c))) with false; [reflexivity|].
    symmetry. destruct (in_bounds d _) eqn:E; auto. apply in_bounds_spec in E. unfold d in E; cbn in E. lia.
  Qed.

  Lemma row_square j : 0 <= j -> j + 1 < n -> (j + 1) * (j + 1) <= M.
  Proof. intros. unfold M. nia. Qed.

  Lemma offer_next j s : row_state j s -> 0 <= j <= 46339 ->
    exists s', offer M (j * j) (row_entry j) s (1, 0, 0) = Ok s' /\
      wf_grid (ds_field s') /\ gdims (ds_field s') = d /\ List.length (ds_buckets s') = Z.to_nat (M + 1) /\
      (forall x, 0 <= x < n -> gget (ds_field s') (I x 0 0) = if x <=? j + 1 then Some (row_entry x) else None) /\
      (forall k, 0 <= k -> nth (Z.to_nat k) (ds_buckets s') [] =
         if k =? j * j then [row_entry j] else if k =? (j + 1) * (j + 1) then [row_entry (j + 1)] else []).
  Proof.
    intros (W & Ed & L & C & B) Hj. unfold offer. unfold row_entry at 1 2 3; cbn [e_loc e_cp ix iy iz].
    rewrite !i32_ok by lia. cbn [bind]. rewrite Ed.
    change (0 + 0) with 0. rewrite in_row. replace ((0 <=? j + 1) && (j + 1 <? n)) with true by lia. cbn [negb].
    assert (Hsq : 0 <= (j + 1) * (j + 1) <= 2147483647) by nia.
    assert (Ec : compute_distance_squared (I (j + 1) 0 0) (e_cp (row_entry j)) = Ok ((j + 1) * (j + 1))).
    { unfold compute_distance_squared, row_entry; cbn [e_cp ix iy iz].
      change (wrap_s32 0) with 0. rewrite !Z.sub_0_r. rewrite !i32_ok by lia. cbn [bind].
      rewrite !i32_ok by lia. cbn [bind]. change (0 * 0) with 0. rewrite !Z.add_0_r.
      rewrite !i32_ok by lia. cbn [bind]. rewrite !i32_ok by lia. cbn [bind]. rewrite ?Z.add_0_r, ?i32_ok by lia. reflexivity. }
    change (e_cp (row_entry j)) with (I 0 0 0) in *. rewrite Ec. cbn [bind].
    pose proof (row_square j ltac:(lia) ltac:(lia)) as HM.
    replace (M <? (j + 1) * (j + 1)) with false by lia.
    rewrite (C (j + 1)) by lia. replace (j + 1 <=? j) with false by lia. cbn [improves].
    replace ((j + 1) * (j + 1) =? j * j) with false by nia.
    unfold push_bucket. rewrite L.
    replace ((0 <=? (j + 1) * (j + 1)) && ((j + 1) * (j + 1) <? Z.of_nat (Z.to_nat (M + 1)))) with true by lia.
    cbn [bind]. unfold u32_idx; cbn [ix iy iz]. change (wrap_u32 0) with 0. rewrite wrap_u32_id by lia.
    replace (E ((j + 1) * (j + 1)) (direction_number (1, 0, 0)) (I (j + 1) 0 0) (I 0 0 0)) with (row_entry (j + 1)).
    2:{ unfold row_entry. replace (j + 1 =? 0) with false by lia. reflexivity. }
    eexists. split; [reflexivity|]. cbn [ds_field ds_buckets].
    split; [apply gset_wf; auto|]. split; [rewrite gset_dims; auto|]. split; [rewrite upd_length; auto|]. split.
    - intros x Hx. rewrite gget_gset; auto; [|rewrite Ed, in_row; lia].
      destruct (idx_eqb_spec (I (j + 1) 0 0) (I x 0 0)) as [E|E].
      + injection E as <-. replace (j + 1 <=? j + 1) with true by lia. reflexivity.
      + rewrite C by auto. assert (x <> j + 1) by congruence.
        destruct (Z.leb_spec x j), (Z.leb_spec x (j + 1)); auto; lia.
    - intros k Hk. destruct (Z.eq_dec k ((j + 1) * (j + 1))) as [->|Hne].
      + rewrite upd_nth_same by (rewrite L; lia). rewrite B by lia.
        replace ((j + 1) * (j + 1) =? j * j) with false by nia. rewrite Z.eqb_refl. reflexivity.
      + rewrite upd_nth_other by lia. rewrite B by lia. replace (k =? (j + 1) * (j + 1)) with false by lia. reflexivity.
  Qed.

  Lemma offer_overflow bq s : gdims (ds_field s) = d ->
    offer M bq (row_entry 46340) s (1, 0, 0) = UB "signed overflow".
  Proof.
    intros Ed. unfold offer, row_entry; cbn [e_loc e_cp ix iy iz].
    rewrite !i32_ok by lia. cbn [bind]. rewrite Ed.
    change (0 + 0) with 0. change (46340 + 1) with 46341. rewrite in_row.
    replace ((0 <=? 46341) && (46341 <? n)) with true by lia. reflexivity.
  Qed.

  (** The neighbours offered from a cell of the row, other than the next one. *)
  Lemma row_neighborhood j : 0 <= j -> exists l1 l2,
    neighborhood (Z.min (j * j) 1) (e_dir (row_entry j)) = l1 ++ (1, 0, 0) :: l2 /\
    forall a b c, In (a, b, c) (l1 ++ l2) -> -1 <= a <= 1 /\ -1 <= b <= 1 /\ -1 <= c <= 1 /\ (b <> 0 \/ c <> 0 \/ j + a < 0).
  Proof.
    intros Hj. destruct (Z.eq_dec j 0) as [->|H0].
    - set (l := neighborhood (Z.min (0 * 0) 1) (e_dir (row_entry 0))). vm_compute in l.
      exists (firstn 21 l), (skipn 22 l). unfold l; cbn [firstn skipn app]. split; [reflexivity|].
      intros a b c H. cbn [In] in H. repeat (destruct H as [H|H]; [injection H as <- <- <-; lia|]). destruct H.
    - replace (Z.min (j * j) 1) with 1 by nia. unfold row_entry; cbn [e_dir]. replace (j =? 0) with false by lia.
      set (l := neighborhood 1 22). vm_compute in l. exists (firstn 4 l), (skipn 5 l). unfold l; cbn [firstn skipn app].
      split; [reflexivity|].
      intros a b c H. cbn [In] in H. repeat (destruct H as [H|H]; [injection H as <- <- <-; lia|]). destruct H.
  Qed.

  Lemma offers_outside bq j l s : gdims (ds_field s) = d -> 0 <= j < n ->
    (forall a b c, In (a, b, c) l -> -1 <= a <= 1 /\ -1 <= b <= 1 /\ -1 <= c <= 1 /\ (b <> 0 \/ c <> 0 \/ j + a < 0)) ->
    foldM (offer M bq (row_entry j)) l s = Ok s.
  Proof.
    intros Ed Hj Hl. induction l as [|[[a b] c] l IH]; [reflexivity|]. cbn [foldM].
    destruct (Hl a b c (or_introl eq_refl)) as (H1 & H2 & H3 & H4).
    rewrite offer_outside by auto. cbn [bind]. apply IH. intros a' b' c' H. apply Hl. right; auto.
  Qed.

  Lemma row_dir j : (e_dir (row_entry j) <? 0) || (26 <? e_dir (row_entry j)) = false.
  Proof. unfold row_entry; cbn [e_dir]. destruct (j =? 0); reflexivity. Qed.

  Lemma row_bucket j s : row_state j s -> 0 <= j <= 46339 ->
    exists s', process_bucket M s (j * j) = Ok s' /\ row_state (j + 1) s'.
  Proof.
    intros HS Hj. pose proof HS as (W & Ed & L & C & B). unfold process_bucket. rewrite B by nia. rewrite Z.eqb_refl.
    cbn [foldM]. unfold process_entry. rewrite row_dir.
    destruct (row_neighborhood j ltac:(lia)) as (l1 & l2 & -> & Hl).
    rewrite foldM_app. rewrite offers_outside; auto; [|lia|intros a b c H; apply Hl; apply in_app_iff; auto].
    cbn [bind foldM]. destruct (offer_next j s HS Hj) as (s' & -> & W' & Ed' & L' & C' & B'). cbn [bind].
    rewrite offers_outside; auto; [|lia|intros a b c H; apply Hl; apply in_app_iff; auto]. cbn [bind].
    eexists. split; [reflexivity|].
    split; [exact W'|]. split; [exact Ed'|]. cbn [ds_field ds_buckets].
    split; [rewrite upd_length; auto|]. split; [exact C'|].
    intros k Hk. destruct (Z.eq_dec k (j * j)) as [->|Hne].
    - destruct (Nat.lt_ge_cases (Z.to_nat (j * j)) (List.length (ds_buckets s'))).
      + rewrite upd_nth_same by auto. replace (j * j =? (j + 1) * (j + 1)) with false by nia. reflexivity.
      + rewrite nth_overflow by (rewrite upd_length; auto). replace (j * j =? (j + 1) * (j + 1)) with false by nia. reflexivity.
    - rewrite upd_nth_other by nia. rewrite B' by auto. replace (k =? j * j) with false by lia. reflexivity.
  Qed.

  Lemma row_gap k j s : row_state j s -> 0 <= k -> k <> j * j -> exists s', process_bucket M s k = Ok s' /\ row_state j s'.
  Proof.
    intros (W & Ed & L & C & B) Hk Hne. unfold process_bucket. rewrite B by auto.
    replace (k =? j * j) with false by lia. cbn [foldM bind]. eexists. split; [reflexivity|].
    split; [exact W|]. split; [exact Ed|]. cbn [ds_field ds_buckets]. split; [rewrite upd_length; auto|]. split; [exact C|].
    intros i Hi. destruct (Z.eq_dec i k) as [->|Hik].
    - replace (k =? j * j) with false by lia.
      destruct (Nat.lt_ge_cases (Z.to_nat k) (List.length (ds_buckets s))).
      + apply upd_nth_same; auto.
      + apply nth_overflow. rewrite upd_length; auto.
    - rewrite upd_nth_other by lia. apply B; auto.
  Qed.

  Lemma row_last s : row_state 46340 s -> process_bucket M s (46340 * 46340) = UB "signed overflow".
  Proof.
    intros (W & Ed & L & C & B). unfold process_bucket. rewrite B by lia. rewrite Z.eqb_refl.
    cbn [foldM]. unfold process_entry. rewrite row_dir.
    destruct (row_neighborhood 46340 ltac:(lia)) as (l1 & l2 & -> & Hl).
    rewrite foldM_app. rewrite offers_outside; auto; [|lia|intros a b c H; apply Hl; apply in_app_iff; auto].
    cbn [bind foldM]. rewrite offer_overflow by auto. reflexivity.
  Qed.

  Lemma row_maxd : max_distance_square d = Ok M.
  Proof.
    unfold max_distance_square, i64, d; cbn [nx ny nz].
    assert (0 <= n * n <= 2147483647 * 2147483647) by nia. unfold M.
    change (1 * 1) with 1. cbn [bind].
    replace ((-9223372036854775808 <=? n * n) && (n * n <=? 9223372036854775807)) with true by lia. cbn [bind].
    change ((-9223372036854775808 <=? 1) && (1 <=? 9223372036854775807)) with true. cbn [bind].
    replace ((-9223372036854775808 <=? n * n + 1) && (n * n + 1 <=? 9223372036854775807)) with true by lia. cbn [bind].
    replace ((-9223372036854775808 <=? n * n + 1 + 1) && (n * n + 1 + 1 <=? 9223372036854775807)) with true by lia.
    reflexivity.
  Qed.

  Lemma row_seeded : exists s, foldM seed_point [I 0 0 0] (DS (mk_grid d None None) (repeat [] (Z.to_nat (M + 1)))) = Ok s /\ row_state 0 s.
  Proof.
    cbn [foldM]. unfold seed_point. cbn [ds_field ds_buckets].
    change (gdims (mk_grid d None None)) with d. rewrite in_row. replace ((0 <=? 0) && (0 <? n)) with true by lia.
    unfold push_bucket. rewrite repeat_length. assert (0 <= M) by (unfold M; nia).
    replace ((0 <=? 0) && (0 <? Z.of_nat (Z.to_nat (M + 1)))) with true by lia. cbn [bind].
    change (E 0 (direction_number (0, 0, 0)) (u32_idx (I 0 0 0)) (u32_idx (I 0 0 0))) with (row_entry 0).
    eexists. split; [reflexivity|]. cbn [ds_field ds_buckets].
    assert (W : wf_grid (mk_grid d (@None entry) None)) by (apply mk_grid_wf; cbn; lia).
    assert (R : forall k, nth (Z.to_nat k) (repeat (@nil entry) (Z.to_nat (M + 1))) [] = []).
    { intros k. destruct (Nat.lt_ge_cases (Z.to_nat k) (Z.to_nat (M + 1))).
      - apply nth_repeat_lt; auto.
      - apply nth_overflow. rewrite repeat_length; auto. }
    split; [apply gset_wf; auto|]. split; [cbn [ds_field]; rewrite gset_dims; auto|].
    cbn [ds_field ds_buckets]. split; [rewrite upd_length, repeat_length; auto|]. split.
    - intros x Hx. rewrite gget_gset; auto; [|change (gdims (mk_grid d (@None entry) None)) with d; rewrite in_row; lia].
      destruct (idx_eqb_spec (I 0 0 0) (I x 0 0)) as [E|E].
      + injection E as <-. reflexivity.
      + assert (x <> 0) by congruence. rewrite gget_mk_grid by (rewrite in_row; lia). replace (x <=? 0) with false by lia. reflexivity.
    - intros k Hk. destruct (Z.eq_dec k 0) as [->|Hne].
      + rewrite upd_nth_same by (rewrite repeat_length; lia). rewrite R. reflexivity.
      + rewrite upd_nth_other by lia. rewrite R. change (0 * 0) with 0. replace (k =? 0) with false by lia. reflexivity.
  Qed.

  Lemma long_row : build_distance_field d [I 0 0 0] = UB "signed overflow".
  Proof.
    unfold build_distance_field. rewrite row_maxd. cbn [bind].
    destruct row_seeded as (s1 & -> & H1). cbn [bind].
    destruct (zrange_upto (46340 * 46340) (M + 1)) as (rest & ->); [unfold M; nia|].
    rewrite foldM_app.
    destruct (zloop_inv (process_bucket M)
      (fun k s => exists j, row_state j s /\ 0 <= j <= 46340 /\ k <= j * j /\ (0 < j -> (j - 1) * (j - 1) < k))
      (46340 * 46340) s1) as (s2 & -> & j & H2 & Hj & Hk & Hl).
    - lia.
    - exists 0. split; [exact H1|]. lia.
    - intros k s Hk (j & HS & Hj & H & Hl).
      destruct (Z.eq_dec k (j * j)) as [->|Hne].
      + assert (j <= 46339) by nia. destruct (row_bucket j s HS ltac:(lia)) as (s' & -> & HS').
        exists s'. split; [reflexivity|]. exists (j + 1). split; [exact HS'|].
        split; [lia|]. split; [nia|]. intros _. replace (j + 1 - 1) with j by lia. lia.
      + destruct (row_gap k j s HS ltac:(lia) Hne) as (s' & -> & HS').
        exists s'. split; [reflexivity|]. exists j. split; [exact HS'|]. split; [lia|]. split; [lia|]. intros; specialize (Hl H0); lia.
    - assert (j = 46340) by nia. subst j. cbn [bind foldM]. rewrite row_last by auto. reflexivity.
  Qed.
End Row.

(** The bound on the grid in C08 is nearly sharp: 46340 cells in a row satisfy it. *)
Lemma long_row_sharp : size_ok (D 46340 1 1) /\ forall n, 46342 <= n <= 2147483647 ->
  all_inside (D n 1 1) [I 0 0 0] /\ build_distance_field (D n 1 1) [I 0 0 0] = UB "signed overflow".
Proof.
  split; [unfold size_ok; cbn; lia|]. intros n Hn. split; [|apply long_row; auto].
  intros p [<-|[]]. unfold in_bounds; cbn. lia.
Qed.

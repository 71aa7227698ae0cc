(** Proofs about serialization. *)
From Coq Require Import Ascii.
From Verif Require Import Base BaseFacts Floats Grid CollisionMap TaggedMap Serial SerialSpec.

(** ** Words *)
Lemma le_bytes_length k v : length (le_bytes k v) = k.
Proof. revert v. induction k; cbn; intros; [reflexivity|rewrite IHk; reflexivity]. Qed.

Lemma le_value_bytes k v : 0 <= v < 256 ^ Z.of_nat k -> le_value (le_bytes k v) = v.
Proof.
  revert v. induction k as [|k IH]; intros v H.
  - change (256 ^ Z.of_nat 0) with 1 in H. cbn. lia.
  - cbn [le_bytes le_value]. rewrite IH.
    + pose proof (Z_div_mod_eq_full v 256). lia.
    + rewrite Nat2Z.inj_succ, Z.pow_succ_r in H by lia. split.
      * apply Z.div_pos; lia.
      * apply Z.div_lt_upper_bound; lia.
Qed.

(** ** Parser combinators *)
Lemma gives_back_pret {A} (v : A) : gives_back (pret v) v nil.
Proof. intros pre post. cbn. rewrite Nat.add_0_r. reflexivity. Qed.

Lemma gives_back_bind {A B} (p : parser A) (k : A -> parser B) v w b1 b2 :
  gives_back p v b1 -> gives_back (k v) w b2 -> gives_back (pbind p k) w (b1 ++ b2).
Proof.
  intros H1 H2 pre post. unfold pbind.
  rewrite <- app_assoc, (H1 pre (b2 ++ post)). cbn [bind fst snd].
  specialize (H2 (pre ++ b1) post). rewrite <- !app_assoc, app_length in H2.
  rewrite H2, app_length, Nat.add_assoc. reflexivity.
Qed.

Lemma gives_back_map {A B} (f : A -> B) (p : parser A) v w b :
  gives_back p v b -> f v = w -> gives_back (pmap f p) w b.
Proof.
  intros H E. unfold pmap. rewrite <- (app_nil_r b). eapply gives_back_bind; [exact H|].
  rewrite <- E. apply gives_back_pret.
Qed.

Lemma gives_back_word k v : 0 <= v < 256 ^ Z.of_nat k -> gives_back (get_word k) v (le_bytes k v).
Proof.
  intros H pre post. unfold get_word.
  rewrite !app_length, le_bytes_length.
  replace (length pre + k <=? length pre + (k + length post))%nat with true
    by (symmetry; apply Nat.leb_le; lia).
  rewrite skipn_app, skipn_all, Nat.sub_diag. cbn [skipn app].
  rewrite firstn_app, le_bytes_length, Nat.sub_diag. cbn [firstn].
  rewrite app_nil_r, firstn_all2 by (rewrite le_bytes_length; lia).
  rewrite le_value_bytes by exact H. reflexivity.
Qed.

Lemma passes_pret {A} (v : A) : reads_what_it_passes (pret v).
Proof. intros buf pos w pos' Hp H. inversion H; subst. split; [lia|]. reflexivity. Qed.

Lemma passes_bind {A B} (p : parser A) (k : A -> parser B) :
  reads_what_it_passes p -> (forall v, reads_what_it_passes (k v)) ->
  reads_what_it_passes (pbind p k).
Proof.
  intros H1 H2 buf pos w pos' Hp H. unfold pbind in *.
  destruct (p buf pos) as [[v q]|?|?] eqn:E; [|discriminate H|discriminate H].
  cbn [bind fst snd] in H.
  destruct (H1 _ _ _ _ Hp E) as [Hq Hm].
  destruct (H2 v buf q w pos' (proj2 Hq) H) as [Hr Hn].
  split; [lia|]. intros more. rewrite Hm. cbn [bind fst snd]. apply Hn.
Qed.

Lemma passes_map {A B} (f : A -> B) (p : parser A) :
  reads_what_it_passes p -> reads_what_it_passes (pmap f p).
Proof. intros H. apply passes_bind; [exact H|]. intros v. apply passes_pret. Qed.

Lemma passes_word k : reads_what_it_passes (get_word k).
Proof.
  intros buf pos v pos' Hp H. unfold get_word in *.
  destruct (pos + k <=? length buf)%nat eqn:E; [|discriminate H].
  apply Nat.leb_le in E. inversion H; subst; clear H. split; [lia|]. intros more.
  rewrite app_length.
  replace (pos + k <=? length buf + length more)%nat with true
    by (symmetry; apply Nat.leb_le; lia).
  rewrite skipn_app, firstn_app, skipn_length.
  replace (k - (length buf - pos))%nat with 0%nat by lia. cbn [firstn].
  rewrite app_nil_r. reflexivity.
Qed.

(** ** The primitive values *)
Lemma gb_bool b : gives_back get_bool b (put_bool b).
Proof.
  unfold get_bool, put_bool. eapply gives_back_map; [apply gives_back_word|].
  - destruct b; cbn; lia.
  - destruct b; reflexivity.
Qed.
Lemma gb_u32 v : is_u32 v -> gives_back get_u32 v (put_u32 v).
Proof. intros H. apply gives_back_word. exact H. Qed.
Lemma gb_u64 v : 0 <= v < 2 ^ 64 -> gives_back get_u64 v (put_u64 v).
Proof. intros H. apply gives_back_word. exact H. Qed.
Lemma gb_i64 v : is_i64 v -> gives_back get_i64 v (put_i64 v).
Proof.
  intros H. unfold get_i64, put_i64. eapply gives_back_map; [apply gives_back_word|].
  - change (256 ^ Z.of_nat 8) with (2 ^ 64). apply Z.mod_pos_bound. lia.
  - unfold signed64, is_i64 in *.
    destruct (Z_lt_dec v 0).
    + assert (E : v mod 2 ^ 64 = v + 2 ^ 64).
      { rewrite <- (Z_mod_plus_full v 1 (2 ^ 64)). rewrite Z.mul_1_l. apply Z.mod_small. lia. }
      rewrite E. destruct (v + 2 ^ 64 <? 2 ^ 63) eqn:F; lia.
    + rewrite Z.mod_small by lia. destruct (v <? 2 ^ 63) eqn:F; lia.
Qed.
Lemma gb_f32 v : gives_back get_f32 v (put_f32 v).
Proof.
  unfold get_f32, put_f32. eapply gives_back_map; [apply gives_back_word|].
  - pose proof (bits_of_binary_float_range 23 8 eq_refl eq_refl v) as H.
    change (2 ^ (23 + 8 + 1)) with (2 ^ 32) in H. exact H.
  - exact (binary_float_of_bits_of_binary_float 23 8 eq_refl eq_refl eq_refl v).
Qed.
Lemma gb_f64 v : gives_back get_f64 v (put_f64 v).
Proof.
  unfold get_f64, put_f64. eapply gives_back_map; [apply gives_back_word|].
  - pose proof (bits_of_binary_float_range 52 11 eq_refl eq_refl v) as H.
    change (2 ^ (52 + 11 + 1)) with (2 ^ 64) in H. exact H.
  - exact (binary_float_of_bits_of_binary_float 52 11 eq_refl eq_refl eq_refl v).
Qed.
Lemma gb_char c : gives_back get_char c (put_char c).
Proof.
  unfold get_char. eapply gives_back_map with (v := Z.of_N (N_of_ascii c)).
  - assert (H : 0 <= Z.of_N (N_of_ascii c) < 256 ^ Z.of_nat 1).
    { pose proof (N_ascii_bounded c). change (256 ^ Z.of_nat 1) with 256. lia. }
    pose proof (gives_back_word 1 _ H) as W. cbn [le_bytes] in W.
    change (256 ^ Z.of_nat 1) with 256 in H. rewrite Z.mod_small in W by exact H. exact W.
  - rewrite N2Z.id. apply ascii_N_embedding.
Qed.
Lemma gb_ccell c : ccell_ok c -> gives_back get_ccell c (put_ccell c).
Proof.
  intros H. unfold get_ccell, put_ccell. destruct c as [o k].
  eapply gives_back_bind; [apply gb_f32|].
  rewrite <- (app_nil_r (put_u32 _)). eapply gives_back_bind; [apply gb_u32, H|].
  apply gives_back_pret.
Qed.
Lemma gb_tcell c : tcell_words_ok c -> gives_back get_tcell c (put_tcell c).
Proof.
  intros (H1 & H2 & H3). unfold get_tcell, put_tcell. destruct c as [o k b s].
  eapply gives_back_bind; [apply gb_f32|].
  eapply gives_back_bind; [apply gb_u32, H1|].
  eapply gives_back_bind; [apply gb_u32, H2|].
  rewrite <- (app_nil_r (put_u32 _)). eapply gives_back_bind; [apply gb_u32, H3|].
  apply gives_back_pret.
Qed.

Lemma gb_items {A} (get : parser A) (put : A -> bytes) (ok : A -> Prop) :
  (forall a, ok a -> gives_back get a (put a)) ->
  forall l, Forall ok l -> gives_back (get_items (length l) get) l (flat_map put l).
Proof.
  intros G l. induction 1 as [|a l Ha _ IH]; cbn [length get_items flat_map].
  - apply gives_back_pret.
  - eapply gives_back_bind; [apply G, Ha|].
    rewrite <- (app_nil_r (flat_map _ _)). eapply gives_back_bind; [exact IH|].
    apply gives_back_pret.
Qed.
Lemma gb_vector {A} (get : parser A) (put : A -> bytes) (ok : A -> Prop) l :
  (forall a, ok a -> gives_back get a (put a)) ->
  Forall ok l -> Z.of_nat (length l) < 2 ^ 64 ->
  gives_back (get_vector get) l (put_vector put l).
Proof.
  intros G F H. unfold get_vector, put_vector.
  eapply gives_back_bind; [apply gb_u64; lia|]. rewrite Nat2Z.id.
  apply gb_items with (ok := ok); assumption.
Qed.
Lemma length_list_ascii s : length (list_ascii_of_string s) = String.length s.
Proof. induction s; cbn; congruence. Qed.
Lemma gb_string s : frame_ok s -> gives_back get_string s (put_string s).
Proof.
  intros H. unfold get_string, put_string. eapply gives_back_map.
  - apply gb_vector with (ok := fun _ => True).
    + intros c _. apply gb_char.
    + apply Forall_forall. intros; exact Logic.I.
    + rewrite length_list_ascii. exact H.
  - apply string_of_list_ascii_of_string.
Qed.

Lemma ps_items {A} n (get : parser A) :
  reads_what_it_passes get -> reads_what_it_passes (get_items n get).
Proof.
  intros H. induction n as [|n IH]; cbn [get_items]; [apply passes_pret|].
  apply passes_bind; [exact H|]. intros a. apply passes_bind; [exact IH|].
  intros l. apply passes_pret.
Qed.
Lemma ps_vector {A} (get : parser A) :
  reads_what_it_passes get -> reads_what_it_passes (get_vector get).
Proof. intros H. apply passes_bind; [apply passes_word|]. intros n. apply ps_items, H. Qed.

Ltac passes :=
  repeat first
    [ apply passes_pret | apply passes_word | apply ps_vector | assumption
    | apply passes_map | apply passes_bind; [|intros ?] ].

Lemma ps_f32 : reads_what_it_passes get_f32. Proof. unfold get_f32. passes. Qed.
Lemma ps_f64 : reads_what_it_passes get_f64. Proof. unfold get_f64. passes. Qed.
Lemma ps_i64 : reads_what_it_passes get_i64. Proof. unfold get_i64. passes. Qed.
Lemma ps_u32 : reads_what_it_passes get_u32. Proof. unfold get_u32. passes. Qed.
Lemma ps_bool : reads_what_it_passes get_bool. Proof. unfold get_bool. passes. Qed.
Lemma ps_string : reads_what_it_passes get_string.
Proof. unfold get_string, get_char. passes. Qed.
Lemma ps_ccell : reads_what_it_passes get_ccell.
Proof. unfold get_ccell, get_f32, get_u32. passes. Qed.
Lemma ps_tcell : reads_what_it_passes get_tcell.
Proof. unfold get_tcell, get_f32, get_u32. passes. Qed.

(** ** The common members *)
Section Common.
  Variable T : Type.
  Variable put_t : T -> bytes.
  Variable get_t : parser T.
  Hypothesis HT : transform_codec put_t get_t.

  Lemma gb_base {A} (put : A -> bytes) (get : parser A) (ok : A -> Prop) b :
    (forall a, ok a -> gives_back get a (put a)) -> base_ok ok b ->
    gives_back (get_base T get_t get) b (put_base T put_t put b).
  Proof.
    intros G (Hd & Hn & H1 & H2 & Hx & Hy & Hz & Hdef & Hoob).
    destruct b as [init origin inverse data cx cy cz jx jy jz sx sy sz s1 s2 nx ny nz def oob].
    cbn [b_initialized b_origin b_inverse b_data b_cell_x b_cell_y b_cell_z b_inv_x b_inv_y
         b_inv_z b_size_x b_size_y b_size_z b_stride1 b_stride2 b_num_x b_num_y b_num_z
         b_default b_oob] in *.
    unfold get_base, put_base.
    cbn [b_initialized b_origin b_inverse b_data b_cell_x b_cell_y b_cell_z b_inv_x b_inv_y
         b_inv_z b_size_x b_size_y b_size_z b_stride1 b_stride2 b_num_x b_num_y b_num_z
         b_default b_oob].
    eapply gives_back_bind; [apply gb_bool|].
    eapply gives_back_bind; [apply HT|].
    eapply gives_back_bind; [apply HT|].
    eapply gives_back_bind; [eapply gb_vector; eassumption|].
    do 9 (eapply gives_back_bind; [apply gb_f64|]).
    eapply gives_back_bind; [apply gb_i64; assumption|].
    eapply gives_back_bind; [apply gb_i64; assumption|].
    eapply gives_back_bind; [apply gb_i64; assumption|].
    eapply gives_back_bind; [apply gb_i64; assumption|].
    eapply gives_back_bind; [apply gb_i64; assumption|].
    eapply gives_back_bind; [apply G; assumption|].
    rewrite <- (app_nil_r (put oob)).
    eapply gives_back_bind; [apply G; assumption|].
    apply gives_back_pret.
  Qed.

  Lemma ps_base {A} (get : parser A) :
    reads_what_it_passes get -> reads_what_it_passes (get_base T get_t get).
  Proof.
    intros H. pose proof (proj2 HT) as Ht.
    pose proof ps_f64. pose proof ps_i64. pose proof ps_bool.
    unfold get_base.
    repeat first [apply passes_pret | assumption | apply ps_vector
                 | apply passes_bind; [|intros ?]].
  Qed.

  Lemma gb_sdf s : sdf_state_ok s -> gives_back (sdf_parse T get_t) s (sdf_bytes T put_t s).
  Proof.
    intros [Hb Hf]. destruct s as [b frame locked]. unfold sdf_parse, sdf_bytes.
    cbn [ss_base ss_frame ss_locked] in *.
    eapply gives_back_bind; [eapply gb_base; [|exact Hb]; intros; apply gb_f32|].
    eapply gives_back_bind; [apply gb_string, Hf|].
    rewrite <- (app_nil_r (put_bool _)). eapply gives_back_bind; [apply gb_bool|].
    apply gives_back_pret.
  Qed.
  Lemma gb_cm s : cm_state_ok s -> gives_back (cm_parse T get_t) s (cm_bytes T put_t s).
  Proof.
    intros (Hb & Hn & Hf). destruct s as [b n frame valid]. unfold cm_parse, cm_bytes.
    cbn [cs_base cs_ncomp cs_frame cs_valid] in *.
    eapply gives_back_bind; [eapply gb_base; [|exact Hb]; intros; apply gb_ccell; assumption|].
    eapply gives_back_bind; [apply gb_u32, Hn|].
    eapply gives_back_bind; [apply gb_string, Hf|].
    rewrite <- (app_nil_r (put_bool _)). eapply gives_back_bind; [apply gb_bool|].
    apply gives_back_pret.
  Qed.
  Lemma gb_tm s : tm_state_ok s ->
    exists b, tm_bytes T put_t s = Ok b /\ gives_back (tm_parse T get_t) s b.
  Proof.
    intros (Hb & Hn & Hk & Hf & Hs). destruct s as [b n k frame valid sv].
    unfold tm_parse, tm_bytes.
    cbn [ts_base ts_ncomp ts_nseg ts_frame ts_valid ts_seg_valid] in *.
    destruct sv as [sv|]; [|exfalso; apply Hs; reflexivity].
    eexists; split; [reflexivity|].
    eapply gives_back_bind; [eapply gb_base; [|exact Hb]; intros; apply gb_tcell; assumption|].
    eapply gives_back_bind; [apply gb_u32, Hn|].
    eapply gives_back_bind; [apply gb_u32, Hk|].
    eapply gives_back_bind; [apply gb_string, Hf|].
    eapply gives_back_bind; [apply gb_bool|].
    rewrite <- (app_nil_r (put_bool _)). eapply gives_back_bind; [apply gb_bool|].
    apply gives_back_pret.
  Qed.

  Lemma ps_sdf : reads_what_it_passes (sdf_parse T get_t).
  Proof.
    pose proof (ps_base get_f32 ps_f32). pose proof ps_string. pose proof ps_bool.
    unfold sdf_parse.
    repeat first [assumption | apply passes_pret | apply passes_bind; [|intros ?]].
  Qed.
  Lemma ps_cm : reads_what_it_passes (cm_parse T get_t).
  Proof.
    pose proof (ps_base get_ccell ps_ccell). pose proof ps_string. pose proof ps_bool.
    pose proof ps_u32. unfold cm_parse.
    repeat first [assumption | apply passes_pret | apply passes_bind; [|intros ?]].
  Qed.
  Lemma ps_tm : reads_what_it_passes (tm_parse T get_t).
  Proof.
    pose proof (ps_base get_tcell ps_tcell). pose proof ps_string. pose proof ps_bool.
    pose proof ps_u32. unfold tm_parse.
    repeat first [assumption | apply passes_pret | apply passes_bind; [|intros ?]].
  Qed.
End Common.

(** ** From parsers to DeserializeSelf *)
Section Whole.
  Context {S : Type} (ok : S -> Prop) (to_bytes : S -> res bytes) (p : parser S).
  Hypothesis back : forall s, ok s -> exists b, to_bytes s = Ok b /\ gives_back p s b.
  Hypothesis passes : reads_what_it_passes p.
  Let ser (s : S) (buffer : bytes) : res (bytes * nat) :=
    let* b := to_bytes s in Ok (append buffer b).

  Lemma append_eq buffer b : append buffer b = (buffer ++ b, length b).
  Proof. unfold append. rewrite app_length. f_equal. lia. Qed.

  Lemma whole_round_trips : round_trips ok ser (deserialize p).
  Proof.
    intros s pre post Hs. destruct (back s Hs) as (b & Eb & Hb).
    exists b. unfold ser. rewrite Eb. cbn [bind]. rewrite append_eq. split; [reflexivity|].
    unfold deserialize. rewrite <- app_assoc, Hb. cbn [bind fst snd]. do 2 f_equal. lia.
  Qed.

  Lemma whole_rejects : rejects_truncation ok ser (deserialize p).
  Proof.
    intros s b n cut Hs Eb (rest & Hr & E). destruct (back s Hs) as (b' & Eb' & Hb).
    unfold ser in Eb. rewrite Eb' in Eb. cbn [bind] in Eb. rewrite append_eq in Eb.
    cbn [app] in Eb. assert (b' = b) by congruence. subst b'. clear Eb.
    unfold deserialize. destruct (p cut 0%nat) as [[v q]|?|?] eqn:Ep; [|reflexivity|reflexivity].
    exfalso. destruct (passes _ _ _ _ (Nat.le_0_l _) Ep) as [Hq Hm].
    specialize (Hm rest). specialize (Hb nil nil). cbn [app length] in Hb.
    rewrite app_nil_r, E, Hm in Hb.
    assert (Eq : q = (0 + length (cut ++ rest))%nat) by congruence.
    rewrite app_length in Eq. destruct rest; [apply Hr; reflexivity|]. cbn [length] in Eq. lia.
  Qed.
End Whole.

Section Classes.
  Variable T : Type.
  Variable put_t : T -> bytes.
  Variable get_t : parser T.
  Hypothesis HT : transform_codec put_t get_t.

  Lemma sdf_back s : sdf_state_ok s -> exists b, Ok (sdf_bytes T put_t s) = Ok b /\
    gives_back (sdf_parse T get_t) s b.
  Proof. intros H. eexists; split; [reflexivity|]. apply gb_sdf; assumption. Qed.
  Lemma cm_back s : cm_state_ok s -> exists b, Ok (cm_bytes T put_t s) = Ok b /\
    gives_back (cm_parse T get_t) s b.
  Proof. intros H. eexists; split; [reflexivity|]. apply gb_cm; assumption. Qed.

  Lemma sdf_round_trips :
    round_trips sdf_state_ok (sdf_serialize T put_t) (sdf_deserialize T get_t).
  Proof. exact (whole_round_trips sdf_state_ok _ _ sdf_back). Qed.
  Lemma cm_round_trips :
    round_trips cm_state_ok (cm_serialize T put_t) (cm_deserialize T get_t).
  Proof. exact (whole_round_trips cm_state_ok _ _ cm_back). Qed.
  Lemma tm_round_trips :
    round_trips tm_state_ok (tm_serialize T put_t) (tm_deserialize T get_t).
  Proof. exact (whole_round_trips tm_state_ok _ _ (gb_tm T put_t get_t HT)). Qed.

  Lemma sdf_rejects :
    rejects_truncation sdf_state_ok (sdf_serialize T put_t) (sdf_deserialize T get_t).
  Proof. exact (whole_rejects sdf_state_ok _ _ sdf_back (ps_sdf T put_t get_t HT)). Qed.
  Lemma cm_rejects :
    rejects_truncation cm_state_ok (cm_serialize T put_t) (cm_deserialize T get_t).
  Proof. exact (whole_rejects cm_state_ok _ _ cm_back (ps_cm T put_t get_t HT)). Qed.
  Lemma tm_rejects :
    rejects_truncation tm_state_ok (tm_serialize T put_t) (tm_deserialize T get_t).
  Proof.
    exact (whole_rejects tm_state_ok _ _ (gb_tm T put_t get_t HT) (ps_tm T put_t get_t HT)).
  Qed.
End Classes.

(** ** Files *)
Lemma bytes_eqb_eq a b : bytes_eqb a b = true <-> a = b.
Proof.
  revert b. induction a as [|x a IH]; intros [|y b]; cbn; split; intros H; try reflexivity;
    try discriminate H.
  - apply andb_true_iff in H as [H1 H2]. apply Z.eqb_eq in H1. apply IH in H2. congruence.
  - injection H as -> ->. rewrite Z.eqb_refl. apply IH. reflexivity.
Qed.

Definition is_header (h : string) : Prop :=
  length (text h) = 4%nat /\ c_string (text h ++ [0]) = text h.

Lemma header_test h b : is_header h -> (4 <= length b)%nat ->
  bytes_eqb (c_string (firstn 4 b ++ [0])) (text h) = true <-> starts_with h b.
Proof.
  intros [Hl Hc] Hb. rewrite bytes_eqb_eq. unfold starts_with, prefix. split.
  - intros E. exists (skipn 4 b). rewrite <- (firstn_skipn 4 b) at 1. apply f_equal2; [|reflexivity].
    rewrite <- E in Hl |- *. clear -Hl Hb.
    assert (L : length (firstn 4 b) = 4%nat) by (rewrite firstn_length; lia).
    destruct (firstn 4 b) as [|x0 [|x1 [|x2 [|x3 [|]]]]]; try discriminate L.
    cbn [app c_string] in *.
    destruct (x0 =? 0); [discriminate Hl|]. destruct (x1 =? 0); [discriminate Hl|].
    destruct (x2 =? 0); [discriminate Hl|]. destruct (x3 =? 0); [discriminate Hl|]. reflexivity.
  - intros [rest ->]. rewrite firstn_app, Hl, Nat.sub_diag, firstn_O.
    rewrite app_nil_r, firstn_all2 by lia. exact Hc.
Qed.

Lemma skip_header h rest : is_header h -> skipn 4 (text h ++ rest) = rest.
Proof.
  intros [Hl _]. rewrite skipn_app, Hl, Nat.sub_diag, skipn_all2 by lia. reflexivity.
Qed.

Section FileProofs.
  Variable compress : bytes -> bytes.
  Variable decompress : bytes -> res bytes.
  Context {S : Type} (c : file_class S) (ok : S -> Prop).
  Hypothesis packed_header : is_header (fc_packed c).
  Hypothesis raw_header : is_header (fc_raw c).
  Hypothesis headers_differ : text (fc_packed c) <> text (fc_raw c).

  Lemma load_packed rest :
    load_bytes decompress c (text (fc_packed c) ++ rest) =
    (let* u := decompress rest in let* r := fc_deserialize c u 0%nat in Ok (fst r)).
  Proof.
    unfold load_bytes.
    assert (L : (4 <= length (text (fc_packed c) ++ rest))%nat)
      by (rewrite app_length, (proj1 packed_header); lia).
    apply Nat.leb_le in L as L'. rewrite L'. cbv zeta.
    rewrite (proj2 (header_test _ _ packed_header L)) by (eexists; reflexivity).
    rewrite skip_header by exact packed_header. reflexivity.
  Qed.
  Lemma load_raw rest :
    load_bytes decompress c (text (fc_raw c) ++ rest) =
    (let* r := fc_deserialize c rest 0%nat in Ok (fst r)).
  Proof.
    unfold load_bytes.
    assert (L : (4 <= length (text (fc_raw c) ++ rest))%nat)
      by (rewrite app_length, (proj1 raw_header); lia).
    apply Nat.leb_le in L as L'. rewrite L'. cbv zeta.
    rewrite (proj2 (header_test _ _ raw_header L)) by (eexists; reflexivity).
    rewrite skip_header by exact raw_header.
    destruct (bytes_eqb (c_string (firstn 4 (text (fc_raw c) ++ rest) ++ [0]))
                (text (fc_packed c))) eqn:E; [|reflexivity].
    exfalso. apply bytes_eqb_eq in E. apply headers_differ. rewrite <- E.
    pose proof (proj2 (header_test _ _ raw_header L)) as H.
    apply bytes_eqb_eq. apply H. eexists; reflexivity.
  Qed.

  Lemma load_needs_header b :
    (length b < 4)%nat \/ (~ starts_with (fc_packed c) b /\ ~ starts_with (fc_raw c) b) ->
    is_throw (load_bytes decompress c b) = true.
  Proof.
    intros H. unfold load_bytes. destruct (4 <=? length b)%nat eqn:L; [|reflexivity].
    apply Nat.leb_le in L. destruct H as [H|[H1 H2]]; [lia|]. cbv zeta.
    destruct (bytes_eqb _ (text (fc_packed c))) eqn:E.
    { apply header_test in E; [contradiction|exact packed_header|exact L]. }
    destruct (bytes_eqb _ (text (fc_raw c))) eqn:E2; [|reflexivity].
    apply header_test in E2; [contradiction|exact raw_header|exact L].
  Qed.

  Hypothesis trips : round_trips ok (fc_serialize c) (fc_deserialize c).

  Lemma trips_at_zero s : ok s -> exists b n, fc_serialize c s nil = Ok (b, n) /\
    fc_deserialize c b 0%nat = Ok (s, length b).
  Proof.
    intros Hs. destruct (trips s nil nil Hs) as (b & E1 & E2).
    cbn [app length] in E1, E2. rewrite app_nil_r in E2. eauto.
  Qed.

  Lemma load_saved s packed b : zlib_inverts compress decompress -> ok s ->
    file_bytes compress c s packed = Ok b -> load_bytes decompress c b = Ok s.
  Proof.
    intros Hz Hs E. destruct (trips_at_zero s Hs) as (r & n & E1 & E2).
    unfold file_bytes in E. rewrite E1 in E. cbn [bind fst] in E.
    destruct packed; inversion E; subst b; clear E.
    - rewrite load_packed, Hz. cbn [bind]. rewrite E2. reflexivity.
    - rewrite load_raw, E2. reflexivity.
  Qed.

  Lemma class_saves_and_loads : zlib_inverts compress decompress ->
    saves_and_loads ok compress decompress c.
  Proof.
    intros Hz s path packed d Hs Hw. destruct (trips_at_zero s Hs) as (r & n & E1 & E2).
    unfold save_to_file.
    destruct (file_bytes compress c s packed) as [b|?|?] eqn:E.
    2,3: unfold file_bytes in E; rewrite E1 in E; discriminate E.
    cbn [bind]. rewrite Hw. eexists. split; [reflexivity|]. split.
    - unfold load_from_file. cbn [d_file]. rewrite String.eqb_refl.
      eapply load_saved; eassumption.
    - intros other Ho. cbn [d_file]. destruct (String.eqb_spec other path); [contradiction|].
      reflexivity.
  Qed.

  Lemma class_message (frame_of : S -> string) : zlib_inverts compress decompress ->
    message_round_trips ok compress decompress c frame_of.
  Proof.
    intros Hz s Hs. destruct (trips_at_zero s Hs) as (r & n & E1 & E2).
    unfold to_message. rewrite E1. cbn [bind fst]. eexists; split; [reflexivity|].
    split; [reflexivity|]. unfold from_message. cbn [m_compressed m_data].
    rewrite Hz. cbn [bind]. rewrite E2. reflexivity.
  Qed.

  Hypothesis rejects : rejects_truncation ok (fc_serialize c) (fc_deserialize c).

  Lemma prefix_cases (a h rest : bytes) : prefix a (h ++ rest) ->
    (length a < length h)%nat \/ exists cut, a = h ++ cut /\ prefix cut rest.
  Proof.
    revert h. induction a as [|x a IH]; intros h [more E].
    - destruct h; [right; exists nil; split; [reflexivity|exists rest; reflexivity]|].
      left. cbn. lia.
    - destruct h as [|y h].
      + right. exists (x :: a). split; [reflexivity|]. exists more. exact E.
      + cbn in E. injection E as Ex E. destruct (IH h (ex_intro _ more E)) as [H|(cut & H1 & H2)].
        * left. cbn. lia.
        * right. exists cut. split; [|exact H2]. cbn. congruence.
  Qed.

  Lemma prefix_proper_or_eq a b : prefix a b -> a = b \/ proper_prefix a b.
  Proof.
    intros [rest E]. destruct rest as [|x rest].
    - left. rewrite app_nil_r in E. congruence.
    - right. exists (x :: rest). split; [discriminate|exact E].
  Qed.

  Lemma cut_raw_file s b cut : ok s -> file_bytes compress c s false = Ok b ->
    proper_prefix cut b -> is_ok (load_bytes decompress c cut) = false.
  Proof.
    intros Hs E (rest & Hr & Eb). destruct (trips_at_zero s Hs) as (r & n & E1 & E2).
    unfold file_bytes in E. rewrite E1 in E. cbn [bind fst] in E. injection E as E.
    assert (P : prefix cut (text (fc_raw c) ++ r)) by (exists rest; congruence).
    destruct (prefix_cases _ _ _ P) as [H|(cut' & H1 & H2)].
    - rewrite (proj1 raw_header) in H.
      pose proof (load_needs_header cut (or_introl H)) as Ht.
      destruct (load_bytes decompress c cut); [discriminate Ht|reflexivity|reflexivity].
    - subst cut. rewrite load_raw.
      destruct (prefix_proper_or_eq _ _ H2) as [H|H].
      + exfalso. subst cut'. rewrite <- E in Eb. apply Hr.
        apply (f_equal (@length Z)) in Eb. rewrite !app_length in Eb.
        destruct rest; [reflexivity|]. cbn [length] in Eb. lia.
      + specialize (rejects s r n cut' Hs E1 H).
        destruct (fc_deserialize c cut' 0%nat) as [[v q]|?|?];
          [discriminate rejects|reflexivity|reflexivity].
  Qed.

  Lemma cut_packed_file s b cut s' : zlib_cut_off compress decompress ->
    ok s -> file_bytes compress c s true = Ok b -> prefix cut b ->
    load_bytes decompress c cut = Ok s' -> s' = s.
  Proof.
    intros Hz Hs E P El. destruct (trips_at_zero s Hs) as (r & n & E1 & E2).
    unfold file_bytes in E. rewrite E1 in E. cbn [bind fst] in E. injection E as E.
    rewrite <- E in P. destruct (prefix_cases _ _ _ P) as [H|(cut' & H1 & H2)].
    - rewrite (proj1 packed_header) in H.
      pose proof (load_needs_header cut (or_introl H)) as Ht. rewrite El in Ht. discriminate Ht.
    - subst cut. rewrite load_packed in El.
      destruct (decompress cut') as [u|?|?] eqn:Eu; [|discriminate El|discriminate El].
      cbn [bind] in El. specialize (Hz _ _ _ H2 Eu).
      destruct (prefix_proper_or_eq _ _ Hz) as [H|H].
      + subst u. rewrite E2 in El. cbn in El. congruence.
      + specialize (rejects s r n u Hs E1 H).
        destruct (fc_deserialize c u 0%nat) as [[v q]|?|?];
          [discriminate rejects|discriminate El|discriminate El].
  Qed.
End FileProofs.

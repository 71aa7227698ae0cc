(** Proofs about the drawing of the node and about batches. *)
From Coq Require Import Lia Reals Lra.
From Flocq Require Import Core.Core IEEE754.Binary.
From Verif Require Import Base BaseFacts Floats Grid GridFacts DistSpec SdfGen SdfSpec Display DisplaySpec DisplayProofs DisplaySdf
  Builder BuilderSpec BuilderProofs Arith SdfQuery Python PySpec PyProofs PyThms Node NodeSpec.
Local Open Scope Z_scope.

(** ** Drawing *)
Section Drawing.
  Context {point : Type} (location : idx -> point).

  Let step (m : grid Z) (alpha : binary32) (k : marker point) (i : idx) : res (marker point) :=
    if fst (get m i) =? 1 then Ok (push location (red alpha) k i)
    else if fst (get m i) =? 0 then Ok k else Throw "assertion failed".

  Lemma node_fold m alpha l : (forall i, In i l -> fst (get m i) = 0 \/ fst (get m i) = 1) -> forall k,
    foldM (step m alpha) l k =
    Ok (fold_left (fun k i => if fst (get m i) =? 1 then push location (red alpha) k i else k) l k).
  Proof.
    induction l as [|i l IH]; intros H k; cbn [foldM fold_left]; auto.
    assert (Hi := H i (or_introl eq_refl)). unfold step at 1.
    destruct (fst (get m i) =? 1) eqn:E1; cbn [bind].
    - apply IH. intros; apply H; right; auto.
    - apply Z.eqb_neq in E1. destruct Hi as [E|E]; [|contradiction]. rewrite E. cbn [Z.eqb bind].
      apply IH. intros; apply H; right; auto.
  Qed.

  Lemma node_draws m frame alpha :
    (forall i, in_bounds (gdims m) i = true -> fst (get m i) = 0 \/ fst (get m i) = 1) ->
    exists k, node_export location m frame alpha = Ok k /\
      mk_frame k = frame /\ mk_ns k = Text "collision_map_display" /\
      draws location k (gdims m) (fun i => fst (get m i) = 1) (fun _ => red alpha).
  Proof.
    intros H. eexists. split.
    - apply node_fold. intros i Hi. apply H, sweep_in; auto.
    - apply (draws_fold location (gdims m) frame _ (fun i => fst (get m i) =? 1) (fun _ => red alpha)); auto.
      intros i _. apply Z.eqb_eq.
  Qed.

  Lemma node_asserts m frame alpha i :
    in_bounds (gdims m) i = true -> fst (get m i) <> 0 -> fst (get m i) <> 1 ->
    node_export location m frame alpha = Throw "assertion failed".
  Proof.
    intros B N0 N1. unfold node_export. change (foldM (step m alpha) (sweep (gdims m)) (blank frame (Text "collision_map_display")) = Throw "assertion failed").
    assert (Hi : In i (sweep (gdims m))) by (apply sweep_in; auto). clear B.
    generalize (blank frame (Text "collision_map_display") : marker point).
    induction (sweep (gdims m)) as [|j l IH]; intros k; [contradiction|]. cbn [foldM].
    destruct Hi as [->|Hi].
    - unfold step. apply Z.eqb_neq in N0, N1. rewrite N0, N1. reflexivity.
    - unfold step at 1. destruct (fst (get m j) =? 1); cbn [bind]; auto.
      destruct (fst (get m j) =? 0); cbn [bind]; auto.
  Qed.
End Drawing.

Lemma lt_gt_no v : lt32 v zero32 = true -> gt32 v zero32 = true -> False.
Proof. unfold lt32, gt32. destruct (b32_compare v zero32) as [[| |]|]; discriminate. Qed.

Section Scene.
  Context {scene msg point : Type} (fresh : scene) (use_msg : scene -> msg -> scene) (no_answer : msg)
    (collides : scene -> point -> bool) (location : idx -> point) (d : dims).

  Lemma node_shows_scene frame r oob l b os mode answer topic alpha :
    run use_msg no_answer collides location d (new_builder fresh frame r oob) l = (b, os) ->
    (mode = 0 /\ messages no_answer l <> []) \/ 1 <= mode <= 3 -> 0 <= nx d -> 0 <= ny d -> 0 <= nz d ->
    exists g k, snd (update_map use_msg no_answer collides location d b mode answer) = Ok g /\
      node_export location g topic alpha = Ok k /\
      mk_frame k = topic /\ mk_ns k = Text "collision_map_display" /\
      draws location k d
        (fun i => collides (fold_left use_msg (messages no_answer (l ++ [UpdateMap mode answer])) fresh) (location i) = true)
        (fun _ => red alpha).
  Proof.
    intros E Hm Dx Dy Dz.
    destruct (map_shows_scene fresh use_msg no_answer collides location d frame r oob l b os mode answer E Hm Dx Dy Dz)
      as (g & U & Dg & _ & K).
    fold (scene_after fresh use_msg no_answer (l ++ [UpdateMap mode answer])) in *.
    set (sc := scene_after _ _ _ _) in *.
    assert (V : forall i, in_bounds d i = true -> fst (get g i) = if collides sc (location i) then 1 else 0).
    { intros i B. rewrite (K i B). reflexivity. }
    destruct (node_draws location g topic alpha) as (k & Ek & F & N & L).
    { intros i B. rewrite Dg in B. rewrite (V i B). destruct (collides sc (location i)); auto. }
    exists g, k. do 4 (split; auto). rewrite Dg in L. destruct L as (is_ & Hx & Hp & Hc). exists is_. split; auto.
    destruct Hx as (ND & Hx). split; auto. intros i. rewrite Hx. split; intros (B & P); split; auto.
    - change (collides sc (location i) = true). rewrite (V i B) in P. destruct (collides sc (location i)); auto; discriminate.
    - change (collides sc (location i) = true) in P. rewrite (V i B), P. reflexivity.
  Qed.
End Scene.

(** ** The loop *)
Section Loop.
  Context {scene msg point : Type} (fresh : scene) (use_msg : scene -> msg -> scene) (no_answer : msg)
    (collides : scene -> point -> bool) (location center : idx -> point) (d : dims) (clamp01 : binary32 -> binary32).
  Let run := run use_msg no_answer collides location d.

  Definition pictures (frame : string) (sc : scene) (k : marker point * marker point) : Prop :=
    mk_frame (fst k) = "base"%string /\ mk_frame (snd k) = frame /\
    shows_scene collides location center d (clamp01 tenth) sc k.

  Lemma run_app b l1 l2 : run b (l1 ++ l2) =
    let (b1, o1) := run b l1 in let (b2, o2) := run b1 l2 in (b2, o1 ++ o2).
  Proof.
    unfold run. revert b; induction l1 as [|c l1 IH]; intros b; cbn [app Builder.run].
    - destruct (Builder.run _ _ _ _ _ b l2); reflexivity.
    - destruct (do_call _ _ _ _ _ b c) as [b1 o]. rewrite IH.
      destruct (Builder.run _ _ _ _ _ b1 l1) as [b2 o1]. destruct (Builder.run _ _ _ _ _ b2 l2). reflexivity.
  Qed.

  Lemma round_ok frame r oob l b os answer :
    run (new_builder fresh frame r oob) l = (b, os) -> size_ok d -> usable_resolution r -> fits_uint8 oob ->
    exists b' os' k, node_round use_msg no_answer collides location center d clamp01 b answer = (b', Ok k) /\
      run (new_builder fresh frame r oob) (l ++ [UpdateMap 3 answer; UpdateSdf 0 answer]) = (b', os') /\
      pictures frame (fold_left use_msg (messages no_answer (l ++ [UpdateMap 3 answer])) fresh) k.
  Proof.
    intros E Hs Hr Ho. unfold node_round.
    destruct (node_shows_scene fresh use_msg no_answer collides location d frame r oob l b os 3 answer "base" one32 E)
      as (g & k & U & X & F & N & L); [right; lia|destruct Hs; lia ..|].
    destruct (update_map use_msg no_answer collides location d b 3 answer) as [b1 r1] eqn:E1. cbn [snd] in U. subst r1.
    cbn [bind]. rewrite X.
    assert (R1 : run (new_builder fresh frame r oob) (l ++ [UpdateMap 3 answer]) = (b1, os ++ [GotMap (Ok g)])).
    { rewrite run_app, E. unfold run. cbn [Builder.run do_call]. rewrite E1. reflexivity. }
    destruct (sdf_shows_scene fresh use_msg no_answer collides location d frame r oob _ b1 _ 0 answer R1)
      as (f & U2 & Df & Rf & Ff & Of & Lf & V); auto.
    { left. split; auto. unfold messages. rewrite flat_map_app. cbn [flat_map message_of asks app].
      intros Q. apply app_eq_nil in Q as [_ Q]. discriminate. }
    destruct (update_sdf use_msg no_answer collides location d b1 0 answer) as [b2 r2] eqn:E2. cbn [snd] in U2. subst r2.
    cbn [bind]. eexists b2, _, _. split; [reflexivity|]. split.
    { replace (l ++ [UpdateMap 3 answer; UpdateSdf 0 answer])
        with ((l ++ [UpdateMap 3 answer]) ++ [UpdateSdf 0 answer]) by (rewrite <- app_assoc; reflexivity).
      rewrite run_app, R1. unfold run. cbn [Builder.run do_call]. rewrite E2. reflexivity. }
    assert (Em : messages no_answer ((l ++ [UpdateMap 3 answer]) ++ [UpdateSdf 0 answer]) =
                 messages no_answer (l ++ [UpdateMap 3 answer])).
    { unfold messages. rewrite (flat_map_app _ (l ++ _)). cbn [flat_map message_of asks app]. apply app_nil_r. }
    unfold scene_after in V. rewrite Em in V.
    set (sc := fold_left use_msg (messages no_answer (l ++ [UpdateMap 3 answer])) fresh) in *.
    destruct (sdf_export_draws center clamp01 f tenth) as (A1 & A2 & A3).
    unfold pictures, shows_scene. cbn [fst snd]. split; auto. split; [congruence|]. do 3 (split; auto). rewrite Df in A3. eexists. split; [exact A3|].
    intros i B. cbn beta. destruct (V i B) as (v & -> & S). cbn [fst].
    destruct (widen_sign v) as (W1 & W2 & _). unfold distance_color. rewrite W1, W2.
    destruct (collides sc (location i)).
    - assert (G : gt32 v zero32 = false) by (destruct (gt32 v zero32) eqn:G; auto; elim (lt_gt_no v S G)).
      rewrite G, S. repeat split; auto.
    - rewrite S. repeat split; auto.
  Qed.

  (** The histories of calls the rounds make. *)
  Definition node_calls (answers : list (request -> option msg)) : list (call msg) :=
    flat_map (fun a => [UpdateMap 3 a; UpdateSdf 0 a]) answers.

  Let answered := answered no_answer.

  Lemma calls_answered answers : messages no_answer (node_calls answers) = answered answers.
  Proof. induction answers as [|a l IH]; auto. cbn. f_equal. exact IH. Qed.

  Lemma rounds_ok frame r oob : size_ok d -> usable_resolution r -> fits_uint8 oob ->
    forall answers before b os, run (new_builder fresh frame r oob) (node_calls before) = (b, os) ->
    exists ks, node_rounds use_msg no_answer collides location center d clamp01 b answers = (ks, Ok tt) /\
      length ks = length answers /\
      forall n k, nth_error ks n = Some k ->
        pictures frame (fold_left use_msg (answered (before ++ firstn (S n) answers)) fresh) k.
  Proof.
    intros Hs Hr Ho. induction answers as [|a l IH]; intros before b os E; cbn [node_rounds].
    { exists []. do 2 (split; auto). intros [|n]; discriminate. }
    destruct (round_ok frame r oob _ b os a E Hs Hr Ho) as (b' & os' & k & R & E' & P).
    destruct (IH (before ++ [a]) b' os') as (ks & K1 & K2 & K3).
    { unfold node_calls. rewrite flat_map_app. exact E'. }
    exists (k :: ks). rewrite R, K1. split; auto. split; [cbn; auto|].
    intros [|n] k' Hk; cbn in Hk.
    - injection Hk as <-. cbn [firstn]. rewrite <- calls_answered. unfold node_calls. rewrite flat_map_app.
      cbn [flat_map app]. 
      replace (messages no_answer (flat_map (fun a => [UpdateMap 3 a; UpdateSdf 0 a]) before ++ [UpdateMap 3 a; UpdateSdf 0 a]))
        with (messages no_answer (node_calls before ++ [UpdateMap 3 a])); auto.
      unfold messages. rewrite !flat_map_app. reflexivity.
    - apply K3 in Hk. rewrite <- app_assoc in Hk. exact Hk.
  Qed.

  Lemma rounds_undefined frame r oob answers : ~ fits_uint8 oob -> size_ok d -> answers <> [] ->
    exists e, node_rounds use_msg no_answer collides location center d clamp01 (new_builder fresh frame r oob) answers = ([], UB e).
  Proof.
    intros Ho Hs Ha. destruct answers as [|a l]; [contradiction|]. cbn [node_rounds]. unfold node_round.
    destruct (node_shows_scene fresh use_msg no_answer collides location d frame r oob [] (new_builder fresh frame r oob) [] 3 a "base" one32)
      as (g & k & U & X & _); [reflexivity|right; lia|destruct Hs; lia ..|].
    destruct (update_map use_msg no_answer collides location d (new_builder fresh frame r oob) 3 a) as [b1 r1] eqn:E1.
    cbn [snd] in U. subst r1. cbn [bind]. rewrite X.
    assert (R1 : run (new_builder fresh frame r oob) [UpdateMap 3 a] = (b1, [GotMap (Ok g)])).
    { unfold run. cbn [Builder.run do_call]. rewrite E1. reflexivity. }
    assert (Q := update_undefined fresh use_msg no_answer collides location d frame r oob _ b1 _ 0 a R1).
    destruct (update_sdf use_msg no_answer collides location d b1 0 a) as [b2 r2]. cbn [snd] in Q.
    destruct r2 as [x|e|e]; cbn [is_ub bind] in *; try (discriminate Q; auto; left; split; [auto|discriminate]).
    exists e. reflexivity.
  Qed.
End Loop.

(** ** Batches *)
Definition all_nonneg (s : list Z) : Prop := Forall (fun n => 0 <= n) s.

Lemma prod_nonneg s : all_nonneg s -> 0 <= prod s.
Proof. induction 1; cbn; [lia|]. apply Z.mul_nonneg_nonneg; auto. Qed.

Lemma flat_map_length_const {T U} (f : T -> list U) k l :
  (forall x, In x l -> length (f x) = k) -> length (flat_map f l) = (length l * k)%nat.
Proof.
  intros H. rewrite flat_map_concat_map, concat_length_const with (k := k); [rewrite map_length; auto|].
  intros q Hq. apply in_map_iff in Hq as (x & <- & Hx). auto.
Qed.

Lemma nth_error_flat_map {T U} (f : T -> list U) k l n c x :
  (forall x, In x l -> length (f x) = k) -> nth_error l n = Some x -> (c < k)%nat ->
  nth_error (flat_map f l) (n * k + c) = nth_error (f x) c.
Proof.
  intros H E Hc. rewrite flat_map_concat_map. apply nth_error_concat with (row := f x); auto.
  - intros q Hq. apply in_map_iff in Hq as (y & <- & Hy). auto.
  - apply map_nth_error; auto.
Qed.

Lemma indices_length s : all_nonneg s -> Z.of_nat (length (indices s)) = prod s.
Proof.
  induction s as [|n s IH]; intros H; [reflexivity|]. inversion H; subst. cbn [indices prod fold_right].
  rewrite (flat_map_length_const _ (length (indices s))) by (intros; apply map_length).
  rewrite zrange_length, Nat2Z.inj_mul, Z2Nat.id, IH; auto.
Qed.

Lemma offset_range s st ix o : offset s st ix = Some o -> Forall2 (fun i n => 0 <= i < n) ix s.
Proof.
  revert st ix o; induction s as [|n s IH]; intros [|k st] [|i ix] o H; cbn in H; try discriminate; constructor.
  - destruct ((0 <=? i) && (i <? n)) eqn:E; [|discriminate]. apply andb_true_iff in E as [A B].
    apply Z.leb_le in A. apply Z.ltb_lt in B. lia.
  - destruct ((0 <=? i) && (i <? n)); [|discriminate]. destruct (offset s st ix) eqn:E; [|discriminate]. eauto.
Qed.

Lemma offset_row_major s ix : all_nonneg s -> Forall2 (fun i n => 0 <= i < n) ix s ->
  exists o, offset s (row_major s) ix = Some o /\ 0 <= o < prod s /\ nth_error (indices s) (Z.to_nat o) = Some ix.
Proof.
  revert ix; induction s as [|n s IH]; intros ix Hn H; inversion H as [|i n' ix' s' Hi Hix]; subst.
  { exists 0. cbn. repeat split; lia. }
  inversion Hn; subst. destruct (IH ix') as (o & E & R & N); auto.
  cbn [row_major offset]. rewrite in_range, E by auto. exists (i * prod s + o). split; auto.
  assert (P := prod_nonneg s H3). change (prod (n :: s)) with (n * prod s). split; [nia|]. cbn [indices].
  assert (L := indices_length s H3).
  replace (Z.to_nat (i * prod s + o)) with (Z.to_nat i * length (indices s) + Z.to_nat o)%nat
    by (apply Nat2Z.inj; rewrite Nat2Z.inj_add, Nat2Z.inj_mul, L, !Z2Nat.id; nia).
  rewrite (nth_error_flat_map _ (length (indices s)) _ _ _ i).
  - apply map_nth_error; auto.
  - intros; apply map_length.
  - rewrite (nth_error_nth' _ 0) by (rewrite zrange_length; lia).
    rewrite nth_zrange by lia. f_equal. lia.
  - apply Nat2Z.inj_lt. rewrite L, Z2Nat.id; lia.
Qed.

Lemma indices_in s ix : In ix (indices s) -> Forall2 (fun i n => 0 <= i < n) ix s.
Proof.
  revert ix; induction s as [|n s IH]; intros ix H; cbn [indices] in H.
  - destruct H as [<-|[]]. constructor.
  - apply in_flat_map in H as (i & Hi & H). apply in_map_iff in H as (ix' & <- & H).
    constructor; [apply zrange_in in Hi; lia|auto].
Qed.

Section Stack.
  Context {T : Type}.

  Let pick (a : ndarray T) (ix : list Z) : list T := match item a ix with Some v => [v] | None => [] end.

  Lemma pick_one (a : ndarray T) s : whole a -> shape a = s -> forall ix, In ix (indices s) -> length (pick a ix) = 1%nat.
  Proof.
    intros W <- ix H. destruct (W ix (indices_in _ _ H)) as (v & E). unfold pick. rewrite E. reflexivity.
  Qed.

  Lemma items_length (a : ndarray T) s : whole a -> shape a = s -> all_nonneg s -> Z.of_nat (length (items a)) = prod s.
  Proof.
    intros W E H. unfold items. rewrite E. change (Z.of_nat (length (flat_map (pick a) (indices s))) = prod s).
    rewrite (flat_map_length_const _ 1) by (apply pick_one; auto). rewrite Nat.mul_1_r. apply indices_length; auto.
  Qed.

  Lemma items_nth (a : ndarray T) s k ix : whole a -> shape a = s ->
    nth_error (indices s) k = Some ix -> nth_error (items a) k = item a ix.
  Proof.
    intros W E H. unfold items. rewrite E. change (nth_error (flat_map (pick a) (indices s)) k = item a ix).
    replace k with (k * 1 + 0)%nat by lia.
    rewrite (nth_error_flat_map _ 1 _ _ _ ix); auto; [|apply pick_one; auto].
    destruct (W ix) as (v & V); [rewrite E; apply indices_in; eapply nth_error_In; eauto|].
    unfold pick. rewrite V. reflexivity.
  Qed.

  Lemma item_outside (a : ndarray T) ix : ~ Forall2 (fun i n => 0 <= i < n) ix (shape a) -> item a ix = None.
  Proof.
    intros H. unfold item. destruct (offset (shape a) (strides a) ix) eqn:E; auto. elim H. eapply offset_range; eauto.
  Qed.

  Lemma same_shape_eq s t : same_shape s t = true <-> s = t.
  Proof.
    revert t; induction s as [|x s IH]; intros [|y t]; cbn; try (split; [discriminate|discriminate]); [tauto|].
    rewrite andb_true_iff, Z.eqb_eq, IH. split; [intros (-> & ->); auto|]. injection 1; auto.
  Qed.

  Lemma stack_ok (l : list (ndarray T)) s : l <> [] -> all_nonneg s ->
    (forall a, In a l -> whole a /\ shape a = s) ->
    exists r, stack l = Ok r /\ shape r = Z.of_nat (length l) :: s /\
      forall b a ix, nth_error l b = Some a -> item r (Z.of_nat b :: ix) = item a ix.
  Proof.
    intros Hl Hs H. destruct l as [|a0 l0] eqn:El; [contradiction|]. rewrite <- El in *.
    assert (S0 : shape a0 = s) by (apply H; rewrite El; left; auto).
    exists (ND (Z.of_nat (length l) :: s) (row_major (Z.of_nat (length l) :: s)) (flat_map items l)).
    split; [|split; [reflexivity|]].
    - unfold stack. rewrite El at 1. rewrite S0.
      replace (forallb _ l) with true; auto. symmetry. apply forallb_forall. intros b Hb.
      apply same_shape_eq. apply H in Hb as [_ E]. congruence.
    - intros b a ix Hb. assert (Ha := nth_error_In _ _ Hb). destruct (H a Ha) as [W E].
      assert (Lb : (b < length l)%nat) by (apply nth_error_Some; congruence).
      unfold item at 1. cbn [shape strides buffer row_major offset].
      rewrite in_range by lia.
      destruct (offset s (row_major s) ix) as [o|] eqn:Eo.
      + assert (R := offset_range _ _ _ _ Eo).
        destruct (offset_row_major s ix Hs R) as (o' & Eo' & Ro & N). rewrite Eo in Eo'. injection Eo' as <-.
        assert (Li : forall x, In x l -> length (items x) = Z.to_nat (prod s)).
        { intros x Hx. destruct (H x Hx). apply Nat2Z.inj. rewrite (items_length x s); auto. rewrite Z2Nat.id; lia. }
        replace (Z.to_nat (Z.of_nat b * prod s + o)) with (b * Z.to_nat (prod s) + Z.to_nat o)%nat
          by (apply Nat2Z.inj; rewrite Nat2Z.inj_add, Nat2Z.inj_mul, !Z2Nat.id; nia).
        rewrite (nth_error_flat_map _ (Z.to_nat (prod s)) _ _ _ a); auto; [|lia].
        apply (items_nth a s); auto.
      + symmetry. apply item_outside. rewrite E. intros R.
        destruct (offset_row_major s ix Hs R) as (o & Eo' & _). congruence.
  Qed.

  Lemma stack_different l (a b : ndarray T) : In a l -> In b l -> shape a <> shape b ->
    stack l = Throw "InvalidArgumentError".
  Proof.
    intros Ha Hb N. unfold stack. destruct l as [|a0 l0] eqn:El; [contradiction|]. rewrite <- El in *.
    replace (forallb _ l) with false; auto. symmetry. apply not_true_iff_false. intros F.
    rewrite forallb_forall in F. apply N. transitivity (shape a0).
    - apply same_shape_eq, F; auto.
    - symmetry. apply same_shape_eq, F; auto.
  Qed.
End Stack.

(** The single results, one batch element after the other. *)
Lemma batch_fold envs rs ps (Q : nat -> ndarray binary32 -> ndarray binary32 -> Prop) size :
  0 <= size ->
  (forall b, (b < Z.to_nat size)%nat -> exists env r p a g,
     nth_error envs b = Some env /\ nth_error rs b = Some r /\ nth_error ps b = Some p /\
     compute_sdf_and_gradient_3d env r p = Ok (a, g) /\ Q b a g) ->
  exists la lg,
    foldM (fun acc b =>
        let* env := at_batch envs b in
        let* r := at_batch rs b in
        let* p := at_batch ps b in
        let* ag := compute_sdf_and_gradient_3d env r p in
        Ok (fst acc ++ [fst ag], snd acc ++ [snd ag])) (zrange size) ([], []) = Ok (la, lg) /\
    length la = Z.to_nat size /\ length lg = Z.to_nat size /\
    forall b a g, nth_error la b = Some a -> nth_error lg b = Some g -> Q b a g.
Proof.
  intros Hs H.
  destruct (zloop_inv (fun acc b =>
        let* env := at_batch envs b in
        let* r := at_batch rs b in
        let* p := at_batch ps b in
        let* ag := compute_sdf_and_gradient_3d env r p in
        Ok (fst acc ++ [fst ag], snd acc ++ [snd ag]))
    (fun k acc => length (fst acc) = Z.to_nat k /\ length (snd acc) = Z.to_nat k /\
       forall b a g, nth_error (fst acc) b = Some a -> nth_error (snd acc) b = Some g -> Q b a g)
    size ([], [])) as ([la lg] & E & J); auto.
  - cbn. repeat split; auto. intros [|b]; discriminate.
  - intros k [la lg] Hk (La & Lg & K). cbn [fst snd] in *.
    destruct (H (Z.to_nat k)) as (env & r & p & a & g & E1 & E2 & E3 & E4 & Eq); [lia|].
    unfold at_batch. rewrite E1, E2, E3. cbn [bind]. rewrite E4. cbn [bind fst snd].
    eexists. split; [reflexivity|]. cbn [fst snd]. rewrite !app_length, La, Lg. cbn [length].
    do 2 (split; [lia|]). intros b a' g' A G.
    destruct (Nat.lt_ge_cases b (Z.to_nat k)) as [Lt|Ge].
    + rewrite nth_error_app1 in A by lia. rewrite nth_error_app1 in G by lia. eauto.
    + rewrite nth_error_app2 in A by lia. rewrite nth_error_app2 in G by lia. rewrite La in A. rewrite Lg in G.
      destruct (b - Z.to_nat k)%nat as [|m] eqn:Em; cbn in A, G.
      * injection A as <-. injection G as <-. replace b with (Z.to_nat k) by lia. auto.
      * destruct m; discriminate.
  - exists la, lg. cbn [fst snd] in J. tauto.
Qed.

Lemma whole_single env d r p : env_3d env d -> size_ok d -> 0 < ncells d -> usable_resolution r ->
  exists a g, compute_sdf_and_gradient_3d env r p = Ok (a, g) /\
    whole a /\ shape a = [ny d; nx d; nz d] /\ whole g /\ shape g = [ny d; nx d; nz d; 3].
Proof.
  intros He Hs P Hr. destruct (python_3d env d r p He Hs P Hr) as (s & a & g & _ & E & _ & Sa & Sg & K).
  exists a, g. split; auto.
  assert (L : forall x y z, 0 <= x < nx d -> 0 <= y < ny d -> 0 <= z < nz d -> in_bounds d (I x y z) = true).
  { intros x y z A B C. apply bounds_of. auto. }
  split; [|split; [auto|split; auto]].
  - intros l H. rewrite Sa in H.
    inversion H as [|y n l1 s1 A H1]; subst. inversion H1 as [|x m l2 s2 B H2]; subst.
    inversion H2 as [|z o l3 s3 C H3]; subst. inversion H3; subst.
    destruct (K x y z (L _ _ _ B A C)) as (v & w & _ & V & _). eauto.
  - intros l H. rewrite Sg in H.
    inversion H as [|y n l1 s1 A H1]; subst. inversion H1 as [|x m l2 s2 B H2]; subst.
    inversion H2 as [|z o l3 s3 C H3]; subst. inversion H3 as [|c q l4 s4 F H4]; subst. inversion H4; subst.
    destruct (K x y z (L _ _ _ B A C)) as (v & w & _ & _ & _ & _ & _ & V0 & V1 & V2).
    assert (Hc : c = 0 \/ c = 1 \/ c = 2) by lia. destruct Hc as [->|[->| ->]]; eauto.
Qed.

Lemma batch_ok envs rs ps size d : 0 < size -> size_ok d -> 0 < ncells d ->
  (forall b, (b < Z.to_nat size)%nat -> exists env r p,
     nth_error envs b = Some env /\ nth_error rs b = Some r /\ nth_error ps b = Some p /\
     env_3d env d /\ usable_resolution r) ->
  exists a g, compute_batch envs rs ps size = Ok (a, g) /\
    shape a = [size; ny d; nx d; nz d] /\ shape g = [size; ny d; nx d; nz d; 3] /\
    forall b env r p, (b < Z.to_nat size)%nat ->
      nth_error envs b = Some env -> nth_error rs b = Some r -> nth_error ps b = Some p ->
      exists a_b g_b, compute_sdf_and_gradient_3d env r p = Ok (a_b, g_b) /\
        forall ix, item a (Z.of_nat b :: ix) = item a_b ix /\ item g (Z.of_nat b :: ix) = item g_b ix.
Proof.
  intros Hz Hs P H.
  destruct (batch_fold envs rs ps (fun b a g =>
     (exists env r p, nth_error envs b = Some env /\ nth_error rs b = Some r /\ nth_error ps b = Some p /\
      compute_sdf_and_gradient_3d env r p = Ok (a, g)) /\
     whole a /\ shape a = [ny d; nx d; nz d] /\ whole g /\ shape g = [ny d; nx d; nz d; 3]) size)
    as (la & lg & E & La & Lg & K); [lia| |].
  { intros b Hb. destruct (H b Hb) as (env & r & p & E1 & E2 & E3 & He & Hr).
    destruct (whole_single env d r p He Hs P Hr) as (a & g & E & Q).
    exists env, r, p, a, g. do 4 (split; auto). split; auto. eauto 10. }
  assert (Pair : forall b, (b < Z.to_nat size)%nat -> exists a g, nth_error la b = Some a /\ nth_error lg b = Some g).
  { intros b Hb. destruct (nth_error la b) as [a|] eqn:Ea; [|apply nth_error_None in Ea; lia].
    destruct (nth_error lg b) as [g|] eqn:Eg; [|apply nth_error_None in Eg; lia]. eauto. }
  assert (N : 0 <= nx d /\ 0 <= ny d /\ 0 <= nz d) by (destruct Hs; lia).
  destruct (stack_ok la [ny d; nx d; nz d]) as (a & Ea & Sa & Ka).
  { intros ->. cbn in La. lia. }
  { repeat constructor; lia. }
  { intros x Hx. apply In_nth_error in Hx as (b & Hb).
    destruct (Pair b) as (a & g & A & G); [rewrite <- La; apply nth_error_Some; congruence|].
    rewrite Hb in A. injection A as <-. destruct (K b x g Hb G). tauto. }
  destruct (stack_ok lg [ny d; nx d; nz d; 3]) as (g & Eg & Sg & Kg).
  { intros ->. cbn in Lg. lia. }
  { repeat constructor; lia. }
  { intros x Hx. apply In_nth_error in Hx as (b & Hb).
    destruct (Pair b) as (a' & g & A & G); [rewrite <- Lg; apply nth_error_Some; congruence|].
    rewrite Hb in G. injection G as <-. destruct (K b a' x A Hb). tauto. }
  exists a, g. unfold compute_batch. rewrite E. cbn [bind fst snd]. rewrite Ea. cbn [bind]. rewrite Eg. cbn [bind].
  split; auto. rewrite La, Z2Nat.id in Sa by lia. rewrite Lg, Z2Nat.id in Sg by lia. do 2 (split; auto).
  intros b env r p Hb E1 E2 E3. destruct (Pair b Hb) as (a_b & g_b & A & G).
  destruct (K b a_b g_b A G) as ((env' & r' & p' & F1 & F2 & F3 & F) & _).
  rewrite E1 in F1. injection F1 as <-. rewrite E2 in F2. injection F2 as <-. rewrite E3 in F3. injection F3 as <-.
  exists a_b, g_b. split; auto. 
Qed.

Lemma batch_empty envs rs ps size : size <= 0 -> compute_batch envs rs ps size = Throw "ValueError".
Proof.
  intros H. unfold compute_batch, zrange. replace (Z.to_nat size) with 0%nat by lia. reflexivity.
Qed.

Lemma batch_different envs rs ps size (ds : nat -> dims) b c : 0 <= size ->
  (forall b, (b < Z.to_nat size)%nat -> size_ok (ds b) /\ 0 < ncells (ds b) /\ exists env r p,
     nth_error envs b = Some env /\ nth_error rs b = Some r /\ nth_error ps b = Some p /\
     env_3d env (ds b) /\ usable_resolution r) ->
  (b < Z.to_nat size)%nat -> (c < Z.to_nat size)%nat -> ds b <> ds c ->
  compute_batch envs rs ps size = Throw "InvalidArgumentError".
Proof.
  intros Hz H Hb Hc N.
  destruct (batch_fold envs rs ps (fun b a g => shape a = [ny (ds b); nx (ds b); nz (ds b)]) size)
    as (la & lg & E & La & Lg & K); auto.
  { intros n Hn. destruct (H n Hn) as (Hs & P & env & r & p & E1 & E2 & E3 & He & Hr).
    destruct (whole_single env (ds n) r p He Hs P Hr) as (a & g & E & _ & S & _).
    exists env, r, p, a, g. auto. }
  unfold compute_batch. rewrite E. cbn [bind fst snd].
  assert (G : forall n, (n < Z.to_nat size)%nat -> exists a, nth_error la n = Some a /\ shape a = [ny (ds n); nx (ds n); nz (ds n)]).
  { intros n Hn. destruct (nth_error la n) as [a|] eqn:Ea; [|apply nth_error_None in Ea; lia].
    destruct (nth_error lg n) as [g|] eqn:Eg; [|apply nth_error_None in Eg; lia]. eauto. }
  destruct (G b Hb) as (x & Ex & Sx). destruct (G c Hc) as (y & Ey & Sy).
  rewrite (stack_different la x y); [reflexivity|eapply nth_error_In; eauto ..|].
  rewrite Sx, Sy. intros Q. injection Q as Q1 Q2 Q3. apply N. destruct (ds b), (ds c); cbn in *; congruence.
Qed.

Lemma tenth_value : (Rabs (B2R 24 128 tenth - 1 / 10) <= bpow radix2 (-28))%R.
Proof.
  unfold tenth, B2R, F2R. cbn [Fnum Fexp cond_Zopp]. cbv [bpow].
  change (Z.pow_pos radix2 27) with 134217728%Z. change (Z.pow_pos radix2 28) with 268435456%Z.
  apply Rabs_le. split; lra.
Qed.

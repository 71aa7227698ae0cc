(** Proofs about the builder. *)
From Coq Require Import Lia Reals Lra.
From Flocq Require Import Core.Core IEEE754.Binary.
From Verif Require Import Base BaseFacts Floats Grid GridFacts DistSpec SdfGen SdfSpec SdfGenProofs SdfThms SdfBorderThms Builder BuilderSpec.
Local Open Scope Z_scope.

(** ** The conversion to uint8_t *)
Lemma truncate_spec v : is_finite 24 128 v = true -> truncate32 v = Some (Ztrunc (B2R 24 128 v)).
Proof.
  destruct v as [s|s|s p H|s m e H]; intros F; try discriminate; cbn [truncate32].
  - cbn [B2R]. change 0%R with (IZR 0). rewrite Ztrunc_IZR. reflexivity.
  - f_equal. cbn [B2R]. unfold F2R. cbn [Fnum Fexp].
    assert (A : Ztrunc (IZR (Z.pos m) * bpow radix2 e) = if e <? 0 then Z.pos m / 2 ^ (- e) else Z.pos m * 2 ^ e).
    { destruct (Z.ltb_spec e 0) as [Le|Le].
      - rewrite Ztrunc_floor by (apply Rmult_le_pos; [apply IZR_le; lia|apply bpow_ge_0]).
        replace (bpow radix2 e) with (/ IZR (2 ^ (- e)))%R.
        + change (IZR (Z.pos m) * / IZR (2 ^ (- e)))%R with (IZR (Z.pos m) / IZR (2 ^ (- e)))%R.
          apply Zfloor_div. apply Z.pow_nonzero; lia.
        + replace e with (- - e) at 2 by lia. rewrite bpow_opp. f_equal. rewrite <- IZR_Zpower by lia. reflexivity.
      - rewrite <- IZR_Zpower by lia. rewrite <- mult_IZR, Ztrunc_IZR. reflexivity. }
    destruct s; cbn [cond_Zopp].
    + rewrite opp_IZR, Ropp_mult_distr_l_reverse, Ztrunc_opp, A. reflexivity.
    + rewrite A. reflexivity.
Qed.

Lemma uint8_fits v : fits_uint8 v -> exists z, uint8_of_float v = Ok z.
Proof.
  intros (F & L). unfold uint8_of_float. rewrite (truncate_spec v F).
  destruct (Z.leb_spec 0 (Ztrunc (B2R 24 128 v))); [|lia].
  destruct (Z.leb_spec (Ztrunc (B2R 24 128 v)) 255); [|lia]. cbn [andb]. eauto.
Qed.
Lemma uint8_undefined v : ~ fits_uint8 v -> exists e, uint8_of_float v = UB e.
Proof.
  intros N. unfold uint8_of_float. destruct (is_finite 24 128 v) eqn:F.
  - rewrite (truncate_spec v F).
    destruct (Z.leb_spec 0 (Ztrunc (B2R 24 128 v))); cbn [andb]; [|eauto].
    destruct (Z.leb_spec (Ztrunc (B2R 24 128 v)) 255); cbn [andb]; [|eauto]. exfalso. apply N. split; auto.
  - destruct v; try discriminate; eexists; reflexivity.
Qed.

Lemma asks_mode mode : mode_request mode = asks mode.
Proof.
  unfold mode_request, asks.
  destruct (Z.eqb_spec mode 2); [subst; reflexivity|]. destruct (Z.eqb_spec mode 1); [subst; reflexivity|].
  destruct (Z.eqb_spec mode 3); [subst; reflexivity|].
  destruct mode as [|[[p|p|]|[p|p|]|]|p]; try reflexivity; lia.
Qed.

Section Proofs.
  Context {scene msg point : Type}.
  Variable fresh_scene : scene.
  Variable use_msg : scene -> msg -> scene.
  Variable no_answer : msg.
  Variable collides : scene -> point -> bool.
  Variable location : idx -> point.
  Variable d : dims.

  Notation run := (run use_msg no_answer collides location d).
  Notation do_call := (do_call use_msg no_answer collides location d).
  Notation update_sdf := (update_sdf use_msg no_answer collides location d).
  Notation update_map := (update_map use_msg no_answer collides location d).
  Notation messages := (messages no_answer).
  Notation new_builder := (new_builder fresh_scene).

  (** What a client knows after some calls with outcomes [os], messages [ms]. *)
  Record knows (frame : string) (r : binary64) (oob : binary32) (ms : list msg) (os : list outcome)
      (b : builder scene) : Prop := {
    k_init : b_initialized b = true;
    k_res : b_res b = r; k_oob : b_oob b = oob; k_frame : b_frame b = frame;
    k_scene : b_scene b = Some (fold_left use_msg ms fresh_scene);
    k_has_scene : b_has_scene b = match ms with [] => false | _ => true end;
    k_has_sdf : b_has_sdf b = match last_sdf os with Some _ => true | None => false end;
    k_sdf : forall f, last_sdf os = Some f -> b_sdf b = f;
    k_has_map : b_has_map b = match last_map os with Some _ => true | None => false end;
    k_map : forall g, last_map os = Some g -> b_map b = g }.

  Lemma last_sdf_snoc os o : last_sdf (os ++ [o]) = match o with GotSdf (Ok f) => Some f | _ => last_sdf os end.
  Proof. unfold last_sdf. rewrite fold_left_app. reflexivity. Qed.
  Lemma last_map_snoc os o : last_map (os ++ [o]) = match o with GotMap (Ok g) => Some g | _ => last_map os end.
  Proof. unfold last_map. rewrite fold_left_app. reflexivity. Qed.

  Lemma knows_scene frame r oob ms os b m : knows frame r oob ms os b ->
    knows frame r oob (ms ++ [m]) os (with_scene b (use_msg (fold_left use_msg ms fresh_scene) m)).
  Proof.
    intros [K1 K2 K3 K4 K5 K6 K7 K8 K9 K10].
    constructor; cbn [with_scene b_initialized b_res b_oob b_frame b_scene b_has_scene b_has_sdf b_sdf b_has_map b_map]; auto.
    - rewrite fold_left_app. reflexivity.
    - destruct ms; reflexivity.
  Qed.

  (** An outcome that carries no field and no map leaves everything known as is. *)
  Lemma knows_more frame r oob ms os b o : knows frame r oob ms os b ->
    match o with GotSdf (Ok _) | GotMap (Ok _) => False | _ => True end ->
    knows frame r oob ms (os ++ [o]) b.
  Proof.
    intros [K1 K2 K3 K4 K5 K6 K7 K8 K9 K10] Ho.
    assert (E1 : last_sdf (os ++ [o]) = last_sdf os) by (rewrite last_sdf_snoc; destruct o as [?|[?|?|?]|[?|?|?]]; tauto).
    assert (E2 : last_map (os ++ [o]) = last_map os) by (rewrite last_map_snoc; destruct o as [?|[?|?|?]|[?|?|?]]; tauto).
    constructor; rewrite ?E1, ?E2; auto.
  Qed.

  Lemma sdf_knows frame r oob ms os b : knows frame r oob ms os b ->
    let (b', o) := sdf_from_scene collides location d b in knows frame r oob ms (os ++ [GotSdf o]) b'.
  Proof.
    intros K. unfold sdf_from_scene. rewrite (k_scene _ _ _ _ _ _ K).
    destruct (uint8_of_float (b_oob b)) as [z|e|e]; try (apply knows_more; [exact K|exact Logic.I]).
    destruct (extract_sdf_grid _ _ _ _ _ _ _ _) as [[f x]|e|e]; try (apply knows_more; [exact K|exact Logic.I]).
    destruct K as [K1 K2 K3 K4 K5 K6 K7 K8 K9 K10].
    constructor; cbn [with_sdf b_initialized b_res b_oob b_frame b_scene b_has_scene b_has_sdf b_sdf b_has_map b_map];
      rewrite ?last_sdf_snoc, ?last_map_snoc; auto.
    congruence.
  Qed.
  Lemma map_knows frame r oob ms os b : knows frame r oob ms os b ->
    let (b', o) := map_from_scene collides location d b in knows frame r oob ms (os ++ [GotMap o]) b'.
  Proof.
    intros K. unfold map_from_scene. rewrite (k_scene _ _ _ _ _ _ K).
    destruct K as [K1 K2 K3 K4 K5 K6 K7 K8 K9 K10].
    constructor; cbn [with_map b_initialized b_res b_oob b_frame b_scene b_has_scene b_has_sdf b_sdf b_has_map b_map];
      rewrite ?last_sdf_snoc, ?last_map_snoc; auto.
    congruence.
  Qed.

  Lemma call_knows frame r oob ms os b c : knows frame r oob ms os b ->
    let (b', o) := do_call b c in knows frame r oob (ms ++ message_of no_answer c) (os ++ [o]) b'.
  Proof.
    intros K. destruct c as [m|mode answer|mode answer]; cbn [do_call message_of].
    - unfold Builder.do_call, receive_scene. rewrite (k_scene _ _ _ _ _ _ K).
      apply knows_more; [|exact Logic.I]. apply knows_scene. exact K.
    - unfold Builder.do_call, Builder.update_sdf, update. rewrite (k_init _ _ _ _ _ _ K). cbn [negb].
      destruct (Z.eqb_spec mode 0) as [->|N0].
      + cbn [asks]. rewrite app_nil_r. destruct (b_has_scene b).
        * pose proof (sdf_knows frame r oob ms os b K) as S. destruct (sdf_from_scene _ _ _ b). exact S.
        * apply knows_more; [exact K|exact Logic.I].
      + rewrite asks_mode. destruct (asks mode) as [q|].
        * rewrite (k_scene _ _ _ _ _ _ K). set (m := match answer q with Some m => m | None => no_answer end).
          pose proof (sdf_knows frame r oob _ os _ (knows_scene frame r oob ms os b m K)) as S.
          destruct (sdf_from_scene _ _ _ _). exact S.
        * rewrite app_nil_r. apply knows_more; [exact K|exact Logic.I].
    - unfold Builder.do_call, Builder.update_map, update. rewrite (k_init _ _ _ _ _ _ K). cbn [negb].
      destruct (Z.eqb_spec mode 0) as [->|N0].
      + cbn [asks]. rewrite app_nil_r. destruct (b_has_scene b).
        * pose proof (map_knows frame r oob ms os b K) as S. destruct (map_from_scene _ _ _ b). exact S.
        * apply knows_more; [exact K|exact Logic.I].
      + rewrite asks_mode. destruct (asks mode) as [q|].
        * rewrite (k_scene _ _ _ _ _ _ K). set (m := match answer q with Some m => m | None => no_answer end).
          pose proof (map_knows frame r oob _ os _ (knows_scene frame r oob ms os b m K)) as S.
          destruct (map_from_scene _ _ _ _). exact S.
        * rewrite app_nil_r. apply knows_more; [exact K|exact Logic.I].
  Qed.

  Lemma run_knows frame r oob l : forall ms os b, knows frame r oob ms os b ->
    let (b', os') := run b l in knows frame r oob (ms ++ messages l) (os ++ os') b'.
  Proof.
    induction l as [|c l IH]; intros ms os b K; cbn [Builder.run].
    - rewrite !app_nil_r. exact K.
    - pose proof (call_knows frame r oob ms os b c K) as S. destruct (do_call b c) as [b1 o].
      pose proof (IH _ _ _ S) as T. destruct (run b1 l) as [b2 os2].
      unfold BuilderSpec.messages. cbn [flat_map]. rewrite !app_assoc. change (o :: os2) with ([o] ++ os2).
      rewrite app_assoc. exact T.
  Qed.

  Lemma new_knows frame r oob : knows frame r oob [] [] (new_builder frame r oob).
  Proof. constructor; try reflexivity; cbn; discriminate. Qed.

  Lemma history_knows frame r oob l b os : run (new_builder frame r oob) l = (b, os) ->
    knows frame r oob (messages l) os b.
  Proof.
    intros E. pose proof (run_knows frame r oob l [] [] _ (new_knows frame r oob)) as K.
    rewrite E in K. exact K.
  Qed.

  (** ** Caches *)
  Lemma cached_sdf_last frame r oob l b os : run (new_builder frame r oob) l = (b, os) ->
    cached_sdf b = match last_sdf os with Some f => Ok f | None => Throw "No cached SDF available" end.
  Proof.
    intros E. pose proof (history_knows _ _ _ _ _ _ E) as K. unfold cached_sdf.
    rewrite (k_has_sdf _ _ _ _ _ _ K). destruct (last_sdf os) eqn:L; auto. rewrite (k_sdf _ _ _ _ _ _ K _ L). reflexivity.
  Qed.
  Lemma cached_map_last frame r oob l b os : run (new_builder frame r oob) l = (b, os) ->
    cached_map b = match last_map os with Some g => Ok g | None => Throw "No cached Collision Map available" end.
  Proof.
    intros E. pose proof (history_knows _ _ _ _ _ _ E) as K. unfold cached_map.
    rewrite (k_has_map _ _ _ _ _ _ K). destruct (last_map os) eqn:L; auto. rewrite (k_map _ _ _ _ _ _ K _ L). reflexivity.
  Qed.

  Lemma unknown_mode frame r oob l b os mode answer : run (new_builder frame r oob) l = (b, os) ->
    ~ 0 <= mode <= 3 ->
    update_sdf b mode answer = (b, Throw "Invalid update mode (mode not recognized)") /\
    update_map b mode answer = (b, Throw "Invalid update mode (mode not recognized)").
  Proof.
    intros E N. pose proof (history_knows _ _ _ _ _ _ E) as K.
    unfold Builder.update_sdf, Builder.update_map, update. rewrite (k_init _ _ _ _ _ _ K). cbn [negb].
    destruct (Z.eqb_spec mode 0); [lia|]. rewrite asks_mode.
    assert (A : asks mode = None).
    { unfold asks. destruct mode as [|[[p|p|]|[p|p|]|]|p]; try reflexivity; lia. }
    rewrite A. auto.
  Qed.

  Lemma no_scene_yet frame r oob l b os answer : run (new_builder frame r oob) l = (b, os) ->
    messages l = [] ->
    update_sdf b 0 answer = (b, Throw "No planning scene available") /\
    update_map b 0 answer = (b, Throw "No planning scene available").
  Proof.
    intros E N. pose proof (history_knows _ _ _ _ _ _ E) as K.
    unfold Builder.update_sdf, Builder.update_map, update. rewrite (k_init _ _ _ _ _ _ K), (k_has_scene _ _ _ _ _ _ K), N. auto.
  Qed.

  (** ** What an update returns *)
  Definition scene_after (l : list (call msg)) : scene := fold_left use_msg (messages l) fresh_scene.

  (** An update that does not throw builds from the scene after its own message. *)
  Lemma update_builds {R} (build : builder scene -> builder scene * res R) frame r oob l b os mode answer c :
    run (new_builder frame r oob) l = (b, os) ->
    c = UpdateSdf mode answer \/ c = UpdateMap mode answer ->
    (mode = 0 /\ messages l <> []) \/ 1 <= mode <= 3 ->
    exists b', update use_msg no_answer build b mode answer = build b' /\
      knows frame r oob (messages (l ++ [c])) os b'.
  Proof.
    intros E Hc Hm. pose proof (history_knows _ _ _ _ _ _ E) as K.
    assert (Em : messages (l ++ [c]) = messages l ++ match asks mode with
                   Some q => [match answer q with Some m => m | None => no_answer end] | None => [] end).
    { unfold BuilderSpec.messages. rewrite flat_map_app. f_equal. cbn [flat_map]. rewrite app_nil_r.
      destruct Hc as [Hc|Hc]; subst c; reflexivity. }
    unfold update. rewrite (k_init _ _ _ _ _ _ K). cbn [negb].
    destruct Hm as [(-> & N)|Hm].
    - cbn [Z.eqb asks] in *. rewrite app_nil_r in Em. rewrite (k_has_scene _ _ _ _ _ _ K).
      destruct (messages l) eqn:M; [contradiction|]. exists b. rewrite Em. auto.
    - destruct (Z.eqb_spec mode 0); [lia|]. rewrite asks_mode.
      assert (exists q, asks mode = Some q) as (q & Q).
      { assert (mode = 1 \/ mode = 2 \/ mode = 3) as [H|[H|H]] by lia; subst mode; cbn; eauto. }
      rewrite Q in *. rewrite (k_scene _ _ _ _ _ _ K).
      eexists. split; [reflexivity|]. rewrite Em. apply knows_scene. exact K.
  Qed.

  Lemma map_shows_scene frame r oob l b os mode answer :
    run (new_builder frame r oob) l = (b, os) ->
    (mode = 0 /\ messages l <> []) \/ 1 <= mode <= 3 -> 0 <= nx d -> 0 <= ny d -> 0 <= nz d ->
    exists g, snd (update_map b mode answer) = Ok g /\ gdims g = d /\ goob g = 0 /\
      forall i, in_bounds d i = true ->
        get g i = ((if collides (scene_after (l ++ [UpdateMap mode answer])) (location i) then 1 else 0), true).
  Proof.
    intros E Hm Dx Dy Dz.
    destruct (update_builds (map_from_scene collides location d) frame r oob l b os mode answer _ E (or_intror eq_refl) Hm)
      as (b' & U & K).
    unfold Builder.update_map. rewrite U. unfold map_from_scene. rewrite (k_scene _ _ _ _ _ _ K).
    fold (scene_after (l ++ [UpdateMap mode answer])). set (sc := scene_after _). cbn [snd].
    eexists. split; [reflexivity|].
    set (v := fun i => if collides sc (location i) then 1 else 0).
    assert (F : forall L (g : grid Z), wf_grid g -> gdims g = d -> goob g = 0 -> (forall i, In i L -> in_bounds d i = true) ->
      let g' := fold_left (fun g i => fst (set g i (v i))) L g in
      wf_grid g' /\ gdims g' = d /\ goob g' = 0 /\
      forall i, in_bounds d i = true -> gget g' i = if in_dec idx_eq_dec i L then v i else gget g i).
    { induction L as [|j L IH]; intros g W Dg O Bd; cbn [fold_left].
      - do 3 (split; [auto|]). intros i _. destruct (in_dec _ _ _) as [[]|_]. reflexivity.
      - destruct (IH (fst (set g j (v j)))) as (A1 & A2 & A3 & A4).
        + change (fst (set g j (v j))) with (gset g j (v j)). apply gset_wf. exact W.
        + change (fst (set g j (v j))) with (gset g j (v j)). rewrite gset_dims. exact Dg.
        + change (fst (set g j (v j))) with (gset g j (v j)). rewrite gset_oob. exact O.
        + intros i Hi. apply Bd. right. exact Hi.
        + split; [exact A1|]. split; [exact A2|]. split; [exact A3|]. intros i Hi. rewrite (A4 i Hi).
          destruct (in_dec idx_eq_dec i (j :: L)) as [n|n], (in_dec idx_eq_dec i L) as [n'|n']; auto.
          * destruct n as [<-|n]; [|contradiction]. change (fst (set g j (v j))) with (gset g j (v j)). rewrite gget_gset by (rewrite ?Dg; auto).
            rewrite idx_eqb_refl. reflexivity.
          * exfalso. apply n. right. exact n'.
          * change (fst (set g j (v j))) with (gset g j (v j)). destruct (idx_eq_dec i j) as [<-|Nj]; [exfalso; apply n; left; reflexivity|].
            rewrite gget_gset by (rewrite ?Dg; auto; apply Bd; left; reflexivity).
            destruct (idx_eqb_spec j i); auto; congruence. }
    destruct (F (sweep d) (mk_grid d 0 0) (mk_grid_wf _ _ _ Dx Dy Dz) eq_refl eq_refl (fun i Hi => proj1 (sweep_in d i) Hi))
      as (A1 & A2 & A3 & A4).
    split; [exact A2|]. split; [exact A3|]. intros i Hi. rewrite get_eq. unfold v in *. rewrite A2, Hi, (A4 i Hi).
    destruct (in_dec idx_eq_dec i (sweep d)) as [_|n]; [reflexivity|]. exfalso. apply n. apply sweep_in. exact Hi.
  Qed.

  Lemma sdf_shows_scene frame r oob l b os mode answer :
    run (new_builder frame r oob) l = (b, os) ->
    (mode = 0 /\ messages l <> []) \/ 1 <= mode <= 3 ->
    size_ok d -> usable_resolution r -> fits_uint8 oob ->
    exists f, snd (update_sdf b mode answer) = Ok f /\
      sdf_dims f = d /\ s_res f = r /\ s_frame f = frame /\ goob (s_grid f) = oob /\ s_locked f = false /\
      forall i, in_bounds d i = true -> exists v, sdf_get f i = (v, true) /\
        if collides (scene_after (l ++ [UpdateSdf mode answer])) (location i)
        then lt32 v zero32 = true else gt32 v zero32 = true.
  Proof.
    intros E Hm Hs Hr Ho.
    destruct (update_builds (sdf_from_scene collides location d) frame r oob l b os mode answer _ E (or_introl eq_refl) Hm)
      as (b' & U & K).
    unfold Builder.update_sdf. rewrite U. unfold sdf_from_scene. rewrite (k_scene _ _ _ _ _ _ K).
    fold (scene_after (l ++ [UpdateSdf mode answer])). set (sc := scene_after _).
    rewrite (k_oob _ _ _ _ _ _ K), (k_res _ _ _ _ _ _ K), (k_frame _ _ _ _ _ _ K).
    destruct (uint8_fits oob Ho) as (z & ->).
    unfold extract_sdf_grid. rewrite ne64_refl by exact Hr. cbn [orb negb].
    destruct (extract_sign d r oob frame (fun i => Ok (collides sc (location i))) (fun i => collides sc (location i)))
      as (f & x & Ef & Fd & Fr & Ff & Fl & Fo & V); auto.
    { intros i _. reflexivity. }
    rewrite Ef. cbn [snd]. exists f. do 6 (split; [auto|]). intros i Hi.
    destruct (V i Hi) as (v & G & _ & H1 & H2). exists v. split; auto.
    destruct (collides sc (location i)); auto.
  Qed.

  (** The conversion of the out-of-bounds value decides. *)
  Lemma update_undefined frame r oob l b os mode answer :
    run (new_builder frame r oob) l = (b, os) ->
    (mode = 0 /\ messages l <> []) \/ 1 <= mode <= 3 -> ~ fits_uint8 oob ->
    is_ub (snd (update_sdf b mode answer)) = true.
  Proof.
    intros E Hm Ho.
    destruct (update_builds (sdf_from_scene collides location d) frame r oob l b os mode answer _ E (or_introl eq_refl) Hm)
      as (b' & U & K).
    unfold Builder.update_sdf. rewrite U. unfold sdf_from_scene. rewrite (k_scene _ _ _ _ _ _ K), (k_oob _ _ _ _ _ _ K).
    destruct (uint8_undefined oob Ho) as (e & ->). reflexivity.
  Qed.

  (** A service that does not answer is as good as one that sends a blank message. *)
  Lemma unanswered {R} (build : builder scene -> builder scene * res R) b mode answer :
    (forall q, answer q = None) ->
    update use_msg no_answer build b mode answer =
    update use_msg no_answer build b mode (fun _ => Some no_answer).
  Proof. intros H. unfold update. destruct (mode_request mode); auto. rewrite H. reflexivity. Qed.

  (** ** The default-constructed builder *)
  Lemma default_throws mode answer :
    update_sdf default_builder mode answer = (default_builder, Throw "SDF Builder has not been initialized") /\
    update_map default_builder mode answer = (default_builder, Throw "SDF Builder has not been initialized") /\
    cached_sdf (default_builder (scene := scene)) = Throw "No cached SDF available" /\
    cached_map (default_builder (scene := scene)) = Throw "No cached Collision Map available".
  Proof. repeat split. Qed.
End Proofs.

(** C87-C89: the generator node and the batches of the Python helpers. *)
From Coq Require Import Lia Reals Lra.
From Flocq Require Import Core.Core IEEE754.Binary.
From Verif Require Import Base Floats Grid DistSpec SdfGen SdfSpec Display DisplaySpec QueryWitness
  Builder BuilderSpec BuilderCase Arith SdfQuery Python PySpec PyCase Node NodeSpec NodeProofs.
Local Open Scope Z_scope.

(** C87: a map of zeros and ones is drawn with one opaque-red-channel cube in each
    cell that is one. *)
Theorem C87_draws : forall point (location : idx -> point) m frame alpha,
  (forall i, in_bounds (gdims m) i = true -> fst (get m i) = 0 \/ fst (get m i) = 1) ->
  exists k, node_export location m frame alpha = Ok k /\
    mk_frame k = frame /\ mk_ns k = Text "collision_map_display" /\
    draws location k (gdims m) (fun i => fst (get m i) = 1) (fun _ => RGBA one32 zero32 zero32 alpha).
Proof. exact @node_draws. Qed.
Print Assumptions C87_draws.

(** C87: any other map ends the program. *)
Theorem C87_asserts : forall point (location : idx -> point) m frame alpha i,
  in_bounds (gdims m) i = true -> fst (get m i) <> 0 -> fst (get m i) <> 1 ->
  node_export location m frame alpha = Throw "assertion failed".
Proof. exact @node_asserts. Qed.
Print Assumptions C87_asserts.

(** C87: the maps a builder returns are drawn, whatever was called before. *)
Theorem C87_shows_scene : forall scene msg point (fresh : scene) (use_msg : scene -> msg -> scene) no_answer
    (collides : scene -> point -> bool) (location : idx -> point) d frame r oob l b os mode answer name alpha,
  run use_msg no_answer collides location d (new_builder fresh frame r oob) l = (b, os) ->
  (mode = 0 /\ messages no_answer l <> []) \/ 1 <= mode <= 3 -> 0 <= nx d -> 0 <= ny d -> 0 <= nz d ->
  exists g k, snd (update_map use_msg no_answer collides location d b mode answer) = Ok g /\
    node_export location g name alpha = Ok k /\
    mk_frame k = name /\ mk_ns k = Text "collision_map_display" /\
    draws location k d
      (fun i => collides (fold_left use_msg (messages no_answer (l ++ [UpdateMap mode answer])) fresh) (location i) = true)
      (fun _ => RGBA one32 zero32 zero32 alpha).
Proof. exact @node_shows_scene. Qed.
Print Assumptions C87_shows_scene.

(** A map with both kinds of cells, and one that is refused. *)
Example C87_case :
  match node_export (fun i => i) (G (D 3 1 1) [1; 0; 1] 0) "f" one32 with
  | Ok k => mk_points k = [I 0 0 0; I 2 0 0] /\ length (mk_colors k) = 2%nat
  | _ => False
  end /\
  node_export (fun i => i) (G (D 3 1 1) [1; 2; 1] 0) "f" one32 = Throw "assertion failed".
Proof. vm_compute. repeat split. Qed.

(** C88: item [b] of a batch is the result for element b, at every index. *)
Theorem C88_batch : forall envs rs ps size d, 0 < size -> size_ok d -> 0 < ncells d ->
  (forall b, (b < Z.to_nat size)%nat -> exists env r p,
     nth_error envs b = Some env /\ nth_error rs b = Some r /\ nth_error ps b = Some p /\
     env_3d env d /\ usable_resolution r) ->
  exists a g, compute_batch envs rs ps size = Ok (a, g) /\
    shape a = [size; ny d; nx d; nz d] /\ shape g = [size; ny d; nx d; nz d; 3] /\
    forall b env r p, (b < Z.to_nat size)%nat ->
      nth_error envs b = Some env -> nth_error rs b = Some r -> nth_error ps b = Some p ->
      exists a_b g_b, compute_sdf_and_gradient_3d env r p = Ok (a_b, g_b) /\
        forall ix, item a (Z.of_nat b :: ix) = item a_b ix /\ item g (Z.of_nat b :: ix) = item g_b ix.
Proof. exact batch_ok. Qed.
Print Assumptions C88_batch.

(** C88: an empty batch raises, and so do environments of different sizes. *)
Theorem C88_empty : forall envs rs ps size, size <= 0 -> compute_batch envs rs ps size = Throw "ValueError".
Proof. exact batch_empty. Qed.
Print Assumptions C88_empty.

Theorem C88_different : forall envs rs ps size (ds : nat -> dims) b c, 0 <= size ->
  (forall b, (b < Z.to_nat size)%nat -> size_ok (ds b) /\ 0 < ncells (ds b) /\ exists env r p,
     nth_error envs b = Some env /\ nth_error rs b = Some r /\ nth_error ps b = Some p /\
     env_3d env (ds b) /\ usable_resolution r) ->
  (b < Z.to_nat size)%nat -> (c < Z.to_nat size)%nat -> ds b <> ds c ->
  compute_batch envs rs ps size = Throw "InvalidArgumentError".
Proof. exact batch_different. Qed.
Print Assumptions C88_different.

(** Two elements of the same size, the second with one more filled cell. *)
Definition env_block2 : ndarray Z := ND [2; 3; 2] [6; 2; 1] [0; 1; 0; 0; 1; 1; 0; 0; 0; 0; 0; 1].
Example C88_case : forall (p : pose ieee) b, (b < Z.to_nat 2)%nat -> exists env r q,
  nth_error [env_block; env_block2] b = Some env /\ nth_error [one64; one64] b = Some r /\
  nth_error [p; p] b = Some q /\ env_3d env (D 3 2 2) /\ usable_resolution r.
Proof.
  intros p [|[|b]] Hb; cbn [nth_error].
  - exists env_block, one64, p. do 3 (split; auto). split; [exact env_block_ok|exact one64_usable].
  - exists env_block2, one64, p. do 3 (split; auto). split; [|exact one64_usable]. split; [|reflexivity].
    intros l H. cbn [env_block2 shape] in H.
    inversion H as [|i n l1 s1 A H1]; subst. inversion H1 as [|j m l2 s2 B H2]; subst.
    inversion H2 as [|k o l3 s3 C H3]; subst. inversion H3; subst.
    assert (Ci : i = 0 \/ i = 1) by lia. assert (Cj : j = 0 \/ j = 1 \/ j = 2) by lia.
    assert (Ck : k = 0 \/ k = 1) by lia.
    destruct Ci as [->| ->], Cj as [->|[->| ->]], Ck as [->| ->]; eexists; reflexivity.
  - change (Z.to_nat 2) with 2%nat in Hb. lia.
Qed.

Section Prop_.
  Context {scene msg point : Type} (fresh : scene) (use_msg : scene -> msg -> scene) (no_answer : msg)
    (collides : scene -> point -> bool) (location center : idx -> point) (d : dims) (clamp01 : binary32 -> binary32).
  Let node_rounds := node_rounds use_msg no_answer collides location center d clamp01.

  (** C89: with an out-of-bounds value that fits uint8_t the node runs for ever,
      and in each round both pictures show the scene after all answers so far.
      The picture of the map is always labelled "base". *)
  Theorem C89_rounds_partial : forall frame r oob answers, size_ok d -> usable_resolution r -> fits_uint8 oob ->
    exists ks, node_rounds (new_builder fresh frame r oob) answers = (ks, Ok tt) /\
      length ks = length answers /\
      forall n k, nth_error ks n = Some k ->
        mk_frame (fst k) = "base"%string /\ mk_frame (snd k) = frame /\
        shows_scene collides location center d (clamp01 tenth)
          (fold_left use_msg (answered no_answer (firstn (S n) answers)) fresh) k.
  Proof.
    intros frame r oob answers Hs Hr Ho.
    exact (rounds_ok fresh use_msg no_answer collides location center d clamp01 frame r oob Hs Hr Ho answers [] _ [] eq_refl).
  Qed.

  (** C89 fails: for every configured frame other than "base" the two pictures of
      every round are in different frames. *)
  Theorem C89_frames_refuted : forall frame r oob answers ks k,
    size_ok d -> usable_resolution r -> fits_uint8 oob -> frame <> "base"%string ->
    node_rounds (new_builder fresh frame r oob) answers = (ks, Ok tt) -> In k ks ->
    mk_frame (fst k) <> frame /\ mk_frame (snd k) = frame.
  Proof.
    intros frame r oob answers ks k Hs Hr Ho N E Hk.
    destruct (C89_rounds_partial frame r oob answers Hs Hr Ho) as (ks' & E' & _ & K).
    rewrite E in E'. injection E' as <-. apply In_nth_error in Hk as (n & Hn).
    destruct (K n k Hn) as (-> & -> & _). split; auto.
  Qed.

  (** C89 fails: with the value the node passes, infinity, the first
      round is undefined, before it is complete. *)
  Theorem C89_undefined_refuted : forall frame r answers, size_ok d -> answers <> [] ->
    exists e, node_rounds (new_builder fresh frame r inf32) answers = ([], UB e).
  Proof.
    intros frame r answers Hs Ha.
    exact (rounds_undefined fresh use_msg no_answer collides location center d clamp01 frame r inf32 answers inf_does_not_fit Hs Ha).
  Qed.
End Prop_.
Print Assumptions C89_rounds_partial.
Print Assumptions C89_frames_refuted.
Print Assumptions C89_undefined_refuted.

(** C89: the field is drawn with the float nearest 0.1 as opacity. *)
Theorem C89_opacity : (Rabs (B2R 24 128 tenth - 1 / 10) <= bpow radix2 (-28))%R.
Proof. exact tenth_value. Qed.
Print Assumptions C89_opacity.

(** Two rounds, the obstacle moving from one cell to the other. *)
Example C89_case : size_ok (D 2 1 1) /\ usable_resolution one64 /\ fits_uint8 zero32 /\
  match node_rounds (fun _ m : list idx => m) [] hits (fun i => i) (fun i => i) (D 2 1 1) (fun a => a) small_builder
          [(fun _ => Some [I 0 0 0]); (fun _ => Some [I 1 0 0])] with
  | ([(k1, _); (k2, s2)], Ok _) =>
      mk_points k1 = [I 0 0 0] /\ mk_points k2 = [I 1 0 0] /\ mk_frame s2 = "world"%string /\
      map (fun c => gt32 (c_r c) zero32) (mk_colors s2) = [false; true]
  | _ => False
  end.
Proof.
  split; [exact (proj1 small_ok)|]. split; [exact (proj2 small_ok)|]. split; [exact zero_fits|].
  vm_compute. repeat split.
Qed.

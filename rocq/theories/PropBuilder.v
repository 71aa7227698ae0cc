(** C54, C55, C74-C76: the builder that makes fields and maps from planning scenes. *)
From Coq Require Import Reals.
From Flocq Require Import Core.Core IEEE754.Binary.
From Verif Require Import Base Floats Grid DistSpec SdfGen SdfSpec QueryWitness Builder BuilderSpec BuilderProofs BuilderCase.
Local Open Scope Z_scope.

Section Prop_.
  (** MoveIt: a fresh scene, what a message does to a scene, the message one has
      when the service does not answer, and the collision check at a location. *)
  Context {scene msg point : Type} (fresh : scene) (use_msg : scene -> msg -> scene) (no_answer : msg)
    (collides : scene -> point -> bool) (location : idx -> point) (d : dims).
  Let run := run use_msg no_answer collides location d.
  Let update_sdf := update_sdf use_msg no_answer collides location d.
  Let update_map := update_map use_msg no_answer collides location d.
  (** The scene a client expects after some calls. *)
  Let expected (l : list (call msg)) : scene := fold_left use_msg (messages no_answer l) fresh.

  (** C54: the cached results are those of the last update that returned one. *)
  Theorem C54_cached_sdf : forall frame r oob l b os, run (new_builder fresh frame r oob) l = (b, os) ->
    cached_sdf b = match last_sdf os with Some f => Ok f | None => Throw "No cached SDF available" end.
  Proof. exact (cached_sdf_last fresh use_msg no_answer collides location d). Qed.

  Theorem C54_cached_map : forall frame r oob l b os, run (new_builder fresh frame r oob) l = (b, os) ->
    cached_map b = match last_map os with Some g => Ok g | None => Throw "No cached Collision Map available" end.
  Proof. exact (cached_map_last fresh use_msg no_answer collides location d). Qed.

  (** C54: "use cached" throws while there is no scene, and changes nothing. *)
  Theorem C54_no_scene : forall frame r oob l b os answer, run (new_builder fresh frame r oob) l = (b, os) ->
    messages no_answer l = [] ->
    update_sdf b 0 answer = (b, Throw "No planning scene available") /\
    update_map b 0 answer = (b, Throw "No planning scene available").
  Proof. exact (no_scene_yet fresh use_msg no_answer collides location d). Qed.

  Theorem C54_unknown_mode : forall frame r oob l b os mode answer, run (new_builder fresh frame r oob) l = (b, os) ->
    ~ 0 <= mode <= 3 ->
    update_sdf b mode answer = (b, Throw "Invalid update mode (mode not recognized)") /\
    update_map b mode answer = (b, Throw "Invalid update mode (mode not recognized)").
  Proof. exact (unknown_mode fresh use_msg no_answer collides location d). Qed.

  (** C74: what an update returns agrees with the scene, cell by cell. *)
  Theorem C74_sdf_shows_scene : forall frame r oob l b os mode answer,
    run (new_builder fresh frame r oob) l = (b, os) ->
    (mode = 0 /\ messages no_answer l <> []) \/ 1 <= mode <= 3 ->
    size_ok d -> usable_resolution r -> fits_uint8 oob ->
    exists f, snd (update_sdf b mode answer) = Ok f /\
      sdf_dims f = d /\ s_res f = r /\ s_frame f = frame /\ goob (s_grid f) = oob /\ s_locked f = false /\
      forall i, in_bounds d i = true -> exists v, sdf_get f i = (v, true) /\
        if collides (expected (l ++ [UpdateSdf mode answer])) (location i)
        then lt32 v zero32 = true else gt32 v zero32 = true.
  Proof. exact (sdf_shows_scene fresh use_msg no_answer collides location d). Qed.

  Theorem C74_map_shows_scene : forall frame r oob l b os mode answer,
    run (new_builder fresh frame r oob) l = (b, os) ->
    (mode = 0 /\ messages no_answer l <> []) \/ 1 <= mode <= 3 -> 0 <= nx d -> 0 <= ny d -> 0 <= nz d ->
    exists g, snd (update_map b mode answer) = Ok g /\ gdims g = d /\ goob g = 0 /\
      forall i, in_bounds d i = true ->
        get g i = ((if collides (expected (l ++ [UpdateMap mode answer])) (location i) then 1 else 0), true).
  Proof. exact (map_shows_scene fresh use_msg no_answer collides location d). Qed.

  (** C55, the exact condition: undefined for every out-of-bounds value that does
      not fit uint8_t after truncation. *)
  Theorem C55_undefined_unless_fits : forall frame r oob l b os mode answer,
    run (new_builder fresh frame r oob) l = (b, os) ->
    (mode = 0 /\ messages no_answer l <> []) \/ 1 <= mode <= 3 -> ~ fits_uint8 oob ->
    is_ub (snd (update_sdf b mode answer)) = true.
  Proof. exact (update_undefined fresh use_msg no_answer collides location d). Qed.

  (** C75 fails for every scene: an unanswered request has the effect of a blank
      scene message. *)
  Theorem C75_unanswered_is_blank : forall b mode (answer : request -> option msg), (forall q, answer q = None) ->
    update_sdf b mode answer = update_sdf b mode (fun _ => Some no_answer) /\
    update_map b mode answer = update_map b mode (fun _ => Some no_answer).
  Proof.
    intros b mode answer H. split; apply (unanswered use_msg no_answer); exact H.
  Qed.

  (** C76: a default-constructed builder refuses updates and has no caches. *)
  Theorem C76_default_throws_partial : forall mode answer,
    update_sdf default_builder mode answer = (default_builder, Throw "SDF Builder has not been initialized") /\
    update_map default_builder mode answer = (default_builder, Throw "SDF Builder has not been initialized") /\
    cached_sdf (default_builder (scene := scene)) = Throw "No cached SDF available" /\
    cached_map (default_builder (scene := scene)) = Throw "No cached Collision Map available".
  Proof. exact (default_throws use_msg no_answer collides location d). Qed.

  (** C76 fails: giving it a scene message dereferences a null pointer. *)
  Theorem C76_default_undefined_refuted : forall m, exists e,
    receive_scene use_msg (default_builder (scene := scene)) m = (default_builder, UB e).
  Proof. intros m. eexists. reflexivity. Qed.
End Prop_.
Print Assumptions C54_cached_sdf.
Print Assumptions C54_cached_map.
Print Assumptions C54_no_scene.
Print Assumptions C54_unknown_mode.
Print Assumptions C74_sdf_shows_scene.
Print Assumptions C74_map_shows_scene.
Print Assumptions C55_undefined_unless_fits.
Print Assumptions C75_unanswered_is_blank.
Print Assumptions C76_default_throws_partial.
Print Assumptions C76_default_undefined_refuted.

(** C55 is false: the value the repository's own node passes is infinity. *)
Theorem C55_infinity_refuted : ~ fits_uint8 inf32 /\
  snd (small_run (new_builder [] "world" one64 inf32) [UpdateSdf 3 (fun _ => Some [I 0 0 0])]) =
  [GotSdf (UB "float does not fit uint8_t")].
Proof. exact (conj inf_does_not_fit infinity_undefined). Qed.
Print Assumptions C55_infinity_refuted.

(** C75 is false: an obstacle is known, the service stops answering, and the next
    update returns (and caches) a field in which it is gone. *)
Theorem C75_unanswered_refuted :
  match small_run small_builder
          [ReceiveScene [I 0 0 0]; UpdateSdf 0 (fun _ => None); UpdateSdf 3 (fun _ => None)] with
  | (b, [Received (Ok _); GotSdf (Ok f1); GotSdf (Ok f2)]) =>
      map (fun i => lt32 (fst (sdf_get f1 i)) zero32) (sweep (D 2 1 1)) = [true; false] /\
      map (fun i => lt32 (fst (sdf_get f2 i)) zero32) (sweep (D 2 1 1)) = [false; false] /\
      is_ok (cached_sdf b) = true /\ is_throw (cached_map b) = true
  | _ => False
  end.
Proof. exact unanswered_case. Qed.
Print Assumptions C75_unanswered_refuted.

(** C75: "use cached" works without any scene ever having arrived. *)
Theorem C75_never_received_refuted :
  match small_run small_builder [UpdateMap 3 (fun _ => None); UpdateSdf 0 (fun _ => None)] with
  | (b, [GotMap (Ok g); GotSdf (Ok f)]) => gdata g = [0; 0]
  | _ => False
  end.
Proof. exact never_received_case. Qed.
Print Assumptions C75_never_received_refuted.

(** The hypotheses are met by the history above. *)
Example builder_nonvacuous : size_ok (D 2 1 1) /\ usable_resolution one64 /\ fits_uint8 zero32 /\
  messages [] [ReceiveScene [I 0 0 0]; UpdateSdf 0 (fun _ => None)] <> [].
Proof. split; [exact (proj1 small_ok)|]. split; [exact (proj2 small_ok)|]. split; [exact zero_fits|]. discriminate. Qed.

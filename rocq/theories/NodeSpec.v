(** Vocabulary for the pictures the node publishes. *)
From Verif Require Import Base Floats Grid Display DisplaySpec Builder Node.

Section Spec.
  Context {scene msg point : Type} (no_answer : msg) (collides : scene -> point -> bool)
    (location center : idx -> point) (d : dims).

  (** The two markers of a round show this scene: the first has an opaque red cube
      in each cell in collision and no other, the second a cube in each cell, no
      green in the cells in collision and no red in the others. *)
  Definition shows_scene (alpha : binary32) (sc : scene) (k : marker point * marker point) : Prop :=
    mk_ns (fst k) = Text "collision_map_display" /\
    draws location (fst k) d (fun i => collides sc (location i) = true) (fun _ => RGBA one32 zero32 zero32 one32) /\
    mk_ns (snd k) = Text "sdf_display" /\
    exists col, draws center (snd k) d (fun _ => True) col /\
      forall i, in_bounds d i = true -> c_a (col i) = alpha /\ c_b (col i) = zero32 /\
        if collides sc (location i) then c_g (col i) = zero32 else c_r (col i) = zero32.

  (** What the service sent in some rounds: a default message for no answer. *)
  Definition answered (answers : list (request -> option msg)) : list msg :=
    map (fun a => match a (Request true true) with Some m => m | None => no_answer end) answers.
End Spec.

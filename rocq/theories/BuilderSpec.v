(** Vocabulary for the builder: what a client knows from the calls it made and
    what they returned. *)
From Coq Require Import Reals.
From Flocq Require Import Core.Core IEEE754.Binary.
From Verif Require Import Base Floats Grid SdfGen Builder.

(** The last field (map) an update returned, if any. *)
Definition last_sdf (os : list outcome) : option sdf :=
  fold_left (fun acc o => match o with GotSdf (Ok f) => Some f | _ => acc end) os None.
Definition last_map (os : list outcome) : option (grid Z) :=
  fold_left (fun acc o => match o with GotMap (Ok g) => Some g | _ => acc end) os None.

Section Spec.
  Context {msg : Type}.

  (** What a call makes the builder take in: the message passed, or what the
      service sends, a default message when it sends nothing. *)
  Definition asks (mode : Z) : option request :=
    match mode with
    | 1 => Some (Request false true)
    | 2 => Some (Request true false)
    | 3 => Some (Request true true)
    | _ => None
    end.
  Definition message_of (no_answer : msg) (c : call msg) : list msg :=
    match c with
    | ReceiveScene m => [m]
    | UpdateSdf mode answer | UpdateMap mode answer =>
        match asks mode with
        | Some q => [match answer q with Some m => m | None => no_answer end]
        | None => []
        end
    end.
  Definition messages (no_answer : msg) (l : list (call msg)) : list msg :=
    flat_map (message_of no_answer) l.
End Spec.

(** The values that fit uint8_t after dropping the fraction. *)
Definition fits_uint8 (v : binary32) : Prop :=
  is_finite 24 128 v = true /\ (0 <= Ztrunc (B2R 24 128 v) <= 255)%Z.

(** Outcomes that are not undefined behaviour. *)
Definition defined (o : outcome) : Prop :=
  match o with
  | Received r => is_ub r = false
  | GotSdf r => is_ub r = false
  | GotMap r => is_ub r = false
  end.

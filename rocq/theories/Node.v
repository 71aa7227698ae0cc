(** Model of what src/sdf_generation_node.cpp draws, and of the batches of
    src/sdf_tools/utils_3d_tensorflow.py. *)
From Verif Require Import Base Floats Grid SdfGen Display Builder Arith SdfQuery Python.

Section Node.
  Context {point : Type}.
  Variable location : idx -> point.               (* GridIndexToLocation *)

  (** new_color, src/sdf_generation_node.cpp:44-48. *)
  Definition red (alpha : binary32) : color := RGBA one32 zero32 zero32 alpha.

  (** ExportCollisionMapForDisplay, src/sdf_generation_node.cpp:7-59.  A failed
      assert ends the program; it is written as an exception. *)
  Definition node_export (m : grid Z) (frame : string) (alpha : binary32) : res (marker point) :=
    foldM (fun k i =>
        let status := fst (get m i) in
        if status =? 1 then Ok (push location (red alpha) k i)
        else if status =? 0 then Ok k else Throw "assertion failed")
      (sweep (gdims m)) (blank frame (Text "collision_map_display")).
End Node.

(** ** The loop of the node *)
Section Loop.
  Context {scene msg point : Type}.
  Variable use_msg : scene -> msg -> scene.
  Variable no_answer : msg.
  Variable collides : scene -> point -> bool.
  Variable location : idx -> point.               (* GridIndexToLocation *)
  Variable center : idx -> point.                 (* GridIndexToLocationGridFrame *)
  Variable d : dims.
  Variable clamp01 : binary32 -> binary32.        (* arc_helpers::ClampValue(_, 0, 1) *)

  (** 0.1 as a float, src/sdf_generation_node.cpp:102. *)
  Definition tenth : binary32 := B754_finite 24 128 false 13421773 (-27) eq_refl.

  (** One round of the loop, src/sdf_generation_node.cpp:91-104: the two markers it
      publishes.  [answer] is what the service gives in this round. *)
  Definition node_round (b : builder scene) (answer : request -> option msg)
      : builder scene * res (marker point * marker point) :=
    let (b1, r1) := update_map use_msg no_answer collides location d b 3 answer in
    match (let* g := r1 in node_export location g "base" one32) with
    | Ok k1 =>
        let (b2, r2) := update_sdf use_msg no_answer collides location d b1 0 answer in
        (b2, let* f := r2 in Ok (k1, sdf_export center clamp01 f tenth))
    | Throw e => (b1, Throw e)
    | UB e => (b1, UB e)
    end.

  (** The loop, src/sdf_generation_node.cpp:89-105: the rounds with these answers,
      up to the first that fails (an exception ends the program).  What the complete
      rounds published, and the outcome. *)
  Fixpoint node_rounds (b : builder scene) (answers : list (request -> option msg))
      : list (marker point * marker point) * res unit :=
    match answers with
    | [] => ([], Ok tt)
    | a :: l =>
        match node_round b a with
        | (b', Ok k) => let (ks, r) := node_rounds b' l in (k :: ks, r)
        | (_, Throw e) => ([], Throw e)
        | (_, UB e) => ([], UB e)
        end
    end.
End Loop.

(** ** Batches *)

(** All indices of an array of this shape, the last one running fastest
    (tensorflow), for src/sdf_tools/utils_3d_tensorflow.py:13. *)
Fixpoint indices (s : list Z) : list (list Z) :=
  match s with
  | [] => [[]]
  | n :: t => flat_map (fun i => map (cons i) (indices t)) (zrange n)
  end.

(** The items of an array in that order (tensorflow), for
    src/sdf_tools/utils_3d_tensorflow.py:13. *)
Definition items {T} (a : ndarray T) : list T :=
  flat_map (fun ix => match item a ix with Some v => [v] | None => [] end) (indices (shape a)).

(** Equality of shapes (tensorflow), for src/sdf_tools/utils_3d_tensorflow.py:13. *)
Fixpoint same_shape (s t : list Z) : bool :=
  match s, t with
  | [], [] => true
  | a :: s', b :: t' => (a =? b) && same_shape s' t'
  | _, _ => false
  end.

(** tf.stack(l, 0), src/sdf_tools/utils_3d_tensorflow.py:13-14: raises on an empty
    list and on different shapes. *)
Definition stack {T} (l : list (ndarray T)) : res (ndarray T) :=
  match l with
  | [] => Throw "ValueError"
  | a :: _ =>
      if forallb (fun b => same_shape (shape b) (shape a)) l then
        let s := Z.of_nat (length l) :: shape a in
        Ok (ND s (row_major s) (flat_map items l))
      else Throw "InvalidArgumentError"
  end.

(** env[b], res[b], origin_point[b], src/sdf_tools/utils_3d_tensorflow.py:10. *)
Definition at_batch {T} (l : list T) (b : Z) : res T :=
  match nth_error l (Z.to_nat b) with Some v => Ok v | None => Throw "IndexError" end.

(** compute_sdf_and_gradient_batch, src/sdf_tools/utils_3d_tensorflow.py:6-15.  The
    arguments are indexed by the batch number only and are lists here; a pose is
    given in place of each origin point. *)
Definition compute_batch (envs : list (ndarray Z)) (rs : list binary64) (ps : list (pose ieee)) (size : Z)
    : res (ndarray binary32 * ndarray binary32) :=
  let* acc := foldM (fun acc b =>
      let* env := at_batch envs b in
      let* r := at_batch rs b in
      let* p := at_batch ps b in
      let* ag := compute_sdf_and_gradient_3d env r p in
      Ok (fst acc ++ [fst ag], snd acc ++ [snd ag])) (zrange size) ([], []) in
  let* a := stack (fst acc) in
  let* g := stack (snd acc) in
  Ok (a, g).

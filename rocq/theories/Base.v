(** Shared vocabulary: outcomes of a C++ call, monadic folds, list update.

    Nothing here models a particular function of /repo; it is the notation the
    models are written in. *)
From Coq Require Export String.
From Coq Require Export List ZArith Lia Bool.
From Coq Require Export ZifyBool ZifyNat.
Export ListNotations.
Open Scope Z_scope.
Open Scope list_scope.

(** Outcome of running a piece of C++: a value, an exception, or undefined behaviour
    (with a reason, for reading only).  Exceptions are thrown e.g. at
    include/sdf_tools/sdf_generation.hpp:133 and L280; undefined behaviour can arise
    e.g. at L92 (signed overflow) and L197 (index past the end). *)
Inductive res (A : Type) : Type :=
| Ok (a : A)
| Throw (what : string)
| UB (why : string).
Arguments Ok {A} a.
Arguments Throw {A} what.
Arguments UB {A} why.

(** Running one piece of C++ after another, as consecutive statements do, e.g.
    include/sdf_tools/sdf_generation.hpp:242-243: an exception or undefined
    behaviour ends the run. *)
Definition bind {A B : Type} (m : res A) (k : A -> res B) : res B :=
  match m with
  | Ok a => k a
  | Throw e => Throw e
  | UB r => UB r
  end.

Notation "'let*' x ':=' m 'in' k" := (bind m (fun x => k))
  (at level 200, x pattern, m at level 100, k at level 200, right associativity).

(** Did the call throw (as at include/sdf_tools/sdf_generation.hpp:133)?  Used in
    statements only. *)
Definition is_throw {A} (m : res A) : bool :=
  match m with Throw _ => true | _ => false end.

(** Was the behaviour undefined (as signed overflow at
    include/sdf_tools/sdf_generation.hpp:92 is)?  Used in statements only. *)
Definition is_ub {A} (m : res A) : bool :=
  match m with UB _ => true | _ => false end.

(** Did the call return?  Used in statements only; no counterpart in /repo. *)
Definition is_ok {A} (m : res A) : bool :=
  match m with Ok _ => true | _ => false end.

(** A C++ for loop whose body may throw or have undefined behaviour, e.g.
    include/sdf_tools/sdf_generation.hpp:114-135. *)
Fixpoint foldM {S A : Type} (f : S -> A -> res S) (l : list A) (s : S) : res S :=
  match l with
  | [] => Ok s
  | a :: l' => let* s' := f s a in foldM f l' s'
  end.

(** Overwrite position [n] of a list (no effect past the end): assignment to an
    element of a std::vector, e.g. bucket_queue[bq_idx].clear() at
    include/sdf_tools/sdf_generation.hpp:204. *)
Fixpoint upd {A : Type} (n : nat) (v : A) (l : list A) : list A :=
  match l, n with
  | [], _ => []
  | _ :: l', O => v :: l'
  | a :: l', S n' => a :: upd n' v l'
  end.

(** The range of int32_t, the type of the differences at
    include/sdf_tools/sdf_generation.hpp:89-91. *)
Definition int32_ok (z : Z) : bool := (-2147483648 <=? z) && (z <=? 2147483647).

(** Conversion to uint32_t, e.g. of an index at
    include/sdf_tools/sdf_generation.hpp:120-125. *)
Definition wrap_u32 (z : Z) : Z := z mod 4294967296.

(** Conversion to int32_t, e.g. of closest_point at the call
    include/sdf_tools/sdf_generation.hpp:179 (modulo 2^32, as every compiler
    does). *)
Definition wrap_s32 (z : Z) : Z :=
  let w := z mod 4294967296 in if w <? 2147483648 then w else w - 4294967296.

(** Signed 32-bit arithmetic, include/sdf_tools/sdf_generation.hpp:89-92: overflow
    is undefined behaviour. *)
Definition i32 (z : Z) : res Z :=
  if int32_ok z then Ok z else UB "signed overflow".

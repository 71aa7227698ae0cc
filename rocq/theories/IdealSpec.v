(** Vocabulary for comparing queries in doubles with the same queries in exact
    arithmetic. *)
From Coq Require Import Reals.
From Flocq Require Import Core.Core.
From Verif Require Import Base Floats Grid Arith SdfQuery QuerySpec DoubleSpec.
Open Scope R_scope.

(** The field with the real numbers its floats and doubles stand for. *)
Definition real_view (f : field ieee) : rfield :=
  @F reals (G (f_dims f) (map real32 (gdata (f_grid f))) (real32 (goob (f_grid f)))) (real64 (f_res f)) (real_vec (f_size f)).

(** Two points are at most [far] apart on every axis. *)
Definition apart_at_most (far : R) (a b : rvec) : Prop :=
  Rabs (vx a - vx b) <= far /\ Rabs (vy a - vy b) <= far /\ Rabs (vz a - vz b) <= far.

(** A finite point with coordinates of at most 2^800. *)
Definition usable_point (v : vec ieee) : Prop :=
  finite_vec v /\ Rabs (real64 (vx v)) <= bpow radix2 800 /\ Rabs (real64 (vy v)) <= bpow radix2 800 /\
  Rabs (real64 (vz v)) <= bpow radix2 800.

(** Vocabulary for C129: an origin transform in doubles that is close to an exact pose. *)
From Coq Require Import Reals.
From Flocq Require Import Core.Core IEEE754.Binary IEEE754.Bits.
From Verif Require Import Base Floats Grid Arith SdfQuery QuerySpec IdealSpec DoubleSpec Frame FrameSpec.
Open Scope R_scope.

(** Where the rotation of [P] takes the three axes: the columns of its matrix. *)
Definition axis_x (P : pose reals) : rvec := turn (rot_w P) (rot_v P) (@V reals 1 0 0).
Definition axis_y (P : pose reals) : rvec := turn (rot_w P) (rot_v P) (@V reals 0 1 0).
Definition axis_z (P : pose reals) : rvec := turn (rot_w P) (rot_v P) (@V reals 0 0 1).

(** The entries of the rotation are finite and within [delta] of those of [P]. *)
Definition matrix_within (delta : R) (T : transform ieee) (P : pose reals) : Prop :=
  finite_vec (row_x T) /\ finite_vec (row_y T) /\ finite_vec (row_z T) /\
  let x := real_vec (row_x T) in let y := real_vec (row_y T) in let z := real_vec (row_z T) in
  apart_at_most delta (@V reals (vx x) (vx y) (vx z)) (axis_x P) /\
  apart_at_most delta (@V reals (vy x) (vy y) (vy z)) (axis_y P) /\
  apart_at_most delta (@V reals (vz x) (vz y) (vz z)) (axis_z P).

(** The translation is also within [eta] of that of [P], [t], and at most a quarter of
    [S] on every axis. *)
Definition origin_within (delta eta S : R) (T : transform ieee) (P : pose reals) (t : rvec) : Prop :=
  matrix_within delta T P /\ point_within (S / 4) (shift T) /\ apart_at_most eta (real_vec (shift T)) t.

(** How far the inverse transform computed from it is from the exact one, at most. *)
Definition inverse_error (delta eta S : R) : R := 4 * delta * S + 60 * bpow radix2 (-53) * S + 3 * eta.

(** A grid of [d] cells of side [r], at most [N] on an axis, whose origin transform [T]
    is that of the exact pose [P] so nearly that points are misplaced by no more than a
    millionth of a cell over [N]. *)
Definition stands (d : dims) (r : binary64) (N : R) (T : transform ieee) (P : pose reals) (t : rvec) (delta eta S : R) : Prop :=
  real64 r <= bpow radix2 80 /\ (IZR (nx d) <= N /\ IZR (ny d) <= N /\ IZR (nz d) <= N) /\
  bpow radix2 (-100) <= S <= bpow radix2 100 /\ geometry (real64 r) P /\ rigid P t /\
  0 <= delta <= bpow radix2 (-20) /\ origin_within delta eta S T P t /\
  N * misplaced S (inverse_error delta eta S) <= real64 r / 1000000.

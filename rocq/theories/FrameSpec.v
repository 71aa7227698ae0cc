(** Vocabulary for grids placed by an origin transform, in doubles. *)
From Coq Require Import Reals.
From Flocq Require Import Core.Core.
From Verif Require Import Base Floats Grid Arith SdfQuery QuerySpec DoubleSpec IdealSpec WallSpec Frame.
Open Scope R_scope.

(** The transform with the real numbers its doubles stand for. *)
Definition real_transform (T : transform ieee) : transform reals :=
  Transform (real_vec (row_x T)) (real_vec (row_y T)) (real_vec (row_z T)) (real_vec (shift T)).

(** All three coordinates are at most [S] in size. *)
Definition bounded_by (S : R) (v : rvec) : Prop := Rabs (vx v) <= S /\ Rabs (vy v) <= S /\ Rabs (vz v) <= S.

(** A point given in doubles, with coordinates of at most [S]. *)
Definition point_within (S : R) (v : vec ieee) : Prop := finite_vec v /\ bounded_by S (real_vec v).

(** The entries are finite, those of the rotation at most 2 and those of the
    translation at most [S] in size. *)
Definition usable_transform (S : R) (T : transform ieee) : Prop :=
  point_within 2 (row_x T) /\ point_within 2 (row_y T) /\ point_within 2 (row_z T) /\ point_within S (shift T).

(** Without rounding, the transform takes points with coordinates of at most [S] to
    within [far] of where [g] takes them. *)
Definition follows (far S : R) (T : transform ieee) (g : rvec -> rvec) : Prop :=
  forall x, bounded_by S x -> apart_at_most far (apply (real_transform T) x) (g x).

(** How far from the right place the code may see a point. *)
Definition misplaced (S far : R) : R := 64 * bpow radix2 (-53) * S + far.

(** A coordinate of a point. *)
Definition axis_of (a : axis_name) (q : rvec) : R :=
  match a with AlongX => vx q | AlongY => vy q | AlongZ => vz q end.

(** The quaternion in doubles is within [delta] of the exact one, component by component. *)
Definition rotation_within (delta : R) (p : pose ieee) (P : pose reals) : Prop :=
  finite_double (rot_w p) /\ finite_vec (rot_v p) /\
  Rabs (real64 (rot_w p) - rot_w P) <= delta /\ apart_at_most delta (real_vec (rot_v p)) (rot_v P).

(** The slopes of the stored values at a cell, along the axes of the grid. *)
Definition slopes (f : field ieee) (i : idx) : rvec :=
  @V reals (slope f (nx (f_dims f)) (ix i) (fun t => I t (iy i) (iz i)))
           (slope f (ny (f_dims f)) (iy i) (fun t => I (ix i) t (iz i)))
           (slope f (nz (f_dims f)) (iz i) (fun t => I (ix i) (iy i) t)).

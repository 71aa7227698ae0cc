(** Vocabulary for what the queries return in doubles, independent of the
    code's formulas. *)
From Coq Require Import Reals.
From Flocq Require Import Core.Core.
From Verif Require Import Base Floats Grid Arith SdfQuery QuerySpec.
Open Scope R_scope.

(** The double nearest to a real number (ties to even), ignoring overflow. *)
Definition nearest_double (x : R) : R := round radix2 (FLT_exp (-1074) 53) ZnearestE x.

(** The real number a finite double or float stands for. *)
Definition real64 (x : binary64) : R := B2R 53 1024 x.
Definition real32 (x : binary32) : R := B2R 24 128 x.
Definition finite_double (x : binary64) : Prop := is_finite 53 1024 x = true.
Definition finite_float (x : binary32) : Prop := is_finite 24 128 x = true.

Definition finite_vec (v : vec ieee) : Prop := finite_double (vx v) /\ finite_double (vy v) /\ finite_double (vz v).
Definition real_vec (v : vec ieee) : rvec := @V reals (real64 (vx v)) (real64 (vy v)) (real64 (vz v)).

(** From [m] to the double nearest to size - m on every axis. *)
Definition in_double_box (m : R) (size v : rvec) : Prop :=
  m <= vx v <= nearest_double (vx size - m) /\
  m <= vy v <= nearest_double (vy size - m) /\
  m <= vz v <= nearest_double (vz size - m).

(** The pose's clamp cuts a double off at two others. *)
Definition cuts_off (p : pose ieee) : Prop :=
  forall v lo hi, finite_double v -> finite_double lo -> finite_double hi -> real64 lo <= real64 hi ->
    (real64 v < real64 lo -> clamp p v lo hi = lo) /\
    (real64 hi < real64 v -> clamp p v lo hi = hi) /\
    (real64 lo <= real64 v <= real64 hi -> clamp p v lo hi = v).

(** The slope between the neighbours of a cell on one axis, as a real number: the
    difference of the values over the distance of the cells; a cell of the border
    takes the place of its missing neighbour.  0 when there is only one cell. *)
Definition slope (f : field ieee) (n x : Z) (at_ : Z -> idx) : R :=
  let hi := Z.min (n - 1) (x + 1) in
  let lo := Z.max 0 (x - 1) in
  if (n =? 1)%Z then 0
  else (real32 (value f (at_ hi)) - real32 (value f (at_ lo))) / (IZR (hi - lo) * real64 (f_res f)).

(** [v] is [x] up to a relative error of 2^-23 and an absolute one of 2^-1075
    (half the smallest positive double). *)
Definition accurate (v : binary64) (x : R) : Prop :=
  finite_double v /\ Rabs (real64 v - x) <= bpow radix2 (-23) * Rabs x + bpow radix2 (-1075).

(** ** Distance estimates *)

(** A cell's value moved half a cell towards the boundary between free and
    filled space, without rounding. *)
Definition centered_real (f : field ieee) (i : idx) : R :=
  let v := real32 (value f i) in
  if Rle_dec 0 v then v - real64 (f_res f) / 2 else v + real64 (f_res f) / 2.

(** The two cells [lo], [hi] used on an axis of [n] cells for a point of cell
    [x]: that cell and its neighbour; where there are neighbours on both sides
    the one the point [v] is nearer to, seen from the cell's centre [c].  The
    only cell of an axis counts twice. *)
Definition cells_on_axis (n x : Z) (c v : R) (lo hi : Z) : Prop :=
  (0 <= lo <= hi /\ hi < n)%Z /\ (x = lo \/ x = hi) /\
  (hi = if (n =? 1)%Z then lo else lo + 1)%Z /\
  ((0 < x < n - 1)%Z -> (lo = x <-> c <= v)).

Definition between (t a b : R) : R := (1 - t) * a + t * b.

(** How far [v] is from the centre of cell [l] to that of cell l + 1. *)
Definition progress (r : R) (l : Z) (v : R) : R := (v - r * (IZR l + 1 / 2)) / r.

(** Trilinear interpolation of the centred values of eight cells. *)
Definition interpolation (f : field ieee) (q : rvec) (xl xu yl yu zl zu : Z) : R :=
  let r := real64 (f_res f) in
  let tx := progress r xl (vx q) in let ty := progress r yl (vy q) in let tz := progress r zl (vz q) in
  let c x y z := centered_real f (I x y z) in
  between tz (between ty (between tx (c xl yl zl) (c xu yl zl)) (between tx (c xl yu zl) (c xu yu zl)))
             (between ty (between tx (c xl yl zu) (c xu yl zu)) (between tx (c xl yu zu) (c xu yu zu))).

(** The pose's cell centres are where they belong up to [delta] cells. *)
Definition centers_within (f : field ieee) (p : pose ieee) (delta : R) : Prop :=
  let r := real64 (f_res f) in
  forall j, in_bounds (f_dims f) j = true ->
    finite_vec (center_of p j) /\
    Rabs (real64 (vx (center_of p j)) - r * (IZR (ix j) + 1 / 2)) <= delta * r /\
    Rabs (real64 (vy (center_of p j)) - r * (IZR (iy j) + 1 / 2)) <= delta * r /\
    Rabs (real64 (vz (center_of p j)) - r * (IZR (iz j) + 1 / 2)) <= delta * r.

(** The point lies in its cell, up to a sixteenth of a cell. *)
Definition lies_in (r : R) (q : rvec) (i : idx) : Prop :=
  Rabs (vx q - r * (IZR (ix i) + 1 / 2)) <= r * (9 / 16) /\
  Rabs (vy q - r * (IZR (iy i) + 1 / 2)) <= r * (9 / 16) /\
  Rabs (vz q - r * (IZR (iz i) + 1 / 2)) <= r * (9 / 16).

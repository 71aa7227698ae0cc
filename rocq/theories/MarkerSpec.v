(** Where the cubes of a drawing are. *)
From Coq Require Import Reals.
From Verif Require Import Base Floats Grid CollisionMap Arith SdfQuery QuerySpec Display Markers.
Open Scope R_scope.

(** The location is in the cube of cell [i], faces included. *)
Definition closed_cube (r : R) (p : pose reals) (i : idx) (loc : rvec) : Prop :=
  let q := to_grid p loc in
  (r * IZR (ix i) <= vx q <= r * (IZR (ix i) + 1) /\
   r * IZR (iy i) <= vy q <= r * (IZR (iy i) + 1) /\
   r * IZR (iz i) <= vz q <= r * (IZR (iz i) + 1)).

(** A viewer draws, for every point of a list of cubes, a box of the marker's scale
    around it in the colour of that rank, and moves everything by the marker's
    pose: the location is in a box of colour [c]. *)
Definition in_drawing (k : picture reals) (c : color) (loc : rvec) : Prop :=
  exists pt q : rvec, In (pt, c) (combine (mk_points (snd k)) (mk_colors (snd k))) /\
    Rabs (vx q - vx pt) <= vx (su_scale (fst k)) / 2 /\
    Rabs (vy q - vy pt) <= vy (su_scale (fst k)) / 2 /\
    Rabs (vz q - vz pt) <= vz (su_scale (fst k)) / 2 /\
    su_pose (fst k) q = loc.

(** The drawing fills exactly the cubes of the cells with property [P], each in its
    colour. *)
Definition fills (k : picture reals) (r : R) (p : pose reals) (d : dims) (P : idx -> Prop) (col : idx -> color) : Prop :=
  forall c loc, in_drawing k c loc <->
    exists i, in_bounds d i = true /\ P i /\ col i = c /\ closed_cube r p i loc.

(** The pose only moves. *)
Definition only_moves (p : pose reals) (t : rvec) : Prop := forall q, to_world p q = vadd t q.

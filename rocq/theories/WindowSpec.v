(** Vocabulary for C133: smoothed gradients in grids that stand anywhere. *)
From Coq Require Import Reals.
From Flocq Require Import Core.Core IEEE754.Binary IEEE754.Bits.
From Verif Require Import Base Floats Grid Arith SdfQuery QuerySpec DoubleSpec WallSpec SmoothSpec.
Open Scope R_scope.

(** [a] is the point [loc] or one of the six ends of the windows around it. *)
Definition reached (loc : vec ieee) (window : binary64) (a : vec ieee) : Prop :=
  a = loc \/ exists x, a = before x loc window \/ a = beyond x loc window.

(** How far apart two points are along an axis. *)
Definition run_of (x : axis_name) (from to : vec ieee) : R := real64 (component x to) - real64 (component x from).

(** [g] is the slope from [from] to [to] along an axis of a quantity [E] known to
    within [tol] at both, up to rounding. *)
Definition slope_near (E : vec ieee -> R) (tol : R) (x : axis_name) (from to : vec ieee) (g : binary64) : Prop :=
  finite_double g /\ 0 < run_of x from to /\
  Rabs (real64 g - (E to - E from) / run_of x from to) <=
    (3 * tol + bpow radix2 (-50) * Rabs (E to - E from)) / run_of x from to.

(** The same grid described in another unit of length. *)
From Coq Require Import Reals.
From Verif Require Import Base Grid Arith SdfQuery QuerySpec.
Open Scope R_scope.

Definition times (l : R) (v : rvec) : rvec := @V reals (l * vx v) (l * vy v) (l * vz v).

(** All lengths of [f'] and [p'] are [l] times those of [f] and [p]: the cell size,
    the stored distances, the size of the grid, and where the pose puts it. *)
Record rescaled (l : R) (f f' : rfield) (p p' : pose reals) : Prop := {
  sc_dims : f_dims f' = f_dims f;
  sc_value : forall i, in_bounds (f_dims f) i = true -> value f' i = l * value f i;
  sc_default : goob (f_grid f') = l * goob (f_grid f);
  sc_res : f_res f' = l * f_res f;
  sc_size : f_size f' = times l (f_size f);
  sc_to_grid : forall v, to_grid p' (times l v) = times l (to_grid p v);
  sc_to_world : forall v, to_world p' (times l v) = times l (to_world p v);
  sc_index : forall v, index_of p' (times l v) = index_of p v;
  sc_center : forall i, center_of p' i = times l (center_of p i);
  sc_clamp : forall v lo hi, clamp p' (l * v) (l * lo) (l * hi) = l * clamp p v lo hi;
  sc_rot_w : rot_w p' = rot_w p;
  sc_rot_v : rot_v p' = rot_v p
}.

Definition scaled_estimate (l : R) (m : res (R * bool)) : res (R * bool) :=
  match m with Ok (e, ok) => Ok (l * e, ok) | Throw w => Throw w | UB w => UB w end.

(** The outcome of a projection, in the other unit. *)
Definition same_outcome (l : R) (a b : step_result reals) : Prop :=
  match a, b with
  | Running q i e, Running q' i' e' => q' = times l q /\ i' = i /\ e' = l * e
  | Finished q, Finished q' => q' = times l q
  | Failed w, Failed w' => w' = w
  | _, _ => False
  end.

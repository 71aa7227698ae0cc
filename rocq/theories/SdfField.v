(** A SignedDistanceField of the extraction model seen by the query model, and
    arc_utilities' geometry in IEEE arithmetic for a grid at the origin. *)
From Verif Require Import Base Floats Grid CollisionMap SdfGen Arith SdfQuery.

(** Total size of the grid: cell size times number of cells (arc_utilities). *)
Definition grid_size (d : dims) (r : binary64) : vec ieee :=
  @V ieee (mul64 r (b64_of_Z (nx d))) (mul64 r (b64_of_Z (ny d))) (mul64 r (b64_of_Z (nz d))).

Definition sdf_field (s : sdf) : field ieee :=
  @F ieee (s_grid s) (s_res s) (grid_size (sdf_dims s) (s_res s)).

(** floor of a double (0 on infinities and NaN, never used there). *)
Definition floor64 (x : binary64) : Z :=
  match x with
  | B754_finite _ _ s m e _ =>
      let z := if s then Z.neg m else Z.pos m in
      if 0 <=? e then z * 2 ^ e else z / 2 ^ (- e)
  | _ => 0
  end.

(** Identity pose; cell i spans [r i, r (i+1)). *)
Definition ieee_pose (r : binary64) : pose ieee :=
  let half := div64 (b64_of_Z 1) (b64_of_Z 2) in
  @Pose ieee (fun q => q) (fun q => q)
    (fun q => I (floor64 (div64 (vx q) r)) (floor64 (div64 (vy q) r)) (floor64 (div64 (vz q) r)))
    (fun i => @V ieee (mul64 r (add64 (b64_of_Z (ix i)) half)) (mul64 r (add64 (b64_of_Z (iy i)) half))
                (mul64 r (add64 (b64_of_Z (iz i)) half)))
    (fun v lo hi => if lt64 v lo then lo else if lt64 hi v then hi else v)
    (b64_of_Z 1) (@V ieee zero64 zero64 zero64).

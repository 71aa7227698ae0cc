(** The repository's own unit test of the bindings, test/test_bindings.py:12-34, run
    on the model. *)
From Flocq Require Import IEEE754.Binary IEEE754.Bits.
From Verif Require Import Base Floats Grid CollisionMap SdfGen Arith SdfQuery SdfField QueryWitness Python.
Local Open Scope Z_scope.

(** grid_world, test/test_bindings.py:16-19: 40 rows of 20 zeros with a one at [1, 3]. *)
Definition grid_world : ndarray Z :=
  ND [40; 20] [20; 1] (map (fun k => if k =? 23 then 1 else 0) (zrange 800)).

(** res, test/test_bindings.py:15: 1/20 rounded is the literal 0.05. *)
Definition test_res : binary64 := div64 one64 (b64_of_Z 20).

(** assertAlmostEqual, test/test_bindings.py:26-30: the difference rounded to seven
    places is 0.  Here it is at most 4e-8, which is stricter. *)
Definition almost_equal (v : option binary32) (w : binary64) : bool :=
  match v with
  | Some a =>
      let tiny := div64 one64 (b64_of_Z 25000000) in
      le64 (sub64 (b64_of_b32 a) w) tiny && le64 (sub64 w (b64_of_b32 a)) tiny
  | None => false
  end.

(** The assertions, test/test_bindings.py:26-35.  The origin does not enter the
    values; the pose of a grid at the origin is used.  assert_allclose at L35 is
    taken as equality. *)
Definition test_sdf_tools : bool :=
  match compute_sdf_and_gradient_2d grid_world test_res (ieee_pose test_res) "world" with
  | Ok (a, g) =>
      almost_equal (item a [1; 3]) (b64_opp test_res) &&
      almost_equal (item a [2; 3]) test_res && almost_equal (item a [0; 3]) test_res &&
      almost_equal (item a [1; 2]) test_res && almost_equal (item a [1; 4]) test_res &&
      match item a [3; 6] with
      | Some v => gt64 (b64_of_b32 v) (mul64 (b64_of_Z 3) test_res)
      | None => false
      end &&
      match shape a, shape g with
      | [h; w], [h'; w'; c] => (h =? 40) && (w =? 20) && (h' =? 40) && (w' =? 20) && (c =? 2)
      | _, _ => false
      end &&
      match item g [1; 4; 0], item g [1; 4; 1] with
      | Some x, Some y =>
          eq64 (b64_of_b32 x) (div64 (b64_of_Z 3) (b64_of_Z 2)) && eq32 y zero32
      | _, _ => false
      end
  | _ => false
  end.

Lemma test_passes : test_sdf_tools = true.
Proof. vm_compute. reflexivity. Qed.

(** C++ float and double.  [float] is IEEE binary32 and [double] IEEE binary64,
    from Flocq; NaNs keep their payload.  Constants are given by mantissa and
    exponent so that the models compute. *)
From Flocq Require Export IEEE754.Binary IEEE754.Bits.
From Verif Require Import Base.

(** 0.5 as a float.  Comparisons such as [occupancy > 0.5]
    (include/sdf_tools/collision_map.hpp:692) promote the float to double, which is
    exact, so comparing in binary32 gives the same answer. *)
Definition half32 : binary32 := B754_finite 24 128 false 8388608 (-24) eq_refl.

(** 0.0f, include/sdf_tools/sdf_generation.hpp:410. *)
Definition zero32 : binary32 := B754_zero 24 128 false.

(** 1.0f, an occupied cell, e.g. alpha at include/sdf_tools/collision_map.hpp:39. *)
Definition one32 : binary32 := B754_finite 24 128 false 8388608 (-23) eq_refl.

(** A quiet NaN, a value any float of a map may have
    (include/sdf_tools/collision_map.hpp:22). *)
Definition nan32 : binary32 := B754_nan 24 128 false 4194304 eq_refl.

(** The operator > on floats, include/sdf_tools/collision_map.hpp:692; every
    comparison with NaN is false. *)
Definition gt32 (x y : binary32) : bool :=
  match b32_compare x y with Some Gt => true | _ => false end.

(** The operator < on floats, include/sdf_tools/collision_map.hpp:75. *)
Definition lt32 (x y : binary32) : bool :=
  match b32_compare x y with Some Lt => true | _ => false end.

(** The operator == on floats, include/sdf_tools/collision_map.hpp:697. *)
Definition eq32 (x y : binary32) : bool :=
  match b32_compare x y with Some Eq => true | _ => false end.

(** The operator >= on floats, include/sdf_tools/sdf_generation.hpp:400. *)
Definition ge32 (x y : binary32) : bool := gt32 x y || eq32 x y.

(** The operator <= on floats, include/sdf_tools/sdf_generation.hpp:404. *)
Definition le32 (x y : binary32) : bool := lt32 x y || eq32 x y.

(** std::numeric_limits<double>::infinity(),
    include/sdf_tools/sdf_generation.hpp:247. *)
Definition inf64 : binary64 := B754_infinity 53 1024 false.

(** -std::numeric_limits<double>::infinity(),
    include/sdf_tools/sdf_generation.hpp:246. *)
Definition ninf64 : binary64 := B754_infinity 53 1024 true.

(** 0.0, include/sdf_tools/sdf_generation.hpp:126. *)
Definition zero64 : binary64 := B754_zero 53 1024 false.

(** The operator > on doubles, include/sdf_tools/sdf_generation.hpp:257. *)
Definition gt64 (x y : binary64) : bool :=
  match b64_compare x y with Some Gt => true | _ => false end.

(** The operator < on doubles, include/sdf_tools/sdf_generation.hpp:261. *)
Definition lt64 (x y : binary64) : bool :=
  match b64_compare x y with Some Lt => true | _ => false end.

(** The operator == on doubles, e.g. include/sdf_tools/collision_map.hpp:697 after
    promotion. *)
Definition eq64 (x y : binary64) : bool :=
  match b64_compare x y with Some Eq => true | _ => false end.

(** The operator >= on doubles, include/sdf_tools/sdf.hpp:984. *)
Definition ge64 (x y : binary64) : bool := gt64 x y || eq64 x y.

(** The operator <= on doubles, e.g. include/sdf_tools/sdf.hpp:1091. *)
Definition le64 (x y : binary64) : bool := lt64 x y || eq64 x y.

(** The operator != on doubles, include/sdf_tools/sdf_generation.hpp:278; true for
    NaN. *)
Definition ne64 (x y : binary64) : bool := negb (eq64 x y).

(** double(z) for an integer z, round to nearest even,
    include/sdf_tools/sdf_generation.hpp:92. *)
Definition b64_of_Z (z : Z) : binary64 :=
  binary_normalize 53 1024 eq_refl eq_refl BinarySingleNaN.mode_NE z 0 false.

(** The operator * on doubles, round to nearest even,
    include/sdf_tools/sdf_generation.hpp:254. *)
Definition mul64 (x y : binary64) : binary64 := b64_mult BinarySingleNaN.mode_NE x y.

(** The operator - on doubles, round to nearest even,
    include/sdf_tools/sdf_generation.hpp:256. *)
Definition sub64 (x y : binary64) : binary64 := b64_minus BinarySingleNaN.mode_NE x y.

(** The operator + on doubles, round to nearest even,
    include/sdf_tools/sdf.hpp:552. *)
Definition add64 (x y : binary64) : binary64 := b64_plus BinarySingleNaN.mode_NE x y.

(** The operator / on doubles, round to nearest even,
    include/sdf_tools/sdf.hpp:445. *)
Definition div64 (x y : binary64) : binary64 := b64_div BinarySingleNaN.mode_NE x y.

(** std::sqrt on doubles, correctly rounded,
    include/sdf_tools/sdf_generation.hpp:254. *)
Definition sqrt64 (x : binary64) : binary64 := b64_sqrt BinarySingleNaN.mode_NE x.

(** Negation of a double, include/sdf_tools/sdf_generation.hpp:246. *)
Definition opp64 (x : binary64) : binary64 := b64_opp x.

(** Conversion of a double to float, include/sdf_tools/sdf_generation.hpp:265 (round
    to nearest even, overflow to infinity as IEEE hardware does; the payload of a
    converted NaN is not kept). *)
Definition b32_of_b64 (x : binary64) : binary32 :=
  match x with
  | B754_zero _ _ s => B754_zero 24 128 s
  | B754_infinity _ _ s => B754_infinity 24 128 s
  | B754_nan _ _ s _ _ => B754_nan 24 128 s 4194304 eq_refl
  | B754_finite _ _ s m e _ =>
      binary_normalize 24 128 eq_refl eq_refl BinarySingleNaN.mode_NE
        (if s then Z.neg m else Z.pos m) e s
  end.

(** Conversion of a float to double, include/sdf_tools/sdf.hpp:781; exact. *)
Definition b64_of_b32 (x : binary32) : binary64 :=
  match x with
  | B754_zero _ _ s => B754_zero 53 1024 s
  | B754_infinity _ _ s => B754_infinity 53 1024 s
  | B754_nan _ _ s _ _ => B754_nan 53 1024 s 2251799813685248 eq_refl
  | B754_finite _ _ s m e _ =>
      binary_normalize 53 1024 eq_refl eq_refl BinarySingleNaN.mode_NE
        (if s then Z.neg m else Z.pos m) e s
  end.

(** The float +infinity, e.g. the out-of-bounds value passed at
    include/sdf_tools/tagged_object_collision_map.hpp:886 after conversion. *)
Definition inf32 : binary32 := B754_infinity 24 128 false.

(** The float -infinity; used in statements only, no counterpart in /repo. *)
Definition ninf32 : binary32 := B754_infinity 24 128 true.

(** The arithmetic the query functions of SignedDistanceField are written in.

    The C++ functions in include/sdf_tools/sdf.hpp compute with float and
    double.  Their models take the arithmetic as an argument, so that one and
    the same model runs with IEEE floats ([ieee], what the program does) and
    with real numbers ([reals], the same formulas without rounding). *)
From Coq Require Import Reals.
From Verif Require Import Base Floats.
Open Scope Z_scope.

(** The operations on float and double that include/sdf_tools/sdf.hpp:341-1191 uses.
    [fsub] is the float subtraction of L446-454, [widen] the promotion after it,
    [of_int] the conversion of an integer at L472. *)
Record arith := Arith {
  flt : Type;                       (* float *)
  dbl : Type;                       (* double *)
  widen : flt -> dbl;               (* float to double *)
  fsub : flt -> flt -> flt;         (* float subtraction *)
  of_int : Z -> dbl;                (* (double) of an integer *)
  dadd : dbl -> dbl -> dbl;
  dsub : dbl -> dbl -> dbl;
  dmul : dbl -> dbl -> dbl;
  ddiv : dbl -> dbl -> dbl;
  dsqrt : dbl -> dbl;               (* std::sqrt *)
  dabs : dbl -> dbl;                (* std::abs *)
  dlt : dbl -> dbl -> bool;         (* <, false on NaN *)
  dle : dbl -> dbl -> bool;         (* <=, false on NaN *)
  deq : dbl -> dbl -> bool          (* ==, false on NaN *)
}.

(** IEEE binary32 and binary64, round to nearest even: the float and double of
    include/sdf_tools/sdf.hpp:341-1191. *)
Definition ieee : arith := Arith
  binary32 binary64 b64_of_b32 (b32_minus BinarySingleNaN.mode_NE) b64_of_Z
  add64 sub64 mul64 div64 sqrt64 b64_abs lt64 le64 eq64.

(** Real numbers, for the formulas of include/sdf_tools/sdf.hpp:341-1191 without
    rounding.  This is a specification device, not something the code computes. *)
Definition reals : arith := Arith
  R R (fun x => x) Rminus IZR Rplus Rminus Rmult Rdiv sqrt Rabs
  (fun x y => if Rlt_dec x y then true else false)
  (fun x y => if Rle_dec x y then true else false)
  (fun x y => if Req_EM_T x y then true else false).

Section Ops.
  Variable A : arith.

  (** A literal such as 0.06125 (src/sdf_tools/sdf.cpp:131): 6125/100000, which IEEE
      division rounds correctly; also 0.25 and 1e-4 at
      include/sdf_tools/sdf.hpp:1083, L1099. *)
  Definition lit (num den : Z) : dbl A := ddiv A (of_int A num) (of_int A den).

  (** std::min, include/sdf_tools/sdf.hpp:981, L1102, which returns its first
      argument on ties. *)
  Definition dmin (a b : dbl A) : dbl A := if dlt A b a then b else a.

  (** std::max, include/sdf_tools/sdf.hpp:464 for integers; here on doubles.
      Returns its first argument on ties. *)
  Definition dmax (a b : dbl A) : dbl A := if dlt A a b then b else a.

  (** The first three coordinates of an Eigen::Vector3d or Vector4d,
      include/sdf_tools/sdf.hpp:976-983. *)
  Record vec := V { vx : dbl A; vy : dbl A; vz : dbl A }.

  (** Eigen vector addition, include/sdf_tools/sdf.hpp:1104. *)
  Definition vadd (a b : vec) : vec :=
    V (dadd A (vx a) (vx b)) (dadd A (vy a) (vy b)) (dadd A (vz a) (vz b)).

  (** Eigen vector subtraction,
      src/sdf_tools/tagged_object_collision_map.cpp:586. *)
  Definition vsub (a b : vec) : vec :=
    V (dsub A (vx a) (vx b)) (dsub A (vy a) (vy b)) (dsub A (vz a) (vz b)).

  (** Eigen vector times a scalar, include/sdf_tools/sdf.hpp:1104. *)
  Definition vscale (a : vec) (k : dbl A) : vec :=
    V (dmul A (vx a) k) (dmul A (vy a) k) (dmul A (vz a) k).

  (** Eigen's squaredNorm, the sum inside norm() at include/sdf_tools/sdf.hpp:1099.
      The order in which Eigen adds the squares depends on vectorisation; this is
      one of them. *)
  Definition squared_norm (a : vec) : dbl A :=
    dadd A (dmul A (vx a) (vx a)) (dadd A (dmul A (vy a) (vy a)) (dmul A (vz a) (vz a))).

  (** Eigen's norm(), include/sdf_tools/sdf.hpp:1099. *)
  Definition norm (a : vec) : dbl A := dsqrt A (squared_norm a).

  (** Eigen's normalized(), include/sdf_tools/sdf.hpp:1104: a zero vector is
      returned as it is. *)
  Definition normalized (a : vec) : vec :=
    let z := squared_norm a in
    if dlt A (of_int A 0) z
    then let s := dsqrt A z in V (ddiv A (vx a) s) (ddiv A (vy a) s) (ddiv A (vz a) s)
    else a.
End Ops.
Arguments V {A} vx vy vz.
Arguments vx {A} _. Arguments vy {A} _. Arguments vz {A} _.
Arguments dmin {A} a b. Arguments dmax {A} a b.
Arguments vadd {A} a b. Arguments vsub {A} a b. Arguments vscale {A} a k.
Arguments squared_norm {A} a. Arguments norm {A} a. Arguments normalized {A} a.

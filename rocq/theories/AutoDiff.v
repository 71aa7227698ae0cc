(** Model of SignedDistanceField::GetAutoDiffGradient, include/sdf_tools/sdf.hpp:600-654:
    the distance estimate evaluated with Eigen's AutoDiffScalar.

    The estimate is a template in the code and a function of the arithmetic in
    [SdfQuery]; here it runs on pairs of a value and its partial derivatives.
    Differences: the fourth derivative, which belongs to the constant last
    coordinate of the location and is not returned, is left out; numbers the code
    keeps in double (cell size, cell values, corners) are pairs with derivatives 0. *)
From Verif Require Import Base Grid Arith SdfQuery.

Section AutoDiff.
  Variable A : arith.
  Notation dbl := (dbl A).
  Notation vec := (vec A).
  Infix "+." := (dadd A) (at level 50, left associativity).
  Infix "-." := (dsub A) (at level 50, left associativity).
  Infix "*." := (dmul A) (at level 40, left associativity).
  Infix "/." := (ddiv A) (at level 40, left associativity).
  Notation "# n" := (of_int A n) (at level 5, format "# n").

  (** Eigen::AutoDiffScalar: value() and derivatives(),
      include/sdf_tools/sdf.hpp:620. *)
  Definition dual : Type := (dbl * vec)%type.

  (** Derivatives of a constant in AutoDiffScalar (Eigen), as used at
      include/sdf_tools/sdf.hpp:631. *)
  Definition no_change : vec := V #0 #0 #0.

  (** An AutoDiffScalar (Eigen) made from a number, as used at
      include/sdf_tools/sdf.hpp:631. *)
  Definition constant (c : dbl) : dual := (c, no_change).

  (** operator+ of AutoDiffScalar (Eigen), as used at
      include/sdf_tools/sdf.hpp:631. *)
  Definition dual_add (a b : dual) : dual := (fst a +. fst b, vadd (snd a) (snd b)).

  (** operator- of AutoDiffScalar (Eigen), as used at
      include/sdf_tools/sdf.hpp:631. *)
  Definition dual_sub (a b : dual) : dual := (fst a -. fst b, vsub (snd a) (snd b)).

  (** operator* of AutoDiffScalar (Eigen), as used at
      include/sdf_tools/sdf.hpp:631. *)
  Definition dual_mul (a b : dual) : dual :=
    (fst a *. fst b, vadd (vscale (snd a) (fst b)) (vscale (snd b) (fst a))).

  (** operator/ of AutoDiffScalar (Eigen), as used at
      include/sdf_tools/sdf.hpp:631. *)
  Definition dual_div (a b : dual) : dual :=
    (fst a /. fst b,
     vscale (vsub (vscale (snd a) (fst b)) (vscale (snd b) (fst a))) (#1 /. (fst b *. fst b))).

  (** sqrt of AutoDiffScalar (Eigen), as used at include/sdf_tools/sdf.hpp:631. *)
  Definition dual_sqrt (a : dual) : dual :=
    let s := dsqrt A (fst a) in (s, vscale (snd a) (#1 /. (#2 *. s))).

  (** abs of AutoDiffScalar (Eigen), as used at include/sdf_tools/sdf.hpp:631. *)
  Definition dual_abs (a : dual) : dual :=
    (dabs A (fst a), if dlt A (fst a) #0 then vscale (snd a) #(-1) else snd a).

  (** The operators of AutoDiffScalar (Eigen), as used at
      include/sdf_tools/sdf.hpp:631, together.  Comparisons look at the values. *)
  Definition duals : arith := Arith
    (flt A) dual (fun x => constant (widen A x)) (fsub A) (fun n => constant #n)
    dual_add dual_sub dual_mul dual_div dual_sqrt dual_abs
    (fun a b => dlt A (fst a) (fst b))
    (fun a b => dle A (fst a) (fst b))
    (fun a b => deq A (fst a) (fst b)).

  (** A vector of doubles in an expression of AutoDiffScalar (Eigen),
      include/sdf_tools/sdf.hpp:631. *)
  Definition constants (v : vec) : Arith.vec duals :=
    @V duals (constant (vx v)) (constant (vy v)) (constant (vz v)).

  (** value() of each coordinate (Eigen), include/sdf_tools/sdf.hpp:631. *)
  Definition values (q : Arith.vec duals) : vec := V (fst (vx q)) (fst (vy q)) (fst (vz q)).

  (** The field, read by code that computes with pairs,
      include/sdf_tools/sdf.hpp:631. *)
  Definition dual_field (f : field A) : field duals :=
    @F duals (f_grid f) (constant (f_res f)) (constants (f_size f)).

  (** An isometry applied to a vector of pairs, under include/sdf_tools/sdf.hpp:631:
      each column of derivatives goes through its linear part, which is the isometry
      less its value at 0. *)
  Definition dual_map (m : vec -> vec) (q : Arith.vec duals) : Arith.vec duals :=
    let column (c : vec -> dbl) :=
      vsub (m (V (c (snd (vx q))) (c (snd (vy q))) (c (snd (vz q))))) (m no_change) in
    let v := m (values q) in
    let jx := column vx in let jy := column vy in let jz := column vz in
    @V duals (vx v, V (vx jx) (vx jy) (vx jz))
             (vy v, V (vy jx) (vy jy) (vy jz))
             (vz v, V (vz jx) (vz jy) (vz jz)).

  (** The grid's pose in that code, under include/sdf_tools/sdf.hpp:631. *)
  Definition dual_pose (p : pose A) : pose duals :=
    @Pose duals (dual_map (to_grid p)) (dual_map (to_world p))
      (fun q => index_of p (values q)) (fun i => constants (center_of p i))
      (fun v lo hi => constant (clamp p (fst v) (fst lo) (fst hi)))
      (constant (rot_w p)) (constants (rot_v p)).

  (** The location with unit derivatives, include/sdf_tools/sdf.hpp:623-630. *)
  Definition seeded (loc : vec) : Arith.vec duals :=
    @V duals (vx loc, V #1 #0 #0) (vy loc, V #0 #1 #0) (vz loc, V #0 #0 #1).

  (** GetAutoDiffGradient(x, y, z), include/sdf_tools/sdf.hpp:613-640, and its 3d
      and 4d forms, L600-610.  [None] is the empty vector. *)
  Definition auto_diff_gradient (f : field A) (p : pose A) (loc : vec) : res (option vec) :=
    let i := index_of p (to_grid p loc) in
    if in_bounds (f_dims f) i then
      let* e := estimate_from_neighbors (dual_field f) (dual_pose p)
                  (to_grid (dual_pose p) (seeded loc)) i in
      Ok (Some (snd e))
    else Ok None.

  (** GetAutoDiffGradient(index), include/sdf_tools/sdf.hpp:642-652: at the location
      of the cell's centre. *)
  Definition auto_diff_gradient_of_cell (f : field A) (p : pose A) (i : idx) : res (option vec) :=
    auto_diff_gradient f p (to_world p (center_of p i)).
End AutoDiff.
Arguments no_change {A}. Arguments constant {A} c. Arguments constants {A} v.
Arguments values {A} q. Arguments dual_field {A} f. Arguments dual_map {A} m q.
Arguments dual_pose {A} p. Arguments seeded {A} loc.
Arguments auto_diff_gradient {A} f p loc. Arguments auto_diff_gradient_of_cell {A} f p i.

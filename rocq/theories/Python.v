(** Model of the Python helpers src/sdf_tools/utils_2d.py and
    src/sdf_tools/utils_3d.py, on top of the maps and fields the bindings
    (src/sdf_tools/bindings.cpp) expose.

    numpy is external.  An array is modelled by its shape, its strides (counted
    in elements) and its buffer, with the documented meaning of reshape,
    transpose and basic slicing.  Negative indices are not modelled.  A Python
    exception is [Throw]. *)
From Verif Require Import Base Floats Grid CollisionMap SdfGen Arith SdfQuery SdfField.

(** ** numpy *)

(** An array (numpy), such as np_sdf in src/sdf_tools/utils_3d.py:70-75. *)
Record ndarray (T : Type) := ND {
  shape : list Z;
  strides : list Z;
  buffer : list T
}.
Arguments ND {T} _ _ _.
Arguments shape {T} _. Arguments strides {T} _. Arguments buffer {T} _.

(** The number of items of an array of this shape (numpy), for
    src/sdf_tools/utils_3d.py:74. *)
Definition prod (s : list Z) : Z := fold_right Z.mul 1 s.

(** Row-major strides of a shape (numpy), for src/sdf_tools/utils_3d.py:74. *)
Fixpoint row_major (s : list Z) : list Z :=
  match s with
  | [] => []
  | _ :: t => prod t :: row_major t
  end.

(** Position in the buffer (numpy), for src/sdf_tools/utils_3d.py:30; [None] when an
    index is missing or out of range. *)
Fixpoint offset (s st ix : list Z) : option Z :=
  match s, st, ix with
  | [], [], [] => Some 0
  | n :: s', k :: st', i :: ix' =>
      if (0 <=? i) && (i <? n) then
        match offset s' st' ix' with Some o => Some (i * k + o) | None => None end
      else None
  | _, _, _ => None
  end.

(** a[ix], src/sdf_tools/utils_3d.py:30, src/sdf_tools/utils_2d.py:32: [None] is an
    IndexError. *)
Definition item {T} (a : ndarray T) (ix : list Z) : option T :=
  match offset (shape a) (strides a) ix with
  | Some o => nth_error (buffer a) (Z.to_nat o)
  | None => None
  end.

(** np.array of a list of numbers, src/sdf_tools/utils_3d.py:70. *)
Definition from_list {T} (l : list T) : ndarray T := ND [Z.of_nat (length l)] [1] l.

(** np.array of a list of lists, src/sdf_tools/utils_3d.py:82: an empty list gives
    shape (0,), lists of equal length k give shape (n, k), and lists of different
    lengths raise. *)
Definition from_lists {T} (l : list (list T)) : res (ndarray T) :=
  match l with
  | [] => Ok (ND [0] [1] [])
  | r :: _ =>
      if forallb (fun q => (length q =? length r)%nat) l
      then Ok (ND [Z.of_nat (length l); Z.of_nat (length r)] [Z.of_nat (length r); 1] (concat l))
      else Throw "ValueError"
  end.

(** a.reshape(s), src/sdf_tools/utils_3d.py:74, L88, for an array whose buffer is in
    row-major order (the only use in the helpers is directly after np.array). *)
Definition reshape {T} (a : ndarray T) (s : list Z) : res (ndarray T) :=
  if prod s =? Z.of_nat (length (buffer a)) then Ok (ND s (row_major s) (buffer a))
  else Throw "ValueError".

(** np.transpose(a, p), src/sdf_tools/utils_3d.py:75, L89. *)
Definition transpose {T} (p : list nat) (a : ndarray T) : ndarray T :=
  ND (map (fun k => nth k (shape a) 0) p) (map (fun k => nth k (strides a) 0) p) (buffer a).

(** a.shape[k], src/sdf_tools/utils_3d.py:23-25, L83. *)
Definition axis {T} (a : ndarray T) (k : nat) : res Z :=
  match nth_error (shape a) k with Some n => Ok n | None => Throw "IndexError" end.

(** a[:, ..., 0:n] on the last axis, src/sdf_tools/utils_2d.py:53. *)
Definition first_of_last {T} (n : Z) (a : ndarray T) : ndarray T :=
  ND (removelast (shape a) ++ [Z.min n (last (shape a) 0)]) (strides a) (buffer a).

(** a.astype(...), src/sdf_tools/utils_3d.py:75, L89, with the conversion of one
    element given. *)
Definition astype {T U} (f : T -> U) (a : ndarray T) : ndarray U :=
  ND (shape a) (strides a) (map f (buffer a)).

(** ** Filling the map from an array of 0 and 1 *)

(** The float -10000 of src/sdf_tools/utils_3d.py:19. *)
Definition minus_ten_thousand : binary32 := B754_finite 24 128 true 10240000 (-10) eq_refl.

(** COLLISION_CELL(-10000), src/sdf_tools/utils_3d.py:19,
    src/sdf_tools/utils_2d.py:23. *)
Definition outside_cell : ccell := CC minus_ten_thousand 0.

(** COLLISION_CELL(1), src/sdf_tools/utils_3d.py:20,
    src/sdf_tools/utils_2d.py:24. *)
Definition filled_cell : ccell := CC one32 0.

(** The loop of src/sdf_tools/utils_3d.py:27-32 (also L62-67) and
    src/sdf_tools/utils_2d.py:30-34; [at_ i] is the index list the helper uses for
    cell i. *)
Definition fill_map (env : ndarray Z) (at_ : idx -> list Z) (m : cmap) : res cmap :=
  foldM (fun m i =>
      match item env (at_ i) with
      | None => Throw "IndexError"
      | Some v => Ok (if v =? 1 then fst (cm_set m i filled_cell) else m)
      end) (sweep (cm_dims m)) m.

(** Construction of the map and extraction of the field,
    src/sdf_tools/utils_3d.py:26-34, src/sdf_tools/utils_2d.py:29-36.  The field's
    out-of-bounds value is oob_value.occupancy. *)
Definition env_sdf (env : ndarray Z) (at_ : idx -> list Z) (d : dims) (frame : string) (r : binary64)
    : res sdf :=
  let* m := fill_map env at_ (cm_new frame d outside_cell outside_cell) in
  let* sx := cm_extract_sdf m r r r (c_occ outside_cell) false false in
  Ok (fst sx).

(** compute_sdf, src/sdf_tools/utils_3d.py:5-36, and the same in L54-69. *)
Definition compute_sdf_3d (env : ndarray Z) (r : binary64) : res sdf :=
  let* y := axis env 0 in
  let* x := axis env 1 in
  let* z := axis env 2 in
  env_sdf env (fun i => [iy i; ix i; iz i]) (D x y z) "world" r.

(** The field of compute_sdf_and_gradient, src/sdf_tools/utils_2d.py:14-36. *)
Definition compute_sdf_2d (env : ndarray Z) (r : binary64) (frame : string) : res sdf :=
  let* y := axis env 0 in
  let* x := axis env 1 in
  env_sdf env (fun i => [iy i; ix i]) (D x y 1) frame r.

(** ** Arrays from fields *)

(** np.array(sdf.GetRawData()), src/sdf_tools/utils_3d.py:70: pybind11 turns floats
    into Python floats, so the array holds doubles. *)
Definition raw_values (s : sdf) : ndarray binary64 := from_list (map b64_of_b32 (gdata (s_grid s))).

(** One std::vector<double> as a Python list (pybind11),
    src/sdf_tools/utils_3d.py:81. *)
Definition vec_list (v : option (vec ieee)) : list binary64 :=
  match v with Some g => [vx g; vy g; vz g] | None => [] end.

(** gradient_voxelgrid: GetFullGradient(gradient_function, True), where the gradient
    function is the field's own GetGradient, src/sdf_tools/utils_3d.py:77-80,
    src/sdf_tools/utils_2d.py:44-47. *)
Definition gradient_grid (s : sdf) (p : pose ieee) : grid (option (vec ieee)) :=
  full_gradient (sdf_field s) (fun i => gradient (sdf_field s) p i true).

(** np.array(gradient.GetRawData()), src/sdf_tools/utils_3d.py:81-82. *)
Definition raw_gradient (g : grid (option (vec ieee))) : res (ndarray binary64) :=
  from_lists (map vec_list (gdata g)).

(** np_sdf, src/sdf_tools/utils_3d.py:70-75. *)
Definition sdf_array_3d (s : sdf) : res (ndarray binary32) :=
  let d := sdf_dims s in
  let* a := reshape (raw_values s) [nx d; ny d; nz d] in
  Ok (astype b32_of_b64 (transpose [1; 0; 2]%nat a)).

(** np_gradient, src/sdf_tools/utils_3d.py:80-90. *)
Definition gradient_array_3d (s : sdf) (p : pose ieee) : res (ndarray binary32) :=
  let g := gradient_grid s p in
  let d := gdims g in
  let* a := raw_gradient g in
  let* k := axis a 1 in
  let* a := reshape a [nx d; ny d; nz d; k] in
  Ok (astype b32_of_b64 (transpose [1; 0; 2; 3]%nat a)).

(** compute_sdf_and_gradient, src/sdf_tools/utils_3d.py:39-97. *)
Definition compute_sdf_and_gradient_3d (env : ndarray Z) (r : binary64) (p : pose ieee)
    : res (ndarray binary32 * ndarray binary32) :=
  let* s := compute_sdf_3d env r in
  let* a := sdf_array_3d s in
  let* g := gradient_array_3d s p in
  Ok (a, g).

(** np_sdf, src/sdf_tools/utils_2d.py:37-42. *)
Definition sdf_array_2d (s : sdf) : res (ndarray binary32) :=
  let d := sdf_dims s in
  let* a := reshape (raw_values s) [nx d; ny d] in
  Ok (astype b32_of_b64 (transpose [1; 0]%nat a)).

(** np_gradient, src/sdf_tools/utils_2d.py:47-53 (also L68-74): the z component is
    dropped. *)
Definition planar_gradient (s : sdf) (p : pose ieee) : res (ndarray binary64) :=
  let g := gradient_grid s p in
  let d := gdims g in
  let* a := raw_gradient g in
  let* k := axis a 1 in
  let* a := reshape a [nx d; ny d; k] in
  Ok (first_of_last 2 a).

(** compute_sdf_and_gradient, src/sdf_tools/utils_2d.py:6-58. *)
Definition compute_sdf_and_gradient_2d (env : ndarray Z) (r : binary64) (p : pose ieee) (frame : string)
    : res (ndarray binary32 * ndarray binary32) :=
  let* s := compute_sdf_2d env r frame in
  let* a := sdf_array_2d s in
  let* g := planar_gradient s p in
  Ok (a, astype b32_of_b64 (transpose [1; 0; 2]%nat g)).

(** ** The other conversions *)

(** sdf_to_np, src/sdf_tools/utils_2d.py:90-94. *)
Definition sdf_to_np (s : sdf) : res (ndarray binary64) :=
  reshape (raw_values s) [nx (sdf_dims s); ny (sdf_dims s)].

(** compute_gradient, src/sdf_tools/utils_2d.py:61-76. *)
Definition compute_gradient (s : sdf) (p : pose ieee) : res (ndarray binary64 * ndarray binary64) :=
  let* a := reshape (raw_values s) [nx (sdf_dims s); ny (sdf_dims s)] in
  let* g := planar_gradient s p in
  Ok (a, g).

(** gradient_to_np, src/sdf_tools/utils_2d.py:83-87. *)
Definition gradient_to_np (g : grid (option (vec ieee))) : res (ndarray binary64) :=
  let* a := raw_gradient g in
  reshape a [nx (gdims g); ny (gdims g)].

(** to_np, src/sdf_tools/utils_2d.py:79-80. *)
Definition to_np (s : sdf) (g : grid (option (vec ieee))) : res (ndarray binary64 * ndarray binary64) :=
  let* a := sdf_to_np s in
  let* b := gradient_to_np g in
  Ok (a, b).

(** get_gradient, src/sdf_tools/utils_3d.py:100-108, with the default dtype. *)
Definition get_gradient_3d (s : sdf) (p : pose ieee) : res (ndarray binary64) :=
  let g := gradient_grid s p in
  let d := gdims g in
  let* a := raw_gradient g in
  let* k := axis a 1 in
  reshape a [nx d; ny d; nz d; k].

(** grid_to_np, src/sdf_tools/utils_2d.py:100-107: one item of the array is written
    per (i, j).  Items not written would be uninitialised memory ([None]). *)
Definition grid_to_np (m : cmap) : ndarray (option binary32) :=
  let d := cm_dims m in
  let s := [nx d; ny d] in
  let blank : ndarray (option binary32) := ND s (row_major s) (repeat None (Z.to_nat (prod s))) in
  fold_left (fun a ij =>
      match offset (shape a) (strides a) [fst ij; snd ij] with
      | Some o => ND (shape a) (strides a)
          (upd (Z.to_nat o) (Some (c_occ (fst (cm_get m (I (fst ij) (snd ij) 0))))) (buffer a))
      | None => a
      end)
    (flat_map (fun i => map (fun j => (i, j)) (zrange (ny d))) (zrange (nx d))) blank.

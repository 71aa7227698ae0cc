(** Model of the image node: src/image_2d_sdf_node.cpp.

    An image of [h] rows and [w] columns is a function from row and column to
    the pixel.  The node reads it as single-channel 8-bit (L79) whatever the
    encoding of the message; other encodings are not modelled.  The vectors of
    vectors all have [h] entries of length [w], so they are grids of [h] by [w]
    by one cells here.  The loop variables called x and y in the partial fields
    (L120-184) run over rows and columns.  ROS and OpenCV conversions are not
    modelled, and pow(v, 2) is v * v. *)
From Verif Require Import Base Floats Grid.

(** sdf_cell_t, src/image_2d_sdf_node.cpp:11-14: offset to the nearest source found
    so far. *)
Definition cell : Type := binary64 * binary64.

(** empty_cell, src/image_2d_sdf_node.cpp:69-71. *)
Definition empty_cell : cell := (inf64, inf64).

(** filled_cell, src/image_2d_sdf_node.cpp:72-74. *)
Definition filled_cell : cell := (zero64, zero64).

(** distance_squared, src/image_2d_sdf_node.cpp:212-215. *)
Definition distance_squared (c : cell) : binary64 :=
  add64 (mul64 (fst c) (fst c)) (mul64 (snd c) (snd c)).

(** compare, src/image_2d_sdf_node.cpp:217-226, with get, L186-199: a place outside
    the field reads as an empty cell. *)
Definition compare_cell (f : grid cell) (p : idx) (c : cell) (o : Z * Z) : cell :=
  let other := fst (get f (I (ix p + fst o) (iy p + snd o) 0)) in
  let moved := (add64 (fst other) (b64_of_Z (fst o)), add64 (snd other) (b64_of_Z (snd o))) in
  if lt64 (distance_squared moved) (distance_squared c) then moved else c.

(** The body of the four inner loops: get, compare with some neighbours, put
    (src/image_2d_sdf_node.cpp:130-138, L143-148, L157-165, L170-175; put is
    L201-210). *)
Definition visit (f : grid cell) (v : idx * list (Z * Z)) : grid cell :=
  let '(p, offsets) := v in gset f p (fold_left (compare_cell f p) offsets (fst (get f p))).

(** The order of visits and the neighbours compared in the first pass,
    src/image_2d_sdf_node.cpp:125-150. *)
Definition first_pass (h w : Z) : list (idx * list (Z * Z)) :=
  flat_map (fun y =>
      map (fun x => (I x y 0, [(-1, 0); (0, -1); (-1, -1); (1, -1)])) (zrange h)
   ++ map (fun x => (I x y 0, [(1, 0)])) (rev (zrange h))) (zrange w).

(** The same for the second pass, src/image_2d_sdf_node.cpp:152-177. *)
Definition second_pass (h w : Z) : list (idx * list (Z * Z)) :=
  flat_map (fun y =>
      map (fun x => (I x y 0, [(1, 0); (0, 1); (-1, 1); (1, 1)])) (rev (zrange h))
   ++ map (fun x => (I x y 0, [(-1, 0)])) (zrange h)) (rev (zrange w)).

(** update_partial_sdf, src/image_2d_sdf_node.cpp:120-184. *)
Definition update_partial_sdf (f : grid cell) : grid cell :=
  let h := nx (gdims f) in let w := ny (gdims f) in
  fold_left visit (first_pass h w ++ second_pass h w) f.

Section Image.
  Variables (h w : Z) (pixel : Z -> Z -> Z).

  (** Marking, src/image_2d_sdf_node.cpp:75-91: [filled] or [empty] pixels as
      sources. *)
  Definition mark (source : Z -> bool) : grid cell :=
    fold_left (fun f p => gset f p (if source (pixel (ix p) (iy p)) then filled_cell else empty_cell))
      (sweep (D h w 1)) (mk_grid (D h w 1) filled_cell empty_cell).

  (** filled_cells after its two passes, src/image_2d_sdf_node.cpp:94. *)
  Definition filled_field : grid cell := update_partial_sdf (mark (fun v => negb (v =? 0))).

  (** empty_cells after its two passes, src/image_2d_sdf_node.cpp:95. *)
  Definition empty_field : grid cell := update_partial_sdf (mark (fun v => v =? 0)).

  (** sqrt(pow(dx, 2) + pow(dy, 2)), src/image_2d_sdf_node.cpp:104-105. *)
  Definition cell_distance (c : cell) : binary64 := sqrt64 (distance_squared c).

  (** distance_field_[i][j], src/image_2d_sdf_node.cpp:104-107. *)
  Definition pixel_distance (i j : Z) : binary64 :=
    sub64 (cell_distance (fst (get filled_field (I i j 0)))) (cell_distance (fst (get empty_field (I i j 0)))).

  (** The pixels in the order of src/image_2d_sdf_node.cpp:100-102 and of both loops
      of camera_cb, L251-253 and L276-278. *)
  Definition pixels : list (Z * Z) := flat_map (fun i => map (fun j => (i, j)) (zrange w)) (zrange h).

  (** max_distance_, src/image_2d_sdf_node.cpp:98, L108-111. *)
  Definition max_distance : binary64 :=
    fold_left (fun m p => let v := pixel_distance (fst p) (snd p) in if gt64 v m then v else m) pixels zero64.

  (** min_distance_, src/image_2d_sdf_node.cpp:99, L112-115. *)
  Definition min_distance : binary64 :=
    fold_left (fun m p => let v := pixel_distance (fst p) (snd p) in if lt64 v m then v else m) pixels zero64.

  (** fabs, src/image_2d_sdf_node.cpp:258. *)
  Definition abs64 (v : binary64) : binary64 := if lt64 v zero64 then opp64 v else v.

  (** The raw image, src/image_2d_sdf_node.cpp:250-267: two float channels per
      pixel.  fabs of a double is stored in a float. *)
  Definition raw_pixel (i j : Z) : binary32 * binary32 :=
    let v := pixel_distance i j in
    if ge64 v zero64 then (b32_of_b64 (abs64 v), zero32) else (zero32, b32_of_b64 (abs64 v)).

  (** Conversion of a double to uint8_t, src/image_2d_sdf_node.cpp:286, L294:
      truncation, undefined when the result does not fit. *)
  Definition uint8_of_double (v : binary64) : res Z :=
    match v with
    | B754_zero _ _ _ => Ok 0
    | B754_finite _ _ s m e _ =>
        let a := if e <? 0 then Z.pos m / 2 ^ (- e) else Z.pos m * 2 ^ e in
        let z := if s then - a else a in
        if (0 <=? z) && (z <=? 255) then Ok z else UB "double does not fit uint8_t"
    | _ => UB "double does not fit uint8_t"
    end.

  (** The value of the red or blue channel, src/image_2d_sdf_node.cpp:286, L294. *)
  Definition shade (v extreme : binary64) : res Z :=
    uint8_of_double (add64 (b64_of_Z 64) (mul64 (b64_of_Z 64) (abs64 (div64 v extreme)))).

  (** The preview, src/image_2d_sdf_node.cpp:280-298: blue, green, red of a
      pixel. *)
  Definition preview_pixel (i j : Z) : res (Z * Z * Z) :=
    let v := pixel_distance i j in
    if gt64 v zero64 then let* r := shade v max_distance in Ok (0, 0, r)
    else if eq64 v zero64 then Ok (0, 255, 0)
    else let* b := shade v min_distance in Ok (b, 0, 0).

  (** camera_cb, src/image_2d_sdf_node.cpp:228-308: what is published for one
      image. *)
  Definition camera_cb : res (list (binary32 * binary32) * list (Z * Z * Z)) :=
    let raw := map (fun p => raw_pixel (fst p) (snd p)) pixels in
    let* preview := foldM (fun l p => let* c := preview_pixel (fst p) (snd p) in Ok (l ++ [c])) pixels [] in
    Ok (raw, preview).
End Image.

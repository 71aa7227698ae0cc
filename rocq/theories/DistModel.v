(** Model of the distance-field construction,
    include/sdf_tools/sdf_generation.hpp:19-207. *)
From Verif Require Import Base Grid.

(** bucket_cell, sdf_generation.hpp:19-25.  [distance_square] is a double that only
    ever holds +infinity or a value converted from int (exact), so an integer is
    used.  A cell that still has the default value (only [distance_square] =
    infinity initialised, L103-105) is [None] in the field. *)
Record entry := E {
  e_d : Z;       (* distance_square *)
  e_dir : Z;     (* update_direction *)
  e_loc : idx;   (* location, three uint32 *)
  e_cp : idx     (* closest_point, three uint32 *)
}.

(** DistanceField, sdf_generation.hpp:27. *)
Definition dfield := grid (option entry).

(** GetDirectionNumber, sdf_generation.hpp:29-32. *)
Definition direction_number (t : Z * Z * Z) : Z :=
  let '(dx, dy, dz) := t in (dx + 1) * 9 + (dy + 1) * 3 + (dz + 1).

(** The triple loop over -1..1, sdf_generation.hpp:42-46 and L50-54. *)
Definition dirs3 : list (Z * Z * Z) :=
  flat_map (fun dx => flat_map (fun dy => map (fun dz => (dx, dy, dz)) [-1; 0; 1])
                               [-1; 0; 1]) [-1; 0; 1].

(** Which targets the body of the inner loop keeps, sdf_generation.hpp:56-70. *)
Definition keep_target (n : Z) (src tgt : Z * Z * Z) : bool :=
  let '(dx, dy, dz) := src in
  let '(tx, ty, tz) := tgt in
  if (tx =? 0) && (ty =? 0) && (tz =? 0) then false
  else if 1 <=? n then
    if negb (Z.abs tx + Z.abs ty + Z.abs tz =? 1) then false
    else if (dx * tx <? 0) || (dy * ty <? 0) || (dz * tz <? 0) then false
    else true
  else true.

(** MakeNeighborhoods()[n][k], sdf_generation.hpp:34-85: all targets pushed
    while the source direction's number is [k]. *)
Definition neighborhood (n k : Z) : list (Z * Z * Z) :=
  flat_map (fun src => if direction_number src =? k
                       then filter (keep_target n src) dirs3 else []) dirs3.

(** ComputeDistanceSquared, sdf_generation.hpp:87-93, int32 arithmetic with
    undefined overflow.  The second argument was stored as uint32 and is
    converted to int32 at the call. *)
Definition compute_distance_squared (a b : idx) : res Z :=
  let* dx := i32 (ix a - wrap_s32 (ix b)) in
  let* dy := i32 (iy a - wrap_s32 (iy b)) in
  let* dz := i32 (iz a - wrap_s32 (iz b)) in
  let* xx := i32 (dx * dx) in
  let* yy := i32 (dy * dy) in
  let* zz := i32 (dz * dz) in
  let* s := i32 (xx + yy) in
  i32 (s + zz).

(** Signed 64-bit arithmetic (long, int64_t), as at sdf_generation.hpp:107: overflow
    is undefined behaviour. *)
Definition i64 (z : Z) : res Z :=
  if (- 9223372036854775808 <=? z) && (z <=? 9223372036854775807)
  then Ok z else UB "signed overflow".

(** max_distance_square, sdf_generation.hpp:107 (int64 products). *)
Definition max_distance_square (d : dims) : res Z :=
  let* xx := i64 (nx d * nx d) in
  let* yy := i64 (ny d * ny d) in
  let* zz := i64 (nz d * nz d) in
  let* s := i64 (xx + yy) in
  i64 (s + zz).

(** The field and the bucket queue, sdf_generation.hpp:105 and L109. *)
Record dstate := DS {
  ds_field : dfield;
  ds_buckets : list (list entry)
}.

(** bucket_queue[k].push_back(e), sdf_generation.hpp:128 and L197: an index past the
    end is undefined. *)
Definition push_bucket (bs : list (list entry)) (k : Z) (e : entry) : res (list (list entry)) :=
  if (0 <=? k) && (k <? Z.of_nat (List.length bs))
  then Ok (upd (Z.to_nat k) (nth (Z.to_nat k) bs [] ++ [e]) bs)
  else UB "bucket index out of range".

(** An index stored in three uint32_t, sdf_generation.hpp:120-125 and L192-194. *)
Definition u32_idx (i : idx) : idx := I (wrap_u32 (ix i)) (wrap_u32 (iy i)) (wrap_u32 (iz i)).

(** Marking one input point, sdf_generation.hpp:114-135. *)
Definition seed_point (s : dstate) (p : idx) : res dstate :=
  if in_bounds (gdims (ds_field s)) p then
    let e := E 0 (direction_number (0, 0, 0)) (u32_idx p) (u32_idx p) in
    let* bs := push_bucket (ds_buckets s) 0 e in
    Ok (DS (gset (ds_field s) p (Some e)) bs)
  else Throw "Point for BuildDistanceField out of bounds".

(** new_distance_square < neighbor.distance_square, sdf_generation.hpp:185. *)
Definition improves (nd : Z) (c : option entry) : bool :=
  match c with
  | None => true
  | Some e => nd <? e_d e
  end.

(** Body of the neighbour loop, sdf_generation.hpp:163-199.  [bq] is the index of
    the bucket being iterated; pushing into it would invalidate the iterator and the
    reference cur_cell, hence undefined. *)
Definition offer (maxd bq : Z) (e : entry) (s : dstate) (t : Z * Z * Z) : res dstate :=
  let '(dx, dy, dz) := t in
  let* x := i32 (ix (e_loc e) + dx) in
  let* y := i32 (iy (e_loc e) + dy) in
  let* z := i32 (iz (e_loc e) + dz) in
  let n := I x y z in
  if negb (in_bounds (gdims (ds_field s)) n) then Ok s
  else
    let* nd := compute_distance_squared n (e_cp e) in
    if maxd <? nd then Ok s
    else if improves nd (gget (ds_field s) n) then
      let e' := E nd (direction_number t) (u32_idx n) (e_cp e) in
      if nd =? bq then UB "push into the bucket being iterated"
      else
        let* bs := push_bucket (ds_buckets s) nd e' in
        Ok (DS (gset (ds_field s) n (Some e')) bs)
    else Ok s.

(** Body of the while loop over one bucket, sdf_generation.hpp:141-202. [int D =
    bq_idx] is taken as min(bq,1) (no wrap below 2^31 buckets). *)
Definition process_entry (maxd bq : Z) (s : dstate) (e : entry) : res dstate :=
  if (e_dir e <? 0) || (26 <? e_dir e) then Ok s
  else foldM (offer maxd bq e) (neighborhood (Z.min bq 1) (e_dir e)) s.

(** One iteration of the loop over buckets, sdf_generation.hpp:138-205.  As a
    push into the current bucket is flagged in [offer], the iterated sequence is
    the bucket's content on entry.  The bucket is then cleared. *)
Definition process_bucket (maxd : Z) (s : dstate) (bq : Z) : res dstate :=
  let* s' := foldM (process_entry maxd bq) (nth (Z.to_nat bq) (ds_buckets s) []) s in
  Ok (DS (ds_field s') (upd (Z.to_nat bq) [] (ds_buckets s'))).

(** BuildDistanceField, sdf_generation.hpp:95-207.  The grid's pose and
    resolution play no role in the cell values and are omitted.  Allocation
    failure is not modelled. *)
Definition build_distance_field (d : dims) (points : list idx) : res dfield :=
  let* maxd := max_distance_square d in
  let s0 := DS (mk_grid d None None) (repeat [] (Z.to_nat (maxd + 1))) in
  let* s1 := foldM seed_point points s0 in
  let* s2 := foldM (process_bucket maxd) (zrange (maxd + 1)) s1 in
  Ok (ds_field s2).

(** distance_square of a cell as read back at sdf_generation.hpp:254-255: [None]
    stands for +infinity. *)
Definition cell_distsq (f : dfield) (i : idx) : option Z :=
  match gget f i with
  | None => None
  | Some e => Some (e_d e)
  end.

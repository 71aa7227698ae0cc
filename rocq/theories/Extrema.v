(** Model of the local-extrema map, src/sdf_tools/sdf.cpp:19-207. *)
From Verif Require Import Base Floats Grid SdfGen Arith SdfQuery.

(** The initial entry of the map, src/sdf_tools/sdf.cpp:191-193: -infinity in each
    coordinate. *)
Definition unset : vec ieee := @V ieee ninf64 ninf64 ninf64.

(** The entry for paths that leave the grid, src/sdf_tools/sdf.cpp:83-85: +infinity
    in each coordinate. *)
Definition off_grid : vec ieee := @V ieee inf64 inf64 inf64.

(** No coordinate is -infinity, src/sdf_tools/sdf.cpp:30-32 and L92-94. *)
Definition known (v : vec ieee) : bool :=
  ne64 (vx v) ninf64 && ne64 (vy v) ninf64 && ne64 (vz v) ninf64.

(** GetResolution() * 0.06125, src/sdf_tools/sdf.cpp:131, L157. *)
Definition step_resolution (f : field ieee) : binary64 := mul64 (f_res f) (lit ieee 6125 100000).

(** GradientIsEffectiveFlat, src/sdf_tools/sdf.cpp:126-142. *)
Definition effective_flat (f : field ieee) (g : vec ieee) : bool :=
  let t := step_resolution f in
  le64 (b64_abs (vx g)) t && le64 (b64_abs (vy g)) t && le64 (b64_abs (vz g)) t.

(** One coordinate of GetNextFromGradient, src/sdf_tools/sdf.cpp:158-165, L166-173,
    L174-181. *)
Definition next_axis (t g : binary64) (i : Z) : Z :=
  if gt64 g t then i + 1 else if lt64 g (opp64 t) then i - 1 else i.

(** GetNextFromGradient, src/sdf_tools/sdf.cpp:144-183.  stored_distance < 0.0
    compares a float with a double; the float's value is unchanged by the
    conversion. *)
Definition next_from_gradient (f : field ieee) (i : idx) (g : vec ieee) : idx :=
  let w := if lt32 (value f i) zero32 then vscale g (b64_of_Z (-1)) else g in
  let t := step_resolution f in
  I (next_axis t (vx w) (ix i)) (next_axis t (vy w) (iy i)) (next_axis t (vz w) (iz i)).

(** The loop of FollowGradientsToLocalExtremaUnsafe, src/sdf_tools/sdf.cpp:59-116.
    [path] lists the keys of the unordered_map that map to 1; the lookup
    [path[current_index]] also inserts its key, which matters only for the key that
    is off the grid. Returns local_extrema and all keys.  The warning on stderr
    (L61-65) is left out. *)
Fixpoint follow_loop (fuel : nat) (f : field ieee) (p : pose ieee) (m : grid (vec ieee))
    (path : list idx) (current : idx) (g : vec ieee) : res (vec ieee * list idx) :=
  match fuel with
  | O => UB "fuel"
  | S fuel' =>
      let c := next_from_gradient f current g in
      if existsb (idx_eqb c) path then Ok (center_of p c, path)
      else
        let path' := path ++ [c] in
        if negb (in_bounds (gdims m) c) then Ok (off_grid, path')
        else
          let stored := fst (get m c) in
          if known stored then Ok (stored, path')
          else
            match gradient f p c true with
            | None => UB "raw_gradient[0] of an empty vector"
            | Some g' =>
                if effective_flat f g' then Ok (center_of p c, path')
                else follow_loop fuel' f p m path' c g'
            end
  end.

(** FollowGradientsToLocalExtremaUnsafe, src/sdf_tools/sdf.cpp:23-124.  One pass
    more than there are cells is enough for the loop (proved). *)
Definition follow (f : field ieee) (p : pose ieee) (m : grid (vec ieee)) (i : idx)
  : res (grid (vec ieee)) :=
  if known (fst (get m i)) then Ok m
  else
    match gradient f p i true with
    | None => UB "raw_gradient[0] of an empty vector"
    | Some g =>
        if effective_flat f g then Ok (fst (set m i (center_of p i)))
        else
          let* (v, path) := follow_loop (S (Z.to_nat (ncells (gdims m)))) f p m [i] i g in
          Ok (fold_left (fun m' j => fst (set m' j v)) path m)
    end.

(** ComputeLocalExtremaMap, src/sdf_tools/sdf.cpp:185-207.  The map's dimensions
    [wd] are what the VoxelGrid constructor computes from the sizes and the
    resolution. *)
Definition compute_extrema (f : field ieee) (p : pose ieee) (wd : dims) : res (grid (vec ieee)) :=
  foldM (follow f p) (sweep wd) (mk_grid wd unset unset).

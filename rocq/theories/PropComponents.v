(** C02-C07: connected components of a collision map. *)
From Verif Require Import Base Floats Grid TopoSpec CollisionMap ComponentSpec CollisionMapProofs.

(** C02, C03.  Computing components always terminates normally; afterwards the
    labels are exactly the face-connected regions of equal kind numbered 1..n in
    sweep order, n is returned and remembered, and nothing but labels changed. *)
Theorem C02_components_exact : forall m,
  map_ok m -> cm_components_valid m = false ->
  exists m' n, cm_update m = Ok (m', n) /\ map_ok m' /\ same_but_labels m m' /\
    components_right m' n /\ cm_ncomp m' = n /\ cm_components_valid m' = true /\
    n <= ncells (cm_dims m).
Proof. exact update_fresh. Qed.
Print Assumptions C02_components_exact.

(** C03 on its own: whatever the state of the labels and flag, recomputing
    components never changes an occupancy, the size, the frame or the
    out-of-bounds value. *)
Theorem C03_payload_kept : forall m m' n,
  map_ok m -> cm_update m = Ok (m', n) -> same_but_labels m m'.
Proof. exact update_payload. Qed.
Print Assumptions C03_payload_kept.

(** C04.  In every history of writes, reference writes and recomputations in which
    a reference is not used after a later recomputation, nothing throws and
    whenever the map says its components are valid they are right for the current
    occupancies. *)
Theorem C04_valid_flag_sound : forall frame d def oob ops,
  0 <= nx d -> 0 <= ny d -> 0 <= nz d -> ncells d < 4294967296 ->
  cell_ok def -> cell_ok oob -> Forall op_ok ops -> refs_not_kept 0 [] ops ->
  exists m refs, cm_run (cm_new frame d def oob) ops = Ok (m, refs) /\ map_ok m /\
    cm_dims m = d /\ (cm_components_valid m = true -> components_right m (cm_ncomp m)).
Proof. exact history_sound. Qed.
Print Assumptions C04_valid_flag_sound.

(** C05 is false: a reference kept across the recomputation lets the caller
    change an occupancy while the map still says its components are valid. *)
Theorem C05_kept_reference_refuted :
  exists d ops m refs,
    cm_run (cm_new "" d (CC zero32 0) (CC zero32 0)) ops = Ok (m, refs) /\
    Forall op_ok ops /\ map_ok m /\ cm_components_valid m = true /\
    forall n, ~ components_right m n.
Proof. exact kept_reference_breaks. Qed.
Print Assumptions C05_kept_reference_refuted.

(** C06.  The result depends on the occupancies only: two maps with equal
    occupancies (one with cached components, one without, or with any old labels)
    get the same labels and count, and updating again changes nothing. *)
Theorem C06_recompute_determined : forall m1 m2,
  map_ok m1 -> (cm_components_valid m1 = true -> components_right m1 (cm_ncomp m1)) ->
  map_ok m2 -> (cm_components_valid m2 = true -> components_right m2 (cm_ncomp m2)) ->
  same_but_labels m1 m2 ->
  exists m1' m2' n, cm_update m1 = Ok (m1', n) /\ cm_update m2 = Ok (m2', n) /\
    cm_grid m1' = cm_grid m2' /\ cm_update m1' = Ok (m1', n).
Proof.
  exact (fun m1 m2 O1 V1 O2 V2 => update_determined m1 m2 (conj O1 V1) (conj O2 V2)).
Qed.
Print Assumptions C06_recompute_determined.

(** C07.  Extracting components never throws on such a map; list k holds, in sweep
    order, exactly the cells labelled k+1; every cell of the grid occurs in exactly
    one list, once, and no list is empty. *)
Theorem C07_extract_components : forall m,
  map_ok m -> (cm_components_valid m = true -> components_right m (cm_ncomp m)) ->
  exists m' rows n, cm_extract_components m = Ok (m', rows) /\
    same_but_labels m m' /\ components_right m' n /\ cm_ncomp m' = n /\
    cm_components_valid m' = true /\ (cm_components_valid m = true -> m' = m) /\
    Z.of_nat (List.length rows) = n /\
    (forall k row, nth_error rows k = Some row ->
      row = filter (fun i => component_at m' i =? Z.of_nat k + 1) (sweep (cm_dims m))) /\
    NoDup (concat rows) /\
    (forall i, In i (concat rows) <-> in_bounds (cm_dims m) i = true) /\
    (forall row, In row rows -> row <> []).
Proof. exact (fun m O V => extract_partition m (conj O V)). Qed.
Print Assumptions C07_extract_components.

(** A 3x3x1 map: one occupied diagonal pair, a NaN cell, an old label. *)
Definition c02_ops : list cm_op :=
  [SetCell (I 0 0 0) (CC one32 7); SetCell (I 1 1 0) (CC one32 7); GetRef (I 2 2 0);
   WriteRef 0 (CC nan32 3); SetCell (I 5 5 5) (CC one32 9); UpdateCC; GetRef (I 9 9 9);
   WriteRef 1 (CC one32 2); ExtractCC].
Example C02_nonvacuous :
  Forall op_ok c02_ops /\ refs_not_kept 0 [] c02_ops /\
  match cm_run (cm_new "f" (D 3 3 1) (CC zero32 0) (CC zero32 0)) c02_ops with
  | Ok (m, refs) => map c_comp (gdata (cm_grid m)) = [1; 2; 2; 2; 3; 2; 2; 2; 2] /\ cm_ncomp m = 3 /\
                    cm_valid m = true
  | _ => False
  end.
Proof.
  split; [unfold c02_ops; repeat constructor; cbn; lia|]. split; [cbn; auto|].
  vm_compute. auto.
Qed.

(** C01: reading and writing cells of a map. *)
From Verif Require Import Base Grid GridFacts GridSpec GridThms.

(** One write: it reports success exactly in bounds, reads back, and touches
    nothing else. *)
Theorem C01_read_after_write : forall A (g g' : grid A) i v ok,
  wf_grid g -> set g i v = (g', ok) ->
  ok = in_bounds (gdims g) i /\
  (ok = true -> get g' i = (v, true)) /\
  (forall j, j <> i -> get g' j = get g j) /\
  (ok = false -> g' = g) /\
  wf_grid g'.
Proof. exact @set_get_laws. Qed.
Print Assumptions C01_read_after_write.

(** Any history of writes: a read returns the latest in-bounds write. *)
Theorem C01_history : forall A d (def oob : A) writes i,
  0 <= nx d -> 0 <= ny d -> 0 <= nz d ->
  get (apply_writes (mk_grid d def oob) writes) i =
    if in_bounds d i then (last_write writes i def, true) else (oob, false).
Proof. exact @set_history. Qed.
Print Assumptions C01_history.

Example C01_nonvacuous :
  let g := mk_grid (D 3 4 5) 0 (-1) in
  wf_grid g /\
  snd (set g (I 2 1 3) 7) = true /\ get (fst (set g (I 2 1 3) 7)) (I 2 1 3) = (7, true) /\
  snd (set g (I 3 0 0) 7) = false /\
  get (apply_writes g [(I 2 3 4, 1); (I 9 9 9, 5); (I 2 3 4, 8)]) (I 2 3 4) = (8, true).
Proof. unfold wf_grid; vm_compute. intuition congruence. Qed.

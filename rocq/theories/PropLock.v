(** C24, C25: the lock of a signed distance field. *)
From Verif Require Import Base Floats Grid CollisionMap SdfGen SdfLock SdfLockThms.

(** C24: after Lock() and until Unlock(), in-bounds reads do not change, SetValue
    is refused and changes nothing, and GetMutable is refused, provided no write
    goes through a reference handed out before Lock(). *)
Theorem C24_locked_values_partial : forall s0 before s1 refs1 after s2 refs2,
  wf_grid (s_grid s0) ->
  sdf_run (s0, []) (before ++ [SLock]) = Ok (s1, refs1) ->
  ~ In SUnlock after ->
  (forall k v, In (SWriteRef k v) after -> (length refs1 <= k)%nat) ->
  sdf_run (s1, refs1) after = Ok (s2, refs2) ->
  (forall i, in_bounds (sdf_dims s1) i = true -> sdf_get s2 i = sdf_get s1 i) /\
  (forall i v, snd (sdf_set s2 i v) = false /\ fst (sdf_set s2 i v) = s2) /\
  (forall i, snd (sdf_get_mutable s2 i) = false).
Proof. exact locked_history. Qed.
Print Assumptions C24_locked_values_partial.

(** C24 without that proviso is false: a reference obtained before Lock() still
    writes. *)
Theorem C24_kept_reference_refuted :
  exists s0 before s1 refs1 after s2 refs2 i,
    wf_grid (s_grid s0) /\ sdf_run (s0, []) (before ++ [SLock]) = Ok (s1, refs1) /\
    ~ In SUnlock after /\ sdf_run (s1, refs1) after = Ok (s2, refs2) /\
    in_bounds (sdf_dims s1) i = true /\ sdf_get s2 i <> sdf_get s1 i.
Proof. exact kept_reference_writes. Qed.
Print Assumptions C24_kept_reference_refuted.

(** C24, after Unlock() and until the next Lock(): every in-bounds SetValue is
    accepted and writes that cell only, and GetMutable is granted. *)
Theorem C24_unlocked_writes : forall s0 before s1 refs1 after s2 refs2,
  wf_grid (s_grid s0) ->
  sdf_run (s0, []) (before ++ [SUnlock]) = Ok (s1, refs1) -> ~ In SLock after ->
  sdf_run (s1, refs1) after = Ok (s2, refs2) ->
  forall i v, in_bounds (sdf_dims s0) i = true ->
    snd (sdf_set s2 i v) = true /\ sdf_get (fst (sdf_set s2 i v)) i = (v, true) /\
    (forall j, j <> i -> sdf_get (fst (sdf_set s2 i v)) j = sdf_get s2 j) /\
    snd (sdf_get_mutable s2 i) = true.
Proof. exact unlocked_history. Qed.
Print Assumptions C24_unlocked_writes.

(** C25 is false: the reference returned by a refused GetMutable writes the
    out-of-bounds answer of a locked field. *)
Theorem C25_locked_oob_refuted :
  exists s0 before s1 refs1 after s2 refs2 i,
    wf_grid (s_grid s0) /\ sdf_run (s0, []) (before ++ [SLock]) = Ok (s1, refs1) /\
    ~ In SUnlock after /\ (forall k v, In (SWriteRef k v) after -> (length refs1 <= k)%nat) /\
    sdf_run (s1, refs1) after = Ok (s2, refs2) /\
    in_bounds (sdf_dims s1) i = false /\ sdf_get s2 i <> sdf_get s1 i.
Proof. exact refused_reference_writes. Qed.
Print Assumptions C25_locked_oob_refuted.

(** C25, what does hold: calls alone change no answer, in or out of bounds. *)
Theorem C25_locked_calls_only : forall s refs ops s' refs',
  s_locked s = true -> ~ In SUnlock ops -> (forall k v, ~ In (SWriteRef k v) ops) ->
  sdf_run (s, refs) ops = Ok (s', refs') -> forall i, sdf_get s' i = sdf_get s i.
Proof. exact locked_oob. Qed.
Print Assumptions C25_locked_calls_only.

(** A history that meets the hypotheses of C24: a write, Lock, a refused write
    and a write through a refused reference. *)
Example lock_nonvacuous :
  let h1 := [SSet (I 1 0 0) one32] in
  let h2 := [SSet (I 0 0 0) one32; SGetRef (I 0 0 0); SWriteRef 0 one32; SLock] in
  exists s1 s2 refs2,
    wf_grid (s_grid small_field) /\
    sdf_run (small_field, []) (h1 ++ [SLock]) = Ok (s1, []) /\
    ~ In SUnlock h2 /\ sdf_run (s1, []) h2 = Ok (s2, refs2) /\
    sdf_get s2 (I 1 0 0) = (one32, true) /\ sdf_get s2 (I 0 0 0) = (zero32, true).
Proof. exact lock_case. Qed.

(** ... and one for the time after Unlock(). *)
Example unlock_nonvacuous : exists s1 s2,
  sdf_run (small_field, []) ([SLock; SSet (I 0 0 0) one32] ++ [SUnlock]) = Ok (s1, []) /\
  ~ In SLock [SSet (I 1 0 0) one32] /\ sdf_run (s1, []) [SSet (I 1 0 0) one32] = Ok (s2, []) /\
  in_bounds (sdf_dims small_field) (I 1 0 0) = true /\
  sdf_get s2 (I 0 0 0) = (zero32, true) /\ sdf_get s2 (I 1 0 0) = (one32, true).
Proof.
  do 2 eexists. split; [reflexivity|]. split; [intros [H|H]; [discriminate H|exact H]|].
  split; [reflexivity|]. split; [reflexivity|]. split; reflexivity.
Qed.

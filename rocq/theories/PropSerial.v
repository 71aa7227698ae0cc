(** C34-C40, C65, C66: serialization, files and messages.
    [put_t]/[get_t] is the codec of the transforms, [compress]/[decompress] zlib;
    both are only assumed to do what the statements say. *)
From Verif Require Import Base Floats Grid CollisionMap TaggedMap Serial SerialSpec SerialProofs
  SerialThms.

(** C34: serialized anywhere in a buffer, the object is read back whole, and the byte
    counts agree. *)
Theorem C34_sdf_round_trip : forall T (put_t : T -> bytes) get_t, transform_codec put_t get_t ->
  round_trips sdf_state_ok (sdf_serialize T put_t) (sdf_deserialize T get_t).
Proof. exact sdf_round_trips. Qed.
Print Assumptions C34_sdf_round_trip.

(** C35: serialized anywhere in a buffer, the object is read back whole, and the byte
    counts agree. *)
Theorem C35_collision_map_round_trip : forall T (put_t : T -> bytes) get_t, transform_codec put_t get_t ->
  round_trips cm_state_ok (cm_serialize T put_t) (cm_deserialize T get_t).
Proof. exact cm_round_trips. Qed.
Print Assumptions C35_collision_map_round_trip.

(** C36: serialized anywhere in a buffer, the object is read back whole, and the byte
    counts agree. Maps whose flag is uninitialised are excluded. *)
Theorem C36_tagged_map_round_trip : forall T (put_t : T -> bytes) get_t, transform_codec put_t get_t ->
  round_trips tm_state_ok (tm_serialize T put_t) (tm_deserialize T get_t).
Proof. exact tm_round_trips. Qed.
Print Assumptions C36_tagged_map_round_trip.

(** C47: every map built by a constructor with arguments and not segmented since has
    an uninitialised flag, and serializing, saving or sending it is undefined. *)
Theorem C47_serializing_uninitialised_refuted : forall T (put_t : T -> bytes) get_t compress (s : tm_state T) buffer path packed d,
  ts_seg_valid s = None ->
  is_ub (tm_serialize T put_t s buffer) = true /\
  is_ub (save_to_file compress (tm_class put_t get_t) s path packed d) = true /\
  is_ub (to_message compress (tm_class put_t get_t) ts_frame s) = true.
Proof. intros T put_t get_t compress [b n k f v [x|]] buffer path packed d E; [discriminate E|].
  repeat split. Qed.
Print Assumptions C47_serializing_uninitialised_refuted.

(** C37 *)
Theorem C37_sdf_file : forall T (put_t : T -> bytes) get_t compress decompress,
  transform_codec put_t get_t -> zlib_inverts compress decompress ->
  saves_and_loads sdf_state_ok compress decompress (sdf_class put_t get_t).
Proof. intros T put_t get_t compress decompress HT.
  destruct (sdf_headers T put_t get_t) as (H1 & H2 & H3).
  apply class_saves_and_loads; try assumption. apply sdf_round_trips, HT. Qed.
Print Assumptions C37_sdf_file.

Theorem C37_collision_map_file : forall T (put_t : T -> bytes) get_t compress decompress,
  transform_codec put_t get_t -> zlib_inverts compress decompress ->
  saves_and_loads cm_state_ok compress decompress (cm_class put_t get_t).
Proof. intros T put_t get_t compress decompress HT.
  destruct (cm_headers T put_t get_t) as (H1 & H2 & H3).
  apply class_saves_and_loads; try assumption. apply cm_round_trips, HT. Qed.
Print Assumptions C37_collision_map_file.

Theorem C37_tagged_map_file : forall T (put_t : T -> bytes) get_t compress decompress,
  transform_codec put_t get_t -> zlib_inverts compress decompress ->
  saves_and_loads tm_state_ok compress decompress (tm_class put_t get_t).
Proof. intros T put_t get_t compress decompress HT.
  destruct (tm_headers T put_t get_t) as (H1 & H2 & H3).
  apply class_saves_and_loads; try assumption. apply tm_round_trips, HT. Qed.
Print Assumptions C37_tagged_map_file.

(** C38: short and foreign files *)
Theorem C38_sdf_foreign_file : forall T (put_t : T -> bytes) get_t decompress b,
  (length b < 4)%nat \/
  (~ starts_with "SDFZ" b /\ ~ starts_with "SDFR" b) ->
  is_throw (load_bytes decompress (sdf_class put_t get_t) b) = true.
Proof. intros T put_t get_t decompress b.
  destruct (sdf_headers T put_t get_t) as (H1 & H2 & H3).
  exact (load_needs_header (fun x => x) decompress (sdf_class put_t get_t) H1 H2 b). Qed.
Print Assumptions C38_sdf_foreign_file.

Theorem C38_collision_map_foreign_file : forall T (put_t : T -> bytes) get_t decompress b,
  (length b < 4)%nat \/
  (~ starts_with "CMGZ" b /\ ~ starts_with "CMGR" b) ->
  is_throw (load_bytes decompress (cm_class put_t get_t) b) = true.
Proof. intros T put_t get_t decompress b.
  destruct (cm_headers T put_t get_t) as (H1 & H2 & H3).
  exact (load_needs_header (fun x => x) decompress (cm_class put_t get_t) H1 H2 b). Qed.
Print Assumptions C38_collision_map_foreign_file.

Theorem C38_tagged_map_foreign_file : forall T (put_t : T -> bytes) get_t decompress b,
  (length b < 4)%nat \/
  (~ starts_with "TCMZ" b /\ ~ starts_with "TCMR" b) ->
  is_throw (load_bytes decompress (tm_class put_t get_t) b) = true.
Proof. intros T put_t get_t decompress b.
  destruct (tm_headers T put_t get_t) as (H1 & H2 & H3).
  exact (load_needs_header (fun x => x) decompress (tm_class put_t get_t) H1 H2 b). Qed.
Print Assumptions C38_tagged_map_foreign_file.

(** C38: a missing file *)
Theorem C38_missing_file : forall S (c : file_class S) decompress path d, d_file d path = None ->
  load_from_file decompress c path d = Throw "File does not exist".
Proof. intros S c decompress path d H. unfold load_from_file. rewrite H. reflexivity. Qed.
Print Assumptions C38_missing_file.

(** C38: a file saved by one class is not accepted by another *)
Theorem C38_sdf_file_is_not_collision_map : forall T (put_t : T -> bytes) get_t compress decompress s packed b,
  file_bytes compress (sdf_class put_t get_t) s packed = Ok b ->
  is_throw (load_bytes decompress (cm_class put_t get_t) b) = true.
Proof. intros T put_t get_t.
  destruct (sdf_headers T put_t get_t) as (H1 & H2 & _).
  destruct (cm_headers T put_t get_t) as (H1' & H2' & _).
  exact (cross_class _ _ H1 H2 H1' H2' eq_refl). Qed.
Print Assumptions C38_sdf_file_is_not_collision_map.

Theorem C38_sdf_file_is_not_tagged_map : forall T (put_t : T -> bytes) get_t compress decompress s packed b,
  file_bytes compress (sdf_class put_t get_t) s packed = Ok b ->
  is_throw (load_bytes decompress (tm_class put_t get_t) b) = true.
Proof. intros T put_t get_t.
  destruct (sdf_headers T put_t get_t) as (H1 & H2 & _).
  destruct (tm_headers T put_t get_t) as (H1' & H2' & _).
  exact (cross_class _ _ H1 H2 H1' H2' eq_refl). Qed.
Print Assumptions C38_sdf_file_is_not_tagged_map.

Theorem C38_collision_map_file_is_not_sdf : forall T (put_t : T -> bytes) get_t compress decompress s packed b,
  file_bytes compress (cm_class put_t get_t) s packed = Ok b ->
  is_throw (load_bytes decompress (sdf_class put_t get_t) b) = true.
Proof. intros T put_t get_t.
  destruct (cm_headers T put_t get_t) as (H1 & H2 & _).
  destruct (sdf_headers T put_t get_t) as (H1' & H2' & _).
  exact (cross_class _ _ H1 H2 H1' H2' eq_refl). Qed.
Print Assumptions C38_collision_map_file_is_not_sdf.

Theorem C38_collision_map_file_is_not_tagged_map : forall T (put_t : T -> bytes) get_t compress decompress s packed b,
  file_bytes compress (cm_class put_t get_t) s packed = Ok b ->
  is_throw (load_bytes decompress (tm_class put_t get_t) b) = true.
Proof. intros T put_t get_t.
  destruct (cm_headers T put_t get_t) as (H1 & H2 & _).
  destruct (tm_headers T put_t get_t) as (H1' & H2' & _).
  exact (cross_class _ _ H1 H2 H1' H2' eq_refl). Qed.
Print Assumptions C38_collision_map_file_is_not_tagged_map.

Theorem C38_tagged_map_file_is_not_sdf : forall T (put_t : T -> bytes) get_t compress decompress s packed b,
  file_bytes compress (tm_class put_t get_t) s packed = Ok b ->
  is_throw (load_bytes decompress (sdf_class put_t get_t) b) = true.
Proof. intros T put_t get_t.
  destruct (tm_headers T put_t get_t) as (H1 & H2 & _).
  destruct (sdf_headers T put_t get_t) as (H1' & H2' & _).
  exact (cross_class _ _ H1 H2 H1' H2' eq_refl). Qed.
Print Assumptions C38_tagged_map_file_is_not_sdf.

Theorem C38_tagged_map_file_is_not_collision_map : forall T (put_t : T -> bytes) get_t compress decompress s packed b,
  file_bytes compress (tm_class put_t get_t) s packed = Ok b ->
  is_throw (load_bytes decompress (cm_class put_t get_t) b) = true.
Proof. intros T put_t get_t.
  destruct (tm_headers T put_t get_t) as (H1 & H2 & _).
  destruct (cm_headers T put_t get_t) as (H1' & H2' & _).
  exact (cross_class _ _ H1 H2 H1' H2' eq_refl). Qed.
Print Assumptions C38_tagged_map_file_is_not_collision_map.

(** C39: a proper beginning of a serialized object is never read as an object *)
Theorem C39_sdf_truncated : forall T (put_t : T -> bytes) get_t, transform_codec put_t get_t ->
  rejects_truncation sdf_state_ok (sdf_serialize T put_t) (sdf_deserialize T get_t).
Proof. exact sdf_rejects. Qed.
Print Assumptions C39_sdf_truncated.

Theorem C39_collision_map_truncated : forall T (put_t : T -> bytes) get_t, transform_codec put_t get_t ->
  rejects_truncation cm_state_ok (cm_serialize T put_t) (cm_deserialize T get_t).
Proof. exact cm_rejects. Qed.
Print Assumptions C39_collision_map_truncated.

Theorem C39_tagged_map_truncated : forall T (put_t : T -> bytes) get_t, transform_codec put_t get_t ->
  rejects_truncation tm_state_ok (tm_serialize T put_t) (tm_deserialize T get_t).
Proof. exact tm_rejects. Qed.
Print Assumptions C39_tagged_map_truncated.

(** C39: a cut-off uncompressed file is never accepted *)
Theorem C39_sdf_truncated_file : forall T (put_t : T -> bytes) get_t compress decompress s b cut,
  transform_codec put_t get_t -> sdf_state_ok s ->
  file_bytes compress (sdf_class put_t get_t) s false = Ok b -> proper_prefix cut b ->
  is_ok (load_bytes decompress (sdf_class put_t get_t) cut) = false.
Proof. intros T put_t get_t compress decompress s b cut HT.
  destruct (sdf_headers T put_t get_t) as (H1 & H2 & H3).
  exact (cut_raw_file compress decompress (sdf_class put_t get_t) _ H1 H2 H3
    (sdf_round_trips T put_t get_t HT) (sdf_rejects T put_t get_t HT) s b cut). Qed.
Print Assumptions C39_sdf_truncated_file.

Theorem C39_collision_map_truncated_file : forall T (put_t : T -> bytes) get_t compress decompress s b cut,
  transform_codec put_t get_t -> cm_state_ok s ->
  file_bytes compress (cm_class put_t get_t) s false = Ok b -> proper_prefix cut b ->
  is_ok (load_bytes decompress (cm_class put_t get_t) cut) = false.
Proof. intros T put_t get_t compress decompress s b cut HT.
  destruct (cm_headers T put_t get_t) as (H1 & H2 & H3).
  exact (cut_raw_file compress decompress (cm_class put_t get_t) _ H1 H2 H3
    (cm_round_trips T put_t get_t HT) (cm_rejects T put_t get_t HT) s b cut). Qed.
Print Assumptions C39_collision_map_truncated_file.

Theorem C39_tagged_map_truncated_file : forall T (put_t : T -> bytes) get_t compress decompress s b cut,
  transform_codec put_t get_t -> tm_state_ok s ->
  file_bytes compress (tm_class put_t get_t) s false = Ok b -> proper_prefix cut b ->
  is_ok (load_bytes decompress (tm_class put_t get_t) cut) = false.
Proof. intros T put_t get_t compress decompress s b cut HT.
  destruct (tm_headers T put_t get_t) as (H1 & H2 & H3).
  exact (cut_raw_file compress decompress (tm_class put_t get_t) _ H1 H2 H3
    (tm_round_trips T put_t get_t HT) (tm_rejects T put_t get_t HT) s b cut). Qed.
Print Assumptions C39_tagged_map_truncated_file.

(** C39: a cut-off compressed file gives the saved object or nothing *)
Theorem C39_sdf_truncated_compressed_file : forall T (put_t : T -> bytes) get_t compress decompress s b cut s',
  transform_codec put_t get_t -> zlib_cut_off compress decompress -> sdf_state_ok s ->
  file_bytes compress (sdf_class put_t get_t) s true = Ok b -> prefix cut b ->
  load_bytes decompress (sdf_class put_t get_t) cut = Ok s' -> s' = s.
Proof. intros T put_t get_t compress decompress s b cut s' HT.
  destruct (sdf_headers T put_t get_t) as (H1 & H2 & H3).
  exact (cut_packed_file compress decompress (sdf_class put_t get_t) _ H1 H2
    (sdf_round_trips T put_t get_t HT) (sdf_rejects T put_t get_t HT) s b cut s'). Qed.
Print Assumptions C39_sdf_truncated_compressed_file.

Theorem C39_collision_map_truncated_compressed_file : forall T (put_t : T -> bytes) get_t compress decompress s b cut s',
  transform_codec put_t get_t -> zlib_cut_off compress decompress -> cm_state_ok s ->
  file_bytes compress (cm_class put_t get_t) s true = Ok b -> prefix cut b ->
  load_bytes decompress (cm_class put_t get_t) cut = Ok s' -> s' = s.
Proof. intros T put_t get_t compress decompress s b cut s' HT.
  destruct (cm_headers T put_t get_t) as (H1 & H2 & H3).
  exact (cut_packed_file compress decompress (cm_class put_t get_t) _ H1 H2
    (cm_round_trips T put_t get_t HT) (cm_rejects T put_t get_t HT) s b cut s'). Qed.
Print Assumptions C39_collision_map_truncated_compressed_file.

Theorem C39_tagged_map_truncated_compressed_file : forall T (put_t : T -> bytes) get_t compress decompress s b cut s',
  transform_codec put_t get_t -> zlib_cut_off compress decompress -> tm_state_ok s ->
  file_bytes compress (tm_class put_t get_t) s true = Ok b -> prefix cut b ->
  load_bytes decompress (tm_class put_t get_t) cut = Ok s' -> s' = s.
Proof. intros T put_t get_t compress decompress s b cut s' HT.
  destruct (tm_headers T put_t get_t) as (H1 & H2 & H3).
  exact (cut_packed_file compress decompress (tm_class put_t get_t) _ H1 H2
    (tm_round_trips T put_t get_t HT) (tm_rejects T put_t get_t HT) s b cut s'). Qed.
Print Assumptions C39_tagged_map_truncated_compressed_file.

(** C40 *)
Theorem C40_sdf_message : forall T (put_t : T -> bytes) get_t compress decompress,
  transform_codec put_t get_t -> zlib_inverts compress decompress ->
  message_round_trips sdf_state_ok compress decompress (sdf_class put_t get_t) ss_frame.
Proof. intros T put_t get_t compress decompress HT.
  apply class_message. apply sdf_round_trips, HT. Qed.
Print Assumptions C40_sdf_message.

Theorem C40_collision_map_message : forall T (put_t : T -> bytes) get_t compress decompress,
  transform_codec put_t get_t -> zlib_inverts compress decompress ->
  message_round_trips cm_state_ok compress decompress (cm_class put_t get_t) cs_frame.
Proof. intros T put_t get_t compress decompress HT.
  apply class_message. apply cm_round_trips, HT. Qed.
Print Assumptions C40_collision_map_message.

Theorem C40_tagged_map_message : forall T (put_t : T -> bytes) get_t compress decompress,
  transform_codec put_t get_t -> zlib_inverts compress decompress ->
  message_round_trips tm_state_ok compress decompress (tm_class put_t get_t) ts_frame.
Proof. intros T put_t get_t compress decompress HT.
  apply class_message. apply tm_round_trips, HT. Qed.
Print Assumptions C40_tagged_map_message.

(** C65: saving to a path that cannot be written returns normally and changes
    nothing; a later load gives whatever was there before. *)
Theorem C65_failed_save_unnoticed_refuted : forall T (put_t : T -> bytes) get_t compress (s : sdf_state T) path packed d,
  transform_codec put_t get_t -> sdf_state_ok s -> d_writable d path = false ->
  save_to_file compress (sdf_class put_t get_t) s path packed d = Ok d.
Proof. intros T put_t get_t compress s path packed d HT.
  apply save_unwritable. apply sdf_round_trips, HT. Qed.
Print Assumptions C65_failed_save_unnoticed_refuted.

(** C66: a file is accepted although its array does not hold the cells it declares;
    cell (0,0,0) is in bounds and its value lies past the end of the array. *)
Theorem C66_unchecked_size_refuted : forall compress decompress, exists b s,
  file_bytes compress (cm_class put_iso get_iso) s false = Ok b /\
  load_bytes decompress (cm_class put_iso get_iso) b = Ok s /\
  ~ consistent (cs_base s) /\
  in_bounds (cm_dims (as_cmap s)) (I 0 0 0) = true /\
  Z.of_nat (length (b_data (cs_base s))) <= data_index (cm_dims (as_cmap s)) (I 0 0 0).
Proof. intros compress decompress.
  destruct (hollow_loads compress decompress id_iso) as (b & E1 & E2).
  exists b, (hollow id_iso). split; [exact E1|]. split; [exact E2|].
  split; [intros H; discriminate H|]. split; [reflexivity|]. cbn. lia. Qed.
Print Assumptions C66_unchecked_size_refuted.

(** C66, what holds: a consistent object that was saved where it could be written is
    consistent when it is loaded. *)
Theorem C66_saved_partial : forall T (put_t : T -> bytes) get_t compress decompress path packed d,
  transform_codec put_t get_t -> zlib_inverts compress decompress -> d_writable d path = true ->
  (forall s, sdf_state_ok s -> consistent (ss_base s) -> exists d' s',
     save_to_file compress (sdf_class put_t get_t) s path packed d = Ok d' /\
     load_from_file decompress (sdf_class put_t get_t) path d' = Ok s' /\ consistent (ss_base s')) /\
  (forall s, cm_state_ok s -> consistent (cs_base s) -> exists d' s',
     save_to_file compress (cm_class put_t get_t) s path packed d = Ok d' /\
     load_from_file decompress (cm_class put_t get_t) path d' = Ok s' /\ consistent (cs_base s')) /\
  (forall s, tm_state_ok s -> consistent (ts_base s) -> exists d' s',
     save_to_file compress (tm_class put_t get_t) s path packed d = Ok d' /\
     load_from_file decompress (tm_class put_t get_t) path d' = Ok s' /\ consistent (ts_base s')).
Proof.
  intros T put_t get_t compress decompress path packed d HT HZ W. split; [|split]; intros s Hs C.
  - destruct (C37_sdf_file T put_t get_t compress decompress HT HZ s path packed d Hs W) as (d' & E & L & _). eauto.
  - destruct (C37_collision_map_file T put_t get_t compress decompress HT HZ s path packed d Hs W) as (d' & E & L & _). eauto.
  - destruct (C37_tagged_map_file T put_t get_t compress decompress HT HZ s path packed d Hs W) as (d' & E & L & _). eauto.
Qed.
Print Assumptions C66_saved_partial.

(** The hypotheses are met: a codec of sixteen doubles, storing instead of
    compressing, and four-cell objects with a NaN payload and full 32-bit words. *)
Example serial_nonvacuous :
  transform_codec put_iso get_iso /\
  zlib_inverts (fun b => b) (fun b => Ok b) /\ zlib_cut_off (fun b => b) (fun b => Ok b) /\
  sdf_state_ok small_sdf /\ cm_state_ok small_cm /\ tm_state_ok small_tm /\
  consistent (ss_base small_sdf) /\ consistent (cs_base small_cm) /\ consistent (ts_base small_tm) /\
  small_sdf <> SdfState (ss_base small_sdf) "world" false.
Proof.
  split; [exact iso_codec|]. split; [intros b; reflexivity|].
  split; [intros b cut u H E; injection E as E; subst; exact H|].
  destruct small_ok as (H1 & H2 & H3). repeat (split; [assumption|]).
  repeat (split; [reflexivity|]). intros H; discriminate H.
Qed.

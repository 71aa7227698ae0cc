(** What serialization is expected to do. *)
From Verif Require Import Base Floats Grid CollisionMap TaggedMap Serial.

(** The values a C++ object can hold in its integer members. *)
Definition is_u32 (v : Z) : Prop := 0 <= v < 2 ^ 32.
Definition is_i64 (v : Z) : Prop := - 2 ^ 63 <= v < 2 ^ 63.
Definition ccell_ok (c : ccell) : Prop := is_u32 (c_comp c).
Definition tcell_words_ok (c : tcell) : Prop :=
  is_u32 (t_comp c) /\ is_u32 (t_obj c) /\ is_u32 (t_seg c).
Definition base_ok {T A} (cell_ok : A -> Prop) (b : base T A) : Prop :=
  Forall cell_ok (b_data b) /\ Z.of_nat (length (b_data b)) < 2 ^ 64 /\
  is_i64 (b_stride1 b) /\ is_i64 (b_stride2 b) /\
  is_i64 (b_num_x b) /\ is_i64 (b_num_y b) /\ is_i64 (b_num_z b) /\
  cell_ok (b_default b) /\ cell_ok (b_oob b).
Definition frame_ok (s : string) : Prop := Z.of_nat (String.length s) < 2 ^ 64.

Definition sdf_state_ok {T} (s : sdf_state T) : Prop :=
  base_ok (fun _ => True) (ss_base s) /\ frame_ok (ss_frame s).
Definition cm_state_ok {T} (s : cm_state T) : Prop :=
  base_ok ccell_ok (cs_base s) /\ is_u32 (cs_ncomp s) /\ frame_ok (cs_frame s).
(** Includes that the segment flag has been initialised. *)
Definition tm_state_ok {T} (s : tm_state T) : Prop :=
  base_ok tcell_words_ok (ts_base s) /\ is_u32 (ts_ncomp s) /\ is_u32 (ts_nseg s) /\
  frame_ok (ts_frame s) /\ ts_seg_valid s <> None.

(** Reading at the place where a value was written gives it back, whatever
    surrounds it. *)
Definition gives_back {A} (get : parser A) (v : A) (written : bytes) : Prop :=
  forall before after,
  get (before ++ written ++ after) (length before) =
  Ok (v, (length before + length written)%nat).

(** A reader looks only at the bytes it passes over, and these are in the buffer. *)
Definition reads_what_it_passes {A} (get : parser A) : Prop :=
  forall buf pos v pos', (pos <= length buf)%nat ->
  get buf pos = Ok (v, pos') ->
  (pos <= pos' <= length buf)%nat /\ forall more, get (buf ++ more) pos = Ok (v, pos').

(** What is assumed of the codec of the transforms. *)
Definition transform_codec {T} (put : T -> bytes) (get : parser T) : Prop :=
  (forall t, gives_back get t (put t)) /\ reads_what_it_passes get.

(** What is assumed of zlib: decompression inverts compression; and, for damaged
    files, decompressing a cut-off stream fails or gives a beginning of the data. *)
Definition zlib_inverts (compress : bytes -> bytes) (decompress : bytes -> res bytes) : Prop :=
  forall b, decompress (compress b) = Ok b.
Definition prefix (a b : bytes) : Prop := exists rest, b = a ++ rest.
Definition proper_prefix (a b : bytes) : Prop := exists rest, rest <> nil /\ b = a ++ rest.
Definition zlib_cut_off (compress : bytes -> bytes) (decompress : bytes -> res bytes) : Prop :=
  forall b cut u, prefix cut (compress b) -> decompress cut = Ok u -> prefix u b.

(** An object of the class serialized into any buffer, followed by any bytes, is
    read back whole: same object, same number of bytes. *)
Definition round_trips {S} (ok : S -> Prop) (serialize : S -> bytes -> res (bytes * nat))
    (deserialize : bytes -> nat -> res (S * nat)) : Prop :=
  forall s before after, ok s ->
  exists written,
    serialize s before = Ok (before ++ written, length written) /\
    deserialize ((before ++ written) ++ after) (length before) = Ok (s, length written).

(** Nothing cut off from the end is read as a whole object. *)
Definition rejects_truncation {S} (ok : S -> Prop) (serialize : S -> bytes -> res (bytes * nat))
    (deserialize : bytes -> nat -> res (S * nat)) : Prop :=
  forall s b n cut, ok s -> serialize s nil = Ok (b, n) -> proper_prefix cut b ->
  is_ok (deserialize cut 0%nat) = false.

(** Saving and loading. *)
Definition saves_and_loads {S} (ok : S -> Prop) compress decompress (c : file_class S) : Prop :=
  forall s path packed d, ok s -> d_writable d path = true ->
  exists d', save_to_file compress c s path packed d = Ok d' /\
    load_from_file decompress c path d' = Ok s /\
    (forall other, other <> path -> d_file d' other = d_file d other).

(** The first four bytes of a file and the two headers of a class. *)
Definition starts_with (s : string) (b : bytes) : Prop := prefix (text s) b.

(** Messages. *)
Definition message_round_trips {S} (ok : S -> Prop) compress decompress (c : file_class S)
    (frame_of : S -> string) : Prop :=
  forall s, ok s -> exists m,
    to_message compress c frame_of s = Ok m /\ m_frame m = frame_of s /\
    from_message decompress c m = Ok s.

(** A map whose array holds one value per cell. *)
Definition consistent {T A} (b : base T A) : Prop :=
  Z.of_nat (length (b_data b)) = ncells (D (b_num_x b) (b_num_y b) (b_num_z b)).

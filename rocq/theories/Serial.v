(** Model of serialization, files and messages:
    src/sdf_tools/sdf.cpp:213-502, src/sdf_tools/collision_map.cpp:21-315 and
    src/sdf_tools/tagged_object_collision_map.cpp:23-338.

    A byte is a number in 0..255 and a buffer a list of bytes.  The fixed-size,
    vector, string and transform codecs are arc_utilities' and not in the
    repository.  Modelled here: fixed-size values are copied byte for byte
    (little endian), vectors and strings are preceded by their length as a
    uint64_t, reading past the end of the buffer is not a normal outcome
    (assertion failure, or undefined when assertions are off).  The codec of
    Eigen::Isometry3d and zlib are parameters.
    Simplification: a 64-bit buffer position never wraps, and a vector length
    read from a damaged buffer is not checked against the available memory
    before the items are read. *)
From Coq Require Import Ascii.
From Verif Require Import Base Floats Grid CollisionMap TaggedMap.
Import ListNotations.

(** std::vector<uint8_t>, src/sdf_tools/sdf.cpp:214. *)
Definition bytes := list Z.

(** ** Fixed-size values *)

(** A fixed-size value copied byte for byte on a little-endian machine: the [k]
    bytes of SerializeFixedSizePOD, called at src/sdf_tools/sdf.cpp:221-253
    (arc_utilities, outside /repo). *)
Fixpoint le_bytes (k : nat) (v : Z) : bytes :=
  match k with
  | O => nil
  | S k' => v mod 256 :: le_bytes k' (v / 256)
  end.

(** The number with these bytes, read back by DeserializeFixedSizePOD, called at
    src/sdf_tools/sdf.cpp:269-384 (arc_utilities, outside /repo). *)
Fixpoint le_value (b : bytes) : Z :=
  match b with
  | nil => 0
  | x :: b' => x + 256 * le_value b'
  end.

(** int64_t in two's complement, as stride1_ at src/sdf_tools/sdf.cpp:340-344. *)
Definition signed64 (v : Z) : Z := if v <? 2 ^ 63 then v else v - 2 ^ 64.

(** SerializeFixedSizePOD<uint8_t> of a bool, src/sdf_tools/sdf.cpp:221: the bytes
    appended. *)
Definition put_bool (b : bool) : bytes := le_bytes 1 (if b then 1 else 0).

(** SerializeFixedSizePOD<uint32_t>, src/sdf_tools/collision_map.cpp:59: the bytes
    appended. *)
Definition put_u32 (v : Z) : bytes := le_bytes 4 v.

(** SerializeFixedSizePOD<uint64_t>, the length that SerializeVector
    (src/sdf_tools/sdf.cpp:227) puts first (arc_utilities, outside /repo). *)
Definition put_u64 (v : Z) : bytes := le_bytes 8 v.

(** SerializeFixedSizePOD<int64_t>, src/sdf_tools/sdf.cpp:241-245: the bytes
    appended. *)
Definition put_i64 (v : Z) : bytes := le_bytes 8 (v mod 2 ^ 64).

(** SerializeFixedSizePOD<float>, src/sdf_tools/sdf.cpp:228, L247-249: the bytes
    appended. *)
Definition put_f32 (v : binary32) : bytes := le_bytes 4 (bits_of_b32 v).

(** SerializeFixedSizePOD<double>, src/sdf_tools/sdf.cpp:230-239: the bytes
    appended. *)
Definition put_f64 (v : binary64) : bytes := le_bytes 8 (bits_of_b64 v).

(** SerializeFixedSizePOD<COLLISION_CELL>, src/sdf_tools/collision_map.cpp:57: the
    members in the order of include/sdf_tools/collision_map.hpp:22-23, without
    padding. *)
Definition put_ccell (c : ccell) : bytes := put_f32 (c_occ c) ++ put_u32 (c_comp c).

(** SerializeFixedSizePOD<TAGGED_OBJECT_COLLISION_CELL>,
    src/sdf_tools/tagged_object_collision_map.cpp:59-63: the members in the order of
    include/sdf_tools/tagged_object_collision_map.hpp:24-27, without padding. *)
Definition put_tcell (c : tcell) : bytes :=
  put_f32 (t_occ c) ++ put_u32 (t_comp c) ++ put_u32 (t_obj c) ++ put_u32 (t_seg c).

(** SerializeVector, src/sdf_tools/sdf.cpp:227-228 (arc_utilities, outside /repo):
    the length and the items. *)
Definition put_vector {A} (put : A -> bytes) (l : list A) : bytes :=
  put_u64 (Z.of_nat (length l)) ++ flat_map put l.

(** One character of a std::string, part of SerializeString at
    src/sdf_tools/sdf.cpp:251 (arc_utilities, outside /repo). *)
Definition put_char (c : ascii) : bytes := [Z.of_N (N_of_ascii c)].

(** SerializeString, src/sdf_tools/sdf.cpp:251 (arc_utilities, outside /repo). *)
Definition put_string (s : string) : bytes := put_vector put_char (list_ascii_of_string s).

(** ** Reading.  A parser takes the buffer and current_position and gives the value
    and the new current_position, as the steps of DeserializeSelf do, e.g.
    src/sdf_tools/sdf.cpp:268-272. *)
Definition parser (A : Type) := bytes -> nat -> res (A * nat).

(** Return a value without reading: the end of DeserializeSelf,
    src/sdf_tools/sdf.cpp:387-389. *)
Definition pret {A} (a : A) : parser A := fun _ pos => Ok (a, pos).

(** One read after the other: current_position += ..., src/sdf_tools/sdf.cpp:272. *)
Definition pbind {A B} (p : parser A) (k : A -> parser B) : parser B :=
  fun buf pos => let* r := p buf pos in k (fst r) buf (snd r).

(** A read followed by a conversion such as (bool), src/sdf_tools/sdf.cpp:271. *)
Definition pmap {A B} (f : A -> B) (p : parser A) : parser B := pbind p (fun a => pret (f a)).

Notation "'read' x 'as' p 'in' k" := (pbind p (fun x => k))
  (at level 200, x name, p at level 100, k at level 200, right associativity).

(** DeserializeFixedSizePOD, called e.g. at src/sdf_tools/sdf.cpp:269
    (arc_utilities, outside /repo): the next [k] bytes as an unsigned number. *)
Definition get_word (k : nat) : parser Z := fun buf pos =>
  if (pos + k <=? length buf)%nat
  then Ok (le_value (firstn k (skipn pos buf)), (pos + k)%nat)
  else UB "read past the end of the buffer".

(** DeserializeFixedSizePOD<uint8_t> and the conversion to bool,
    src/sdf_tools/sdf.cpp:268-271. *)
Definition get_bool : parser bool := pmap (fun v => negb (v =? 0)) (get_word 1).

(** DeserializeFixedSizePOD<uint32_t>, src/sdf_tools/collision_map.cpp:187-190. *)
Definition get_u32 : parser Z := get_word 4.

(** DeserializeFixedSizePOD<uint64_t>, the length that DeserializeVector
    (src/sdf_tools/sdf.cpp:287) reads first (arc_utilities, outside /repo). *)
Definition get_u64 : parser Z := get_word 8.

(** DeserializeFixedSizePOD<int64_t>, src/sdf_tools/sdf.cpp:340-343. *)
Definition get_i64 : parser Z := pmap signed64 (get_word 8).

(** DeserializeFixedSizePOD<float>, src/sdf_tools/sdf.cpp:366-369. *)
Definition get_f32 : parser binary32 := pmap b32_of_bits (get_word 4).

(** DeserializeFixedSizePOD<double>, src/sdf_tools/sdf.cpp:293-296. *)
Definition get_f64 : parser binary64 := pmap b64_of_bits (get_word 8).

(** DeserializeFixedSizePOD<COLLISION_CELL>,
    src/sdf_tools/collision_map.cpp:181-184. *)
Definition get_ccell : parser ccell :=
  read occ as get_f32 in read comp as get_u32 in pret (CC occ comp).

(** DeserializeFixedSizePOD<TAGGED_OBJECT_COLLISION_CELL>,
    src/sdf_tools/tagged_object_collision_map.cpp:192-196. *)
Definition get_tcell : parser tcell :=
  read occ as get_f32 in read comp as get_u32 in
  read obj as get_u32 in read seg as get_u32 in pret (TC occ comp obj seg).

(** The items of DeserializeVector, src/sdf_tools/sdf.cpp:286-289 (arc_utilities,
    outside /repo). *)
Fixpoint get_items {A} (n : nat) (get : parser A) : parser (list A) :=
  match n with
  | O => pret nil
  | S n' => read a as get in read l as get_items n' get in pret (a :: l)
  end.

(** DeserializeVector, src/sdf_tools/sdf.cpp:286-289 (arc_utilities, outside
    /repo). *)
Definition get_vector {A} (get : parser A) : parser (list A) :=
  read n as get_u64 in get_items (Z.to_nat n) get.

(** One character of DeserializeString<char>, src/sdf_tools/sdf.cpp:379
    (arc_utilities, outside /repo). *)
Definition get_char : parser ascii := pmap (fun v => ascii_of_N (Z.to_N v)) (get_word 1).

(** DeserializeString<char>, src/sdf_tools/sdf.cpp:378-380 (arc_utilities, outside
    /repo). *)
Definition get_string : parser string := pmap string_of_list_ascii (get_vector get_char).

(** ** The members written for every class (the base class VoxelGrid), in the order
    of src/sdf_tools/sdf.cpp:221-249. *)
Record base (T A : Type) := Members {
  b_initialized : bool;
  b_origin : T;
  b_inverse : T;
  b_data : list A;
  b_cell_x : binary64; b_cell_y : binary64; b_cell_z : binary64;
  b_inv_x : binary64; b_inv_y : binary64; b_inv_z : binary64;
  b_size_x : binary64; b_size_y : binary64; b_size_z : binary64;
  b_stride1 : Z; b_stride2 : Z;
  b_num_x : Z; b_num_y : Z; b_num_z : Z;
  b_default : A;
  b_oob : A
}.
Arguments Members {T A}.
Arguments b_initialized {T A}. Arguments b_origin {T A}. Arguments b_inverse {T A}.
Arguments b_data {T A}. Arguments b_cell_x {T A}. Arguments b_cell_y {T A}.
Arguments b_cell_z {T A}. Arguments b_inv_x {T A}. Arguments b_inv_y {T A}.
Arguments b_inv_z {T A}. Arguments b_size_x {T A}. Arguments b_size_y {T A}.
Arguments b_size_z {T A}. Arguments b_stride1 {T A}. Arguments b_stride2 {T A}.
Arguments b_num_x {T A}. Arguments b_num_y {T A}. Arguments b_num_z {T A}.
Arguments b_default {T A}. Arguments b_oob {T A}.

(** The whole state of a SignedDistanceField: the base class and the members written
    at src/sdf_tools/sdf.cpp:251-253. *)
Record sdf_state (T : Type) := SdfState {
  ss_base : base T binary32; ss_frame : string; ss_locked : bool }.

(** The whole state of a CollisionMapGrid: the base class and the members written at
    src/sdf_tools/collision_map.cpp:59-62. *)
Record cm_state (T : Type) := CmState {
  cs_base : base T ccell; cs_ncomp : Z; cs_frame : string; cs_valid : bool }.

(** The whole state of a TaggedObjectCollisionMapGrid: the base class and the
    members written at src/sdf_tools/tagged_object_collision_map.cpp:65-71. *)
Record tm_state (T : Type) := TmState {
  ts_base : base T tcell; ts_ncomp : Z; ts_nseg : Z; ts_frame : string;
  ts_valid : bool; ts_seg_valid : option bool }.
Arguments SdfState {T}. Arguments ss_base {T}. Arguments ss_frame {T}. Arguments ss_locked {T}.
Arguments CmState {T}. Arguments cs_base {T}. Arguments cs_ncomp {T}. Arguments cs_frame {T}.
Arguments cs_valid {T}.
Arguments TmState {T}. Arguments ts_base {T}. Arguments ts_ncomp {T}. Arguments ts_nseg {T}.
Arguments ts_frame {T}. Arguments ts_valid {T}. Arguments ts_seg_valid {T}.

Section Codec.
  (** SerializeEigen / DeserializeEigen<Eigen::Isometry3d>. *)
  Variable T : Type.
  Variable put_t : T -> bytes.
  Variable get_t : parser T.

  (** The common part of the three SerializeSelf, src/sdf_tools/sdf.cpp:220-249,
      src/sdf_tools/collision_map.cpp:28-57,
      src/sdf_tools/tagged_object_collision_map.cpp:31-63: the three texts differ in
      the cell type only. *)
  Definition put_base {A} (put : A -> bytes) (b : base T A) : bytes :=
    put_bool (b_initialized b) ++
    put_t (b_origin b) ++
    put_t (b_inverse b) ++
    put_vector put (b_data b) ++
    put_f64 (b_cell_x b) ++ put_f64 (b_cell_y b) ++ put_f64 (b_cell_z b) ++
    put_f64 (b_inv_x b) ++ put_f64 (b_inv_y b) ++ put_f64 (b_inv_z b) ++
    put_f64 (b_size_x b) ++ put_f64 (b_size_y b) ++ put_f64 (b_size_z b) ++
    put_i64 (b_stride1 b) ++ put_i64 (b_stride2 b) ++
    put_i64 (b_num_x b) ++ put_i64 (b_num_y b) ++ put_i64 (b_num_z b) ++
    put (b_default b) ++
    put (b_oob b).

  (** The common part of the three DeserializeSelf, src/sdf_tools/sdf.cpp:266-376,
      src/sdf_tools/collision_map.cpp:75-185,
      src/sdf_tools/tagged_object_collision_map.cpp:84-197. *)
  Definition get_base {A} (get : parser A) : parser (base T A) :=
    read init as get_bool in
    read origin as get_t in
    read inverse as get_t in
    read data as get_vector get in
    read cx as get_f64 in read cy as get_f64 in read cz as get_f64 in
    read ix as get_f64 in read iy as get_f64 in read iz as get_f64 in
    read sx as get_f64 in read sy as get_f64 in read sz as get_f64 in
    read st1 as get_i64 in read st2 as get_i64 in
    read nx as get_i64 in read ny as get_i64 in read nz as get_i64 in
    read def as get in
    read oob as get in
    pret (Members init origin inverse data cx cy cz ix iy iz sx sy sz st1 st2 nx ny nz def oob).

  (** What SignedDistanceField::SerializeSelf appends,
      src/sdf_tools/sdf.cpp:213-258. *)
  Definition sdf_bytes (s : sdf_state T) : bytes :=
    put_base put_f32 (ss_base s) ++ put_string (ss_frame s) ++ put_bool (ss_locked s).

  (** What SignedDistanceField::DeserializeSelf reads,
      src/sdf_tools/sdf.cpp:260-390. *)
  Definition sdf_parse : parser (sdf_state T) :=
    read b as get_base get_f32 in
    read frame as get_string in
    read locked as get_bool in
    pret (SdfState b frame locked).

  (** What CollisionMapGrid::SerializeSelf appends,
      src/sdf_tools/collision_map.cpp:21-67. *)
  Definition cm_bytes (s : cm_state T) : bytes :=
    put_base put_ccell (cs_base s) ++ put_u32 (cs_ncomp s) ++ put_string (cs_frame s) ++
    put_bool (cs_valid s).

  (** What CollisionMapGrid::DeserializeSelf reads,
      src/sdf_tools/collision_map.cpp:69-203. *)
  Definition cm_parse : parser (cm_state T) :=
    read b as get_base get_ccell in
    read n as get_u32 in
    read frame as get_string in
    read valid as get_bool in
    pret (CmState b n frame valid).

  (** What TaggedObjectCollisionMapGrid::SerializeSelf appends,
      src/sdf_tools/tagged_object_collision_map.cpp:23-76.  It reads
      convex_segments_valid_ (L70), which the constructors with arguments leave
      uninitialised. *)
  Definition tm_bytes (s : tm_state T) : res bytes :=
    match ts_seg_valid s with
    | None => UB "convex_segments_valid_ read before it is written"
    | Some seg_valid =>
        Ok (put_base put_tcell (ts_base s) ++ put_u32 (ts_ncomp s) ++ put_u32 (ts_nseg s) ++
            put_string (ts_frame s) ++ put_bool (ts_valid s) ++ put_bool seg_valid)
    end.

  (** What TaggedObjectCollisionMapGrid::DeserializeSelf reads,
      src/sdf_tools/tagged_object_collision_map.cpp:78-224. *)
  Definition tm_parse : parser (tm_state T) :=
    read b as get_base get_tcell in
    read n as get_u32 in
    read k as get_u32 in
    read frame as get_string in
    read valid as get_bool in
    read seg_valid as get_bool in
    pret (TmState b n k frame valid (Some seg_valid)).

  (** SerializeSelf appends to the caller's buffer and returns the number of bytes
      written, src/sdf_tools/sdf.cpp:219, L254-257,
      src/sdf_tools/collision_map.cpp:63-66,
      src/sdf_tools/tagged_object_collision_map.cpp:72-75. *)
  Definition append (buffer : bytes) (b : bytes) : bytes * nat :=
    (buffer ++ b, (length (buffer ++ b) - length buffer)%nat).

  (** SignedDistanceField::SerializeSelf, src/sdf_tools/sdf.cpp:213-258. *)
  Definition sdf_serialize (s : sdf_state T) (buffer : bytes) : res (bytes * nat) :=
    Ok (append buffer (sdf_bytes s)).

  (** CollisionMapGrid::SerializeSelf, src/sdf_tools/collision_map.cpp:21-67. *)
  Definition cm_serialize (s : cm_state T) (buffer : bytes) : res (bytes * nat) :=
    Ok (append buffer (cm_bytes s)).

  (** TaggedObjectCollisionMapGrid::SerializeSelf,
      src/sdf_tools/tagged_object_collision_map.cpp:23-76. *)
  Definition tm_serialize (s : tm_state T) (buffer : bytes) : res (bytes * nat) :=
    let* b := tm_bytes s in Ok (append buffer b).

  (** DeserializeSelf(buffer, current) sets every member and returns the number of
      bytes read, src/sdf_tools/sdf.cpp:387-389,
      src/sdf_tools/collision_map.cpp:200-202,
      src/sdf_tools/tagged_object_collision_map.cpp:221-223. *)
  Definition deserialize {S} (p : parser S) (buffer : bytes) (current : nat) : res (S * nat) :=
    let* r := p buffer current in Ok (fst r, (snd r - current)%nat).

  (** SignedDistanceField::DeserializeSelf, src/sdf_tools/sdf.cpp:260-390. *)
  Definition sdf_deserialize := deserialize sdf_parse.

  (** CollisionMapGrid::DeserializeSelf, src/sdf_tools/collision_map.cpp:69-203. *)
  Definition cm_deserialize := deserialize cm_parse.

  (** TaggedObjectCollisionMapGrid::DeserializeSelf,
      src/sdf_tools/tagged_object_collision_map.cpp:78-224. *)
  Definition tm_deserialize := deserialize tm_parse.
End Codec.

(** ** Files.  A class is given by its two headers, its serializer and its parser;
    the three SaveToFile and LoadFromFile differ in nothing else
    (src/sdf_tools/sdf.cpp:392-470, src/sdf_tools/collision_map.cpp:205-283,
    src/sdf_tools/tagged_object_collision_map.cpp:226-304). *)
Record file_class (S : Type) := FileClass {
  fc_packed : string;                              (* header of a compressed file *)
  fc_raw : string;                                 (* header of an uncompressed one *)
  fc_serialize : S -> bytes -> res (bytes * nat);
  fc_deserialize : bytes -> nat -> res (S * nat)
}.
Arguments FileClass {S}. Arguments fc_packed {S}. Arguments fc_raw {S}.
Arguments fc_serialize {S}. Arguments fc_deserialize {S}.

(** The headers of SignedDistanceField, src/sdf_tools/sdf.cpp:402, L410, L446,
    L454. *)
Definition sdf_class {T} (put_t : T -> bytes) (get_t : parser T) : file_class (sdf_state T) :=
  FileClass "SDFZ" "SDFR" (sdf_serialize T put_t) (sdf_deserialize T get_t).

(** The headers of CollisionMapGrid, src/sdf_tools/collision_map.cpp:215, L223,
    L259, L267. *)
Definition cm_class {T} (put_t : T -> bytes) (get_t : parser T) : file_class (cm_state T) :=
  FileClass "CMGZ" "CMGR" (cm_serialize T put_t) (cm_deserialize T get_t).

(** The headers of TaggedObjectCollisionMapGrid,
    src/sdf_tools/tagged_object_collision_map.cpp:236, L244, L280, L288. *)
Definition tm_class {T} (put_t : T -> bytes) (get_t : parser T) : file_class (tm_state T) :=
  FileClass "TCMZ" "TCMR" (tm_serialize T put_t) (tm_deserialize T get_t).

(** A disk, as std::ofstream and std::ifstream see it at src/sdf_tools/sdf.cpp:399,
    L421: what each path holds, and which paths can be opened for writing. *)
Record disk := Disk { d_file : string -> option bytes; d_writable : string -> bool }.

(** The bytes of a literal such as "SDFZ", src/sdf_tools/sdf.cpp:402. *)
Definition text (s : string) : bytes := flat_map put_char (list_ascii_of_string s).

(** std::string(const char* ), src/sdf_tools/sdf.cpp:438-439: the characters before
    the first zero. *)
Fixpoint c_string (b : bytes) : bytes :=
  match b with
  | nil => nil
  | x :: b' => if x =? 0 then nil else x :: c_string b'
  end.

(** The operator == on std::string, src/sdf_tools/sdf.cpp:446. *)
Fixpoint bytes_eqb (a b : bytes) : bool :=
  match a, b with
  | nil, nil => true
  | x :: a', y :: b' => (x =? y) && bytes_eqb a' b'
  | _, _ => false
  end.

Section Files.
  (** ZlibHelpers::CompressBytes and DecompressBytes. *)
  Variable compress : bytes -> bytes.
  Variable decompress : bytes -> res bytes.
  Context {S : Type} (c : file_class S).

  (** The bytes SaveToFile writes, src/sdf_tools/sdf.cpp:397-414,
      src/sdf_tools/collision_map.cpp:210-227,
      src/sdf_tools/tagged_object_collision_map.cpp:231-248. *)
  Definition file_bytes (s : S) (packed : bool) : res bytes :=
    let* r := fc_serialize c s nil in
    Ok (if packed then text (fc_packed c) ++ compress (fst r)
        else text (fc_raw c) ++ fst r).

  (** SaveToFile, src/sdf_tools/sdf.cpp:392-416,
      src/sdf_tools/collision_map.cpp:205-229,
      src/sdf_tools/tagged_object_collision_map.cpp:226-250.  An ofstream that could
      not be opened ignores what is written to it, and no code looks at its
      state. *)
  Definition save_to_file (s : S) (path : string) (packed : bool) (d : disk) : res disk :=
    let* b := file_bytes s packed in
    Ok (if d_writable d path
        then Disk (fun q => if String.eqb q path then Some b else d_file d q) (d_writable d)
        else d).

  (** LoadFromFile after the file has been opened, src/sdf_tools/sdf.cpp:426-469,
      src/sdf_tools/collision_map.cpp:239-282,
      src/sdf_tools/tagged_object_collision_map.cpp:260-303. *)
  Definition load_bytes (b : bytes) : res S :=
    if (4 <=? length b)%nat then
      let header := c_string (firstn 4 b ++ [0]) in
      let rest := skipn 4 b in
      if bytes_eqb header (text (fc_packed c)) then
        let* u := decompress rest in
        let* r := fc_deserialize c u 0%nat in Ok (fst r)
      else if bytes_eqb header (text (fc_raw c)) then
        let* r := fc_deserialize c rest 0%nat in Ok (fst r)
      else Throw "File has invalid header"
    else Throw "File is too small".

  (** LoadFromFile, src/sdf_tools/sdf.cpp:418-470,
      src/sdf_tools/collision_map.cpp:231-283,
      src/sdf_tools/tagged_object_collision_map.cpp:252-304. *)
  Definition load_from_file (path : string) (d : disk) : res S :=
    match d_file d path with
    | None => Throw "File does not exist"
    | Some b => load_bytes b
    end.

  (** Messages, msg/SDF.msg:1-3 and the other two; the time stamp is left out. *)
  Record message := Msg { m_frame : string; m_data : bytes; m_compressed : bool }.

  (** GetMessageRepresentation, src/sdf_tools/sdf.cpp:472-483,
      src/sdf_tools/collision_map.cpp:285-296,
      src/sdf_tools/tagged_object_collision_map.cpp:306-318. *)
  Definition to_message (frame_of : S -> string) (s : S) : res message :=
    let* r := fc_serialize c s nil in
    Ok (Msg (frame_of s) (compress (fst r)) true).

  (** LoadFromMessageRepresentation, src/sdf_tools/sdf.cpp:485-502,
      src/sdf_tools/collision_map.cpp:298-315,
      src/sdf_tools/tagged_object_collision_map.cpp:320-338. *)
  Definition from_message (m : message) : res S :=
    if m_compressed m then
      let* u := decompress (m_data m) in
      let* r := fc_deserialize c u 0%nat in Ok (fst r)
    else
      let* r := fc_deserialize c (m_data m) 0%nat in Ok (fst r).
End Files.

(** ** How the stored members relate to the maps of the other files.  The cells of a
    grid: data_, num_x_cells_, num_y_cells_, num_z_cells_ and oob_value_,
    src/sdf_tools/sdf.cpp:227, L243-249. *)
Definition base_grid {T A} (b : base T A) : grid A :=
  G (D (b_num_x b) (b_num_y b) (b_num_z b)) (b_data b) (b_oob b).

(** The state of a CollisionMapGrid as CollisionMap.v has it,
    src/sdf_tools/collision_map.cpp:57-62. *)
Definition as_cmap {T} (s : cm_state T) : cmap :=
  CM (base_grid (cs_base s)) (cs_ncomp s) (cs_frame s) (cs_valid s).

(** The state of a TaggedObjectCollisionMapGrid as TaggedMap.v has it,
    src/sdf_tools/tagged_object_collision_map.cpp:62-71. *)
Definition as_tmap {T} (s : tm_state T) : tmap :=
  TM (base_grid (ts_base s)) (ts_ncomp s) (ts_nseg s) (ts_frame s) (ts_valid s) (ts_seg_valid s).

(** Model of what the code generated by crate prost 0.8 for
    /repo/src/store/segment_metadata.rs writes ([Message::encode_to_vec], used
    in segment_writer.rs:222).

    prost's derive macro writes the fields of a message in the order of their
    (for a oneof: smallest) tags, leaves out scalars, strings and bytes that have
    their default value, and writes every message that is present.  Numbers are
    not bounded here: prost's varints are those of u64, and lengths of byte
    vectors are below 2^63. *)
From Verif Require Import Base Metadata.
Open Scope N_scope.

(** prost encoding.rs [encode_varint] *)
Fixpoint encode_varint_loop (fuel : nat) (v : N) : list N :=
  match fuel with
  | O => []
  | S fuel' => if v <? 128 then [v] else (v mod 128 + 128) :: encode_varint_loop fuel' (v / 128)
  end.

(** Part of [encode_to_vec], src/store/segment_writer.rs:222. *)
Definition encode_varint (v : N) : list N := encode_varint_loop (S (N.size_nat v)) v.

(** prost encoding.rs [encode_key]: tag and wire type, 0 for a varint and 2 for
    something with a length *)
Definition encode_key (tag wire_type : N) : list N := encode_varint (tag * 8 + wire_type).

(** A field of type uint32, uint64, bool or enumeration.
    The fields of src/store/segment_metadata.rs:13-30, 56-63, 69-72. *)
Definition put_uint (tag v : N) : list N := if v =? 0 then [] else encode_key tag 0 ++ encode_varint v.
(** The field of src/store/segment_metadata.rs:15-16. *)
Definition put_bool (tag : N) (b : bool) : list N := put_uint tag (if b then 1 else 0).

(** Something with a length, whatever it contains.
    Part of [encode_to_vec], src/store/segment_writer.rs:222. *)
Definition put_delimited (tag : N) (bytes : list N) : list N :=
  encode_key tag 2 ++ encode_varint (N.of_nat (length bytes)) ++ bytes.

(** A field of type string or bytes.
    The fields of src/store/segment_metadata.rs:11-12, 50-55. *)
Definition put_bytes (tag : N) (bytes : list N) : list N :=
  match bytes with [] => [] | _ => put_delimited tag bytes end.

(** An optional message.
    The fields of src/store/segment_metadata.rs:76-77, 83-84, 88-89, 93-94, 102-103. *)
Definition put_message {A} (enc : A -> list N) (tag : N) (m : option A) : list N :=
  match m with Some a => put_delimited tag (enc a) | None => [] end.

(** prost encoding.rs [map::encode_with_default] for a map from strings to
    messages, in the order [entries] of the iteration: an entry is a message
    with the key as field 1 and the value as field 2, either left out if it is
    the default. *)
Definition put_map {A} (enc : A -> list N) (is_default : A -> bool) (tag : N) (entries : list (list N * A)) : list N :=
  concat (map (fun '(k, v) =>
    put_delimited tag (put_bytes 1 k ++ (if is_default v then [] else put_delimited 2 (enc v)))) entries).

(** segment_metadata.rs:67-73 *)
Definition encode_range (r : range) : list N := put_uint 1 (rg_start r) ++ put_uint 2 (rg_end r).

(** segment_metadata.rs:81-95: the three messages that have just a range *)
Definition encode_ranged (r : option range) : list N := put_message encode_range 1 r.

(** src/store/segment_metadata.rs:86-90. *)
Definition encode_block_index_layout (b : block_index_layout) : list N := encode_ranged (bil_range b).

(** segment_metadata.rs:9-47 *)
Definition stats_tag (s : column_stats) : N :=
  match s with Int32Stats => 11 | Int64Stats => 12 | Float64Stats => 13 | StringStats => 14 end.

(** src/store/segment_metadata.rs:9-33. *)
Definition encode_column_meta (c : column_meta) : list N :=
  put_bytes 1 (cm_name c) ++ put_uint 2 (cm_type c) ++ put_bool 3 (cm_nullable c) ++ put_uint 4 (cm_encoding c)
  ++ put_uint 5 (cm_index_type c) ++ put_uint 6 (cm_num_values c) ++ put_uint 7 (cm_num_nulls c)
  ++ put_uint 8 (cm_cardinality c) ++ put_uint 9 (cm_compressed_size c) ++ put_uint 10 (cm_uncompressed_size c)
  ++ match cm_stats c with Some s => put_delimited (stats_tag s) [] | None => [] end.

(** Comparison with [ColumnMeta::default()]
    For the map of src/store/segment_metadata.rs:64-65. *)
Definition column_meta_is_default (c : column_meta) : bool :=
  match cm_name c with [] => true | _ => false end && (cm_type c =? 0) && negb (cm_nullable c) && (cm_encoding c =? 0)
  && (cm_cardinality c =? 0) && (cm_index_type c =? 0) && (cm_num_values c =? 0) && (cm_num_nulls c =? 0)
  && (cm_compressed_size c =? 0) && (cm_uncompressed_size c =? 0)
  && match cm_stats c with None => true | Some _ => false end.

(** segment_metadata.rs:100-127 *)
Definition encode_column_layout (c : column_layout) : list N :=
  match cl_column_index c with
  | None => []
  | Some CNoIndex => put_delimited 1 []
  | Some (CStringIndexV1 r) => put_delimited 2 (encode_ranged r)
  end
  ++ put_message encode_block_index_layout 3 (cl_block_index c)
  ++ match cl_encoder c with
     | None => []
     | Some EPlain => put_delimited 4 []
     | Some (EBinaryDict r) => put_delimited 5 (encode_ranged r)
     | Some ESnappy => put_delimited 6 []
     end.

(** Comparison with [ColumnLayout::default()]
    For the map of src/store/segment_metadata.rs:78-79. *)
Definition column_layout_is_default (c : column_layout) : bool :=
  match cl_block_index c, cl_column_index c, cl_encoder c with None, None, None => true | _, _, _ => false end.

(** segment_metadata.rs:48-66 *)
Definition encode_segment_meta (s : segment_meta) : list N :=
  put_bytes 1 (sm_segment_id s) ++ put_bytes 2 (sm_database_name s) ++ put_bytes 3 (sm_table_name s)
  ++ put_uint 4 (sm_shard_id s) ++ put_uint 5 (sm_compressed_size s) ++ put_uint 6 (sm_uncompressed_size s)
  ++ put_uint 7 (sm_num_rows s) ++ put_map encode_column_meta column_meta_is_default 8 (sm_columns_meta s).

(** segment_metadata.rs:74-80 *)
Definition encode_metadata (m : metadata) : list N :=
  put_message encode_segment_meta 1 (md_segment_meta m)
  ++ put_map encode_column_layout column_layout_is_default 2 (md_columns_layout m).

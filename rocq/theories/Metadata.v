(** Model of the types of /repo/src/store/segment_metadata.rs.

    A [String] is the list of its UTF-8 bytes.  A [HashMap] is a list of entries
    with distinct keys, in an order that means nothing: see [hm_insert] and
    [segment_close] in Segment.v.  An enumeration stored in an [i32] is its
    number, as no negative one exists. *)
From Verif Require Import Base.
Open Scope N_scope.

(** segment_metadata.rs:129-142 *)
Inductive column_type :=
| TBool | TDatetime | TDecimal | TDynamic | TFloat64 | TGuid | TInt32 | TInt64 | TString | TTimespan.

(** The discriminants, src/store/segment_metadata.rs:132-141; converted at src/store/segment_writer.rs:298. *)
Definition column_type_num (t : column_type) : N :=
  match t with
  | TBool => 0 | TDatetime => 1 | TDecimal => 2 | TDynamic => 3 | TFloat64 => 4 | TGuid => 5 | TInt32 => 6
  | TInt64 => 7 | TString => 8 | TTimespan => 9
  end.

(** segment_metadata.rs:143-151 *)
Inductive encoding := Raw | BitPacked | DeltaBinaryPacked | RleDictionary | Snappy.

(** The discriminants, src/store/segment_metadata.rs:146-150; converted at src/store/segment_writer.rs:300. *)
Definition encoding_num (e : encoding) : N :=
  match e with Raw => 0 | BitPacked => 1 | DeltaBinaryPacked => 2 | RleDictionary => 3 | Snappy => 4 end.

(** segment_metadata.rs:152-159 *)
Inductive index_type := NoIndex | FullText | Brin | Kdtree.

(** The discriminants, src/store/segment_metadata.rs:155-158; converted at src/store/segment_writer.rs:302. *)
Definition index_type_num (i : index_type) : N :=
  match i with NoIndex => 0 | FullText => 1 | Brin => 2 | Kdtree => 3 end.

(** segment_metadata.rs:1-8 and 35-47: all four messages are empty *)
Inductive column_stats := Int32Stats | Int64Stats | Float64Stats | StringStats.

(** segment_metadata.rs:9-33 *)
Record column_meta := mkcmeta {
  cm_name : list N;
  cm_type : N;
  cm_nullable : bool;
  cm_encoding : N;
  cm_cardinality : N;
  cm_index_type : N;
  cm_num_values : N;
  cm_num_nulls : N;
  cm_compressed_size : N;
  cm_uncompressed_size : N;
  cm_stats : option column_stats }.

(** segment_metadata.rs:67-73 *)
Record range := mkrange { rg_start : N; rg_end : N }.

(** segment_metadata.rs:86-90 *)
Record block_index_layout := mkbil { bil_range : option range }.

(** segment_metadata.rs:81-85, 96-97, 111-117 *)
Inductive column_index_layout := CNoIndex | CStringIndexV1 (r : option range).

(** segment_metadata.rs:91-95, 98-99, 118-126 *)
Inductive encoder_layout := EPlain | EBinaryDict (r : option range) | ESnappy.

(** segment_metadata.rs:100-108 *)
Record column_layout := mkclayout {
  cl_block_index : option block_index_layout;
  cl_column_index : option column_index_layout;
  cl_encoder : option encoder_layout }.

(** segment_metadata.rs:48-66 *)
Record segment_meta := mksmeta {
  sm_segment_id : list N;
  sm_database_name : list N;
  sm_table_name : list N;
  sm_shard_id : N;
  sm_compressed_size : N;
  sm_uncompressed_size : N;
  sm_num_rows : N;
  sm_columns_meta : list (list N * column_meta) }.

(** segment_metadata.rs:74-80 *)
Record metadata := mkmeta {
  md_segment_meta : option segment_meta;
  md_columns_layout : list (list N * column_layout) }.

(** Model of /repo/src/store/block_index.rs, block_sink.rs, segment_writer.rs,
    encoding/mod.rs and encoding/snappy/snappy_enc.rs.

    A column writer borrows the segment writer; here it is passed along with it.
    [column_index] is always [None] (segment_writer.rs:216) and left out. *)
From Verif Require Import Base Buffers Sink PrimEnc BinEnc Io Metadata Proto Names.
Open Scope nat_scope.

(** * The block index *)

(** block_index.rs:20-23 *)
Record block_index := mkbi { bi_offset : list N; bi_row_id : list N }.

(** block_index.rs:26-31 *)
Definition bi_new : block_index := mkbi [] [].

(** block_index.rs:34-37 *)
Definition index_block (bi : block_index) (row_id offset : N) : block_index :=
  mkbi (bi_offset bi ++ [offset]) (bi_row_id bi ++ [row_id]).

(** block_index.rs:40-43 *)
Definition bi_clear (bi : block_index) : block_index := mkbi [] [].

(** block_index.rs:46-50: writes nothing *)
Definition bi_flush (bi : block_index) : block_index_layout := mkbil (Some (mkrange 0 0)).

(** * The block sink *)

(** What [BlockSinkImpl] has mutable references to, and the world.
    src/store/block_sink.rs:22-25. *)
Definition sink_state : Type := world * writer * block_index.

(** block_sink.rs:41-45 *)
Definition sink_write : sink_fn sink_state :=
  fun s row_id data =>
    let '(w, wr, bi) := s in
    match writer_write_block w wr data with
    | (w1, wr1, Ok _) => ((w1, wr1, index_block bi row_id (writer_pos wr1)), Ok tt)
    | (w1, wr1, Err) => ((w1, wr1, bi), Err)
    end.

(** * Choosing an encoder, encoding/mod.rs *)

(** encoding/mod.rs:42-56 *)
Definition new_i32_encoder (encoder : encoding) (block_size : N) (nullable : bool) : result prim_enc :=
  match encoder with Raw => Ok (pe_new block_size nullable) | _ => Err end.

(** encoding/mod.rs:58-72 *)
Definition new_i64_encoder (encoder : encoding) (block_size : N) (nullable : bool) : result prim_enc :=
  match encoder with Raw => Ok (pe_new block_size nullable) | _ => Err end.

(** encoding/mod.rs:74-88 *)
Definition new_u64_encoder (encoder : encoding) (block_size : N) (nullable : bool) : result prim_enc :=
  match encoder with Raw => Ok (pe_new block_size nullable) | _ => Err end.

(** encoding/mod.rs:90-104 *)
Definition new_f64_encoder (encoder : encoding) (block_size : N) (nullable : bool) : result prim_enc :=
  match encoder with Raw => Ok (pe_new block_size nullable) | _ => Err end.

(** The implementations of [BlockEncoder<BinaryBuffer, S>].
    src/store/encoding/snappy/snappy_enc.rs:21, src/store/encoding/raw/binary_enc.rs:38-46. *)
Inductive bin_encoder := RawEnc (e : bin_enc) | SnappyEnc.

(** encoding/mod.rs:106-123 *)
Definition new_binary_encoder (encoder : encoding) (block_size : N) (nullable : bool) : result bin_encoder :=
  match encoder with
  | Snappy => Ok SnappyEnc
  | Raw => Ok (RawEnc (be_new block_size nullable))
  | _ => Err
  end.

(** "snappy"
    src/store/encoding/snappy/snappy_enc.rs:32. *)
Definition snappy_data : list N := [115; 110; 97; 112; 112; 121]%N.

Section Encoder.
Context {S : Type} (wr : sink_fn S) (p : profile).

(** binary_enc.rs:124-162; snappy_enc.rs:31-34.  The number of offsets is enough
    fuel for the loop in the former. *)
Definition bin_encode (e : bin_encoder) (buffer : bin_buf) (s : S) : outcome (bin_encoder * S * result unit) :=
  match e with
  | RawEnc e =>
      let* r := be_encode wr p (length (bb_offsets buffer)) e buffer s in
      let '(e, s, res) := r in Ret (RawEnc e, s, res)
  | SnappyEnc => let w := wr s 43243%N snappy_data in Ret (SnappyEnc, fst w, snd w)
  end.

(** binary_enc.rs:164-170; snappy_enc.rs:36-38 *)
Definition bin_flush (e : bin_encoder) (s : S) : outcome (bin_encoder * S * result encoder_layout) :=
  match e with
  | RawEnc e =>
      let* r := be_flush wr p e s in
      let '(e, s, res) := r in Ret (RawEnc e, s, match res with Ok _ => Ok EPlain | Err => Err end)
  | SnappyEnc => Ret (SnappyEnc, s, Ok ESnappy)
  end.
End Encoder.

(** * The segment writer *)

(** segment_writer.rs:108-109, 112 *)
Definition data_file_signature : list N := [77; 69; 69; 82; 75; 65; 84; 95; 68; 65; 84; 65; 49]%N.
Definition index_file_signature : list N := [77; 69; 69; 82; 75; 65; 84; 95; 73; 68; 88; 49]%N.
Definition segment_block_size : N := 128.

(** segment_writer.rs:115-121 *)
Record column_info := mkcinfo {
  ci_name : list N; ci_type : column_type; ci_encoding : encoding; ci_index_type : index_type; ci_nullable : bool }.

(** segment_writer.rs:124-130.  The identifier is its 16 bytes. *)
Record segment_info := mksinfo {
  si_segment_id : list N; si_database_name : list N; si_table_name : list N; si_shard_id : N; si_num_rows : N }.

(** segment_writer.rs:133-138 *)
Record segment := mksegment {
  sg_data : writer; sg_index : writer; sg_block_index : block_index; sg_meta : metadata }.

(** segment_writer.rs:186-196 [write_headers] *)
Definition write_headers (w : world) (sg : segment) : world * segment * result unit :=
  match writer_write_block w (sg_index sg) index_file_signature with
  | (w1, ix, Err) => (w1, mksegment (sg_data sg) ix (sg_block_index sg) (sg_meta sg), Err)
  | (w1, ix, Ok _) =>
      let '(w2, dt, r) := writer_write_block w1 (sg_data sg) data_file_signature in
      (w2, mksegment dt ix (sg_block_index sg) (sg_meta sg), r)
  end.

(** segment_writer.rs:144-184 [SegmentWriter::new] *)
Definition segment_new (w : world) (base : path) (info : segment_info) : world * result segment :=
  match writer_new w (index_path base (si_segment_id info)) with
  | (w1, Err) => (w1, Err)
  | (w1, Ok ix) =>
      match writer_new w1 (data_path base (si_segment_id info)) with
      | (w2, Err) => (w2, Err)
      | (w2, Ok dt) =>
          let meta := mkmeta (Some (mksmeta (si_segment_id info) (si_database_name info) (si_table_name info)
                                            (si_shard_id info) 0 0 (si_num_rows info) [])) [] in
          let '(w3, sg, r) := write_headers w2 (mksegment dt ix bi_new meta) in
          (w3, match r with Ok _ => Ok sg | Err => Err end)
      end
  end.

(** segment_writer.rs:259-266 *)
Record column_writer := mkcw { cw_info : column_info; cw_encoder : bin_encoder }.

(** segment_writer.rs:199-218 [new_binary_column_writer] *)
Definition new_binary_column_writer (sg : segment) (ci : column_info) : segment * result column_writer :=
  let sg := mksegment (sg_data sg) (sg_index sg) (bi_clear (sg_block_index sg)) (sg_meta sg) in
  (sg, match new_binary_encoder (ci_encoding ci) segment_block_size (ci_nullable ci) with
       | Ok e => Ok (mkcw ci e)
       | Err => Err
       end).

(** segment_writer.rs:270-278 [ColumnWriter::write] *)
Definition column_write (p : profile) (w : world) (sg : segment) (cw : column_writer) (buf : bin_buf)
  : outcome (world * segment * column_writer * result unit) :=
  let* r := bin_encode sink_write p (cw_encoder cw) buf (w, sg_data sg, sg_block_index sg) in
  let '(e, (w1, dt, bi), res) := r in
  Ret (w1, mksegment dt (sg_index sg) bi (sg_meta sg), mkcw (cw_info cw) e, res).

(** [HashMap::insert]
    Called at src/store/segment_writer.rs:321, 325. *)
Fixpoint hm_insert {A} (k : list N) (v : A) (m : list (list N * A)) : list (list N * A) :=
  match m with
  | [] => [(k, v)]
  | (k', v') :: rest => if list_eq_dec N.eq_dec k k' then (k', v) :: rest else (k', v') :: hm_insert k v rest
  end.

(** segment_writer.rs:296-308 *)
Definition column_meta_of (ci : column_info) : column_meta :=
  mkcmeta (ci_name ci) (column_type_num (ci_type ci)) (ci_nullable ci) (encoding_num (ci_encoding ci)) 0
          (index_type_num (ci_index_type ci)) 0 0 0 0 None.

(** segment_writer.rs:281-328 [ColumnWriter::close] *)
Definition column_close (p : profile) (w : world) (sg : segment) (cw : column_writer)
  : outcome (world * segment * column_writer * result unit) :=
  let* r := bin_flush sink_write p (cw_encoder cw) (w, sg_data sg, sg_block_index sg) in
  let '(e, (w1, dt, bi), res) := r in
  let cw1 := mkcw (cw_info cw) e in
  match res with
  | Err => Ret (w1, mksegment dt (sg_index sg) bi (sg_meta sg), cw1, Err)
  | Ok encoder_layout =>
      let column_layout := mkclayout (Some (bi_flush bi)) None (Some encoder_layout) in
      match md_segment_meta (sg_meta sg) with
      | None => Panic PExpect
      | Some sm =>
          let name := ci_name (cw_info cw) in
          let sm1 := mksmeta (sm_segment_id sm) (sm_database_name sm) (sm_table_name sm) (sm_shard_id sm)
                             (sm_compressed_size sm) (sm_uncompressed_size sm) (sm_num_rows sm)
                             (hm_insert name (column_meta_of (cw_info cw)) (sm_columns_meta sm)) in
          let meta := mkmeta (Some sm1) (hm_insert name column_layout (md_columns_layout (sg_meta sg))) in
          Ret (w1, mksegment dt (sg_index sg) bi meta, cw1, Ok tt)
      end
  end.

(** The order in which the two hash maps happen to be iterated while encoding:
    how it differs from the order of the lists that stand for them.
    src/store/segment_metadata.rs:65, 79, iterated by [encode_to_vec], src/store/segment_writer.rs:222. *)
Record iteration := mkiter {
  it_columns : list (list N * column_meta) -> list (list N * column_meta);
  it_layouts : list (list N * column_layout) -> list (list N * column_layout) }.

(** segment_writer.rs:221-243 [SegmentWriter::close].  [le_bytes 8] is
    [u64::to_le_bytes]. *)
Definition segment_close (w : world) (sg : segment) (it : iteration) : world * segment * result unit :=
  let sm := match md_segment_meta (sg_meta sg) with
            | None => None
            | Some sm => Some (mksmeta (sm_segment_id sm) (sm_database_name sm) (sm_table_name sm) (sm_shard_id sm)
                                       (sm_compressed_size sm) (sm_uncompressed_size sm) (sm_num_rows sm)
                                       (it_columns it (sm_columns_meta sm)))
            end in
  let metadata_bytes := encode_metadata (mkmeta sm (it_layouts it (md_columns_layout (sg_meta sg)))) in
  let metadata_pos := writer_pos (sg_index sg) in
  let set_index ix := mksegment (sg_data sg) ix (sg_block_index sg) (sg_meta sg) in
  match writer_write_block w (sg_index sg) metadata_bytes with
  | (w1, ix1, Err) => (w1, set_index ix1, Err)
  | (w1, ix1, Ok _) =>
      match writer_write_block w1 ix1 (le_bytes 8 metadata_pos) with
      | (w2, ix2, Err) => (w2, set_index ix2, Err)
      | (w2, ix2, Ok _) =>
          match writer_flush w2 ix2 with
          | (w3, ix3, Err) => (w3, set_index ix3, Err)
          | (w3, ix3, Ok _) =>
              let '(w4, dt, r) := writer_flush w3 (sg_data sg) in
              (w4, mksegment dt ix3 (sg_block_index sg) (sg_meta sg), r)
          end
      end
  end.

(** segment_writer.rs:246-255 [SegmentWriter::sync], which consumes the writer *)
Definition segment_sync (w : world) (sg : segment) : world * result unit :=
  match writer_sync w (sg_index sg) with
  | (w1, _, Err) => (w1, Err)
  | (w1, _, Ok _) => let '(w2, _, r) := writer_sync w1 (sg_data sg) in (w2, r)
  end.

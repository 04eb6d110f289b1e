(** Calls that are dropped before they are finished.

    The methods of the writers are asynchronous: whoever awaits one may drop it
    at any point where it waits, as a timeout does.  Nothing of it is executed
    after that; what a background thread is writing is still written.  It waits
    only for the operations of tokio's file.  Here a call may perform [n] of
    them; if it needs more, it is dropped.

    Such an operation really waits only if a chunk is being written; with others
    a call cannot be dropped.  The model allows it there too. *)
From Verif Require Import Base Buffers Sink PrimEnc BinEnc Io Metadata Proto Names Segment.
Open Scope nat_scope.

(** [write_all], src/store/io/default_block_writer.rs:39: [None] if it was dropped,
    else what is left of [n], and its result. *)
Fixpoint tk_write_all_within (n : nat) (w : world) (f : tfile) (src : list N) : world * tfile * option (nat * result unit) :=
  match src with
  | [] => (w, f, Some (n, Ok tt))
  | _ :: _ =>
      match n with
      | O => (w, f, None)
      | S n' =>
          match tk_write w f src with
          | (w1, f1, Err) => (w1, f1, Some (n', Err))
          | (w1, f1, Ok k) => if k =? 0 then (w1, f1, Some (n', Err)) else tk_write_all_within n' w1 f1 (skipn k src)
          end
      end
  end.

(** default_block_writer.rs:37-40 [Writer::write_block] *)
Definition writer_write_within (n : nat) (w : world) (wr : writer) (block : list N) : world * writer * option (nat * result unit) :=
  let pos := (wr_pos wr + N.of_nat (length block))%N in
  let '(w1, file, r) := tk_write_all_within n w (wr_file wr) block in
  (w1, mkwriter file pos, r).

(** default_block_writer.rs:43-45 [Writer::flush] *)
Definition writer_flush_within (n : nat) (w : world) (wr : writer) : world * writer * option (nat * result unit) :=
  match n with
  | O => (w, wr, None)
  | S n' => let '(w1, wr1, r) := writer_flush w wr in (w1, wr1, Some (n', r))
  end.

(** block_sink.rs:41-45.  The second part of the state is what is left of [n];
    [None] if the call was dropped, which ends an encoder like an error does, as
    all errors are passed on at once
    (src/store/encoding/raw/binary_enc.rs:80-81, 108-109, 142, 155; snappy_enc.rs:32). *)
Definition sink_write_within : sink_fn (sink_state * option nat) :=
  fun s row_id data =>
    match s with
    | ((w, wr, bi), Some n) =>
        match writer_write_within n w wr data with
        | (w1, wr1, None) => (((w1, wr1, bi), None), Err)
        | (w1, wr1, Some (n', Ok _)) => (((w1, wr1, index_block bi row_id (writer_pos wr1)), Some n'), Ok tt)
        | (w1, wr1, Some (n', Err)) => (((w1, wr1, bi), Some n'), Err)
        end
    | (st, None) => ((st, None), Err)
    end.

(** segment_writer.rs:270-278 [ColumnWriter::write]: no result if it was dropped *)
Definition column_write_within (n : nat) (p : profile) (w : world) (sg : segment) (cw : column_writer) (buf : bin_buf)
  : outcome (world * segment * column_writer * option (result unit)) :=
  let* r := bin_encode sink_write_within p (cw_encoder cw) buf ((w, sg_data sg, sg_block_index sg), Some n) in
  let '(e, ((w1, dt, bi), rest), res) := r in
  Ret (w1, mksegment dt (sg_index sg) bi (sg_meta sg), mkcw (cw_info cw) e, match rest with Some _ => Some res | None => None end).

(** segment_writer.rs:221-243 [SegmentWriter::close] *)
Definition segment_close_within (n : nat) (w : world) (sg : segment) (it : iteration) : world * segment * option (result unit) :=
  let sm := match md_segment_meta (sg_meta sg) with
            | None => None
            | Some sm => Some (mksmeta (sm_segment_id sm) (sm_database_name sm) (sm_table_name sm) (sm_shard_id sm)
                                       (sm_compressed_size sm) (sm_uncompressed_size sm) (sm_num_rows sm)
                                       (it_columns it (sm_columns_meta sm)))
            end in
  let metadata_bytes := encode_metadata (mkmeta sm (it_layouts it (md_columns_layout (sg_meta sg)))) in
  let metadata_pos := writer_pos (sg_index sg) in
  let set_index ix := mksegment (sg_data sg) ix (sg_block_index sg) (sg_meta sg) in
  match writer_write_within n w (sg_index sg) metadata_bytes with
  | (w1, ix1, None) => (w1, set_index ix1, None)
  | (w1, ix1, Some (_, Err)) => (w1, set_index ix1, Some Err)
  | (w1, ix1, Some (n1, Ok _)) =>
      match writer_write_within n1 w1 ix1 (le_bytes 8 metadata_pos) with
      | (w2, ix2, None) => (w2, set_index ix2, None)
      | (w2, ix2, Some (_, Err)) => (w2, set_index ix2, Some Err)
      | (w2, ix2, Some (n2, Ok _)) =>
          match writer_flush_within n2 w2 ix2 with
          | (w3, ix3, None) => (w3, set_index ix3, None)
          | (w3, ix3, Some (_, Err)) => (w3, set_index ix3, Some Err)
          | (w3, ix3, Some (n3, Ok _)) =>
              let '(w4, dt, r) := writer_flush_within n3 w3 (sg_data sg) in
              (w4, mksegment dt ix3 (sg_block_index sg) (sg_meta sg), match r with Some (_, r) => Some r | None => None end)
          end
      end
  end.

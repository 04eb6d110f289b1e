# A Rocq (Coq 8.16.1) model of meerkatdb/meerkat and what is proved about it

## 1. Approach

`/repo/src` is modelled function by function as executable Gallina, one model
file per source file.  Rust is rendered as follows.

* `&mut self` methods become functions returning the new value.
* A panic (index out of bounds, failed `assert!`, `expect`, overflow check) is
  an explicit outcome `Panic`, never a default value.  `Result` stays data.
* `while` loops whose termination is not structural take explicit fuel; running
  out of fuel is the distinct outcome `NoFuel`.  The theorems state results
  (`Ret`), so they exclude it; where the code can loop for ever the theorem
  says `NoFuel` for every fuel.
* Integers are `N` (u8, u32, u64, usize values) or `nat` (positions in a
  vector).  Where the Rust arithmetic can overflow, the operation takes a
  `profile` argument: `Debug` panics (overflow checks on), `Release` wraps.
  Vector lengths are assumed to be below 2^63 (Rust guarantees `isize::MAX`),
  so sums of a few lengths do not overflow.
* `async` functions are sequential here: each awaits its callee immediately.
  `Cancel.v` has those that may be dropped while they wait.
  The real concurrency (`read_blocks`) is a state machine driven by an
  arbitrary schedule; background writes of `tokio::fs::File` are explicit.
* Failures of the operating system are an arbitrary list of fates (`wd_plan`);
  theorems quantify over it.  The effects on the file system are a log of
  events; a directory is what the log leaves, a crash is a choice of what
  survives of it (`SpecSegment.v`).

Specifications live in `Spec*.v`, `ReadBlock.v`, `ReadBinBlock.v`, `Observe*.v`
and do not use the model's helpers.  Property theorems `Cnn_...` live in
`Props*.v`, each with `Print Assumptions` and a `..._witness` or example showing
that the hypotheses can be met.

Where the code violates a property, the theorem is a `..._refuted` statement
with a concrete witness, and next to it the strongest positive statement
(`..._exact` characterisations where possible, else `..._partial`).

## 2. Files

| file | contents |
|---|---|
| `Base.v`, `BaseProofs.v` | outcomes, machine arithmetic, list slicing/indexing as in Rust |
| `Util.v` | `encoding/util.rs` |
| `Varint.v` | `encoding/varint.rs` |
| `Buffers.v` | `indexing_buffer.rs` |
| `Rle.v` | `encoding/bitmap_rle.rs` |
| `Offsets.v` | `encoding/offsets.rs` and the BitPacker4x layout |
| `Sink.v` | the `BlockSink` trait of `encoding/mod.rs` and its test double |
| `PrimEnc.v` | `encoding/raw/primitive_enc.rs` |
| `BinEnc.v` | `encoding/raw/binary_enc.rs` |
| `Io.v` | `io/default_block_writer.rs`, `io/unix_disk_block_reader.rs`, `io/mod.rs`; the parts of tokio, std and futures they call |
| `Names.v` | file names in `segment_writer.rs`; base64; `Path::join` |
| `Metadata.v` | the types of `segment_metadata.rs` |
| `Proto.v` | what prost's generated encoder writes for them |
| `Segment.v` | `block_index.rs`, `block_sink.rs`, `segment_writer.rs`, `encoding/mod.rs`, `snappy/snappy_enc.rs` |
| `Cancel.v` | writing a block, writing to a column and closing a segment when the call is dropped half way |
| `Caught.v` | `indexing_buffer.rs`, the encoders and `ColumnWriter` again, with the state that is left when a call panics and the caller catches the panic; proved to be the functions above when it does not |
| `PropsReadMem.v`, `PropsCancelCol.v`, `PropsGrowing.v`, `PropsGrowingBatch.v` | property theorems which need a little more of the model: reads whose buffer cannot be allocated, closing a column when the call is dropped half way, reads from a file that grows meanwhile |
| `Timing.v`, `TimingSegment.v` | `io/default_block_writer.rs` with background writes at any moment; the segment writer as a program over two writers, with the proof that it is the one of `Segment.v`; `PropsCaughtTiming.v` has the same program for callers that go on after panics |
| `Config.v`, `Server.v` | `main.rs` (options, seed list), `server/mod.rs` |
| `Reader.v` | opening a file for reading, `io/unix_disk_block_reader.rs` |
| `Cursor.v` | `io/default_block_writer.rs` with open files that have positions of their own, as the operating system has them (C80 shows when this is appending) |
| `Spec.v`, `SpecRows.v`, `SpecBin.v`, `SpecFail.v`, `SpecIo.v`, `SpecProto.v`, `SpecSegment.v` | specification vocabulary: numbers, rows, runs, blocks, histories with rejected blocks, files and directories, a protobuf reader from the published format and the `.proto` schema, histories and crashes of a segment |
| `ReadBlock.v`, `ReadBinBlock.v` | reference readers for the documented block formats (the repository has none) |
| `Observe.v`, `ObserveEnc.v` | what a user sees of a buffer or encoder through its public functions |
| `*Proofs.v` | lemmas |
| `Props*.v` | the property theorems |

## 3. What is and is not modelled

Modelled: every non-test function of `src/store`, `src/server` and
`src/main.rs`, except those below.

| not modelled | why |
|---|---|
| accessors that return a field (`values`, `data`, `offsets`, `validity`, `len` of `Bitmap`/`BoolBuffer`, `BlockSinkImpl::block_index`) | record projections are used instead |
| `ColumnIndex` (`index/mod.rs`) | a trait without an implementation; `column_index` is always `None` (`segment_writer.rs:216`) |
| `build/mod.rs`, `build.rs`, help texts in `main.rs` | version texts, or run at build time |
| spans and the layout of log lines | an `info!` is only a message in a list |
| `Clone`, `Debug`, error message texts and `anyhow` contexts | an `Err` says only that the call failed |
| capacity hints (`Vec::with_capacity`), allocation failure | no observable effect short of running out of memory; the buffer of a read, whose length is up to the caller, is treated in `PropsReadMem.v` (C99) |
| decoding of protobuf by prost | not used by the repository; `SpecProto.v` is a reader of our own |

Simplifications, also stated at the definitions:

* Values of a fixed-width column are numbers below 2^(8*size); their memory
  image is little endian (x86-64, aarch64).  Floats are their bit patterns.
* `to_byte_slice` is `unsafe`; it is modelled by the memory image of the slice.
  Types with padding are not used by the repository.
* A `String` is its UTF-8 bytes (names, metadata) or its code points (seeds).
* A `HashMap` is a list with distinct keys; the order in which prost iterates it
  is an arbitrary permutation chosen for each encoding (`iteration`).
* tokio's background write takes effect when the file object next waits for it.
  `Timing.v` lets it happen at any moment; C76 shows that no program can tell,
  that each file sees the same events, and that a crash leaves of each file what
  it could leave anyway.  A
  crash may fall between any two events of the log and may keep any prefix of
  what was appended and not yet synced.
* `spawn_blocking` closures run when the schedule says so; a panic in one is
  turned into an error by `asyncify`, as in the code.
* A file does not change while a block is read from it; `PropsGrowing.v` lets
  every `pread` find other contents (C109).
* `pos` of a writer is unbounded: it could only wrap after 2^64 bytes.

## 4. Trusted base

* Coq 8.16.1's kernel (with `vm_compute` where used) and the standard library.
  No other library is imported.
* **Assumptions.**  `Print Assumptions` stands under every property theorem and
  answers `Closed under the global context` for each of them: no axiom, not even
  one of the standard library, is used.  The complete list of theorems is in
  section 6.
* The reading of the Rust code; every definition of the model cites its lines.
* External crates, modelled from their documented behaviour: `bitpacking` 0.5.1
  (`num_bits` and `compress` panic unless given exactly 128 values; four-lane
  layout; width 0 writes nothing), `base64` 0.13 (URL-safe alphabet, no
  padding), `prost` 0.8 (field order, default values left out, map entries),
  `tokio` 1.12 `fs::File` (one write in flight, chunks of at most `wd_max`
  bytes, errors reported by the next write or flush, kept by `sync_all`),
  `futures` 0.3 `buffered` (`FuturesOrdered`), `itertools::find_position`, std's
  `read_exact_at`, `str::split`, `str::trim`, `u16::from_str`, POSIX `pread`,
  `clap` 2.33 (command line before environment before default), `tracing` 0.1
  (the default subscriber can be set once).
* The crash model of `SpecSegment.v`, in two versions: with `sn = true` syncing
  a file also keeps its directory entry (ext4, XFS, btrfs in practice), with
  `sn = false` it does not (plain POSIX).

## 5. Plan and outcome per property

The English statements are in `properties.jsonl`.

* **C01 Varint round trip inside a longer stream** (proved).  How: the byte loop and the unrolled decoder with checked u32 arithmetic are shown equal to base-128 numbers (`groups_value`).  Outcome: All 64-bit values, any surrounding bytes.
* **C02 Varint length is computed exactly and always fits** (proved).  How: the byte loop and the unrolled decoder with checked u32 arithmetic are shown equal to base-128 numbers (`groups_value`).  Outcome: Exact length, monotone, exact size of slice needed.
* **C03 Varint encodings are minimal, injective and prefix free** (proved).  How: the byte loop and the unrolled decoder with checked u32 arithmetic are shown equal to base-128 numbers (`groups_value`).  Outcome: Injective, prefix free, minimal.
* **C04 Meaning of decoding an arbitrary byte string** (proved).  How: the byte loop and the unrolled decoder with checked u32 arithmetic are shown equal to base-128 numbers (`groups_value`).  Outcome: Full description of decoding for inputs with a terminating byte in the first ten bytes or ten continuation bytes.
* **C05 Decoding a varint never panics** (partial).  How: the byte loop and the unrolled decoder with checked u32 arithmetic are shown equal to base-128 numbers (`groups_value`).  Outcome: REFUTED: decoding a truncated varint (fewer than ten bytes, all with the top bit set, including the empty input) panics with an index error. Positive: it panics exactly on those inputs.
* **C06 Rounding helpers are exact** (proved).  How: `N.land`/`N.lnot` arithmetic; least multiple.  Outcome: Least multiple when it fits, overflow panic in a checked build otherwise; ceil8 is the ceiling.
* **C07 A bitmap is a growable sequence of booleans** (proved).  How: refinement to `list bool`; stale bits after `clear` are tracked exactly.  Outcome: Proved for every sequence of appends.
* **C08 A cleared bitmap is as good as new** (partial).  How: refinement to `list bool`; stale bits after `clear` are tracked exactly.  Outcome: REFUTED: clear keeps the old bytes, so old set bits shine through. C08_clear_exact describes every read after any number of rounds; C08_as_new_exact says exactly when the bitmap is as good as new.
* **C09 A bitmap created with a capacity works like any other** (partial).  How: refinement to `list bool`; stale bits after `clear` are tracked exactly.  Outcome: REFUTED: capacities below 8 give an empty vector that doubling never grows. Exact description for every capacity.
* **C10 Copying bits up to the n-th set bit** (proved).  How: refinement to `list bool`; stale bits after `clear` are tracked exactly.  Outcome: Proved, for any destination; panics exactly when too few set bits remain.
* **C11 A fixed-width column buffer stores the appended rows** (proved).  How: refinement to `list (option value)`, observed through the public functions.  Outcome: Proved for every row sequence and both nullabilities.
* **C12 A variable-length column buffer stores the appended rows** (proved).  How: refinement to `list (option value)`, observed through the public functions.  Outcome: Proved for every row sequence, including the exact overflow condition and which panic a null in a buffer made without nulls gives (C12_null_rejected).
* **C13 A boolean column buffer stores the appended rows** (proved).  How: refinement to `list (option value)`, observed through the public functions.  Outcome: Proved; also that a null in a buffer made without nulls panics (C13_null_rejected), and what asking for the validity gives (C13_validity).
* **C14 A cleared column buffer is as good as new** (partial).  How: refinement to `list (option value)`, observed through the public functions.  Outcome: REFUTED for nullable buffers and for boolean buffers. C14_buffer_clear_exact (fixed-width and binary) and C14_bool_clear_exact (boolean) describe every read after any number of clears, C14_has_nulls the has-nulls answer; fixed-width and binary buffers that are not nullable are as good as new.
* **C15 Bulk copy between column buffers moves the right rows** (proved).  How: refinement to `list (option value)`, observed through the public functions.  Outcome: Proved: bulk copy equals appending the rows one by one, for any destination; between a nullable buffer and one that is not it always panics, and so does a copy that would leave 2^32-1 values or bytes, or more (C15_too_large). The position returned for buffers that are not nullable is the number of items copied.
* **C16 Bitmap run-length coding round trip** (proved).  How: invariant: the frames written so far expand to the bytes consumed, plus the pending buffer; the decoder is a fold over frames.  Outcome: Proved for every sequence of up to 2^32-8 bits, in both build profiles.
* **C17 Run-length output size** (proved).  How: invariant: the frames written so far expand to the bytes consumed, plus the pending buffer; the decoder is a fold over frames.  Outcome: Proved.
* **C18 Encoder reuse after clear** (proved).  How: invariant: the frames written so far expand to the bytes consumed, plus the pending buffer; the decoder is a fold over frames.  Outcome: Proved for every encoder state.
* **C19 Encoding a validity window** (proved).  How: invariant: the frames written so far expand to the bytes consumed, plus the pending buffer; the decoder is a fold over frames.  Outcome: Proved, for any encoder; panics exactly when too few set bits remain.
* **C20 Decoding arbitrary run-length data is bounded and ordered** (proved).  How: invariant: the frames written so far expand to the bytes consumed, plus the pending buffer; the decoder is a fold over frames.  Outcome: Proved for every byte string. Increasing positions with overflow checks on; C20_release_wraps shows they can wrap without.
* **C21 Decoding into a destination that is too small is detected** (proved).  How: invariant: the frames written so far expand to the bytes consumed, plus the pending buffer; the decoder is a fold over frames.  Outcome: Proved.
* **C22 Flushing the run-length encoder twice is harmless** (partial).  How: invariant: the frames written so far expand to the bytes consumed, plus the pending buffer; the decoder is a fold over frames.  Outcome: REFUTED: flush does not reset the encoder, a second flush writes the pending data again. The exact theorem shows this happens for every non-empty sequence.
* **C23 A full block of item lengths can be read back** (proved).  How: four-lane bit layout of BitPacker4x; bit by bit.  Outcome: Proved for every 128 lengths, relative to the described layout of the external bit packer.
* **C24 A partial block of item lengths can be read back** (partial).  How: four-lane bit layout of BitPacker4x; bit by bit.  Outcome: REFUTED: trimming to ceil(width*count/8) bytes cuts off lanes. The exact theorem decides, for every count and width, whether the lengths can be recovered; C24_counts_partial lists simple cases.
* **C25 Any number of item lengths can be encoded** (partial).  How: four-lane bit layout of BitPacker4x; bit by bit.  Outcome: REFUTED: panics for 0 or more than 128 items. Exact: succeeds for 1 to 128. The panic comes from num_bits; the loop after it, which is never reached with more than one block, would pack any number of full blocks one after the other (C25_loop_partial).
* **C26 Size and width of encoded item lengths** (proved).  How: four-lane bit layout of BitPacker4x; bit by bit.  Outcome: Proved.
* **C27 Fixed-width blocks decode to the rows they were built from** (proved).  How: exact functional description of `encode`, then induction over the list of calls.  Outcome: Proved for every window of every buffer, every value width, both nullabilities, any state of the reused bitmap encoder. The reader is a specification (ReadBlock.v) on top of the repository's decoders; /repo has no block reader.
* **C28 Fixed-width block sizes respect the configured minimum** (proved).  How: exact functional description of `encode`, then induction over the list of calls.  Outcome: Proved: C28_loop_sizes for every encoder state, buffer and profile; C28_block_sizes for whole histories including the flush.
* **C29 A fixed-width column preserves every row it is given** (partial).  How: exact functional description of `encode`, then induction over the list of calls.  Outcome: REFUTED: rows are lost when a buffer arrives while rows are held back, and nulls after the last value of a buffer. C29_every_column_exact describes every history of every column completely (blocks, identifiers, panics; nulls or not, every width, block size and build). The other theorems are simpler special cases: C29_column_exact (values of at least two bytes), C29_no_nulls_exact, C29_one_byte (values of one byte without nulls are never lost; with nulls they are, C29_one_byte_nullable_refuted), C29_values_kept (the surviving rows in closed form and when nothing is lost), C29_full_blocks (the lossless case).
* **C30 Row identifiers of fixed-width blocks** (partial).  How: exact functional description of `encode`, then induction over the list of calls.  Outcome: REFUTED for nullable columns whose buffers hold two or more blocks. C30_every_column_exact: the identifiers of any written column are right exactly if every block is counted for the rows it has, which is always so without nulls; C29_every_column_exact gives the identifiers in every case. C30_row_ids_partial is the simple form for values of at least two bytes.
* **C31 Encoding fixed-width buffers never panics** (partial).  How: exact functional description of `encode`, then induction over the list of calls.  Outcome: REFUTED: underflow when the block size is not a multiple of the value size; a nullable column panics at about 370k rows per buffer with the repository's parameters. C31_every_column_exact says when any column panics. C31_every_width_partial: never up to 2^32-2 rows without nulls and 92681 rows with nulls (which is tight), if overflows go unnoticed or the block size is a multiple of the value size.
* **C32 Flushing a fixed-width column twice** (partial).  How: exact functional description of `encode`, then induction over the list of calls.  Outcome: REFUTED: the second flush writes the last block again under a higher identifier. Exact for every history of every column (C32_every_column_exact; C32_flush_twice_exact is the simple form for values of at least two bytes).
* **C33 The pending data of a binary column stays below the block size** (partial).  How: the same for binary columns; `chunk` is described for every start.  Outcome: REFUTED after a failed block write: the held back data stays at or above the block size and the next call underflows. C33_after_success_partial: for every history, failed calls included, any buffers, sink and build and without bounds on sizes, the held back data is below the block size whenever the latest call succeeded. C33_pending_below_partial also says that the calls return. C33_caught_partial: the same after panics, within the limits of C106, and flushes do not change it. C33_stuck_partial: with overflow checks, more than a block held back makes every encode panic for ever and change nothing; a flush does not help, as it keeps what it writes.
* **C34 A binary column preserves every row it is given** (partial).  How: the same for binary columns; `chunk` is described for every start.  Outcome: REFUTED: different columns give identical blocks (nulls at the end of a buffer, stale validity of held back rows, truncated lengths), and the second block of a buffer has the wrong items. Partial: all items are kept, in order, if no buffer has more data than a block; without nulls the rows are, and blocks read back whenever their lengths do. C34_column_exact gives the blocks, identifiers and outcome of every history by rules of their own (SpecBin.v). C34_rows_in_file_exact finds these blocks in the data file of any closed segment.
* **C35 Encoding binary buffers never panics and always returns** (partial).  How: the same for binary columns; `chunk` is described for every start.  Outcome: REFUTED: if k equally long items fill a block, every buffer starting with 2k of them panics; so do blocks of more than 128 items. Partial: returns if no buffer has more data than a block and blocks cannot exceed 128 items; C35_returns_exact says exactly when it returns.
* **C36 Layout of a binary block** (proved).  How: the same for binary columns; `chunk` is described for every start.  Outcome: Proved: every block of every history, first, later and flushed, has the described layout; the data of every block laid out this way can be read back.
* **C37 Row identifiers of binary blocks** (partial).  How: the same for binary columns; `chunk` is described for every start.  Outcome: REFUTED: later blocks of a nullable buffer are counted from its start; nulls at the end of a buffer are not counted. C37_row_ids_exact: the identifiers of any written column are right exactly if every block is counted for the rows it has, which is always so without nulls. C37_row_ids_partial: and they count the rows that went in if no buffer has more data than a block. The identifiers of every column are in C34_column_exact.
* **C38 Chunking a binary buffer** (partial).  How: the same for binary columns; `chunk` is described for every start.  Outcome: REFUTED for a start other than 0: the end found is relative to the start but used as a position. Exact result for every start in both profiles; right from the start of a buffer.
* **C39 Block writer position and contents** (proved).  How: file as the bytes its event log leaves; a soundness invariant of the file object for every plan of failures.  Outcome: Proved for every sequence of blocks and every behaviour of the operating system.
* **C40 Blocks are read back by their offsets** (proved).  How: file as the bytes its event log leaves; a soundness invariant of the file object for every plan of failures.  Outcome: Proved for every block of every history in which writes and flushes report success (syncs may fail), files below 2^63 bytes, short and interrupted preads included.
* **C41 Reading an arbitrary range** (proved).  How: file as the bytes its event log leaves; a soundness invariant of the file object for every plan of failures.  Outcome: Proved for every file below 2^63 bytes, every pair of u64 offsets, both profiles and every pread behaviour.
* **C42 Batched reads come back in request order** (proved).  How: invariant over `FuturesOrdered` for every schedule of completions and polls.  Outcome: Proved for every request list, schedule, poll order and pread behaviour, against a model of futures' Buffered/FuturesOrdered; complete service under fair schedules in at most 2n+1 rounds. If the ranges lie in the file and no read fails of its own every answer is the bytes of its range (C42_good_ranges).
* **C43 Position after a failed write** (partial).  How: file as the bytes its event log leaves; a soundness invariant of the file object for every plan of failures.  Outcome: REFUTED: the position is advanced before the write, so after an error it is past the end of the file and later blocks are not at their offsets. Partial: the position is the number of bytes handed over and never less than the file length. Exact (C43_parts_exact): for every history and every plan of failures the file is a part from the start of each block, in order; a block that is not whole was reported by its own write or by the next call that can tell (a flush or a non-empty write), unless there is none; the position is the length of the file exactly if every block is whole.
* **C44 A successful flush means every block reached the file** (proved).  How: file as the bytes its event log leaves; a soundness invariant of the file object for every plan of failures.  Outcome: Proved for every sequence of writes, flushes and syncs and every fate of each background write.
* **C45 Segment data file layout** (proved).  How: induction over the history of a segment (`seg_op`), for every plan of failures; metadata is read back with a reader of our own.  Outcome: Proved for every history in which all calls report success and the orders are permutations; C45_no_false_alarm gives when they do, and that a sync then succeeds too.
* **C46 Index file footer locates the metadata** (proved).  How: induction over the history of a segment (`seg_op`), for every plan of failures; metadata is read back with a reader of our own.  Outcome: Proved for index files below 2^64 bytes, every iteration order of the hash maps.
* **C47 Segment metadata round trip** (proved).  How: induction over the history of a segment (`seg_op`), for every plan of failures; metadata is read back with a reader of our own.  Outcome: Proved for index files below 2^64 bytes, against a protobuf reader written from the wire format.
* **C48 Blocks of a closed column can be located from the index file** (partial).  How: induction over the history of a segment (`seg_op`), for every plan of failures; metadata is read back with a reader of our own.  Outcome: REFUTED: the column layout always has the empty range 0..0 and no offsets are stored, so no function of the two files can find the blocks of a column. Partial: the index file depends only on which columns were closed.
* **C49 Distinct segments use distinct, valid file names** (proved).  How: base64 is injective; the names have no separator.  Outcome: Proved for all pairs of 16-byte identifiers; the names can differ only in letter case, which case-insensitive file systems do not keep apart (example).
* **C50 Writing a segment touches no other file** (proved).  How: induction over the history of a segment (`seg_op`), for every plan of failures; metadata is read back with a reader of our own.  Outcome: Proved for every history, failed calls included; C50_caught also for histories in which calls panic, the panics are caught and more calls follow.
* **C51 Re-adding a column name** (proved).  How: induction over the history of a segment (`seg_op`), for every plan of failures; metadata is read back with a reader of our own.  Outcome: Proved for every sequence of columns, both for the metadata and the layout.
* **C52 Unsupported encodings are rejected without writing** (proved).  How: induction over the history of a segment (`seg_op`), for every plan of failures; metadata is read back with a reader of our own.  Outcome: The encoder chosen has the block size and nullability asked for. Proved. A rejected column clears the in-memory block index, which is never written; all files and later reports are as without it.
* **C53 A snappy column preserves its data** (partial).  How: induction over the history of a segment (`seg_op`), for every plan of failures; metadata is read back with a reader of our own.  Outcome: REFUTED: a snappy column writes the word snappy for every buffer. Exact description of its blocks; both files do not depend on the buffers.
* **C54 Durability of a synced segment** (partial).  How: what survives a crash is any prefix of the unsynced bytes; induction over the event log.  Outcome: REFUTED twice: the index is synced before the data, so a crash in between leaves a complete index over an empty data file (C54_window_exact: so for every closed segment, and any part of the data may be missing); and the directory is never synced, so under plain POSIX rules both files may be gone. Partial: on file systems where syncing a file keeps its name, a successful sync makes both files survive any later crash, after any history.
* **C55 A failed block write can be retried** (partial).  How: encoder over an arbitrary failing sink; checked additions.  Outcome: REFUTED: the counter is advanced before the write, so a retry uses shifted identifiers and repeats blocks; rows of a rejected block that were held back stay held back, the others are lost. C55_history_exact (fixed-width) and C55_binary_history_exact describe every history of encode and flush calls in any order, with any blocks rejected and calls going on after failures: blocks, identifiers, what is held back, results and panics, by rules of their own (SpecFail.v). C55_segment_column_exact: the same for a raw column of any segment in any state and with any failures of the operating system. The theorems on retries are the simple cases in closed form: C55_retry_later_exact (with rows held back nothing is ever written again, otherwise every block is, with shifted identifiers) and C55_binary_retry_exact.
* **C56 Seed list parsing** (proved).  How: `split` and `trim` over code points.  Outcome: Proved: a seed is in the result exactly if it is a comma separated part of the input with the surrounding white space removed.
* **C57 No seeds configured means no seeds** (partial).  How: `split` and `trim` over code points.  Outcome: REFUTED: blank input gives one empty seed, not none. Exact result for every input.
* **C58 Segment overflow is detected** (proved).  How: encoder over an arbitrary failing sink; checked additions.  Outcome: Proved for fixed-width and binary columns from every state, every buffers, both profiles.
* **C59 Closing a column again changes nothing** (partial).  How: induction over the history of a segment (`seg_op`), for every plan of failures; metadata is read back with a reader of our own.  Outcome: REFUTED: rows held back are written again by every close. Exact: a second close writes the block of the first again with a row identifier higher by its rows, or panics if the row count passes 2^32-1 (C59_again_exact).
* **C60 Closing a segment again leaves it readable** (proved).  How: induction over the history of a segment (`seg_op`), for every plan of failures; metadata is read back with a reader of our own.  Outcome: Proved for every history and iteration order, index files below 2^64 bytes.
* **C61 The metadata tells how many values a column has** (partial).  How: induction over the history of a segment (`seg_op`), for every plan of failures; metadata is read back with a reader of our own.  Outcome: REFUTED: all counts and sizes are 0. Exact for every segment.
* **C62 Failing to create a segment leaves an existing one alone** (partial).  How: induction over the history of a segment (`seg_op`), for every plan of failures; metadata is read back with a reader of our own.  Outcome: REFUTED: the index file is truncated before the data file is opened. Exact for each failing open; if both opens succeed and a signature cannot be written, each file holds the first bytes of its signature at most (C62_signatures_partial).
* **C63 A successful sync means that everything is written** (partial).  How: what survives a crash is any prefix of the unsynced bytes; induction over the event log.  Outcome: REFUTED: sync waits for the background write but keeps its error for the next write or flush. Exact (C63_exact): after calls without error and a successful sync only an end of the last block can be missing, and only if no flush followed it; if it is, the next flush or write reports an error.
* **C64 Overflow checks only ever turn a run into a panic** (proved).  How: relation between the two builds, closed under bind, over every function that takes a build.  Outcome: Proved for every input of the modelled functions; reads for files and ranges below 2^64. round_upto_power_of_2 also has a debug assertion, which fires only for factors that are no powers of 2.
* **C65 Blocks of a closed segment are read back through the offsets of the block index** (proved).  How: composition of the exact file contents of C45/C46 with the exact description of a read; files under append-only event logs.  Outcome: Proved for histories in which all calls report success. If no read fails a batch read delivers all blocks under every schedule that comes to its end, and there are such schedules (C65_batch_complete). The offsets are those of the in-memory block index; they are not stored in any file (C48).
* **C66 What was read once can be read again** (proved).  How: composition of the exact file contents of C45/C46 with the exact description of a read; files under append-only event logs.  Outcome: Proved for every history, failed calls included, that returns; C66_caught also for histories whose panics are caught.
* **C67 Segments written at the same time do not disturb each other** (proved).  How: composition of the exact file contents of C45/C46 with the exact description of a read; files under append-only event logs.  Outcome: Proved for every interleaving of the effects of two segments. Creating the same identifier twice does disturb (C67_same_id_witness).
* **C68 A cut off or damaged index file is not taken for a good one** (partial).  How: the eight bytes at the end of a cut file are compared with its length; a file that is short at every point of the log is short after every crash.  Outcome: REFUTED twice: the position in the footer is the only check, so a table name may contain what looks like one; and there is no checksum, so a byte lost in a crash changes the metadata unnoticed. Partial: index files closed once and without four zero bytes in a row in the metadata are rejected when cut by at least four bytes (files below 4 GB), or cut anywhere (below 3080 bytes); C68_cut_partial has the condition in between.
* **C69 A segment never closed is not taken for a complete one** (proved).  How: the eight bytes at the end of a cut file are compared with its length; a file that is short at every point of the log is short after every crash.  Outcome: Proved for every history without close that returns, failed calls included, every crash point and both assumptions about names; the index file did not exist before. C69_caught: also when calls panic, the panics are caught and the columns are used further.
* **C70 A reader of the files finds blocks and metadata** (proved).  How: exact description of a read, over the files of C45-C47 and C66.  Outcome: Proved for files below 2^63 bytes.
* **C71 A server can be started again** (partial).  How: induction over the calls and over the digits.  Outcome: REFUTED: the second start of a process panics, because the tracing subscriber can be set only once. Exact for every sequence of calls.
* **C72 The configuration is what the user gave** (proved).  How: induction over the calls and over the digits.  Outcome: Proved for every input; clap and u16::from_str are modelled from their documentation.
* **C73 The block index is right even after a failed write** (partial).  How: an encoder does the same with any two sinks that treat its blocks alike.  Outcome: REFUTED: a failure reported late leaves entries beyond the end of the data file. Exact for every call and state: blocks accepted are indexed, a rejected one is not, but its bytes are counted in later offsets. C73_segment_exact: the contents of both files, the block index and all reports after any history of a whole segment with any failures, given the answers to the single writes.
* **C74 A close that was dropped can be repeated** (partial).  How: the C39/C44 invariant of a block writer for a call that stops after any number of chunks.  Outcome: REFUTED: write_block counts the whole block before it waits, so after a dropped close the position in the next footer is too far, and a reader finds empty metadata or none. Exact for every history and point: what arrived, what was counted and what is read; the same for a block writer and for a write to a column. Calls that are not dropped do what they do otherwise.
* **C75 Columns that failed leave no trace in the metadata** (proved).  How: the index file and the metadata do not depend on the data file, whatever happens to it.  Outcome: Proved for every history and failure; only index files below 2^64 bytes are read. C75_caught: also when calls on columns panic, the panics are caught and more calls follow.
* **C76 The moment at which background writes happen makes no difference** (proved).  How: simulation: a file differs at most by the write in flight, effects on different files commute.  Outcome: Proved for every program over block writers, which may also drop calls (C76_any_timing), also the converse (C76_waiting_is_a_timing), for segments (C76_segment) and for crashes (C76_crash, C76_segment_crash; at a crash in the middle the moment may differ from file to file), also if the caller goes on after panics (C76_caught, C76_caught_crash). This justifies that Io.v lets a background write happen when it is waited for. A write still in flight when the program ends may have happened, in part or not at all.
* **C77 What a block writer has synced stays** (proved).  How: what was synced is untouched by later effects; the contents then are those of C63.  Outcome: Proved for file systems on which syncing a file keeps its name (otherwise the file may be gone, C54_posix_partial), as long as nobody creates the file again. Blocks are found if a flush came before the sync; without one, see C63_exact.
* **C78 Every call on an encoder comes to an end** (partial).  How: a measure: every round of a loop that goes on uses up a part of the buffer.  Outcome: Proved for the binary encoder with any block size (C78_binary) and for segments (C78_segment). REFUTED for the fixed-width encoder with block size 0: it writes empty blocks for ever, all with row identifier 4294967295, or panics in a build with overflow checks (C78_zero_block_size_refuted); with any other block size it comes to an end (C78_fixed_width_partial). Buffers are assumed to hold fewer than 2^60 rows.
* **C79 No block is much larger than the block size** (partial).  How: the plan of the column (C29, C34) block by block.  Outcome: Proved for binary columns as long as no write fails (C79_binary_partial) and for fixed-width columns with overflow checks or a block size that is a multiple of the value size (C79_fixed_width_partial). REFUTED otherwise without overflow checks: after a failed write a binary block can have any size (C79_binary_after_error_refuted), and a fixed-width block any number of values (C79_fixed_width_unchecked_refuted, for every number).
* **C80 Another writer of the same segment does no harm** (partial).  How: one position per open file, kept at the end of the file; byte by byte for two writers.  Outcome: Proved as long as each file is written through one open file (C80_end_of_file_partial), hence for a segment alone, for one that replaces an older one, and for two segments with different identifiers in any order of effects; this justifies that Io.v describes writes as appends. REFUTED for two writers of the same segment: both are told that all went well and the index file cannot be read (C80_same_segment_refuted). C80_two_writers_exact: what a file contains that two writers have open.
* **C81 How rows are divided among buffers makes no difference** (partial).  How: alike rows give the same runs of the rules of C29 and C34; for small buffers the rules are shown to be a cut that looks at the rows only.  Outcome: REFUTED (C81_fixed_refuted without nulls, C81_binary_refuted with a null). In no column do nulls at the end of a buffer leave a trace (C81_trailing_nulls_binary_partial, C81_trailing_nulls_fixed_partial), so the two files of a segment are the same with and without them (C81_files_partial). Partial: the division plays no role for binary columns without nulls whose buffers have no more data than a block (C81_small_buffers_partial says how they are cut, C81_division_partial), and for values of one byte without nulls (C81_one_byte_partial). What happens in general is in C29_every_column_exact and C34_column_exact.
* **C82 A buffer of the wrong nullability is rejected** (partial).  How: the binary loop always ends in append_from, which panics (C15); the fixed-width loop looks at its own nullability only in append_from.  Outcome: For raw binary columns and segments the call never succeeds (it panics, or a write fails first), and it panics at once if rows are pending; but blocks of the wrong layout may be written before the panic (C82_binary_refuted). A fixed-width column with nothing pending accepts every buffer whose values fill whole blocks, exactly these, and then writes what a column of the other nullability writes (C82_fixed_refuted with the exact C82_fixed_call_exact, C82_fixed_column_exact).
* **C83 A bitmap or block cut short is not taken for the whole** (partial).  How: the frames of an encoding (C16) are cut in one of them or between two; the last frame is never empty. Blocks: the length comes first, then the values, then a validity that ends with a set bit.  Outcome: REFUTED for bitmaps alone: cut between two frames the rest is not missed (C83_bitmap_refuted). Exact otherwise (C83_bitmap_partial): a cut anywhere else panics, and a cut between frames gives the positions among the first 8*j bits, fewer than there are. If the last bit is set, as in every block, the number of positions tells (C83_bitmap_count). Hence blocks of raw fixed-width columns cut anywhere are never read as blocks (C83_block for one block, C83_column for every block of every column) and none is a first part of another (C83_prefix_free), so that the blocks of a column written one after the other can be told apart again without the index (C83_scan). The repository has no reader of blocks; the one used is ReadBlock.v, which compares the number of positions with the number of values.
* **C84 The scenarios of the repository's own tests succeed for every input they could draw** (proved).  How: Tests with fixed inputs by computation; those with random inputs from C07, C39, C44, C42_good_ranges and C45_no_false_alarm.  Outcome: Each of the twenty tests is transcribed assertion by assertion in PropsTests.v; this also checks the model against the authors' expectations. Proved for every input of its kind in both builds: the bitmap test (C84_bitmap_rnd_test), the buffer tests with any rows before and after clearing (C84_primitive_buffers, C84_binary_buffers up to 2^32-1 bytes, C84_boolean_buffers), the integer check for every u64 (C84_varint_any), the round trip of every bit sequence of at most 2^32-8 bits (C84_roundtrip_any), writing and batch reading of every list of blocks under every schedule in which no read fails, with a schedule that reaches the end (C84_io_roundtrip), and the segment test for every identifier, directory and iteration order (C84_test_indexing_pipeline_scaffold). The tests with their own fixed inputs are the examples C84_*, by computation. The operating system is assumed to do what it is asked to (all_succeed). Temporary directories, random generators and the asynchronous runtime are not modelled.
* **C85 The data of a single column can be found in the data file without the block index** (partial).  How: two computed segments; every block has the layout of C36, whose parts are read one after the other, the validity as its shortest beginning with enough set bits (C83).  Outcome: REFUTED with and without nulls (C85_one_column_refuted): a block does not say how many items it has, and the packed lengths of many items can be the packed lengths of few items followed by another block; two columns with 214 and 217 bytes of data leave the same two files. Partial: nothing but the number of items of each block is missing. Given these, the data file of every segment with any number of raw columns is taken apart into the blocks of its columns (C85_counts_partial), also after a crash once it was synced (C85_after_crash_partial, on file systems where syncing a file keeps its name). Columns of fewer than 2^32-7 rows, buffers with data below 2^32-128 bytes. The reader used is block_end in PropsApart.v; the repository has none. For fixed-width columns no counts are needed (C83_scan), but segments have none. For columns without nulls the row identifiers, which the in-memory block index has, tell the counts: with them the data file is taken apart (C85_row_ids_partial).
* **C86 The blocks of a column have no more data than the column** (partial).  How: a block that starts after s items of its buffer has more than s of them, and what is held back in the end has to fit into a block of 128 items; so the blocks of one buffer form a chain of windows; by induction over it three times the data of the blocks, and what is held back weighed by the number of values it can still take, is at most 135 times the data (`chain_cost`), added up over the buffers  Outcome: REFUTED (C86_amplified_refuted, block size of segments): after the first block of a buffer the end of a block is counted from the wrong place, and data is written again and again; 512 bytes in 255 items come to 99 blocks with 12671 bytes of data. Partial, for every column within the limits of C34: the blocks have at least the data of the column and at most 45 times as much, there are no more blocks than values, and all blocks together have at most 45 bytes for a byte of data, 20 for a value and one for a row (C86_bound_partial); so the data file of any number of raw columns has a length linear in its contents (C86_data_file_partial). If no buffer has more data than a block, nothing is written twice (C86_small_buffers_partial). Fixed-width columns never write more values than they were given (C86_fixed_width_partial; block size a multiple of the value size). The factor cannot be improved by much: 30 is not enough with the block size of segments (C86_factor_refuted).
* **C87 Writing the same segment again gives the same files** (partial).  How: the blocks depend on the buffers only (C45, C64); the metadata is encoded entry by entry, so its length does not depend on their order  Outcome: REFUTED (C87_same_bytes_refuted): the metadata has two hash maps, written in the order in which they happen to be visited; with two columns the index files differ. Partial: the data file is the same in all cases, even for another segment id (C87_data_partial); the index files have the same length and the same footer and are read as the same metadata (C87_index_partial); those of a segment closed once have the same bytes exactly if both maps list the columns in the same order (C87_order_exact); with no more than one column name (C87_one_name_partial) or the same order of visiting (C87_same_order_partial) all bytes are the same. C87_caught_partial: when calls panic and the caller goes on, and no call reports an error, every call ends as it did the first time, the data files are the same, and the index files have the same length and are read as the same metadata.
* **C88 The order in which columns are written makes no difference** (proved).  How: the blocks of a column depend on nothing outside of it (C45); a map with one entry for a name does not depend on the order of insertion  Outcome: Proved: C88_order (lengths, metadata, and the blocks of each column, found where the columns written before it end) and C88_either_works (if the calls succeed in one order they can succeed in any). Different names are needed: Example C88_same_name. C88_caught: the same when calls panic and the caller goes on and no call reports an error; the calls for a column then end in the same way in every order.
* **C89 Copying a column buffer in pieces is the same as copying it whole** (proved).  How: a relation that describes which validity bits are copied, split at the set bit where the first piece ends; slices of values and offsets split by lists  Outcome: Proved: C89_bitmap (the loop over validity bits), C89_fixed_width and C89_binary. Without validity the reported position is the number of items of the piece, which is why the position is described by cases; nothing uses it then.
* **C90 The memory of a bitmap is proportional to its bits** (proved).  How: an invariant over the calls: the length is the first length, or more than half of the bits are in use  Outcome: Proved: C90_bitmap_memory and C90_with_capacity. With fewer than eight bits of capacity appending panics (C09_with_capacity_refuted). Counted are the bytes in use by the vector, not the capacity its allocator reserves (Vec::resize does not give memory back).
* **C91 The memory an encoder keeps does not grow with the column** (partial).  How: an invariant of every call: fewer values than the block size, no more validity bits for each value than the largest buffer has; the bitmap and its encoder take a constant number of bytes per bit (C90)  Outcome: REFUTED for binary columns (C91_binary_refuted): the offsets of empty items are kept without limit, for every block size, sink and build, as empty items never fill a block. Also refuted for fixed-width columns if calls go on after a failed write in a release build (C91_after_errors_refuted). Partial: an explicit bound for fixed-width columns as long as no write fails (C91_fixed_width_partial) and for binary columns without empty items (C91_binary_partial). After failed writes and panics, within the limits of C104 and C106: with overflow checks, or a block size that is a multiple of the width, never more values are held back than make up a block (C91_values_held_partial), and with overflow checks a binary column never holds back more data than a block and the largest buffer have (C91_data_held_partial); these two count values and data only. Without overflow checks binary columns keep all data once writes fail, for every block size (C91_binary_errors_refuted). Counted are the bytes in use, not spare capacity of vectors; the vector of item lengths is not in the model.
* **C92 Segments in a directory that does not tell upper from lower case are kept apart** (partial).  How: the characters of a name are the numbers made of six bits each of the identifier; the effects of a segment start with creating its two files and only touch these  Outcome: REFUTED: the base64 names of different identifiers can differ only in the case of letters; creating the second segment then truncates the files of the first although all calls succeed (C92_kept_apart_refuted). C92_same_names_exact says, by the bits of the identifiers, exactly which share their names; C92_replaced that then only the files of the second remain. Partial: all other pairs are kept apart, however their effects are mixed (C92_kept_apart_partial). The file system is modelled as a plain directory of lower case names.
* **C93 A column buffer can be cleared and used for the next rows** (partial).  How: the validity bits of the cleared buffer extend those of a new buffer with the shown rows; no encoder reads bits after the last value  Outcome: REFUTED for nullable buffers: a null below row 8192 is written as a value where an earlier filling had one, and the values after it move to the front (C93_refuted). Exact: what is written, for every sink, is what new buffers with the shown rows write (C93_fixed_exact, with the same panics; C93_binary_exact; C93_segment for the files and reports of a segment). Partial: buffers that are not nullable are as good as new (C93_not_nullable_partial), so are nullable ones if no null before the last value stands where an earlier filling had a value (C93_over_nulls_partial), and the values themselves are kept in order if no buffer has more data than a block (C93_values_partial). For binary columns at most 2^32 - 1 bytes of data and fewer than 2^63 - 1 rows per filling.
* **C94 A row is found by its number** (partial).  How: blocks partition the rows when the identifiers are right; induction over the identifiers  Outcome: REFUTED for nullable columns: blocks after the first of a buffer are counted from the start of the buffer, so a row is looked for in a wrong block or another value is found in its place (C94_nullable_refuted, C94_binary_nullable_refuted). Partial: in every binary column without nulls each row is in the block and at the position found, and no other number is found; the bytes are read from the block, or from the data file of a closed segment, if the lengths of the items of that block can be read back, which C24 decides (C94_binary_partial, C94_file_partial). In fixed-width columns without nulls, or with right identifiers (C30), the rows that were written are found in order, so all rows are found exactly if none was lost, which C29 decides (C94_fixed_partial); values of one byte are always found (C94_one_byte_partial). In all columns the identifiers ascend, so the block can be found by bisection (C94_binary_ascending, C94_fixed_ascending, C94_search). The repository has no code that looks up a row: find_row, binary_row, fixed_row and file_row are the specification.
* **C95 Closing a column in between** (partial).  How: two encoders that differ in the row count only are run side by side  Outcome: REFUTED: flush writes the rows held back and keeps holding them, so they are written again with the next block (C95_repeated_refuted). Exact for every column: a close in between adds one block at most, and everything written later is the same as without it except that all row identifiers are higher by the rows of that block; if the row count then passes 2^32-1 there is a panic (C95_binary_exact, C95_fixed_exact). A close that finds nothing held back makes no difference (C95_nothing_held_partial).
* **C96 Large values come back after a crash** (proved).  How: a block for each value by the rules of SpecBin.v; one length is always stored completely (C24); then C45, C54, C94  Outcome: Proved from buffer to reader (C96_large_values). The reader needs the block index of the column, which is only in memory (C45, C48), and the place where the columns before it end; syncing a file is assumed to keep its name (C54_posix_partial is about file systems where it does not), and other programs to leave the two files alone. One value for each buffer is needed: a second large value in a buffer makes the encoder panic (C35_second_block_panics_refuted). Smaller values share blocks, whose item lengths may be cut short (C24).
* **C97 Nulls only add their validity to a block** (proved).  How: the rules of SpecRows.v and SpecBin.v depend on the values only; comparison of both runs step by step; then C29, C31, C34  Outcome: Proved for fixed-width (C97_fixed) and binary columns (C97_binary), and for fewer than 65536 rows both columns panic or neither (C97_few_rows). The row identifiers are not part of it: with nulls a block is counted for its end position in its buffer (C30, C37), even if there are none (see C97_witness). The validity is that of the rows as they are shown (C29, C34).
* **C98 Segments being written at the same time crash apart** (proved).  How: each segment has effects on its two files only (C50), the names differ (C49); what a crash leaves of a file depends on the effects on that file  Outcome: Proved for both crash models (C98_each_as_if_alone, an equivalence), without a crash (C98_running), and for a synced segment (C98_synced; that a sync keeps the name is an assumption, see C54). Identifiers have to differ: C67_same_id_witness and C80_same_segment_refuted. C98_caught and C98_caught_synced: also when calls panic and the panics are caught.
* **C99 A wrong range costs no more than an error** (partial).  How: case distinction on the length of the range as the build computes it; then C41. The largest buffer the allocator gives is a parameter.  Outcome: REFUTED: the buffer for the range is allocated before the file is looked at, and an allocation that fails aborts the process; for every amount of memory and every file there is such a range, in both builds. C99_exact_partial says exactly which ranges abort, C99_in_file that ranges inside the file never do. What is missing is a comparison with the length of the file, which the reader knows.
* **C100 A call on a column that was dropped can be made again** (partial).  How: a dropped call leaves an encoder like a rejected block does; the sink is described by the blocks handed over and how much of each arrived; induction over calls and columns  Outcome: REFUTED: write_block counts the whole block before the first of its bytes is written, so all later entries of the index are too far, beyond the end of the file even, and the part of a cut block that arrived stays in the data file. C100_exact_partial: which blocks are handed over, how much of each arrives, the index, both files and the metadata, for any number of columns and dropped calls. C100_too_far_partial: every block of the index is in the file, further to the front by exactly the bytes that were lost before it. Calls that are not dropped do what they do otherwise (C100_close_not_dropped, C74_column_not_dropped). Rows may be repeated, too: see C55.
* **C101 A buffer after a panic that was caught** (partial).  How: the functions are modelled a second time, with the state a panic leaves behind, and shown to be the same when nothing panics; induction over the calls  Outcome: REFUTED for append_from: it appends the values before it finds out that only one of the buffers has nulls, so rows stay that belong to no call, and values accepted later are read as others. C101_primitive_partial, C101_binary_partial, C101_bool_partial: with append and append_null only, after any calls with panics caught the buffer shows exactly the rows of the calls that returned, and which those are; once a binary buffer has been offered more than 2^32-1 bytes, every append panics. C101_keeps_primitive_partial, C101_keeps_binary_partial: no call but clear ever takes away or changes what a buffer shows, panics or not, and append_from out of range changes nothing.
* **C102 An encoder after a panic that was caught** (partial).  How: the functions are modelled a second time, with the state a panic leaves behind, and shown to be the same when nothing panics; induction over calls and chunks  Outcome: REFUTED: "a" and then 128 empty items are accepted, after which nothing is ever written and no flush returns; and a call that panics may have written its first blocks. C102_stuck_partial: with more than 128 items held back an encoder never hands over anything again. C102_again_partial: a flush that panics hands over nothing, keeps everything and panics the same way every time. C102_values_partial: inside the encoder nothing is lost, changed, doubled or reordered: the blocks, numbered as if there had been no panics, and what is held back are, in order, the values of the calls that returned and a first part of those of every call that panicked. C102_other_kind_partial: given a buffer with nulls, an encoder without panics but keeps the values, and the next flush writes them.
* **C103 A panic caught in one column stays in that column** (proved).  How: encoders use their sink only by handing it blocks (a combinator for each way to go on); the collecting sink and the one of the segment then take the same blocks; induction over calls and columns  Outcome: C103_contained. C103_no_panic: a column without a panic has the blocks the other claims about columns are about. C103_not_caught: without panics this is a run as in the other claims. C103_any_timing: also with background writes at any moment, once the segment was closed and synced. What a column with a panic has written is C102.
* **C104 A fixed-width column goes on after a panic that is caught** (partial).  How: state left by a panic in write_block; the loop, the held back rows and the flush each offer the blocks of the exact description until one is refused or cannot be counted; induction over the calls  Outcome: REFUTED (C104_refuted): a column that panicked once may panic for ever, and a call that panics may have handed over blocks. C104_exact says for every history and sink what is given to the sink, how every call ends and what is held back; it contains C29, C30, C31 and C32 and failed writes. C104_values: values of blocks and held back values are in order first parts of the values of the calls, and the next flush writes what is held back unless its rows cannot be counted. C104_stuck_partial: with overflow checks, more than a block held back stops every encode for ever. C104_refused: the same as C104_values for a sink that refuses blocks as planned, where every accepted block is numbered by rows of its own. C104_other_kind_partial: a buffer with nulls given to a column without them, whose values alone would only be held back: the call panics and the values are held back all the same.
* **C105 A buffer of the other kind spoils only its own call** (partial).  How: appending from another bitmap adds at most one set bit for each value; put_from cannot return with fewer set bits than values; induction over the calls  Outcome: REFUTED (C105_refuted). C105_held_fixed_partial and C105_held_binary_partial: the call panics after the values have been taken over, without marks in the bitmap. C105_short_fixed_partial and C105_short_binary_partial: once an encoder holds back more values than its bitmap has set bits (those left behind by clear included), nothing is handed over any more and no flush returns, whatever is called. C105_new_fixed_partial and C105_new_binary_partial: from the first call on, for a new encoder. C105_long_fixed_partial and C105_long_binary_partial: exactly what such a call does with a buffer of any length when nothing is held back: what an encoder without nulls does, then a panic if something is left to hold back (strings: always). C105_pending_fixed_partial and C105_pending_binary_partial: if something is held back, nothing is handed over and the call does not return.
* **C106 A string column after anything that fails or panics** (proved).  How: the encoder with caught panics is stepped along bin_cut; every block that is not handed over leaves the state of the encoder as before it; induction over the calls  Outcome: C106_exact is the description (with the defects of the code: rows after the first block of a buffer, stale validity bits, rows of refused blocks stay counted); C106_same: buffers with the same rows do the same. C106_values: with a sink that refuses any blocks, accepted values and values held back are in order a first part of every call, of a call that returns without an error all of them, and a flush adds at most one block with exactly what is held back. Extends C55_binary_history_exact, which ends at the first panic, and C102_values_partial, whose sink never refuses.
* **C107 A closed segment has the values of its string columns, whatever panicked** (proved).  How: a column by itself behaves as described in C106, with a sink that takes everything; C103 puts the columns together; a close that panics is one of a block with more than 128 items or rows past 2^32-1; every block accepted is not empty, ends with an item and has at most the rows and bytes given, so that the lemmas of C85 and C34 read it  Outcome: C107_contents is the statement in terms of rows given and bytes in the two files; C107_complete is the case without panics. C107_read (up to 2^32-8 rows per column) takes the data file apart into exactly these blocks, given the number of items in each, and reads each of them back, except those whose data goes on (C38) or whose lengths cannot be read (C24). Where nulls end up is as in C34 and C36; between the rows given and those of the blocks, values only are compared. Builds on C85, C103 and C106.
* **C108 A closed and synced segment survives a crash, whatever panicked** (proved).  How: after a close that returns, no write is in progress for either file, so that sync changes neither and its effects are last in the log of each; the contents are those of C103 and C107  Outcome: C108_survives is for all columns and calls; C108_read for raw string columns within the limits of C107_read, and C108_any_timing the same with background writes at any moment. That a synced file keeps its name is part of the statement: C54_survives_posix_refuted shows that without it both files may be gone, with or without panics.
* **C109 A block read too early is the block or an error, never something else** (proved).  How: the file and the piece being written always have all blocks, and the piece is within the last block that is not empty, so that any beginning of the file has a block whole or ends before its end, where reading exactly fails  Outcome: C109_never_other is for all moments and for data files below 2^63 bytes, where no data file existed before; C109_never_other_yet also lets the reader see a part of the write that may still be in progress at the end, and in C109_never_other_growing each system call that reads may find the file at another moment (read_changing_at is read_exact_at if the file does not change: changing_constant); C109_batch is for batches of reads of any of the blocks, in any schedule, the file being found at another moment at every event; C109_any_timing is for background writes performed at any moment, with panics caught, in a segment whose close and sync report no error; C109_all_but_last is for reads that do not fail. Without the hypothesis on errors the claim fails, as the block index then has wrong ranges: see C73_refuted.

## 6. Theorems and what they assume

`Print Assumptions` of each: `Closed under the global context`.

| property | file | theorems |
|---|---|---|
| C01 | `PropsVarint.v` | `C01_varint_roundtrip` |
| C02 | `PropsVarint.v` | `C02_varint_length` |
| C03 | `PropsVarint.v` | `C03_varint_prefix_free_minimal` |
| C04 | `PropsVarint.v` | `C04_decode_meaning` |
| C05 | `PropsVarint.v` | `C05_decode_never_panics_refuted`, `C05_decode_panics_iff_truncated` |
| C06 | `PropsVarint.v` | `C06_rounding` |
| C07 | `PropsBuffers.v` | `C07_bitmap_sequence` |
| C08 | `PropsBoolClear.v` | `C08_as_new_exact` |
| C08 | `PropsBuffers.v` | `C08_clear_refuted`, `C08_clear_exact`, `C08_clear_partial` |
| C09 | `PropsBuffers.v` | `C09_with_capacity_refuted`, `C09_with_capacity_exact` |
| C10 | `PropsBuffers.v` | `C10_append_from` |
| C11 | `PropsBuffers.v` | `C11_primitive_buffer` |
| C12 | `PropsBoolClear.v` | `C12_null_rejected` |
| C12 | `PropsBuffers.v` | `C12_binary_buffer` |
| C13 | `PropsBoolClear.v` | `C13_null_rejected`, `C13_validity` |
| C13 | `PropsBuffers.v` | `C13_bool_buffer` |
| C14 | `PropsBoolClear.v` | `C14_bool_clear_exact`, `C14_has_nulls` |
| C14 | `PropsBuffers.v` | `C14_buffer_clear_refuted`, `C14_buffer_clear_exact` |
| C15 | `PropsBoolClear.v` | `C15_binary_mismatch`, `C15_too_large` |
| C15 | `PropsBuffers.v` | `C15_bulk_copy` |
| C16 | `PropsRle.v` | `C16_rle_round_trip` |
| C17 | `PropsRle.v` | `C17_rle_size` |
| C18 | `PropsRle.v` | `C18_rle_clear` |
| C19 | `PropsRle.v` | `C19_rle_put_from` |
| C20 | `PropsRle.v` | `C20_rle_decode_any` |
| C21 | `PropsRle.v` | `C21_rle_small_destination` |
| C22 | `PropsRle.v` | `C22_rle_flush_twice_refuted`, `C22_rle_flush_twice_exact` |
| C23 | `PropsOffsets.v` | `C23_full_block` |
| C24 | `PropsOffsets.v` | `C24_partial_block_refuted`, `C24_partial_block_exact`, `C24_counts_partial` |
| C25 | `PropsOffsets.v` | `C25_any_count_refuted`, `C25_any_count_exact`, `C25_loop_partial` |
| C26 | `PropsOffsets.v` | `C26_offsets_size` |
| C27 | `PropsPrim.v` | `C27_block_round_trip` |
| C28 | `PropsPrimErr.v` | `C28_loop_sizes` |
| C28 | `PropsPrimIds.v` | `C28_block_sizes` |
| C29 | `PropsPrim.v` | `C29_column_exact` |
| C29 | `PropsPrimAll.v` | `C29_every_column_exact` |
| C29 | `PropsPrimAny.v` | `C29_no_nulls_exact`, `C29_one_byte`, `C29_one_byte_nullable_refuted` |
| C29 | `PropsPrimRows.v` | `C29_lossless_refuted`, `C29_values_kept`, `C29_full_blocks` |
| C30 | `PropsPrimAllErr.v` | `C30_every_column_exact` |
| C30 | `PropsPrimIds.v` | `C30_row_ids_partial`, `C30_row_ids_refuted` |
| C31 | `PropsPrimAllErr.v` | `C31_every_column_exact`, `C31_every_width_partial` |
| C31 | `PropsPrimErr.v` | `C31_never_panics_partial`, `C31_nullable_partial`, `C31_nullable_exact`, `C31_never_panics_refuted` |
| C32 | `PropsPrimAllErr.v` | `C32_every_column_exact` |
| C32 | `PropsPrimErr.v` | `C32_flush_twice_exact`, `C32_flush_twice_refuted` |
| C33 | `PropsBin.v` | `C33_pending_below_partial`, `C33_pending_after_error_refuted` |
| C33 | `PropsBinPending.v` | `C33_after_success_partial` |
| C33 | `PropsCaughtPending.v` | `C33_stuck_partial`, `C33_caught_partial` |
| C34 | `PropsBinExact.v` | `C34_column_exact` |
| C34 | `PropsBinRows.v` | `C34_values_kept_partial`, `C34_rows_kept_partial`, `C34_rows_determined_refuted`, `C34_items_repeated_refuted` |
| C34 | `PropsDivision.v` | `C34_rows_in_file_exact` |
| C34 | `PropsReadBack.v` | `C34_rows_in_file_partial` |
| C35 | `PropsBinExact.v` | `C35_returns_exact` |
| C35 | `PropsBinRows.v` | `C35_returns_partial`, `C35_second_block_panics_refuted` |
| C36 | `PropsBin.v` | `C36_first_block`, `C36_flush_block`, `C36_completed_block`, `C36_every_block`, `C36_data_readable` |
| C37 | `PropsBinPending.v` | `C37_row_ids_exact` |
| C37 | `PropsBinRows.v` | `C37_row_ids_partial`, `C37_row_ids_refuted` |
| C38 | `PropsBin.v` | `C38_chunk_from_start_partial`, `C38_chunk_exact`, `C38_chunk_refuted` |
| C39 | `PropsIo.v` | `C39_contents_and_position`, `C39_before_flush` |
| C40 | `PropsIo.v` | `C40_read_back` |
| C41 | `PropsIo.v` | `C41_range_in_file`, `C41_bad_range`, `C41_never_other_bytes` |
| C42 | `PropsIoBatch.v` | `C42_in_order`, `C42_end_means_all`, `C42_at_most_two`, `C42_progress`, `C42_everything_answered`, `C42_answers_determined` |
| C42 | `PropsIoBatchOk.v` | `C42_good_ranges` |
| C43 | `PropsIo.v` | `C43_position_refuted`, `C43_read_back_refuted`, `C43_position_partial` |
| C43 | `PropsIoLoss.v` | `C43_parts_exact` |
| C44 | `PropsIo.v` | `C44_flush_means_written`, `C44_loss_is_reported`, `C44_next_write_vouches`, `C44_no_false_alarm` |
| C45 | `PropsSegment.v` | `C45_data_file`, `C45_block_index`, `C45_no_false_alarm` |
| C45 | `PropsSegmentEx.v` | `C45_witness` |
| C46 | `PropsSegment.v` | `C46_footer` |
| C46 | `PropsSegmentEx.v` | `C46_witness` |
| C47 | `PropsSegment.v` | `C47_round_trip`, `C47_numbers_distinct` |
| C47 | `PropsSegmentEx.v` | `C47_witness` |
| C48 | `PropsSegmentRef.v` | `C48_locate_refuted`, `C48_index_says_nothing_partial`, `C48_range_empty_partial` |
| C49 | `PropsNames.v` | `C49_shape`, `C49_valid`, `C49_distinct` |
| C50 | `PropsCaughtDespite.v` | `C50_caught` |
| C50 | `PropsSegmentRef.v` | `C50_no_other_file`, `C50_truncates`, `C50_witness` |
| C51 | `PropsSegment.v` | `C51_last_wins`, `C51_others_unaffected` |
| C51 | `PropsSegmentEx.v` | `C51_witness` |
| C52 | `PropsChoice.v` | `C52_chosen_fixed_width`, `C52_chosen_binary` |
| C52 | `PropsSegmentRef.v` | `C52_supported`, `C52_supported_fixed_width`, `C52_rejected_keeps`, `C52_rejected_without_trace`, `C52_witness` |
| C53 | `PropsSegmentRef.v` | `C53_exact_partial`, `C53_files_ignore_buffers_partial`, `C53_recover_refuted` |
| C54 | `PropsCrash.v` | `C54_synced_survives_partial`, `C54_closed_and_synced_partial`, `C54_index_before_data_refuted`, `C54_posix_partial`, `C54_survives_posix_refuted`, `C54_witness` |
| C54 | `PropsWindow.v` | `C54_window_exact`, `C54_window_witness` |
| C55 | `PropsBinErr.v` | `C55_binary_retry_refuted` |
| C55 | `PropsBinFail.v` | `C55_binary_history_exact` |
| C55 | `PropsBinRetry.v` | `C55_binary_retry_exact` |
| C55 | `PropsPrimErr.v` | `C55_retry_exact`, `C55_retry_refuted` |
| C55 | `PropsPrimFail.v` | `C55_history_exact` |
| C55 | `PropsRetry.v` | `C55_retry_later_exact` |
| C55 | `PropsSegFail.v` | `C55_segment_column_exact` |
| C56 | `PropsConfig.v` | `C56_seeds`, `C56_clean` |
| C57 | `PropsConfig.v` | `C57_no_seeds_refuted`, `C57_blank_gives_one_empty_seed_partial`, `C57_exact_partial` |
| C58 | `PropsBinErr.v` | `C58_binary_counter_never_wraps` |
| C58 | `PropsPrimErr.v` | `C58_counter_never_wraps` |
| C59 | `PropsAgain.v` | `C59_again_exact` |
| C59 | `PropsSegmentRef.v` | `C59_twice_refuted`, `C59_exact_partial` |
| C60 | `PropsCrash.v` | `C60_close_again`, `C60_witness` |
| C61 | `PropsSegmentRef.v` | `C61_always_zero_partial`, `C61_num_values_refuted` |
| C62 | `PropsAgain.v` | `C62_signatures_partial` |
| C62 | `PropsSegmentRef.v` | `C62_refuted`, `C62_exact_partial` |
| C63 | `PropsCrash.v` | `C63_sync_hides_refuted`, `C63_or_flush_fails_partial`, `C63_flush_then_sync_partial` |
| C63 | `PropsSync.v` | `C63_exact` |
| C64 | `PropsBuilds.v` | `C64_segments`, `C64_encoders`, `C64_buffers`, `C64_codes`, `C64_reads`, `C64_rounding`, `C64_same_blocks` |
| C65 | `PropsAgain.v` | `C65_batch_complete` |
| C65 | `PropsReadBack.v` | `C65_read_block`, `C65_read_blocks`, `C65_witness` |
| C66 | `PropsCaughtStay.v` | `C66_caught` |
| C66 | `PropsReadBack.v` | `C66_append_only`, `C66_reads_stay`, `C66_witness` |
| C67 | `PropsReadBack.v` | `C67_no_interference`, `C67_witness`, `C67_same_id_witness` |
| C68 | `PropsTorn.v` | `C68_cut_partial`, `C68_small_partial`, `C68_four_bytes_partial`, `C68_refuted`, `C68_damage_refuted`, `C68_witness` |
| C69 | `PropsCaughtTorn.v` | `C69_caught` |
| C69 | `PropsTorn.v` | `C69_never_closed`, `C69_not_created`, `C69_witness` |
| C70 | `PropsReader.v` | `C70_length`, `C70_opens`, `C70_blocks`, `C70_metadata`, `C70_witness` |
| C71 | `PropsServer.v` | `C71_start_again_refuted`, `C71_exact_partial`, `C71_witness` |
| C72 | `PropsServer.v` | `C72_port`, `C72_config`, `C72_witness` |
| C73 | `PropsIndexErr.v` | `C73_write_exact_partial`, `C73_close_exact_partial`, `C73_refuted` |
| C73 | `PropsSegFail.v` | `C73_segment_exact` |
| C74 | `PropsCancel.v` | `C74_not_dropped`, `C74_writer_exact_partial`, `C74_column_not_dropped`, `C74_column_exact_partial`, `C74_close_exact_partial`, `C74_nothing_lost`, `C74_refuted` |
| C75 | `PropsCaughtDespite.v` | `C75_caught` |
| C75 | `PropsDespite.v` | `C75_failed_columns_absent`, `C75_witness` |
| C76 | `PropsCaughtTiming.v` | `C76_caught`, `C76_caught_crash` |
| C76 | `PropsTiming.v` | `C76_any_timing`, `C76_waiting_is_a_timing`, `C76_no_failures`, `C76_segment` |
| C76 | `PropsTimingCrash.v` | `C76_crash`, `C76_segment_crash` |
| C77 | `PropsSyncCrash.v` | `C77_synced_prefix`, `C77_later_calls`, `C77_blocks_found` |
| C78 | `PropsEnds.v` | `C78_binary`, `C78_segment`, `C78_fixed_width_partial`, `C78_zero_block_size_refuted` |
| C79 | `PropsBlockMax.v` | `C79_binary_partial`, `C79_binary_after_error_refuted`, `C79_fixed_width_partial`, `C79_fixed_width_unchecked_refuted` |
| C80 | `PropsCursor.v` | `C80_end_of_file_partial`, `C80_segment_partial`, `C80_two_segments_partial`, `C80_two_writers_exact`, `C80_last_writer_partial`, `C80_same_segment_refuted` |
| C81 | `PropsDivision.v` | `C81_trailing_nulls_binary_partial`, `C81_trailing_nulls_fixed_partial`, `C81_small_buffers_partial`, `C81_division_partial`, `C81_one_byte_partial`, `C81_fixed_refuted`, `C81_binary_refuted`, `C81_files_partial` |
| C82 | `PropsMismatch.v` | `C82_binary_partial`, `C82_binary_call_partial`, `C82_binary_pending_partial`, `C82_binary_refuted`, `C82_segment_partial`, `C82_fixed_call_exact`, `C82_fixed_column_exact`, `C82_fixed_refuted` |
| C83 | `PropsCut.v` | `C83_bitmap_partial`, `C83_bitmap_refuted`, `C83_bitmap_count`, `C83_block`, `C83_column`, `C83_prefix_free`, `C83_scan` |
| C84 | `PropsTests.v` | `C84_bitmap_rnd_test`, `C84_primitive_buffers`, `C84_binary_buffers`, `C84_boolean_buffers`, `C84_varint_any`, `C84_roundtrip_any`, `C84_io_roundtrip`, `C84_test_indexing_pipeline_scaffold` |
| C85 | `PropsApart.v` | `C85_one_column_refuted`, `C85_counts_partial`, `C85_after_crash_partial`, `C85_row_ids_partial` |
| C86 | `PropsAmplify.v` | `C86_amplified_refuted`, `C86_bound_partial`, `C86_small_buffers_partial`, `C86_data_file_partial`, `C86_fixed_width_partial`, `C86_factor_refuted` |
| C87 | `PropsCaughtRepeat.v` | `C87_caught_partial` |
| C87 | `PropsRepeat.v` | `C87_data_partial`, `C87_index_partial`, `C87_one_name_partial`, `C87_same_order_partial`, `C87_order_exact`, `C87_same_bytes_refuted` |
| C88 | `PropsCaughtRepeat.v` | `C88_caught` |
| C88 | `PropsRepeat.v` | `C88_order`, `C88_either_works` |
| C89 | `PropsPieces.v` | `C89_bitmap`, `C89_fixed_width`, `C89_binary` |
| C90 | `PropsPieces.v` | `C90_bitmap_memory`, `C90_with_capacity` |
| C91 | `PropsCaughtMemory.v` | `C91_values_held_partial`, `C91_data_held_partial`, `C91_binary_errors_refuted` |
| C91 | `PropsMemory.v` | `C91_fixed_width_partial`, `C91_binary_partial`, `C91_binary_refuted`, `C91_after_errors_refuted` |
| C92 | `PropsCase.v` | `C92_same_names_exact`, `C92_kept_apart_partial`, `C92_replaced`, `C92_kept_apart_refuted` |
| C93 | `PropsReuse.v` | `C93_fixed_exact`, `C93_binary_exact`, `C93_not_nullable_partial`, `C93_over_nulls_partial`, `C93_segment`, `C93_values_partial`, `C93_refuted` |
| C94 | `PropsLookup.v` | `C94_binary_partial`, `C94_file_partial`, `C94_fixed_partial`, `C94_one_byte_partial`, `C94_binary_ascending`, `C94_fixed_ascending`, `C94_search`, `C94_nullable_refuted`, `C94_binary_nullable_refuted` |
| C95 | `PropsResume.v` | `C95_binary_exact`, `C95_nothing_held_partial`, `C95_repeated_refuted`, `C95_fixed_exact` |
| C96 | `PropsEndToEnd.v` | `C96_large_values` |
| C97 | `PropsNulls.v` | `C97_fixed`, `C97_binary`, `C97_few_rows` |
| C98 | `PropsCaughtMany.v` | `C98_caught`, `C98_caught_synced`, `C98_not_caught` |
| C98 | `PropsMany.v` | `C98_each_as_if_alone`, `C98_running`, `C98_synced`, `C98_witness` |
| C99 | `PropsReadMem.v` | `C99_exact_partial`, `C99_in_file`, `C99_refuted` |
| C100 | `PropsCancelCol.v` | `C100_exact_partial`, `C100_too_far_partial`, `C100_refuted`, `C100_close_not_dropped` |
| C101 | `PropsCaughtBuf.v` | `C101_primitive_partial`, `C101_binary_partial`, `C101_bool_partial`, `C101_keeps_primitive_partial`, `C101_keeps_binary_partial`, `C101_refuted` |
| C102 | `PropsCaughtEnc.v` | `C102_stuck_partial`, `C102_values_partial`, `C102_again_partial`, `C102_other_kind_partial`, `C102_refuted` |
| C103 | `PropsCaughtSeg.v` | `C103_contained`, `C103_no_panic`, `C103_not_caught` |
| C103 | `PropsCaughtTimed.v` | `C103_any_timing` |
| C104 | `PropsCaughtFix.v` | `C104_exact`, `C104_values`, `C104_stuck_partial`, `C104_other_kind_partial`, `C104_refuted` |
| C104 | `PropsCaughtFixSink.v` | `C104_refused` |
| C105 | `PropsCaughtKind.v` | `C105_short_fixed_partial`, `C105_held_fixed_partial`, `C105_short_binary_partial`, `C105_held_binary_partial`, `C105_new_fixed_partial`, `C105_new_binary_partial`, `C105_refuted`, `C105_long_fixed_partial`, `C105_long_binary_partial`, `C105_pending_fixed_partial`, `C105_pending_binary_partial` |
| C106 | `PropsCaughtBin.v` | `C106_exact`, `C106_same`, `C106_values` |
| C107 | `PropsCaughtFile.v` | `C107_contents`, `C107_complete` |
| C107 | `PropsCaughtRead.v` | `C107_read` |
| C108 | `PropsCaughtCrash.v` | `C108_survives`, `C108_read` |
| C108 | `PropsCaughtTimed.v` | `C108_any_timing` |
| C109 | `PropsEarly.v` | `C109_never_other`, `C109_never_other_yet`, `C109_all_but_last` |
| C109 | `PropsEarlyTimed.v` | `C109_any_timing` |
| C109 | `PropsGrowing.v` | `C109_never_other_growing` |
| C109 | `PropsGrowingBatch.v` | `C109_batch` |

## 7. Testing the theorems

Wrong programs are made by editing a definition of the model in a scratch copy,
rebuilding everything that depends on it, and noting which theorems no longer
prove (`seeded/LOG.jsonl`, one line per attempt).  `theorems_failed` lists the
theorems whose proof fails or whose proof depends on a lemma that fails.

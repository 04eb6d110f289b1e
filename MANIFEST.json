{
 "claims": [
  {
   "property": "C01",
   "status": "proved",
   "theorems": [
    "C01_varint_roundtrip"
   ],
   "note": "All 64-bit values, any surrounding bytes."
  },
  {
   "property": "C02",
   "status": "proved",
   "theorems": [
    "C02_varint_length"
   ],
   "note": "Exact length, monotone, exact size of slice needed."
  },
  {
   "property": "C03",
   "status": "proved",
   "theorems": [
    "C03_varint_prefix_free_minimal"
   ],
   "note": "Injective, prefix free, minimal."
  },
  {
   "property": "C04",
   "status": "proved",
   "theorems": [
    "C04_decode_meaning"
   ],
   "note": "Full description of decoding for inputs with a terminating byte in the first ten bytes or ten continuation bytes."
  },
  {
   "property": "C05",
   "status": "partial",
   "theorems": [
    "C05_decode_never_panics_refuted",
    "C05_decode_panics_iff_truncated"
   ],
   "note": "REFUTED: decoding a truncated varint (fewer than ten bytes, all with the top bit set, including the empty input) panics with an index error. Positive: it panics exactly on those inputs."
  },
  {
   "property": "C06",
   "status": "proved",
   "theorems": [
    "C06_rounding"
   ],
   "note": "Least multiple when it fits, overflow panic in a checked build otherwise; ceil8 is the ceiling."
  },
  {
   "property": "C07",
   "status": "proved",
   "theorems": [
    "C07_bitmap_sequence"
   ],
   "note": "Proved for every sequence of appends."
  },
  {
   "property": "C08",
   "status": "partial",
   "theorems": [
    "C08_as_new_exact",
    "C08_clear_refuted",
    "C08_clear_exact",
    "C08_clear_partial"
   ],
   "note": "REFUTED: clear keeps the old bytes, so old set bits shine through. C08_clear_exact describes every read after any number of rounds; C08_as_new_exact says exactly when the bitmap is as good as new."
  },
  {
   "property": "C09",
   "status": "partial",
   "theorems": [
    "C09_with_capacity_refuted",
    "C09_with_capacity_exact"
   ],
   "note": "REFUTED: capacities below 8 give an empty vector that doubling never grows. Exact description for every capacity."
  },
  {
   "property": "C10",
   "status": "proved",
   "theorems": [
    "C10_append_from"
   ],
   "note": "Proved, for any destination; panics exactly when too few set bits remain."
  },
  {
   "property": "C11",
   "status": "proved",
   "theorems": [
    "C11_primitive_buffer"
   ],
   "note": "Proved for every row sequence and both nullabilities."
  },
  {
   "property": "C12",
   "status": "proved",
   "theorems": [
    "C12_null_rejected",
    "C12_binary_buffer"
   ],
   "note": "Proved for every row sequence, including the exact overflow condition and which panic a null in a buffer made without nulls gives (C12_null_rejected)."
  },
  {
   "property": "C13",
   "status": "proved",
   "theorems": [
    "C13_null_rejected",
    "C13_validity",
    "C13_bool_buffer"
   ],
   "note": "Proved; also that a null in a buffer made without nulls panics (C13_null_rejected), and what asking for the validity gives (C13_validity)."
  },
  {
   "property": "C14",
   "status": "partial",
   "theorems": [
    "C14_bool_clear_exact",
    "C14_has_nulls",
    "C14_buffer_clear_refuted",
    "C14_buffer_clear_exact"
   ],
   "note": "REFUTED for nullable buffers and for boolean buffers. C14_buffer_clear_exact (fixed-width and binary) and C14_bool_clear_exact (boolean) describe every read after any number of clears, C14_has_nulls the has-nulls answer; fixed-width and binary buffers that are not nullable are as good as new."
  },
  {
   "property": "C15",
   "status": "proved",
   "theorems": [
    "C15_binary_mismatch",
    "C15_too_large",
    "C15_bulk_copy"
   ],
   "note": "Proved: bulk copy equals appending the rows one by one, for any destination; between a nullable buffer and one that is not it always panics, and so does a copy that would leave 2^32-1 values or bytes, or more (C15_too_large). The position returned for buffers that are not nullable is the number of items copied."
  },
  {
   "property": "C16",
   "status": "proved",
   "theorems": [
    "C16_rle_round_trip"
   ],
   "note": "Proved for every sequence of up to 2^32-8 bits, in both build profiles."
  },
  {
   "property": "C17",
   "status": "proved",
   "theorems": [
    "C17_rle_size"
   ],
   "note": "Proved."
  },
  {
   "property": "C18",
   "status": "proved",
   "theorems": [
    "C18_rle_clear"
   ],
   "note": "Proved for every encoder state."
  },
  {
   "property": "C19",
   "status": "proved",
   "theorems": [
    "C19_rle_put_from"
   ],
   "note": "Proved, for any encoder; panics exactly when too few set bits remain."
  },
  {
   "property": "C20",
   "status": "proved",
   "theorems": [
    "C20_rle_decode_any"
   ],
   "note": "Proved for every byte string. Increasing positions with overflow checks on; C20_release_wraps shows they can wrap without."
  },
  {
   "property": "C21",
   "status": "proved",
   "theorems": [
    "C21_rle_small_destination"
   ],
   "note": "Proved."
  },
  {
   "property": "C22",
   "status": "partial",
   "theorems": [
    "C22_rle_flush_twice_refuted",
    "C22_rle_flush_twice_exact"
   ],
   "note": "REFUTED: flush does not reset the encoder, a second flush writes the pending data again. The exact theorem shows this happens for every non-empty sequence."
  },
  {
   "property": "C23",
   "status": "proved",
   "theorems": [
    "C23_full_block"
   ],
   "note": "Proved for every 128 lengths, relative to the described layout of the external bit packer."
  },
  {
   "property": "C24",
   "status": "partial",
   "theorems": [
    "C24_partial_block_refuted",
    "C24_partial_block_exact",
    "C24_counts_partial"
   ],
   "note": "REFUTED: trimming to ceil(width*count/8) bytes cuts off lanes. The exact theorem decides, for every count and width, whether the lengths can be recovered; C24_counts_partial lists simple cases."
  },
  {
   "property": "C25",
   "status": "partial",
   "theorems": [
    "C25_any_count_refuted",
    "C25_any_count_exact",
    "C25_loop_partial"
   ],
   "note": "REFUTED: panics for 0 or more than 128 items. Exact: succeeds for 1 to 128. The panic comes from num_bits; the loop after it, which is never reached with more than one block, would pack any number of full blocks one after the other (C25_loop_partial)."
  },
  {
   "property": "C26",
   "status": "proved",
   "theorems": [
    "C26_offsets_size"
   ],
   "note": "Proved."
  },
  {
   "property": "C27",
   "status": "proved",
   "theorems": [
    "C27_block_round_trip"
   ],
   "note": "Proved for every window of every buffer, every value width, both nullabilities, any state of the reused bitmap encoder. The reader is a specification (ReadBlock.v) on top of the repository's decoders; /repo has no block reader."
  },
  {
   "property": "C28",
   "status": "proved",
   "theorems": [
    "C28_loop_sizes",
    "C28_block_sizes"
   ],
   "note": "Proved: C28_loop_sizes for every encoder state, buffer and profile; C28_block_sizes for whole histories including the flush."
  },
  {
   "property": "C29",
   "status": "partial",
   "theorems": [
    "C29_column_exact",
    "C29_every_column_exact",
    "C29_no_nulls_exact",
    "C29_one_byte",
    "C29_one_byte_nullable_refuted",
    "C29_lossless_refuted",
    "C29_values_kept",
    "C29_full_blocks"
   ],
   "note": "REFUTED: rows are lost when a buffer arrives while rows are held back, and nulls after the last value of a buffer. C29_every_column_exact describes every history of every column completely (blocks, identifiers, panics; nulls or not, every width, block size and build). The other theorems are simpler special cases: C29_column_exact (values of at least two bytes), C29_no_nulls_exact, C29_one_byte (values of one byte without nulls are never lost; with nulls they are, C29_one_byte_nullable_refuted), C29_values_kept (the surviving rows in closed form and when nothing is lost), C29_full_blocks (the lossless case)."
  },
  {
   "property": "C30",
   "status": "partial",
   "theorems": [
    "C30_every_column_exact",
    "C30_row_ids_partial",
    "C30_row_ids_refuted"
   ],
   "note": "REFUTED for nullable columns whose buffers hold two or more blocks. C30_every_column_exact: the identifiers of any written column are right exactly if every block is counted for the rows it has, which is always so without nulls; C29_every_column_exact gives the identifiers in every case. C30_row_ids_partial is the simple form for values of at least two bytes."
  },
  {
   "property": "C31",
   "status": "partial",
   "theorems": [
    "C31_every_column_exact",
    "C31_every_width_partial",
    "C31_never_panics_partial",
    "C31_nullable_partial",
    "C31_nullable_exact",
    "C31_never_panics_refuted"
   ],
   "note": "REFUTED: underflow when the block size is not a multiple of the value size; a nullable column panics at about 370k rows per buffer with the repository's parameters. C31_every_column_exact says when any column panics. C31_every_width_partial: never up to 2^32-2 rows without nulls and 92681 rows with nulls (which is tight), if overflows go unnoticed or the block size is a multiple of the value size."
  },
  {
   "property": "C32",
   "status": "partial",
   "theorems": [
    "C32_every_column_exact",
    "C32_flush_twice_exact",
    "C32_flush_twice_refuted"
   ],
   "note": "REFUTED: the second flush writes the last block again under a higher identifier. Exact for every history of every column (C32_every_column_exact; C32_flush_twice_exact is the simple form for values of at least two bytes)."
  },
  {
   "property": "C33",
   "status": "partial",
   "theorems": [
    "C33_pending_below_partial",
    "C33_pending_after_error_refuted",
    "C33_after_success_partial",
    "C33_stuck_partial",
    "C33_caught_partial"
   ],
   "note": "REFUTED after a failed block write: the held back data stays at or above the block size and the next call underflows. C33_after_success_partial: for every history, failed calls included, any buffers, sink and build and without bounds on sizes, the held back data is below the block size whenever the latest call succeeded. C33_pending_below_partial also says that the calls return. C33_caught_partial: the same after panics, within the limits of C106, and flushes do not change it. C33_stuck_partial: with overflow checks, more than a block held back makes every encode panic for ever and change nothing; a flush does not help, as it keeps what it writes."
  },
  {
   "property": "C34",
   "status": "partial",
   "theorems": [
    "C34_column_exact",
    "C34_values_kept_partial",
    "C34_rows_kept_partial",
    "C34_rows_determined_refuted",
    "C34_items_repeated_refuted",
    "C34_rows_in_file_exact",
    "C34_rows_in_file_partial"
   ],
   "note": "REFUTED: different columns give identical blocks (nulls at the end of a buffer, stale validity of held back rows, truncated lengths), and the second block of a buffer has the wrong items. Partial: all items are kept, in order, if no buffer has more data than a block; without nulls the rows are, and blocks read back whenever their lengths do. C34_column_exact gives the blocks, identifiers and outcome of every history by rules of their own (SpecBin.v). C34_rows_in_file_exact finds these blocks in the data file of any closed segment."
  },
  {
   "property": "C35",
   "status": "partial",
   "theorems": [
    "C35_returns_exact",
    "C35_returns_partial",
    "C35_second_block_panics_refuted"
   ],
   "note": "REFUTED: if k equally long items fill a block, every buffer starting with 2k of them panics; so do blocks of more than 128 items. Partial: returns if no buffer has more data than a block and blocks cannot exceed 128 items; C35_returns_exact says exactly when it returns."
  },
  {
   "property": "C36",
   "status": "proved",
   "theorems": [
    "C36_first_block",
    "C36_flush_block",
    "C36_completed_block",
    "C36_every_block",
    "C36_data_readable"
   ],
   "note": "Proved: every block of every history, first, later and flushed, has the described layout; the data of every block laid out this way can be read back."
  },
  {
   "property": "C37",
   "status": "partial",
   "theorems": [
    "C37_row_ids_exact",
    "C37_row_ids_partial",
    "C37_row_ids_refuted"
   ],
   "note": "REFUTED: later blocks of a nullable buffer are counted from its start; nulls at the end of a buffer are not counted. C37_row_ids_exact: the identifiers of any written column are right exactly if every block is counted for the rows it has, which is always so without nulls. C37_row_ids_partial: and they count the rows that went in if no buffer has more data than a block. The identifiers of every column are in C34_column_exact."
  },
  {
   "property": "C38",
   "status": "partial",
   "theorems": [
    "C38_chunk_from_start_partial",
    "C38_chunk_exact",
    "C38_chunk_refuted"
   ],
   "note": "REFUTED for a start other than 0: the end found is relative to the start but used as a position. Exact result for every start in both profiles; right from the start of a buffer."
  },
  {
   "property": "C39",
   "status": "proved",
   "theorems": [
    "C39_contents_and_position",
    "C39_before_flush"
   ],
   "note": "Proved for every sequence of blocks and every behaviour of the operating system."
  },
  {
   "property": "C40",
   "status": "proved",
   "theorems": [
    "C40_read_back"
   ],
   "note": "Proved for every block of every history in which writes and flushes report success (syncs may fail), files below 2^63 bytes, short and interrupted preads included."
  },
  {
   "property": "C41",
   "status": "proved",
   "theorems": [
    "C41_range_in_file",
    "C41_bad_range",
    "C41_never_other_bytes"
   ],
   "note": "Proved for every file below 2^63 bytes, every pair of u64 offsets, both profiles and every pread behaviour."
  },
  {
   "property": "C42",
   "status": "proved",
   "theorems": [
    "C42_in_order",
    "C42_end_means_all",
    "C42_at_most_two",
    "C42_progress",
    "C42_everything_answered",
    "C42_answers_determined",
    "C42_good_ranges"
   ],
   "note": "Proved for every request list, schedule, poll order and pread behaviour, against a model of futures' Buffered/FuturesOrdered; complete service under fair schedules in at most 2n+1 rounds. If the ranges lie in the file and no read fails of its own every answer is the bytes of its range (C42_good_ranges)."
  },
  {
   "property": "C43",
   "status": "partial",
   "theorems": [
    "C43_position_refuted",
    "C43_read_back_refuted",
    "C43_position_partial",
    "C43_parts_exact"
   ],
   "note": "REFUTED: the position is advanced before the write, so after an error it is past the end of the file and later blocks are not at their offsets. Partial: the position is the number of bytes handed over and never less than the file length. Exact (C43_parts_exact): for every history and every plan of failures the file is a part from the start of each block, in order; a block that is not whole was reported by its own write or by the next call that can tell (a flush or a non-empty write), unless there is none; the position is the length of the file exactly if every block is whole."
  },
  {
   "property": "C44",
   "status": "proved",
   "theorems": [
    "C44_flush_means_written",
    "C44_loss_is_reported",
    "C44_next_write_vouches",
    "C44_no_false_alarm"
   ],
   "note": "Proved for every sequence of writes, flushes and syncs and every fate of each background write."
  },
  {
   "property": "C45",
   "status": "proved",
   "theorems": [
    "C45_data_file",
    "C45_block_index",
    "C45_no_false_alarm",
    "C45_witness"
   ],
   "note": "Proved for every history in which all calls report success and the orders are permutations; C45_no_false_alarm gives when they do, and that a sync then succeeds too."
  },
  {
   "property": "C46",
   "status": "proved",
   "theorems": [
    "C46_footer",
    "C46_witness"
   ],
   "note": "Proved for index files below 2^64 bytes, every iteration order of the hash maps."
  },
  {
   "property": "C47",
   "status": "proved",
   "theorems": [
    "C47_round_trip",
    "C47_numbers_distinct",
    "C47_witness"
   ],
   "note": "Proved for index files below 2^64 bytes, against a protobuf reader written from the wire format."
  },
  {
   "property": "C48",
   "status": "partial",
   "theorems": [
    "C48_locate_refuted",
    "C48_index_says_nothing_partial",
    "C48_range_empty_partial"
   ],
   "note": "REFUTED: the column layout always has the empty range 0..0 and no offsets are stored, so no function of the two files can find the blocks of a column. Partial: the index file depends only on which columns were closed."
  },
  {
   "property": "C49",
   "status": "proved",
   "theorems": [
    "C49_shape",
    "C49_valid",
    "C49_distinct"
   ],
   "note": "Proved for all pairs of 16-byte identifiers; the names can differ only in letter case, which case-insensitive file systems do not keep apart (example)."
  },
  {
   "property": "C50",
   "status": "proved",
   "theorems": [
    "C50_caught",
    "C50_no_other_file",
    "C50_truncates",
    "C50_witness"
   ],
   "note": "Proved for every history, failed calls included; C50_caught also for histories in which calls panic, the panics are caught and more calls follow."
  },
  {
   "property": "C51",
   "status": "proved",
   "theorems": [
    "C51_last_wins",
    "C51_others_unaffected",
    "C51_witness"
   ],
   "note": "Proved for every sequence of columns, both for the metadata and the layout."
  },
  {
   "property": "C52",
   "status": "proved",
   "theorems": [
    "C52_chosen_fixed_width",
    "C52_chosen_binary",
    "C52_supported",
    "C52_supported_fixed_width",
    "C52_rejected_keeps",
    "C52_rejected_without_trace",
    "C52_witness"
   ],
   "note": "The encoder chosen has the block size and nullability asked for. Proved. A rejected column clears the in-memory block index, which is never written; all files and later reports are as without it."
  },
  {
   "property": "C53",
   "status": "partial",
   "theorems": [
    "C53_exact_partial",
    "C53_files_ignore_buffers_partial",
    "C53_recover_refuted"
   ],
   "note": "REFUTED: a snappy column writes the word snappy for every buffer. Exact description of its blocks; both files do not depend on the buffers."
  },
  {
   "property": "C54",
   "status": "partial",
   "theorems": [
    "C54_synced_survives_partial",
    "C54_closed_and_synced_partial",
    "C54_index_before_data_refuted",
    "C54_posix_partial",
    "C54_survives_posix_refuted",
    "C54_witness",
    "C54_window_exact",
    "C54_window_witness"
   ],
   "note": "REFUTED twice: the index is synced before the data, so a crash in between leaves a complete index over an empty data file (C54_window_exact: so for every closed segment, and any part of the data may be missing); and the directory is never synced, so under plain POSIX rules both files may be gone. Partial: on file systems where syncing a file keeps its name, a successful sync makes both files survive any later crash, after any history."
  },
  {
   "property": "C55",
   "status": "partial",
   "theorems": [
    "C55_binary_retry_refuted",
    "C55_binary_history_exact",
    "C55_binary_retry_exact",
    "C55_retry_exact",
    "C55_retry_refuted",
    "C55_history_exact",
    "C55_retry_later_exact",
    "C55_segment_column_exact"
   ],
   "note": "REFUTED: the counter is advanced before the write, so a retry uses shifted identifiers and repeats blocks; rows of a rejected block that were held back stay held back, the others are lost. C55_history_exact (fixed-width) and C55_binary_history_exact describe every history of encode and flush calls in any order, with any blocks rejected and calls going on after failures: blocks, identifiers, what is held back, results and panics, by rules of their own (SpecFail.v). C55_segment_column_exact: the same for a raw column of any segment in any state and with any failures of the operating system. The theorems on retries are the simple cases in closed form: C55_retry_later_exact (with rows held back nothing is ever written again, otherwise every block is, with shifted identifiers) and C55_binary_retry_exact."
  },
  {
   "property": "C56",
   "status": "proved",
   "theorems": [
    "C56_seeds",
    "C56_clean"
   ],
   "note": "Proved: a seed is in the result exactly if it is a comma separated part of the input with the surrounding white space removed."
  },
  {
   "property": "C57",
   "status": "partial",
   "theorems": [
    "C57_no_seeds_refuted",
    "C57_blank_gives_one_empty_seed_partial",
    "C57_exact_partial"
   ],
   "note": "REFUTED: blank input gives one empty seed, not none. Exact result for every input."
  },
  {
   "property": "C58",
   "status": "proved",
   "theorems": [
    "C58_binary_counter_never_wraps",
    "C58_counter_never_wraps"
   ],
   "note": "Proved for fixed-width and binary columns from every state, every buffers, both profiles."
  },
  {
   "property": "C59",
   "status": "partial",
   "theorems": [
    "C59_again_exact",
    "C59_twice_refuted",
    "C59_exact_partial"
   ],
   "note": "REFUTED: rows held back are written again by every close. Exact: a second close writes the block of the first again with a row identifier higher by its rows, or panics if the row count passes 2^32-1 (C59_again_exact)."
  },
  {
   "property": "C60",
   "status": "proved",
   "theorems": [
    "C60_close_again",
    "C60_witness"
   ],
   "note": "Proved for every history and iteration order, index files below 2^64 bytes."
  },
  {
   "property": "C61",
   "status": "partial",
   "theorems": [
    "C61_always_zero_partial",
    "C61_num_values_refuted"
   ],
   "note": "REFUTED: all counts and sizes are 0. Exact for every segment."
  },
  {
   "property": "C62",
   "status": "partial",
   "theorems": [
    "C62_signatures_partial",
    "C62_refuted",
    "C62_exact_partial"
   ],
   "note": "REFUTED: the index file is truncated before the data file is opened. Exact for each failing open; if both opens succeed and a signature cannot be written, each file holds the first bytes of its signature at most (C62_signatures_partial)."
  },
  {
   "property": "C63",
   "status": "partial",
   "theorems": [
    "C63_sync_hides_refuted",
    "C63_or_flush_fails_partial",
    "C63_flush_then_sync_partial",
    "C63_exact"
   ],
   "note": "REFUTED: sync waits for the background write but keeps its error for the next write or flush. Exact (C63_exact): after calls without error and a successful sync only an end of the last block can be missing, and only if no flush followed it; if it is, the next flush or write reports an error."
  },
  {
   "property": "C64",
   "status": "proved",
   "theorems": [
    "C64_segments",
    "C64_encoders",
    "C64_buffers",
    "C64_codes",
    "C64_reads",
    "C64_rounding",
    "C64_same_blocks"
   ],
   "note": "Proved for every input of the modelled functions; reads for files and ranges below 2^64. round_upto_power_of_2 also has a debug assertion, which fires only for factors that are no powers of 2."
  },
  {
   "property": "C65",
   "status": "proved",
   "theorems": [
    "C65_batch_complete",
    "C65_read_block",
    "C65_read_blocks",
    "C65_witness"
   ],
   "note": "Proved for histories in which all calls report success. If no read fails a batch read delivers all blocks under every schedule that comes to its end, and there are such schedules (C65_batch_complete). The offsets are those of the in-memory block index; they are not stored in any file (C48)."
  },
  {
   "property": "C66",
   "status": "proved",
   "theorems": [
    "C66_caught",
    "C66_append_only",
    "C66_reads_stay",
    "C66_witness"
   ],
   "note": "Proved for every history, failed calls included, that returns; C66_caught also for histories whose panics are caught."
  },
  {
   "property": "C67",
   "status": "proved",
   "theorems": [
    "C67_no_interference",
    "C67_witness",
    "C67_same_id_witness"
   ],
   "note": "Proved for every interleaving of the effects of two segments. Creating the same identifier twice does disturb (C67_same_id_witness)."
  },
  {
   "property": "C68",
   "status": "partial",
   "theorems": [
    "C68_cut_partial",
    "C68_small_partial",
    "C68_four_bytes_partial",
    "C68_refuted",
    "C68_damage_refuted",
    "C68_witness"
   ],
   "note": "REFUTED twice: the position in the footer is the only check, so a table name may contain what looks like one; and there is no checksum, so a byte lost in a crash changes the metadata unnoticed. Partial: index files closed once and without four zero bytes in a row in the metadata are rejected when cut by at least four bytes (files below 4 GB), or cut anywhere (below 3080 bytes); C68_cut_partial has the condition in between."
  },
  {
   "property": "C69",
   "status": "proved",
   "theorems": [
    "C69_caught",
    "C69_never_closed",
    "C69_not_created",
    "C69_witness"
   ],
   "note": "Proved for every history without close that returns, failed calls included, every crash point and both assumptions about names; the index file did not exist before. C69_caught: also when calls panic, the panics are caught and the columns are used further."
  },
  {
   "property": "C70",
   "status": "proved",
   "theorems": [
    "C70_length",
    "C70_opens",
    "C70_blocks",
    "C70_metadata",
    "C70_witness"
   ],
   "note": "Proved for files below 2^63 bytes."
  },
  {
   "property": "C71",
   "status": "partial",
   "theorems": [
    "C71_start_again_refuted",
    "C71_exact_partial",
    "C71_witness"
   ],
   "note": "REFUTED: the second start of a process panics, because the tracing subscriber can be set only once. Exact for every sequence of calls."
  },
  {
   "property": "C72",
   "status": "proved",
   "theorems": [
    "C72_port",
    "C72_config",
    "C72_witness"
   ],
   "note": "Proved for every input; clap and u16::from_str are modelled from their documentation."
  },
  {
   "property": "C73",
   "status": "partial",
   "theorems": [
    "C73_write_exact_partial",
    "C73_close_exact_partial",
    "C73_refuted",
    "C73_segment_exact"
   ],
   "note": "REFUTED: a failure reported late leaves entries beyond the end of the data file. Exact for every call and state: blocks accepted are indexed, a rejected one is not, but its bytes are counted in later offsets. C73_segment_exact: the contents of both files, the block index and all reports after any history of a whole segment with any failures, given the answers to the single writes."
  },
  {
   "property": "C74",
   "status": "partial",
   "theorems": [
    "C74_not_dropped",
    "C74_writer_exact_partial",
    "C74_column_not_dropped",
    "C74_column_exact_partial",
    "C74_close_exact_partial",
    "C74_nothing_lost",
    "C74_refuted"
   ],
   "note": "REFUTED: write_block counts the whole block before it waits, so after a dropped close the position in the next footer is too far, and a reader finds empty metadata or none. Exact for every history and point: what arrived, what was counted and what is read; the same for a block writer and for a write to a column. Calls that are not dropped do what they do otherwise."
  },
  {
   "property": "C75",
   "status": "proved",
   "theorems": [
    "C75_caught",
    "C75_failed_columns_absent",
    "C75_witness"
   ],
   "note": "Proved for every history and failure; only index files below 2^64 bytes are read. C75_caught: also when calls on columns panic, the panics are caught and more calls follow."
  },
  {
   "property": "C76",
   "status": "proved",
   "theorems": [
    "C76_caught",
    "C76_caught_crash",
    "C76_any_timing",
    "C76_waiting_is_a_timing",
    "C76_no_failures",
    "C76_segment",
    "C76_crash",
    "C76_segment_crash"
   ],
   "note": "Proved for every program over block writers, which may also drop calls (C76_any_timing), also the converse (C76_waiting_is_a_timing), for segments (C76_segment) and for crashes (C76_crash, C76_segment_crash; at a crash in the middle the moment may differ from file to file), also if the caller goes on after panics (C76_caught, C76_caught_crash). This justifies that Io.v lets a background write happen when it is waited for. A write still in flight when the program ends may have happened, in part or not at all."
  },
  {
   "property": "C77",
   "status": "proved",
   "theorems": [
    "C77_synced_prefix",
    "C77_later_calls",
    "C77_blocks_found"
   ],
   "note": "Proved for file systems on which syncing a file keeps its name (otherwise the file may be gone, C54_posix_partial), as long as nobody creates the file again. Blocks are found if a flush came before the sync; without one, see C63_exact."
  },
  {
   "property": "C78",
   "status": "partial",
   "theorems": [
    "C78_binary",
    "C78_segment",
    "C78_fixed_width_partial",
    "C78_zero_block_size_refuted"
   ],
   "note": "Proved for the binary encoder with any block size (C78_binary) and for segments (C78_segment). REFUTED for the fixed-width encoder with block size 0: it writes empty blocks for ever, all with row identifier 4294967295, or panics in a build with overflow checks (C78_zero_block_size_refuted); with any other block size it comes to an end (C78_fixed_width_partial). Buffers are assumed to hold fewer than 2^60 rows."
  },
  {
   "property": "C79",
   "status": "partial",
   "theorems": [
    "C79_binary_partial",
    "C79_binary_after_error_refuted",
    "C79_fixed_width_partial",
    "C79_fixed_width_unchecked_refuted"
   ],
   "note": "Proved for binary columns as long as no write fails (C79_binary_partial) and for fixed-width columns with overflow checks or a block size that is a multiple of the value size (C79_fixed_width_partial). REFUTED otherwise without overflow checks: after a failed write a binary block can have any size (C79_binary_after_error_refuted), and a fixed-width block any number of values (C79_fixed_width_unchecked_refuted, for every number)."
  },
  {
   "property": "C80",
   "status": "partial",
   "theorems": [
    "C80_end_of_file_partial",
    "C80_segment_partial",
    "C80_two_segments_partial",
    "C80_two_writers_exact",
    "C80_last_writer_partial",
    "C80_same_segment_refuted"
   ],
   "note": "Proved as long as each file is written through one open file (C80_end_of_file_partial), hence for a segment alone, for one that replaces an older one, and for two segments with different identifiers in any order of effects; this justifies that Io.v describes writes as appends. REFUTED for two writers of the same segment: both are told that all went well and the index file cannot be read (C80_same_segment_refuted). C80_two_writers_exact: what a file contains that two writers have open."
  },
  {
   "property": "C81",
   "status": "partial",
   "theorems": [
    "C81_trailing_nulls_binary_partial",
    "C81_trailing_nulls_fixed_partial",
    "C81_small_buffers_partial",
    "C81_division_partial",
    "C81_one_byte_partial",
    "C81_fixed_refuted",
    "C81_binary_refuted",
    "C81_files_partial"
   ],
   "note": "REFUTED (C81_fixed_refuted without nulls, C81_binary_refuted with a null). In no column do nulls at the end of a buffer leave a trace (C81_trailing_nulls_binary_partial, C81_trailing_nulls_fixed_partial), so the two files of a segment are the same with and without them (C81_files_partial). Partial: the division plays no role for binary columns without nulls whose buffers have no more data than a block (C81_small_buffers_partial says how they are cut, C81_division_partial), and for values of one byte without nulls (C81_one_byte_partial). What happens in general is in C29_every_column_exact and C34_column_exact."
  },
  {
   "property": "C82",
   "status": "partial",
   "theorems": [
    "C82_binary_partial",
    "C82_binary_call_partial",
    "C82_binary_pending_partial",
    "C82_binary_refuted",
    "C82_segment_partial",
    "C82_fixed_call_exact",
    "C82_fixed_column_exact",
    "C82_fixed_refuted"
   ],
   "note": "For raw binary columns and segments the call never succeeds (it panics, or a write fails first), and it panics at once if rows are pending; but blocks of the wrong layout may be written before the panic (C82_binary_refuted). A fixed-width column with nothing pending accepts every buffer whose values fill whole blocks, exactly these, and then writes what a column of the other nullability writes (C82_fixed_refuted with the exact C82_fixed_call_exact, C82_fixed_column_exact)."
  },
  {
   "property": "C83",
   "status": "partial",
   "theorems": [
    "C83_bitmap_partial",
    "C83_bitmap_refuted",
    "C83_bitmap_count",
    "C83_block",
    "C83_column",
    "C83_prefix_free",
    "C83_scan"
   ],
   "note": "REFUTED for bitmaps alone: cut between two frames the rest is not missed (C83_bitmap_refuted). Exact otherwise (C83_bitmap_partial): a cut anywhere else panics, and a cut between frames gives the positions among the first 8*j bits, fewer than there are. If the last bit is set, as in every block, the number of positions tells (C83_bitmap_count). Hence blocks of raw fixed-width columns cut anywhere are never read as blocks (C83_block for one block, C83_column for every block of every column) and none is a first part of another (C83_prefix_free), so that the blocks of a column written one after the other can be told apart again without the index (C83_scan). The repository has no reader of blocks; the one used is ReadBlock.v, which compares the number of positions with the number of values."
  },
  {
   "property": "C84",
   "status": "proved",
   "theorems": [
    "C84_bitmap_rnd_test",
    "C84_primitive_buffers",
    "C84_binary_buffers",
    "C84_boolean_buffers",
    "C84_varint_any",
    "C84_roundtrip_any",
    "C84_io_roundtrip",
    "C84_test_indexing_pipeline_scaffold"
   ],
   "note": "Each of the twenty tests is transcribed assertion by assertion in PropsTests.v; this also checks the model against the authors' expectations. Proved for every input of its kind in both builds: the bitmap test (C84_bitmap_rnd_test), the buffer tests with any rows before and after clearing (C84_primitive_buffers, C84_binary_buffers up to 2^32-1 bytes, C84_boolean_buffers), the integer check for every u64 (C84_varint_any), the round trip of every bit sequence of at most 2^32-8 bits (C84_roundtrip_any), writing and batch reading of every list of blocks under every schedule in which no read fails, with a schedule that reaches the end (C84_io_roundtrip), and the segment test for every identifier, directory and iteration order (C84_test_indexing_pipeline_scaffold). The tests with their own fixed inputs are the examples C84_*, by computation. The operating system is assumed to do what it is asked to (all_succeed). Temporary directories, random generators and the asynchronous runtime are not modelled."
  },
  {
   "property": "C85",
   "status": "partial",
   "theorems": [
    "C85_one_column_refuted",
    "C85_counts_partial",
    "C85_after_crash_partial",
    "C85_row_ids_partial"
   ],
   "note": "REFUTED with and without nulls (C85_one_column_refuted): a block does not say how many items it has, and the packed lengths of many items can be the packed lengths of few items followed by another block; two columns with 214 and 217 bytes of data leave the same two files. Partial: nothing but the number of items of each block is missing. Given these, the data file of every segment with any number of raw columns is taken apart into the blocks of its columns (C85_counts_partial), also after a crash once it was synced (C85_after_crash_partial, on file systems where syncing a file keeps its name). Columns of fewer than 2^32-7 rows, buffers with data below 2^32-128 bytes. The reader used is block_end in PropsApart.v; the repository has none. For fixed-width columns no counts are needed (C83_scan), but segments have none. For columns without nulls the row identifiers, which the in-memory block index has, tell the counts: with them the data file is taken apart (C85_row_ids_partial)."
  },
  {
   "property": "C86",
   "status": "partial",
   "theorems": [
    "C86_amplified_refuted",
    "C86_bound_partial",
    "C86_small_buffers_partial",
    "C86_data_file_partial",
    "C86_fixed_width_partial",
    "C86_factor_refuted"
   ],
   "note": "REFUTED (C86_amplified_refuted, block size of segments): after the first block of a buffer the end of a block is counted from the wrong place, and data is written again and again; 512 bytes in 255 items come to 99 blocks with 12671 bytes of data. Partial, for every column within the limits of C34: the blocks have at least the data of the column and at most 45 times as much, there are no more blocks than values, and all blocks together have at most 45 bytes for a byte of data, 20 for a value and one for a row (C86_bound_partial); so the data file of any number of raw columns has a length linear in its contents (C86_data_file_partial). If no buffer has more data than a block, nothing is written twice (C86_small_buffers_partial). Fixed-width columns never write more values than they were given (C86_fixed_width_partial; block size a multiple of the value size). The factor cannot be improved by much: 30 is not enough with the block size of segments (C86_factor_refuted)."
  },
  {
   "property": "C87",
   "status": "partial",
   "theorems": [
    "C87_caught_partial",
    "C87_data_partial",
    "C87_index_partial",
    "C87_one_name_partial",
    "C87_same_order_partial",
    "C87_order_exact",
    "C87_same_bytes_refuted"
   ],
   "note": "REFUTED (C87_same_bytes_refuted): the metadata has two hash maps, written in the order in which they happen to be visited; with two columns the index files differ. Partial: the data file is the same in all cases, even for another segment id (C87_data_partial); the index files have the same length and the same footer and are read as the same metadata (C87_index_partial); those of a segment closed once have the same bytes exactly if both maps list the columns in the same order (C87_order_exact); with no more than one column name (C87_one_name_partial) or the same order of visiting (C87_same_order_partial) all bytes are the same. C87_caught_partial: when calls panic and the caller goes on, and no call reports an error, every call ends as it did the first time, the data files are the same, and the index files have the same length and are read as the same metadata."
  },
  {
   "property": "C88",
   "status": "proved",
   "theorems": [
    "C88_caught",
    "C88_order",
    "C88_either_works"
   ],
   "note": "Proved: C88_order (lengths, metadata, and the blocks of each column, found where the columns written before it end) and C88_either_works (if the calls succeed in one order they can succeed in any). Different names are needed: Example C88_same_name. C88_caught: the same when calls panic and the caller goes on and no call reports an error; the calls for a column then end in the same way in every order."
  },
  {
   "property": "C89",
   "status": "proved",
   "theorems": [
    "C89_bitmap",
    "C89_fixed_width",
    "C89_binary"
   ],
   "note": "Proved: C89_bitmap (the loop over validity bits), C89_fixed_width and C89_binary. Without validity the reported position is the number of items of the piece, which is why the position is described by cases; nothing uses it then."
  },
  {
   "property": "C90",
   "status": "proved",
   "theorems": [
    "C90_bitmap_memory",
    "C90_with_capacity"
   ],
   "note": "Proved: C90_bitmap_memory and C90_with_capacity. With fewer than eight bits of capacity appending panics (C09_with_capacity_refuted). Counted are the bytes in use by the vector, not the capacity its allocator reserves (Vec::resize does not give memory back)."
  },
  {
   "property": "C91",
   "status": "partial",
   "theorems": [
    "C91_values_held_partial",
    "C91_data_held_partial",
    "C91_binary_errors_refuted",
    "C91_fixed_width_partial",
    "C91_binary_partial",
    "C91_binary_refuted",
    "C91_after_errors_refuted"
   ],
   "note": "REFUTED for binary columns (C91_binary_refuted): the offsets of empty items are kept without limit, for every block size, sink and build, as empty items never fill a block. Also refuted for fixed-width columns if calls go on after a failed write in a release build (C91_after_errors_refuted). Partial: an explicit bound for fixed-width columns as long as no write fails (C91_fixed_width_partial) and for binary columns without empty items (C91_binary_partial). After failed writes and panics, within the limits of C104 and C106: with overflow checks, or a block size that is a multiple of the width, never more values are held back than make up a block (C91_values_held_partial), and with overflow checks a binary column never holds back more data than a block and the largest buffer have (C91_data_held_partial); these two count values and data only. Without overflow checks binary columns keep all data once writes fail, for every block size (C91_binary_errors_refuted). Counted are the bytes in use, not spare capacity of vectors; the vector of item lengths is not in the model."
  },
  {
   "property": "C92",
   "status": "partial",
   "theorems": [
    "C92_same_names_exact",
    "C92_kept_apart_partial",
    "C92_replaced",
    "C92_kept_apart_refuted"
   ],
   "note": "REFUTED: the base64 names of different identifiers can differ only in the case of letters; creating the second segment then truncates the files of the first although all calls succeed (C92_kept_apart_refuted). C92_same_names_exact says, by the bits of the identifiers, exactly which share their names; C92_replaced that then only the files of the second remain. Partial: all other pairs are kept apart, however their effects are mixed (C92_kept_apart_partial). The file system is modelled as a plain directory of lower case names."
  },
  {
   "property": "C93",
   "status": "partial",
   "theorems": [
    "C93_fixed_exact",
    "C93_binary_exact",
    "C93_not_nullable_partial",
    "C93_over_nulls_partial",
    "C93_segment",
    "C93_values_partial",
    "C93_refuted"
   ],
   "note": "REFUTED for nullable buffers: a null below row 8192 is written as a value where an earlier filling had one, and the values after it move to the front (C93_refuted). Exact: what is written, for every sink, is what new buffers with the shown rows write (C93_fixed_exact, with the same panics; C93_binary_exact; C93_segment for the files and reports of a segment). Partial: buffers that are not nullable are as good as new (C93_not_nullable_partial), so are nullable ones if no null before the last value stands where an earlier filling had a value (C93_over_nulls_partial), and the values themselves are kept in order if no buffer has more data than a block (C93_values_partial). For binary columns at most 2^32 - 1 bytes of data and fewer than 2^63 - 1 rows per filling."
  },
  {
   "property": "C94",
   "status": "partial",
   "theorems": [
    "C94_binary_partial",
    "C94_file_partial",
    "C94_fixed_partial",
    "C94_one_byte_partial",
    "C94_binary_ascending",
    "C94_fixed_ascending",
    "C94_search",
    "C94_nullable_refuted",
    "C94_binary_nullable_refuted"
   ],
   "note": "REFUTED for nullable columns: blocks after the first of a buffer are counted from the start of the buffer, so a row is looked for in a wrong block or another value is found in its place (C94_nullable_refuted, C94_binary_nullable_refuted). Partial: in every binary column without nulls each row is in the block and at the position found, and no other number is found; the bytes are read from the block, or from the data file of a closed segment, if the lengths of the items of that block can be read back, which C24 decides (C94_binary_partial, C94_file_partial). In fixed-width columns without nulls, or with right identifiers (C30), the rows that were written are found in order, so all rows are found exactly if none was lost, which C29 decides (C94_fixed_partial); values of one byte are always found (C94_one_byte_partial). In all columns the identifiers ascend, so the block can be found by bisection (C94_binary_ascending, C94_fixed_ascending, C94_search). The repository has no code that looks up a row: find_row, binary_row, fixed_row and file_row are the specification."
  },
  {
   "property": "C95",
   "status": "partial",
   "theorems": [
    "C95_binary_exact",
    "C95_nothing_held_partial",
    "C95_repeated_refuted",
    "C95_fixed_exact"
   ],
   "note": "REFUTED: flush writes the rows held back and keeps holding them, so they are written again with the next block (C95_repeated_refuted). Exact for every column: a close in between adds one block at most, and everything written later is the same as without it except that all row identifiers are higher by the rows of that block; if the row count then passes 2^32-1 there is a panic (C95_binary_exact, C95_fixed_exact). A close that finds nothing held back makes no difference (C95_nothing_held_partial)."
  },
  {
   "property": "C96",
   "status": "proved",
   "theorems": [
    "C96_large_values"
   ],
   "note": "Proved from buffer to reader (C96_large_values). The reader needs the block index of the column, which is only in memory (C45, C48), and the place where the columns before it end; syncing a file is assumed to keep its name (C54_posix_partial is about file systems where it does not), and other programs to leave the two files alone. One value for each buffer is needed: a second large value in a buffer makes the encoder panic (C35_second_block_panics_refuted). Smaller values share blocks, whose item lengths may be cut short (C24)."
  },
  {
   "property": "C97",
   "status": "proved",
   "theorems": [
    "C97_fixed",
    "C97_binary",
    "C97_few_rows"
   ],
   "note": "Proved for fixed-width (C97_fixed) and binary columns (C97_binary), and for fewer than 65536 rows both columns panic or neither (C97_few_rows). The row identifiers are not part of it: with nulls a block is counted for its end position in its buffer (C30, C37), even if there are none (see C97_witness). The validity is that of the rows as they are shown (C29, C34)."
  },
  {
   "property": "C98",
   "status": "proved",
   "theorems": [
    "C98_caught",
    "C98_caught_synced",
    "C98_not_caught",
    "C98_each_as_if_alone",
    "C98_running",
    "C98_synced",
    "C98_witness"
   ],
   "note": "Proved for both crash models (C98_each_as_if_alone, an equivalence), without a crash (C98_running), and for a synced segment (C98_synced; that a sync keeps the name is an assumption, see C54). Identifiers have to differ: C67_same_id_witness and C80_same_segment_refuted. C98_caught and C98_caught_synced: also when calls panic and the panics are caught."
  },
  {
   "property": "C99",
   "status": "partial",
   "theorems": [
    "C99_exact_partial",
    "C99_in_file",
    "C99_refuted"
   ],
   "note": "REFUTED: the buffer for the range is allocated before the file is looked at, and an allocation that fails aborts the process; for every amount of memory and every file there is such a range, in both builds. C99_exact_partial says exactly which ranges abort, C99_in_file that ranges inside the file never do. What is missing is a comparison with the length of the file, which the reader knows."
  },
  {
   "property": "C100",
   "status": "partial",
   "theorems": [
    "C100_exact_partial",
    "C100_too_far_partial",
    "C100_refuted",
    "C100_close_not_dropped"
   ],
   "note": "REFUTED: write_block counts the whole block before the first of its bytes is written, so all later entries of the index are too far, beyond the end of the file even, and the part of a cut block that arrived stays in the data file. C100_exact_partial: which blocks are handed over, how much of each arrives, the index, both files and the metadata, for any number of columns and dropped calls. C100_too_far_partial: every block of the index is in the file, further to the front by exactly the bytes that were lost before it. Calls that are not dropped do what they do otherwise (C100_close_not_dropped, C74_column_not_dropped). Rows may be repeated, too: see C55."
  },
  {
   "property": "C101",
   "status": "partial",
   "theorems": [
    "C101_primitive_partial",
    "C101_binary_partial",
    "C101_bool_partial",
    "C101_keeps_primitive_partial",
    "C101_keeps_binary_partial",
    "C101_refuted"
   ],
   "note": "REFUTED for append_from: it appends the values before it finds out that only one of the buffers has nulls, so rows stay that belong to no call, and values accepted later are read as others. C101_primitive_partial, C101_binary_partial, C101_bool_partial: with append and append_null only, after any calls with panics caught the buffer shows exactly the rows of the calls that returned, and which those are; once a binary buffer has been offered more than 2^32-1 bytes, every append panics. C101_keeps_primitive_partial, C101_keeps_binary_partial: no call but clear ever takes away or changes what a buffer shows, panics or not, and append_from out of range changes nothing."
  },
  {
   "property": "C102",
   "status": "partial",
   "theorems": [
    "C102_stuck_partial",
    "C102_values_partial",
    "C102_again_partial",
    "C102_other_kind_partial",
    "C102_refuted"
   ],
   "note": "REFUTED: \"a\" and then 128 empty items are accepted, after which nothing is ever written and no flush returns; and a call that panics may have written its first blocks. C102_stuck_partial: with more than 128 items held back an encoder never hands over anything again. C102_again_partial: a flush that panics hands over nothing, keeps everything and panics the same way every time. C102_values_partial: inside the encoder nothing is lost, changed, doubled or reordered: the blocks, numbered as if there had been no panics, and what is held back are, in order, the values of the calls that returned and a first part of those of every call that panicked. C102_other_kind_partial: given a buffer with nulls, an encoder without panics but keeps the values, and the next flush writes them."
  },
  {
   "property": "C103",
   "status": "proved",
   "theorems": [
    "C103_contained",
    "C103_no_panic",
    "C103_not_caught",
    "C103_any_timing"
   ],
   "note": "C103_contained. C103_no_panic: a column without a panic has the blocks the other claims about columns are about. C103_not_caught: without panics this is a run as in the other claims. C103_any_timing: also with background writes at any moment, once the segment was closed and synced. What a column with a panic has written is C102."
  },
  {
   "property": "C104",
   "status": "partial",
   "theorems": [
    "C104_exact",
    "C104_values",
    "C104_stuck_partial",
    "C104_other_kind_partial",
    "C104_refuted",
    "C104_refused"
   ],
   "note": "REFUTED (C104_refuted): a column that panicked once may panic for ever, and a call that panics may have handed over blocks. C104_exact says for every history and sink what is given to the sink, how every call ends and what is held back; it contains C29, C30, C31 and C32 and failed writes. C104_values: values of blocks and held back values are in order first parts of the values of the calls, and the next flush writes what is held back unless its rows cannot be counted. C104_stuck_partial: with overflow checks, more than a block held back stops every encode for ever. C104_refused: the same as C104_values for a sink that refuses blocks as planned, where every accepted block is numbered by rows of its own. C104_other_kind_partial: a buffer with nulls given to a column without them, whose values alone would only be held back: the call panics and the values are held back all the same."
  },
  {
   "property": "C105",
   "status": "partial",
   "theorems": [
    "C105_short_fixed_partial",
    "C105_held_fixed_partial",
    "C105_short_binary_partial",
    "C105_held_binary_partial",
    "C105_new_fixed_partial",
    "C105_new_binary_partial",
    "C105_refuted",
    "C105_long_fixed_partial",
    "C105_long_binary_partial",
    "C105_pending_fixed_partial",
    "C105_pending_binary_partial"
   ],
   "note": "REFUTED (C105_refuted). C105_held_fixed_partial and C105_held_binary_partial: the call panics after the values have been taken over, without marks in the bitmap. C105_short_fixed_partial and C105_short_binary_partial: once an encoder holds back more values than its bitmap has set bits (those left behind by clear included), nothing is handed over any more and no flush returns, whatever is called. C105_new_fixed_partial and C105_new_binary_partial: from the first call on, for a new encoder. C105_long_fixed_partial and C105_long_binary_partial: exactly what such a call does with a buffer of any length when nothing is held back: what an encoder without nulls does, then a panic if something is left to hold back (strings: always). C105_pending_fixed_partial and C105_pending_binary_partial: if something is held back, nothing is handed over and the call does not return."
  },
  {
   "property": "C106",
   "status": "proved",
   "theorems": [
    "C106_exact",
    "C106_same",
    "C106_values"
   ],
   "note": "C106_exact is the description (with the defects of the code: rows after the first block of a buffer, stale validity bits, rows of refused blocks stay counted); C106_same: buffers with the same rows do the same. C106_values: with a sink that refuses any blocks, accepted values and values held back are in order a first part of every call, of a call that returns without an error all of them, and a flush adds at most one block with exactly what is held back. Extends C55_binary_history_exact, which ends at the first panic, and C102_values_partial, whose sink never refuses."
  },
  {
   "property": "C107",
   "status": "proved",
   "theorems": [
    "C107_contents",
    "C107_complete",
    "C107_read"
   ],
   "note": "C107_contents is the statement in terms of rows given and bytes in the two files; C107_complete is the case without panics. C107_read (up to 2^32-8 rows per column) takes the data file apart into exactly these blocks, given the number of items in each, and reads each of them back, except those whose data goes on (C38) or whose lengths cannot be read (C24). Where nulls end up is as in C34 and C36; between the rows given and those of the blocks, values only are compared. Builds on C85, C103 and C106."
  },
  {
   "property": "C108",
   "status": "proved",
   "theorems": [
    "C108_survives",
    "C108_read",
    "C108_any_timing"
   ],
   "note": "C108_survives is for all columns and calls; C108_read for raw string columns within the limits of C107_read, and C108_any_timing the same with background writes at any moment. That a synced file keeps its name is part of the statement: C54_survives_posix_refuted shows that without it both files may be gone, with or without panics."
  },
  {
   "property": "C109",
   "status": "proved",
   "theorems": [
    "C109_never_other",
    "C109_never_other_yet",
    "C109_all_but_last",
    "C109_any_timing",
    "C109_never_other_growing",
    "C109_batch"
   ],
   "note": "C109_never_other is for all moments and for data files below 2^63 bytes, where no data file existed before; C109_never_other_yet also lets the reader see a part of the write that may still be in progress at the end, and in C109_never_other_growing each system call that reads may find the file at another moment (read_changing_at is read_exact_at if the file does not change: changing_constant); C109_batch is for batches of reads of any of the blocks, in any schedule, the file being found at another moment at every event; C109_any_timing is for background writes performed at any moment, with panics caught, in a segment whose close and sync report no error; C109_all_but_last is for reads that do not fail. Without the hypothesis on errors the claim fails, as the block index then has wrong ranges: see C73_refuted."
  }
 ]
}
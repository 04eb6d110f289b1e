{"id": "C01", "title": "Varint round trip inside a longer stream", "statement": "For every 64-bit unsigned value, writing it as a varint into a buffer of at least ten bytes, or appending it to a byte vector, and then decoding from that position returns exactly the value and exactly the number of bytes that were written, whatever bytes follow; the bytes before the varint and, in a slice, the bytes after it are untouched.", "quantifier": "every u64 value, every preceding and following byte string", "why_tests_cant": "2^64 values times unboundedly many contexts; the tests check eighteen boundary values with no suffix.", "anchors": ["src/store/encoding/varint.rs::encode_varint", "src/store/encoding/varint.rs::decode_varint", "src/store/encoding/varint.rs::Encoder::put_varint"]}
{"id": "C02", "title": "Varint length is computed exactly and always fits", "statement": "For every 64-bit unsigned value the advertised encoded length equals the number of bytes the encoder writes, it is between 1 and 10, it is monotone in the value, and encoding into a slice of exactly that many bytes (hence into the ten byte scratch buffer) never indexes out of bounds, while any shorter slice panics.", "quantifier": "every u64 value and every slice length", "why_tests_cant": "The closed formula (9*log2+73)/64 is only sampled at powers of 128 by the tests.", "anchors": ["src/store/encoding/varint.rs::encoded_len_varint", "src/store/encoding/varint.rs::encode_varint", "src/store/encoding/varint.rs::MAX_VARINT_LEN"]}
{"id": "C03", "title": "Varint encodings are minimal, injective and prefix free", "statement": "No proper prefix of an encoding is an encoding, two values with the same encoding are equal, and no byte string that decodes to a value consumes fewer bytes than the encoding of that value.", "quantifier": "every pair of u64 values, every byte string", "why_tests_cant": "A statement about all pairs of values and all competing byte strings.", "anchors": ["src/store/encoding/varint.rs::encode_varint", "src/store/encoding/varint.rs::decode_varint"]}
{"id": "C04", "title": "Meaning of decoding an arbitrary byte string", "statement": "Decoding any byte string is determined as follows: if one of the first ten bytes has its top bit clear the result is the little-endian base-128 value of the bytes up to and including the first such byte, reduced modulo 2^64, with that byte count; if there are at least ten bytes and the first ten all have the top bit set the result is an error.", "quantifier": "every byte string, both overflow-check profiles", "why_tests_cant": "Corrupt input space is unbounded; tests never decode anything the encoder did not produce.", "anchors": ["src/store/encoding/varint.rs::decode_varint"]}
{"id": "C05", "title": "Decoding a varint never panics", "statement": "Decoding a varint from any byte string reports success or an error and never aborts the caller.", "quantifier": "every byte string", "why_tests_cant": "Needs all truncated inputs, none of which is tested.", "anchors": ["src/store/encoding/varint.rs::decode_varint"]}
{"id": "C06", "title": "Rounding helpers are exact", "statement": "Rounding a number up to a power-of-two factor returns the least multiple of the factor that is at least the number whenever the answer fits in 64 bits, and the bits-to-bytes helper returns the ceiling of the quotient by eight.", "quantifier": "every 64-bit number and every power-of-two factor", "why_tests_cant": "Mask arithmetic over all 2^64 numbers.", "anchors": ["src/store/encoding/util.rs::round_upto_power_of_2", "src/store/encoding/util.rs::ceil8"]}
{"id": "C07", "title": "A bitmap is a growable sequence of booleans", "statement": "After any sequence of appends to a new bitmap, its length is the number of appends, reading position i returns the i-th appended boolean for every i below the length, and reading at or past the length panics; growth never loses or corrupts earlier bits.", "quantifier": "every finite sequence of appended booleans, every index", "why_tests_cant": "Unbounded append histories, across every capacity doubling.", "anchors": ["src/store/indexing_buffer.rs::Bitmap::new", "src/store/indexing_buffer.rs::Bitmap::append", "src/store/indexing_buffer.rs::Bitmap::is_set", "src/store/indexing_buffer.rs::Bitmap::len"]}
{"id": "C08", "title": "A cleared bitmap is as good as new", "statement": "After clear, any further sequence of appends and reads on the bitmap gives the same results as on a freshly created one, whatever was stored before.", "quantifier": "every history before the clear and every history after it", "why_tests_cant": "Depends on the contents of two unbounded histories.", "anchors": ["src/store/indexing_buffer.rs::Bitmap::clear", "src/store/indexing_buffer.rs::Bitmap::append", "src/store/indexing_buffer.rs::Bitmap::is_set"]}
{"id": "C09", "title": "A bitmap created with a capacity works like any other", "statement": "A bitmap created with any requested capacity behaves as a growable sequence of booleans.", "quantifier": "every capacity, every sequence of appends", "why_tests_cant": "All capacities and histories; no test uses the constructor.", "anchors": ["src/store/indexing_buffer.rs::Bitmap::with_capacity", "src/store/indexing_buffer.rs::Bitmap::append"]}
{"id": "C10", "title": "Copying bits up to the n-th set bit", "statement": "Appending from a source bitmap starting at a position and asking for n set bits appends exactly the shortest run of source bits from that position that contains n set bits, returns the position just past it, leaves the earlier destination bits unchanged, and panics exactly when the source holds fewer than n set bits from that position.", "quantifier": "every source and destination bitmap, every start position and count", "why_tests_cant": "Every interleaving of set and unset bits.", "anchors": ["src/store/indexing_buffer.rs::Bitmap::append_from"]}
{"id": "C11", "title": "A fixed-width column buffer stores the appended rows", "statement": "After any sequence of value and null appends to a new buffer of fixed-width values, the stored values are the non-null ones in order, the row count, the non-null count, the has-nulls answer and the validity bitmap all describe exactly the appended rows; a null append panics exactly when the buffer is not nullable.", "quantifier": "every sequence of appends on a nullable or non-nullable buffer", "why_tests_cant": "Unbounded histories.", "anchors": ["src/store/indexing_buffer.rs::PrimitiveBuffer::append", "src/store/indexing_buffer.rs::PrimitiveBuffer::append_null", "src/store/indexing_buffer.rs::PrimitiveBuffer::values", "src/store/indexing_buffer.rs::PrimitiveBuffer::num_values", "src/store/indexing_buffer.rs::PrimitiveBuffer::has_nulls"]}
{"id": "C12", "title": "A variable-length column buffer stores the appended rows", "statement": "After any sequence of byte-string and null appends to a new binary buffer, the i-th non-null row is the data slice between offsets i and i+1, the offsets start at 0, are non-decreasing and end at the data length, the counts and validity describe exactly the appended rows, and an append panics exactly when the total data would exceed 2^32-1 bytes.", "quantifier": "every sequence of appends of byte strings of every length", "why_tests_cant": "Unbounded histories, including the 4 GiB boundary.", "anchors": ["src/store/indexing_buffer.rs::BinaryBuffer::append", "src/store/indexing_buffer.rs::BinaryBuffer::append_null", "src/store/indexing_buffer.rs::BinaryBuffer::offsets", "src/store/indexing_buffer.rs::BinaryBuffer::item_len", "src/store/indexing_buffer.rs::BinaryBuffer::data"]}
{"id": "C13", "title": "A boolean column buffer stores the appended rows", "statement": "After any sequence of boolean and null appends to a new boolean buffer, the value bitmap holds the non-null values in order, the length counts all rows, the validity bitmap marks the non-null ones and the has-nulls answer is exact.", "quantifier": "every sequence of appends", "why_tests_cant": "Unbounded histories.", "anchors": ["src/store/indexing_buffer.rs::BoolBuffer::append", "src/store/indexing_buffer.rs::BoolBuffer::append_null", "src/store/indexing_buffer.rs::BoolBuffer::has_nulls", "src/store/indexing_buffer.rs::BoolBuffer::len"]}
{"id": "C14", "title": "A cleared column buffer is as good as new", "statement": "After clear, a column buffer of any kind describes exactly the rows appended since the clear, as a new buffer would.", "quantifier": "every buffer kind, every history before and after the clear", "why_tests_cant": "Two unbounded histories; the tests only append non-null (true) values after a clear.", "anchors": ["src/store/indexing_buffer.rs::PrimitiveBuffer::clear", "src/store/indexing_buffer.rs::BinaryBuffer::clear", "src/store/indexing_buffer.rs::BoolBuffer::clear", "src/store/indexing_buffer.rs::Bitmap::clear"]}
{"id": "C15", "title": "Bulk copy between column buffers moves the right rows", "statement": "Copying non-null items start..end of a source buffer into a destination of the same nullability, with the validity position of item start, appends to the destination exactly the source rows from that position through the (end-start)-th non-null row, including the nulls before and between them, and returns the next position; mismatched nullability panics, and so does a copy that would leave 2^32-1 or more values or bytes.", "quantifier": "every source and destination buffer, every item range", "why_tests_cant": "All row patterns on both sides.", "anchors": ["src/store/indexing_buffer.rs::PrimitiveBuffer::append_from", "src/store/indexing_buffer.rs::BinaryBuffer::append_from"]}
{"id": "C16", "title": "Bitmap run-length coding round trip", "statement": "Putting any sequence of bits (fewer than 2^32-8) into a fresh encoder, flushing and decoding the result into a buffer with room for the set bits yields exactly the increasing list of positions of the set bits and their count.", "quantifier": "every bit sequence", "why_tests_cant": "Every run/literal pattern and length; the tests use four.", "anchors": ["src/store/encoding/bitmap_rle.rs::Encoder::put", "src/store/encoding/bitmap_rle.rs::Encoder::flush", "src/store/encoding/bitmap_rle.rs::Encoder::append", "src/store/encoding/bitmap_rle.rs::Decoder::decode"]}
{"id": "C17", "title": "Run-length output size", "statement": "The encoded form of any bit sequence never exceeds its packed byte length by more than one byte plus one byte per 64 packed bytes, and a sequence whose n packed bytes are all equal (n at least 3) takes one value byte plus one varint.", "quantifier": "every bit sequence", "why_tests_cant": "Worst case over all patterns.", "anchors": ["src/store/encoding/bitmap_rle.rs::Encoder::emit_bitmap_literal", "src/store/encoding/bitmap_rle.rs::Encoder::emit_run"]}
{"id": "C18", "title": "Encoder reuse after clear", "statement": "After clear, a run-length encoder in any state whatsoever produces the same bytes as a new one for every following sequence of bits.", "quantifier": "every encoder state, every following bit sequence", "why_tests_cant": "All prior states.", "anchors": ["src/store/encoding/bitmap_rle.rs::Encoder::clear", "src/store/encoding/bitmap_rle.rs::Encoder::put", "src/store/encoding/bitmap_rle.rs::Encoder::flush"]}
{"id": "C19", "title": "Encoding a validity window", "statement": "Asking the encoder to take bits from a bitmap from a position until n set bits were seen feeds it exactly the shortest such window and returns the position after it; it panics exactly when the bitmap has fewer set bits left.", "quantifier": "every bitmap, position and count", "why_tests_cant": "All bit patterns.", "anchors": ["src/store/encoding/bitmap_rle.rs::Encoder::put_from"]}
{"id": "C20", "title": "Decoding arbitrary run-length data is bounded and ordered", "statement": "For any byte string, decoding terminates, and when it completes the reported positions are strictly increasing, there are as many as reported, and the rest of the destination is unchanged.", "quantifier": "every byte string and destination, with overflow checks on", "why_tests_cant": "All corrupt inputs.", "anchors": ["src/store/encoding/bitmap_rle.rs::Decoder::decode", "src/store/encoding/bitmap_rle.rs::Decoder::read_frame", "src/store/encoding/bitmap_rle.rs::decode"]}
{"id": "C21", "title": "Decoding into a destination that is too small is detected", "statement": "Decoding the encoding of any bit sequence panics exactly when the destination has fewer slots than there are set bits, and never silently truncates.", "quantifier": "every bit sequence and destination size", "why_tests_cant": "All sizes.", "anchors": ["src/store/encoding/bitmap_rle.rs::Decoder::decode_byte", "src/store/encoding/bitmap_rle.rs::Decoder::decode_run"]}
{"id": "C22", "title": "Flushing the run-length encoder twice is harmless", "statement": "Flushing an encoder a second time leaves its output unchanged.", "quantifier": "every bit sequence", "why_tests_cant": "All states.", "anchors": ["src/store/encoding/bitmap_rle.rs::Encoder::flush"]}
{"id": "C23", "title": "A full block of item lengths can be read back", "statement": "Encoding exactly 128 item lengths appends one width byte followed by 16 bytes per bit of width, leaves the earlier output untouched, and unpacking with the same bit packer returns the 128 lengths.", "quantifier": "every list of 128 u32 values and every prior output", "why_tests_cant": "2^4096 lists.", "anchors": ["src/store/encoding/offsets.rs::OffsetEncoder::encode"]}
{"id": "C24", "title": "A partial block of item lengths can be read back", "statement": "Encoding between 1 and 128 item lengths produces bytes from which the lengths can be recovered.", "quantifier": "every list of 1 to 128 u32 values", "why_tests_cant": "Trimming interacts with the packer's layout for every count and width.", "anchors": ["src/store/encoding/offsets.rs::OffsetEncoder::encode"]}
{"id": "C25", "title": "Any number of item lengths can be encoded", "statement": "Encoding item lengths succeeds for every number of items a block can contain.", "quantifier": "every list of u32 values", "why_tests_cant": "No test has more than three items in a block.", "anchors": ["src/store/encoding/offsets.rs::OffsetEncoder::encode"]}
{"id": "C26", "title": "Size and width of encoded item lengths", "statement": "When encoding succeeds, the output is the old output, then the minimal bit width of the lengths, then exactly ceil(width*count/8) bytes.", "quantifier": "every list of item lengths", "why_tests_cant": "All counts and widths.", "anchors": ["src/store/encoding/offsets.rs::OffsetEncoder::encode", "src/store/encoding/util.rs::ceil8"]}
{"id": "C27", "title": "Fixed-width blocks decode to the rows they were built from", "statement": "Every block written for fixed-width values decodes, with the repository's own varint and run-length decoders, to exactly the rows it covers: the nulls and values in order up to the last non-null row of the block.", "quantifier": "every window of every buffer of values of every width, nullable or not", "why_tests_cant": "All values and null patterns.", "anchors": ["src/store/encoding/raw/primitive_enc.rs::encode_primitive_buffer", "src/store/encoding/raw/primitive_enc.rs::to_byte_slice"]}
{"id": "C28", "title": "Fixed-width block sizes respect the configured minimum", "statement": "With a positive minimum block size, every block a non-nullable or nullable fixed-width column emits while encoding straight from a buffer carries at least the minimum and less than the minimum plus one value of data; only the block written by flush may be smaller.", "quantifier": "every buffer, block size and value width", "why_tests_cant": "All sizes.", "anchors": ["src/store/encoding/raw/primitive_enc.rs::chunk", "src/store/encoding/raw/primitive_enc.rs::Encoder::encode"]}
{"id": "C29", "title": "A fixed-width column preserves every row it is given", "statement": "For any sequence of buffers encoded and then flushed, the rows decoded from the emitted blocks, in order, are exactly the rows of the buffers in order.", "quantifier": "every sequence of buffers, block size, width and nullability", "why_tests_cant": "All call sequences; the tests make one encode call.", "anchors": ["src/store/encoding/raw/primitive_enc.rs::Encoder::encode", "src/store/encoding/raw/primitive_enc.rs::Encoder::flush"]}
{"id": "C30", "title": "Row identifiers of fixed-width blocks", "statement": "The row identifier attached to each emitted block is the zero-based index, in the stream of rows written so far, of the block's last row.", "quantifier": "every sequence of buffers", "why_tests_cant": "Cumulative over unbounded histories; tests never look at row identifiers.", "anchors": ["src/store/encoding/raw/primitive_enc.rs::Encoder::add_rows", "src/store/encoding/raw/primitive_enc.rs::Encoder::write_block", "src/store/encoding/raw/primitive_enc.rs::Encoder::write_remaining"]}
{"id": "C31", "title": "Encoding fixed-width buffers never panics", "statement": "Encoding any sequence of buffers of matching nullability with a positive block size never panics while the column stays below 2^32-1 rows.", "quantifier": "every sequence of buffers and positive block size", "why_tests_cant": "Needs specific call sequences.", "anchors": ["src/store/encoding/raw/primitive_enc.rs::Encoder::encode"]}
{"id": "C32", "title": "Flushing a fixed-width column twice", "statement": "Flushing a column a second time without new data writes nothing more.", "quantifier": "every encoder history", "why_tests_cant": "All histories.", "anchors": ["src/store/encoding/raw/primitive_enc.rs::Encoder::flush"]}
{"id": "C33", "title": "The pending data of a binary column stays below the block size", "statement": "Whatever buffers are encoded, the amount of data held back for the next block is below the configured block size between calls, so computing the room left never underflows.", "quantifier": "every sequence of buffers, positive block size", "why_tests_cant": "Invariant over unbounded call sequences.", "anchors": ["src/store/encoding/raw/binary_enc.rs::Encoder::encode"]}
{"id": "C34", "title": "A binary column preserves every row it is given", "statement": "For any sequence of binary buffers encoded and then flushed, the emitted blocks determine exactly the rows of the buffers in order.", "quantifier": "every sequence of buffers, block size and nullability", "why_tests_cant": "All call sequences.", "anchors": ["src/store/encoding/raw/binary_enc.rs::Encoder::encode", "src/store/encoding/raw/binary_enc.rs::chunk", "src/store/encoding/raw/binary_enc.rs::encode_binary_buffer"]}
{"id": "C35", "title": "Encoding binary buffers never panics and always returns", "statement": "Encoding any binary buffer with a positive block size returns successfully when the sink accepts all blocks.", "quantifier": "every buffer and positive block size", "why_tests_cant": "All item-size patterns.", "anchors": ["src/store/encoding/raw/binary_enc.rs::Encoder::encode", "src/store/encoding/raw/binary_enc.rs::chunk"]}
{"id": "C36", "title": "Layout of a binary block", "statement": "The block written for the first chunk of a buffer, or for the pending rows, is the varint of the data length, the concatenated bytes of its items, the encoded item lengths, and for nullable columns the run-length validity window; so the data bytes can always be read back.", "quantifier": "every buffer and block size", "why_tests_cant": "All contents.", "anchors": ["src/store/encoding/raw/binary_enc.rs::encode_binary_buffer", "src/store/encoding/raw/binary_enc.rs::chunk"]}
{"id": "C37", "title": "Row identifiers of binary blocks", "statement": "The row identifier attached to each emitted binary block is the zero-based index of the block's last row in the column.", "quantifier": "every sequence of buffers", "why_tests_cant": "Cumulative over histories.", "anchors": ["src/store/encoding/raw/binary_enc.rs::Encoder::add_rows", "src/store/encoding/raw/binary_enc.rs::Encoder::write_block"]}
{"id": "C38", "title": "Chunking a binary buffer", "statement": "Starting at item s with minimum size m, the chunk ends at the first item boundary whose distance in bytes from item s is at least m, or at the end of the buffer if there is none; its size and item count are those of the items between.", "quantifier": "every buffer, start and minimum size", "why_tests_cant": "All item sizes; tests only start at 0.", "anchors": ["src/store/encoding/raw/binary_enc.rs::chunk"]}
{"id": "C39", "title": "Block writer position and contents", "statement": "After any sequence of successful block writes and a successful flush the file contains the concatenation of the blocks in order and the reported position is its length; before the flush at most one chunk still in flight is missing.", "quantifier": "every sequence of blocks", "why_tests_cant": "Unbounded sequences.", "anchors": ["src/store/io/default_block_writer.rs::Writer::write_block", "src/store/io/default_block_writer.rs::Writer::pos"]}
{"id": "C40", "title": "Blocks are read back by their offsets", "statement": "After any sequence of block writes, reading the range from the position before a write to the position after it returns exactly that block.", "quantifier": "every sequence of blocks and every block in it", "why_tests_cant": "Unbounded sequences of arbitrary lengths.", "anchors": ["src/store/io/default_block_writer.rs::Writer::write_block", "src/store/io/unix_disk_block_reader.rs::Reader::read_block"]}
{"id": "C41", "title": "Reading an arbitrary range", "statement": "Reading any range of any file returns exactly the bytes of the range when it lies in the file, and an error (never fewer bytes, never other bytes) when a non-empty range reaches past the end or the range is reversed.", "quantifier": "every file and every pair of offsets", "why_tests_cant": "All ranges.", "anchors": ["src/store/io/unix_disk_block_reader.rs::Reader::read_block", "src/store/io/mod.rs::asyncify"]}
{"id": "C42", "title": "Batched reads come back in request order", "statement": "A batch read yields exactly one result per request, in request order, each carrying its own request's tag and the outcome of that request alone, for every order in which the individual reads complete; at most two reads are outstanding at any time; and once every outstanding read completes the next poll makes progress.", "quantifier": "every request list and every completion/poll schedule", "why_tests_cant": "All schedules.", "anchors": ["src/store/io/unix_disk_block_reader.rs::Reader::read_blocks", "src/store/io/unix_disk_block_reader.rs::BLOCK_BUFFER_SIZE", "src/store/io/mod.rs::BlockReader::read_blocks"]}
{"id": "C43", "title": "Position after a failed write", "statement": "After any mixture of successful and failed block writes, the reported position equals the number of bytes in the file.", "quantifier": "every sequence of blocks and write outcomes", "why_tests_cant": "All failure points.", "anchors": ["src/store/io/default_block_writer.rs::Writer::write_block"]}
{"id": "C44", "title": "A successful flush means every block reached the file", "statement": "If every block write and the final flush report success, the file holds the concatenation of all blocks, whichever background writes failed or were partial; a failed background write is reported by the next write or by the flush.", "quantifier": "every sequence of blocks and every background write outcome", "why_tests_cant": "All failure points of a deferred-error file.", "anchors": ["src/store/io/default_block_writer.rs::Writer::write_block", "src/store/io/default_block_writer.rs::Writer::flush"]}
{"id": "C45", "title": "Segment data file layout", "statement": "The data file of a segment is its 13-byte signature followed by the blocks of its columns back to back in the order written, and while a column is open the block index holds for every block of that column its end offset in the file, so that consecutive offsets delimit exactly the blocks.", "quantifier": "every sequence of columns, buffers and closes", "why_tests_cant": "Unbounded pipelines.", "anchors": ["src/store/segment_writer.rs::SegmentWriter::write_headers", "src/store/segment_writer.rs::ColumnWriter::write", "src/store/block_sink.rs::BlockSinkImpl::write_block", "src/store/block_index.rs::BlockIndex::index_block"]}
{"id": "C46", "title": "Index file footer locates the metadata", "statement": "After closing a segment, the last eight bytes of the index file, read as a little-endian number, are the offset of the metadata, and the metadata occupies everything from there to the footer; the file starts with its 12-byte signature.", "quantifier": "every segment", "why_tests_cant": "All metadata sizes.", "anchors": ["src/store/segment_writer.rs::SegmentWriter::close"]}
{"id": "C47", "title": "Segment metadata round trip", "statement": "Decoding the metadata stored in the index file yields the segment identity, database, table, shard, row count and, for every closed column, the name, type, nullability, encoding and index type it was created with.", "quantifier": "every segment description, every set of columns and every map iteration order", "why_tests_cant": "All strings, numbers and hash-map orders.", "anchors": ["src/store/segment_writer.rs::SegmentWriter::new", "src/store/segment_writer.rs::ColumnWriter::close", "src/store/segment_metadata.rs::Metadata"]}
{"id": "C48", "title": "Blocks of a closed column can be located from the index file", "statement": "The index file of a closed segment determines where each block of each column starts and ends and which rows it holds.", "quantifier": "every segment", "why_tests_cant": "Compares all pairs of segments.", "anchors": ["src/store/block_index.rs::BlockIndex::flush", "src/store/segment_writer.rs::ColumnWriter::close"]}
{"id": "C49", "title": "Distinct segments use distinct, valid file names", "statement": "The data and index file names derived from segment identifiers are 26 characters from the URL-safe alphabet plus a dot, and two names are equal only for the same identifier and the same kind of file.", "quantifier": "every pair of 16-byte identifiers", "why_tests_cant": "2^256 pairs.", "anchors": ["src/store/segment_writer.rs::SegmentWriter::new"]}
{"id": "C50", "title": "Writing a segment touches no other file", "statement": "Creating and writing a segment changes only its own two files, and creating one whose identifier is already in use truncates exactly those two files.", "quantifier": "every directory contents and every segment", "why_tests_cant": "All directory states.", "anchors": ["src/store/segment_writer.rs::SegmentWriter::new", "src/store/io/default_block_writer.rs::Writer::new"]}
{"id": "C51", "title": "Re-adding a column name", "statement": "If several columns with the same name are written, the metadata describes only the last one closed, and columns with other names are unaffected.", "quantifier": "every sequence of column closes", "why_tests_cant": "All sequences.", "anchors": ["src/store/segment_writer.rs::ColumnWriter::close"]}
{"id": "C52", "title": "Unsupported encodings are rejected without writing", "statement": "Opening a binary column succeeds exactly for the raw and snappy encodings, and a fixed-width column exactly for raw; a rejected column leaves both files and the metadata unchanged.", "quantifier": "every encoding and writer state", "why_tests_cant": "All states.", "anchors": ["src/store/encoding/mod.rs::new_binary_encoder", "src/store/encoding/mod.rs::new_i32_encoder", "src/store/segment_writer.rs::SegmentWriter::new_binary_column_writer"]}
{"id": "C53", "title": "A snappy column preserves its data", "statement": "The data written to a column opened with the snappy encoding can be recovered from the segment.", "quantifier": "every pair of buffers", "why_tests_cant": "Compares all contents.", "anchors": ["src/store/encoding/snappy/snappy_enc.rs::Encoder::encode", "src/store/encoding/snappy/snappy_enc.rs::Encoder::flush"]}
{"id": "C54", "title": "Durability of a synced segment", "statement": "Once sync reports success, the contents of both files survive a crash at any later point; and at every crash point, if the index file survives complete then so does the data it describes.", "quantifier": "every crash point and every subset of unsynced writes that reached the disk", "why_tests_cant": "All crash points.", "anchors": ["src/store/segment_writer.rs::SegmentWriter::close", "src/store/segment_writer.rs::SegmentWriter::sync", "src/store/io/default_block_writer.rs::Writer::sync"]}
{"id": "C55", "title": "A failed block write can be retried", "statement": "If the sink rejects a block, encode reports the error, and encoding the same buffer again once the sink recovers emits the same blocks with the same row identifiers as if nothing had failed.", "quantifier": "every encoder state, buffer and failure point", "why_tests_cant": "All failure points.", "anchors": ["src/store/encoding/raw/primitive_enc.rs::Encoder::write_block", "src/store/encoding/raw/primitive_enc.rs::Encoder::encode", "src/store/encoding/raw/binary_enc.rs::Encoder::encode"]}
{"id": "C56", "title": "Seed list parsing", "statement": "The configured seed list contains exactly the comma-separated entries in order with surrounding white space removed; no entry contains a comma or begins or ends with white space.", "quantifier": "every seeds string", "why_tests_cant": "All strings.", "anchors": ["src/main.rs::main"]}
{"id": "C57", "title": "No seeds configured means no seeds", "statement": "When no seeds option is given, or it is blank, the seed list is empty.", "quantifier": "absent and every blank seeds string", "why_tests_cant": "Not tested at all.", "anchors": ["src/main.rs::main"]}
{"id": "C58", "title": "Segment overflow is detected", "statement": "The number of rows counted for a column never wraps: a column whose counted rows would exceed 2^32-1 panics instead of reporting a wrong row identifier.", "quantifier": "every encoder state and block", "why_tests_cant": "4 billion rows.", "anchors": ["src/store/encoding/raw/primitive_enc.rs::Encoder::add_rows", "src/store/encoding/raw/binary_enc.rs::Encoder::add_rows"]}
{"id": "C59", "title": "Closing a column again changes nothing", "statement": "Closing a column a second time, without writing to it in between, writes no further blocks.", "quantifier": "every column and sequence of writes", "why_tests_cant": "All histories.", "anchors": ["src/store/segment_writer.rs::ColumnWriter::close", "src/store/encoding/raw/binary_enc.rs::Encoder::flush"]}
{"id": "C60", "title": "Closing a segment again leaves it readable", "statement": "If a closed segment is closed once more, its data file is unchanged and the index file still ends in a footer from which the same metadata is read.", "quantifier": "every segment and every iteration order of the maps", "why_tests_cant": "All histories and hash orders.", "anchors": ["src/store/segment_writer.rs::SegmentWriter::close"]}
{"id": "C61", "title": "The metadata tells how many values a column has", "statement": "The column metadata read back from a closed segment has the number of values and nulls written to the column.", "quantifier": "every column", "why_tests_cant": "All columns.", "anchors": ["src/store/segment_writer.rs::ColumnWriter::close"]}
{"id": "C62", "title": "Failing to create a segment leaves an existing one alone", "statement": "If creating a segment reports an error, the files that an earlier segment with the same identifier left are unchanged.", "quantifier": "every directory and every failure point", "why_tests_cant": "All failure points.", "anchors": ["src/store/segment_writer.rs::SegmentWriter::new", "src/store/io/default_block_writer.rs::Writer::new"]}
{"id": "C63", "title": "A successful sync means that everything is written", "statement": "When sync of a writer reports success, every block written before whose write reported success is in the file.", "quantifier": "every sequence of writes and syncs and every behaviour of the operating system", "why_tests_cant": "Needs failing background writes.", "anchors": ["src/store/io/default_block_writer.rs::Writer::sync", "src/store/io/default_block_writer.rs::Writer::write_block"]}
{"id": "C64", "title": "Overflow checks only ever turn a run into a panic", "statement": "A build with overflow checks and one without do exactly the same, unless a check fires: encoders, buffers, integer codes, segments and reads.", "quantifier": "every input of the modelled functions", "why_tests_cant": "Tests run one build.", "anchors": ["src/store/encoding/raw/primitive_enc.rs::Encoder::encode", "src/store/encoding/raw/binary_enc.rs::Encoder::encode", "src/store/segment_writer.rs::SegmentWriter::close", "src/store/io/unix_disk_block_reader.rs::Reader::read_block"]}
{"id": "C65", "title": "Blocks of a closed segment are read back through the offsets of the block index", "statement": "In the data file of a segment whose calls all succeeded, the i-th block of a column is what the block reader returns for the range between consecutive offsets of the column's block index, in single and in batch reads.", "quantifier": "every segment, column, build and schedule of a batch read", "why_tests_cant": "All histories and schedules.", "anchors": ["src/store/segment_writer.rs::ColumnWriter::close", "src/store/io/default_block_writer.rs::Writer::write_block", "src/store/io/unix_disk_block_reader.rs::Reader::read_block", "src/store/io/unix_disk_block_reader.rs::Reader::read_blocks"]}
{"id": "C66", "title": "What was read once can be read again", "statement": "A block once read from a file of an open segment is read the same whatever is written to the segment afterwards, failures included: files of a segment only ever grow.", "quantifier": "every history and every behaviour of the operating system", "why_tests_cant": "All histories and failures.", "anchors": ["src/store/segment_writer.rs::ColumnWriter::write", "src/store/io/default_block_writer.rs::Writer::write_block", "src/store/io/unix_disk_block_reader.rs::Reader::read_block"]}
{"id": "C67", "title": "Segments written at the same time do not disturb each other", "statement": "Two segments with different identifiers written at the same time below the same directory end up with the same files as if each had been written alone.", "quantifier": "every two histories and every interleaving of their effects", "why_tests_cant": "All interleavings.", "anchors": ["src/store/segment_writer.rs::SegmentWriter::new", "src/store/segment_writer.rs::SegmentWriter::close"]}
{"id": "C68", "title": "A cut off or damaged index file is not taken for a good one", "statement": "No proper beginning of the index file of a closed segment is readable as an index, and after a crash before the sync an index file that is readable has the metadata written.", "quantifier": "every segment, every length and every crash", "why_tests_cant": "All cuts of all files.", "anchors": ["src/store/segment_writer.rs::SegmentWriter::close", "src/store/segment_metadata.rs::Metadata"]}
{"id": "C69", "title": "A segment never closed is not taken for a complete one", "statement": "If a segment is created but close is never called, then no crash at any point, not even after sync, leaves an index file that is readable.", "quantifier": "every history, every failure and every crash point", "why_tests_cant": "All crash points.", "anchors": ["src/store/segment_writer.rs::SegmentWriter::new", "src/store/segment_writer.rs::SegmentWriter::close", "src/store/segment_writer.rs::SegmentWriter::sync"]}
{"id": "C70", "title": "A reader of the files finds blocks and metadata", "statement": "A reader reports as length the first position at which reading fails; opened on a closed segment it finds every block at the offsets of the block index, also after more is written, and the metadata by way of the last eight bytes of the index file.", "quantifier": "every segment, every later history and every behaviour of reads", "why_tests_cant": "All histories.", "anchors": ["src/store/io/unix_disk_block_reader.rs::Reader::new", "src/store/io/unix_disk_block_reader.rs::Reader::len", "src/store/io/unix_disk_block_reader.rs::Reader::read_block"]}
{"id": "C71", "title": "A server can be started again", "statement": "A server that was started and stopped can be started again, and so can another server in the same process.", "quantifier": "every sequence of start and stop", "why_tests_cant": "Not tested at all.", "anchors": ["src/server/mod.rs::Meerkat::start", "src/server/mod.rs::Meerkat::stop", "src/server/mod.rs::Meerkat::init_logging"]}
{"id": "C72", "title": "The configuration is what the user gave", "statement": "Each option is taken from the command line, else from the environment, else the default; a port is accepted if and only if it is a decimal number below 65536, which is then the port.", "quantifier": "every command line and environment", "why_tests_cant": "All strings.", "anchors": ["src/main.rs::Args", "src/main.rs::main"]}
{"id": "C73", "title": "The block index is right even after a failed write", "statement": "After a failed write of a block was reported and the segment was closed without an error, every block of the block index is in the data file, and a rejected block is not in the index.", "quantifier": "every history and every failure of the system", "why_tests_cant": "Failing disks.", "anchors": ["src/store/block_sink.rs::BlockSinkImpl::write_block", "src/store/block_index.rs::BlockIndex::index_block", "src/store/io/default_block_writer.rs::Writer::write_block"]}
{"id": "C74", "title": "A close that was dropped can be repeated", "statement": "If a close of a segment is dropped before it is finished, as a timeout does, and a later close reports success, the index file can be read and describes the segment and its closed columns.", "quantifier": "every history and every point at which the call is dropped", "why_tests_cant": "Timing of the background writes.", "anchors": ["src/store/segment_writer.rs::SegmentWriter::close", "src/store/io/default_block_writer.rs::Writer::write_block", "src/store/segment_writer.rs::ColumnWriter::write"]}
{"id": "C75", "title": "Columns that failed leave no trace in the metadata", "statement": "If calls on columns fail, whatever is called afterwards, and every close of the segment reports success, the index file describes exactly the columns whose close reported success, the last of each name.", "quantifier": "every history and every failure of the system", "why_tests_cant": "Failing disks; the number of calls is unbounded.", "anchors": ["src/store/segment_writer.rs::ColumnWriter::close", "src/store/segment_writer.rs::ColumnWriter::write", "src/store/segment_writer.rs::SegmentWriter::close", "src/store/segment_writer.rs::SegmentWriter::new_binary_column_writer"]}
{"id": "C76", "title": "The moment at which background writes happen makes no difference", "statement": "Whenever the background threads come to do the writes of a program that uses any number of block writers, and may drop calls half way, the program gets the answers, and every file sees the effects in the order, of a run with some failures in which writes happen only once waited for; without failures the answers are the same for all timings. So are the reports of a segment, and its files once it was synced.", "quantifier": "every program that uses block writers, every failure and every timing", "why_tests_cant": "Races are rare and cannot be forced.", "anchors": ["src/store/io/default_block_writer.rs::Writer::write_block", "src/store/io/default_block_writer.rs::Writer::flush", "src/store/io/default_block_writer.rs::Writer::sync", "src/store/segment_writer.rs::SegmentWriter::close", "src/store/segment_writer.rs::SegmentWriter::sync"]}
{"id": "C77", "title": "What a block writer has synced stays", "statement": "Once a sync of a block writer reported success, whatever fails before or after and whatever is written later to this or other files, a crash at any later moment leaves a file that starts with all that it held; blocks that were flushed before are then read back from their positions.", "quantifier": "every history of calls and failures, every moment of the crash", "why_tests_cant": "Crashes cannot be staged in a test.", "anchors": ["src/store/io/default_block_writer.rs::Writer::sync", "src/store/io/default_block_writer.rs::Writer::write_block", "src/store/io/default_block_writer.rs::Writer::flush"]}
{"id": "C78", "title": "Every call on an encoder comes to an end", "statement": "The encode and flush calls of the encoders, and the calls on columns and segments that use them, come to an end whatever the block size, the contents and the answers of the sink.", "quantifier": "every block size, buffer, encoder state, sink and history", "why_tests_cant": "A loop that never ends shows only for the one size that causes it.", "anchors": ["src/store/encoding/raw/primitive_enc.rs::Encoder::encode", "src/store/encoding/raw/primitive_enc.rs::chunk", "src/store/encoding/raw/binary_enc.rs::Encoder::encode", "src/store/segment_writer.rs::ColumnWriter::write"]}
{"id": "C79", "title": "No block is much larger than the block size", "statement": "Every block of a column, whether values have a fixed width or not, has less data than the block size and one more value; a binary column has at least the block size in every block but the last.", "quantifier": "every history, block size, value size and build", "why_tests_cant": "Sizes and histories are unbounded.", "anchors": ["src/store/encoding/raw/primitive_enc.rs::Encoder::encode", "src/store/encoding/raw/primitive_enc.rs::chunk", "src/store/encoding/raw/binary_enc.rs::Encoder::encode"]}
{"id": "C80", "title": "Another writer of the same segment does no harm", "statement": "Block writers open their files truncated and write at a position of their own. Whatever else is open, a segment for which every call reported success has the files that it would have if every write went to the end of its file, and its index file can be read.", "quantifier": "every history of segments and block writers, every order of their effects", "why_tests_cant": "The order of the effects of several writers cannot be forced.", "anchors": ["src/store/io/default_block_writer.rs::Writer::new", "src/store/io/default_block_writer.rs::Writer::write_block", "src/store/segment_writer.rs::SegmentWriter::new", "src/store/segment_writer.rs::SegmentWriter::close"]}
{"id": "C81", "title": "How rows are divided among buffers makes no difference", "statement": "Writing the same rows to a column in other buffers gives a column that reads the same: the rows found in its blocks, and in the files of a segment, do not depend on where one buffer ends and the next one starts.", "quantifier": "every sequence of rows, every division, block size and build", "why_tests_cant": "There are exponentially many divisions of any sequence of rows.", "anchors": ["src/store/encoding/raw/binary_enc.rs::Encoder::encode", "src/store/encoding/raw/primitive_enc.rs::Encoder::encode", "src/store/segment_writer.rs::ColumnWriter::write"]}
{"id": "C82", "title": "A buffer of the wrong nullability is rejected", "statement": "A nullable buffer given to a column that is not nullable, or a buffer without validity given to a nullable column, is rejected: the call does not report success and nothing of the buffer reaches the column.", "quantifier": "every column, buffer, sink, block size and build", "why_tests_cant": "Tests never give a column a buffer of another nullability; whether it is noticed depends on the sizes.", "anchors": ["src/store/encoding/raw/binary_enc.rs::Encoder::encode", "src/store/encoding/raw/primitive_enc.rs::Encoder::encode", "src/store/segment_writer.rs::ColumnWriter::write"]}
{"id": "C83", "title": "A bitmap or block cut short is not taken for the whole", "statement": "Of a run-length encoded bitmap only a first part is there, because a write was cut short or a length is wrong: the decoder notices it. The same for a whole block of a raw fixed-width column: no proper first part of a written block is itself a block that can be read, so no block is a first part of another.", "quantifier": "all bitmaps and cuts; all fixed-width columns: buffers, widths, block sizes, nullability, builds, and all cuts of all their blocks", "why_tests_cant": "the cut must be tried at every byte of every block shape; whether it is noticed depends on where frames of the run-length coding end and on the last bit", "anchors": ["src/store/encoding/bitmap_rle.rs::Decoder::decode", "src/store/encoding/bitmap_rle.rs::Decoder::read_frame", "src/store/encoding/raw/primitive_enc.rs::Encoder::encode"]}
{"id": "C84", "title": "The scenarios of the repository's own tests succeed for every input they could draw", "statement": "Every scenario of the repository's twenty unit tests runs to its end without a failed assertion: appending bits to a bitmap and reading them back, the buffers, the variable-length integers, the run-length coding, the two encoders, writing blocks to a file and reading them back in a batch, and writing, closing and syncing a segment. Where a test draws its input at random, this holds for every input, of any size; where it runs on the system's schedule, for every schedule.", "quantifier": "all bit sequences; all lists of blocks, file names, directories, chunk sizes and schedules of the reads; all segment identifiers, directories and iteration orders; both builds", "why_tests_cant": "the tests draw one random input per run, of bounded size, and see one schedule", "anchors": ["src/store/indexing_buffer.rs::Bitmap::append", "src/store/io/mod.rs::OpInfo", "src/store/segment_writer.rs::SegmentWriter::new"]}
{"id": "C85", "title": "The data of a single column can be found in the data file without the block index", "statement": "The block index is in no file, but a segment with a single raw column has nothing but the blocks of that column in its data file. So the two files of such a segment determine the data of the column: columns with different data leave different files, and the blocks can be told apart.", "quantifier": "all segments with one raw column, nullable or not: all buffers, identifiers, directories; taking apart: any number of raw columns, also after a crash", "why_tests_cant": "two columns that collide have to be constructed from the packing of the lengths; no test reads a data file", "anchors": ["src/store/encoding/raw/binary_enc.rs::Encoder::encode", "src/store/encoding/offsets.rs::OffsetEncoder::encode", "src/store/segment_writer.rs::ColumnWriter::write"]}
{"id": "C86", "title": "The blocks of a column have no more data than the column", "statement": "Cutting a column into blocks writes its data once: the sizes the blocks give for their data add up to no more than the data of the buffers, so that the data file of a segment grows with the data and not faster.", "quantifier": "all block sizes, nullability, buffers within the limits of C34, both profiles; data files: any number of raw columns", "why_tests_cant": "how much is written twice depends on the lengths of hundreds of items in one buffer; tests check single blocks", "anchors": ["src/store/encoding/raw/binary_enc.rs::Encoder::encode", "src/store/encoding/raw/binary_enc.rs::chunk", "src/store/segment_writer.rs::ColumnWriter::write"]}
{"id": "C87", "title": "Writing the same segment again gives the same files", "statement": "Two programs that make the same calls - the same segment information, columns, buffers and closes - leave the same bytes in the data file and in the index file, whatever machine, directory and build they use.", "quantifier": "all segment informations, columns, buffers, closes at any place, worlds (how much a write takes, what succeeds), directories, both builds; all orders in which the hash maps may be visited", "why_tests_cant": "a test would have to control the random seed of the hash maps; with one column the files happen to be the same", "anchors": ["src/store/segment_writer.rs::SegmentWriter::close", "src/store/segment_metadata.rs::SegmentMeta", "src/store/segment_metadata.rs::Metadata"]}
{"id": "C88", "title": "The order in which columns are written makes no difference", "statement": "Columns of different names can be written in any order: the files have the same lengths, the metadata read from the index file is the same, and every column has the same blocks in both data files.", "quantifier": "all lists of columns of different names and all permutations of them, all buffers, worlds, directories, both builds and all orders in which the hash maps may be visited", "why_tests_cant": "the block index, the block encoder and the metadata are shared by or replaced between columns; a leak from one into the next shows only for some orders and contents", "anchors": ["src/store/segment_writer.rs::SegmentWriter::new_binary_column_writer", "src/store/segment_writer.rs::ColumnWriter::close", "src/store/block_index.rs::BlockIndex::clear"]}
{"id": "C89", "title": "Copying a column buffer in pieces is the same as copying it whole", "statement": "Copying the items [s..m] of a buffer to another one and then [m..e], from the validity position reported by the first copy, gives the same buffer as copying [s..e] at once, and each succeeds exactly if the other does.", "quantifier": "all source and destination buffers (fixed width: any state; binary: offsets that ascend, as those of all buffers built by appending), all s <= m <= e, all validity positions, both builds", "why_tests_cant": "tests copy a whole buffer, or one piece of it; the validity position that links two pieces matters only if nulls lie around the cut", "anchors": ["src/store/indexing_buffer.rs::Bitmap::append_from", "src/store/indexing_buffer.rs::PrimitiveBuffer::append_from", "src/store/indexing_buffer.rs::BinaryBuffer::append_from"]}
{"id": "C90", "title": "The memory of a bitmap is proportional to its bits", "statement": "Appending to and clearing a new bitmap never panics; the bitmap has room for its bits, and takes 1024 bytes or fewer than two bits of memory for each bit appended since it was last cleared.", "quantifier": "all sequences of appends and clears; for with_capacity: all capacities of at least eight bits and all sequences of appends", "why_tests_cant": "tests append a few thousand bits once; that memory doubles only when full and goes back after a clear concerns every length and history", "anchors": ["src/store/indexing_buffer.rs::Bitmap::new", "src/store/indexing_buffer.rs::Bitmap::append", "src/store/indexing_buffer.rs::Bitmap::clear", "src/store/indexing_buffer.rs::Bitmap::with_capacity"]}
{"id": "C91", "title": "The memory an encoder keeps does not grow with the column", "statement": "Between two calls, all vectors of an encoder together take no more bytes than a bound that depends on the block size and the largest buffer, but not on the number of buffers encoded.", "quantifier": "all sequences of buffers in any state (nullable or not) with at most M values and validity bits, all block sizes, element sizes, sinks and both builds", "why_tests_cant": "memory that grows slowly shows only after very many buffers; a test does not look at the capacity of private vectors", "anchors": ["src/store/encoding/raw/primitive_enc.rs::Encoder::encode", "src/store/encoding/raw/binary_enc.rs::Encoder::encode", "src/store/indexing_buffer.rs::Bitmap::append", "src/store/encoding/bitmap_rle.rs::Encoder::flush"]}
{"id": "C92", "title": "Segments in a directory that does not tell upper from lower case are kept apart", "statement": "On a file system that does not tell upper from lower case, two segments with different identifiers in one directory each have the files they would have alone.", "quantifier": "all pairs of identifiers and segment infos, all base paths, operations, builds and behaviours of the file system, all interleavings of their effects", "why_tests_cant": "tests run on a file system that tells them apart, and identifiers that collide are too rare to be met by chance", "anchors": ["src/store/segment_writer.rs::SegmentWriter::new"]}
{"id": "C93", "title": "A column buffer can be cleared and used for the next rows", "statement": "Writing rows to a column from one buffer that is cleared and filled again after each write has the same effect as using a new buffer for every write.", "quantifier": "all sequences of fillings (values and nulls), fixed-width and binary buffers, all encoder states, block sizes, sinks and builds; for binary columns also all segments and file systems", "why_tests_cant": "tests clear a buffer at most once and do not encode it afterwards; the result depends on where earlier fillings had values", "anchors": ["src/store/indexing_buffer.rs::Bitmap::clear", "src/store/indexing_buffer.rs::PrimitiveBuffer::clear", "src/store/indexing_buffer.rs::BinaryBuffer::clear", "src/store/encoding/raw/primitive_enc.rs::encode", "src/store/encoding/raw/binary_enc.rs::encode"]}
{"id": "C94", "title": "A row is found by its number", "statement": "The row identifiers of the blocks of a column lead to each row: row r is in the first block whose identifier is not below r, at the position counted from the identifier of the block before, and numbers from the number of rows on are in no block.", "quantifier": "all columns (binary and fixed-width, nullable or not), widths, block sizes, divisions into buffers, builds and row numbers; for binary columns also all closed segments and the bytes of their data file", "why_tests_cant": "tests look at one or two blocks and never look up a row; whether a row is found depends on all blocks before it", "anchors": ["src/store/encoding/raw/primitive_enc.rs::Encoder::add_rows", "src/store/encoding/raw/primitive_enc.rs::Encoder::write_block", "src/store/encoding/raw/binary_enc.rs::Encoder::add_rows", "src/store/encoding/raw/binary_enc.rs::Encoder::write_block", "src/store/block_index.rs::BlockIndex::index_block"]}
{"id": "C95", "title": "Closing a column in between", "statement": "A column that is closed, written to again and closed again has the same data in its blocks as one that is closed once: the close in between loses nothing and repeats nothing.", "quantifier": "all columns, binary with each encoding and fixed-width of every width, nullable or not, block sizes, builds, and all sequences of buffers and closes before and after", "why_tests_cant": "tests close a column once; the effect of a close depends on what was held back and shows in all blocks that follow", "anchors": ["src/store/encoding/raw/binary_enc.rs::Encoder::flush", "src/store/encoding/raw/binary_enc.rs::Encoder::write_remaining", "src/store/encoding/raw/primitive_enc.rs::Encoder::flush", "src/store/encoding/raw/primitive_enc.rs::Encoder::write_remaining", "src/store/segment_writer.rs::ColumnWriter::close"]}
{"id": "C96", "title": "Large values come back after a crash", "statement": "If the system does its part, any number of raw columns without nulls, each value of at least 128 bytes in a buffer of its own, are written, closed and synced without an error or panic, and from what any later crash leaves each value of each column is read back by its number, and nothing else.", "quantifier": "all numbers of columns, names, values of 128 to 2^32-129 bytes, up to 2^32-2 values in a column, segment identifiers, directories, builds, chunk sizes of the file layer, iteration orders and crashes", "why_tests_cant": "no test reads a value back from a segment, and none survives a crash; the property spans buffer, encoder, writer, segment, sync and reader", "anchors": ["src/store/segment_writer.rs::SegmentWriter::close", "src/store/segment_writer.rs::SegmentWriter::sync", "src/store/segment_writer.rs::ColumnWriter::write", "src/store/encoding/raw/binary_enc.rs::Encoder::encode", "src/store/io/default_block_writer.rs::BlockWriter::write_block", "src/store/io/unix_disk_block_reader.rs::read_block"]}
{"id": "C97", "title": "Nulls only add their validity to a block", "statement": "If a nullable column can be written, its values alone can be written to a column without nulls, into the same number of blocks, and each block with nulls is the block without them followed by the validity of its rows; the other way this holds unless the rows counted pass 2^32-1, and always for fewer than 65536 rows.", "quantifier": "all fixed-width and binary columns, widths, block sizes, buffer histories and builds; up to 2^32-8 (fixed width) or 2^32-2 (binary) rows and buffers with less than 2^32 bytes", "why_tests_cant": "a test compares two columns it was written for; here each column with nulls is compared with its values alone, through held back rows, cleared validity and repeated data", "anchors": ["src/store/encoding/raw/primitive_enc.rs::Encoder::encode", "src/store/encoding/raw/primitive_enc.rs::Encoder::add_rows", "src/store/encoding/raw/binary_enc.rs::Encoder::encode", "src/store/encoding/raw/binary_enc.rs::Encoder::flush", "src/store/indexing_buffer.rs::PrimitiveBuffer::append_from", "src/store/indexing_buffer.rs::BinaryBuffer::append_from"]}
{"id": "C98", "title": "Segments being written at the same time crash apart", "statement": "While any number of segments with identifiers of their own are being written into one directory, each of them anywhere in its work (being created, writing, closing, syncing, or refused), what a crash may leave in the files of each is what it may leave if that segment is the only one, in any combination over the segments, and all other files are left as they were; if a sync keeps the name of a file, each segment that was closed and synced without errors is whole, whatever the others were doing.", "quantifier": "all numbers of segments with pairwise different 16-byte identifiers, all operations, system behaviours, builds, mixings of the effects, points of the crash and contents of the directory before", "why_tests_cant": "a test cannot crash the machine, and a test with several segments sees one order of their effects and one point of the crash", "anchors": ["src/store/segment_writer.rs::SegmentWriter::new", "src/store/segment_writer.rs::SegmentWriter::close", "src/store/segment_writer.rs::SegmentWriter::sync", "src/store/io/default_block_writer.rs::Writer::write_block", "src/store/io/default_block_writer.rs::Writer::sync"]}
{"id": "C99", "title": "A wrong range costs no more than an error", "statement": "Reading a range that is reversed or reaches past the end of the file gives an error whenever there is memory for the whole file; it never takes the process down.", "quantifier": "every file, every pair of 64-bit offsets, both builds, every behaviour of the system while reading and every amount of memory", "why_tests_cant": "a test reads ranges that were written; a damaged or wrong offset that asks for more memory than there is ends the test run itself", "anchors": ["src/store/io/unix_disk_block_reader.rs::Reader::read_block", "src/store/io/mod.rs::asyncify", "src/store/io/unix_disk_block_reader.rs::Reader::len"]}
{"id": "C100", "title": "A call on a column that was dropped can be made again", "statement": "If writes to columns or closes of columns are dropped before they are finished, as a timeout does, and all other calls on the segment succeed, the blocks in the data file are those of the block index, at the places it gives.", "quantifier": "all columns and their encodings, all sequences of writes and closes, every call dropped after every number of operations or not at all, all sizes of chunks, both builds and all system behaviours", "why_tests_cant": "a test awaits every call; dropping one between two chunks of a block needs control over the background thread", "anchors": ["src/store/segment_writer.rs::ColumnWriter::write", "src/store/segment_writer.rs::ColumnWriter::close", "src/store/io/default_block_writer.rs::Writer::write_block", "src/store/block_sink.rs::BlockSinkImpl::write_block"]}
{"id": "C101", "title": "A buffer after a panic that was caught", "statement": "If a call on a buffer panics and the panic is caught, the buffer is what it was before the call, and it can be used further.", "quantifier": "all buffers of numbers, bytes and booleans, with and without nulls, all sequences of calls with panics caught, all arguments, both builds", "why_tests_cant": "a test that expects a panic ends with it, and never looks at the value the panic left behind", "anchors": ["src/store/indexing_buffer.rs::PrimitiveBuffer::append", "src/store/indexing_buffer.rs::PrimitiveBuffer::append_null", "src/store/indexing_buffer.rs::PrimitiveBuffer::append_from", "src/store/indexing_buffer.rs::BinaryBuffer::append", "src/store/indexing_buffer.rs::BinaryBuffer::append_null", "src/store/indexing_buffer.rs::BinaryBuffer::append_from", "src/store/indexing_buffer.rs::BoolBuffer::append", "src/store/indexing_buffer.rs::BoolBuffer::append_null"]}
{"id": "C102", "title": "An encoder after a panic that was caught", "statement": "If a call on a binary encoder panics and the panic is caught, the rows of this call are not written, and the rows of all calls that returned are written by the next flush.", "quantifier": "all block sizes, all buffers with and without nulls, all sequences of encode and flush with panics caught, all sinks, both builds", "why_tests_cant": "the tests stop at the first panic, and none of them makes an encoder panic", "anchors": ["src/store/encoding/raw/binary_enc.rs::Encoder::encode", "src/store/encoding/raw/binary_enc.rs::Encoder::flush", "src/store/encoding/raw/binary_enc.rs::Encoder::write_block", "src/store/encoding/raw/binary_enc.rs::Encoder::write_remaining"]}
{"id": "C103", "title": "A panic caught in one column stays in that column", "statement": "If calls on columns panic, the panics are caught, no call reports an error and the segment is closed, then every call ends as it would if its column were alone; the data file is the signature followed by the blocks each column has alone, column by column; the block index has the blocks of the last column at their places; and the index file describes exactly the columns with a close that returned.", "quantifier": "all columns and their encodings, all sequences of writes and closes with panics caught, all buffers, both builds and all system behaviours", "why_tests_cant": "no test catches a panic and goes on with the segment, and the interference of any two columns with any histories cannot be sampled", "anchors": ["src/store/segment_writer.rs::ColumnWriter::write", "src/store/segment_writer.rs::ColumnWriter::close", "src/store/segment_writer.rs::SegmentWriter::close", "src/store/encoding/raw/binary_enc.rs::Encoder::encode", "src/store/encoding/raw/binary_enc.rs::Encoder::flush", "src/store/block_sink.rs::BlockSinkImpl::write_block"]}
{"id": "C104", "title": "A fixed-width column goes on after a panic that is caught", "statement": "If a call on a fixed-width encoder panics and the panic is caught, the encoder is as before the call and later calls work. In any case no value is lost, changed, repeated or moved inside the encoder, and the next flush writes what is held back.", "quantifier": "all fixed-width columns of up to 2^32-2 rows: nulls or not, every width, block size and build, all sequences of encodes and flushes, all sinks, whatever panics or fails", "why_tests_cant": "no test catches a panic; the panics need a block size that is not a multiple of the width or more than 92681 rows in a buffer", "anchors": ["src/store/encoding/raw/primitive_enc.rs::Encoder::encode", "src/store/encoding/raw/primitive_enc.rs::Encoder::flush", "src/store/encoding/raw/primitive_enc.rs::Encoder::write_block", "src/store/encoding/raw/primitive_enc.rs::Encoder::write_remaining", "src/store/encoding/raw/primitive_enc.rs::Encoder::add_rows"]}
{"id": "C105", "title": "A buffer of the other kind spoils only its own call", "statement": "If an encoder of a column with nulls is given a buffer without nulls, the call panics and, if the panic is caught, changes nothing of what later calls with buffers of the right kind do.", "quantifier": "all fixed-width and string columns with nulls, all buffers without nulls, all later encodes and flushes, all sinks, block sizes and builds", "why_tests_cant": "no test gives an encoder a buffer of the other kind or catches a panic", "anchors": ["src/store/indexing_buffer.rs::PrimitiveBuffer::append_from", "src/store/indexing_buffer.rs::BinaryBuffer::append_from", "src/store/encoding/raw/primitive_enc.rs::Encoder::encode", "src/store/encoding/raw/binary_enc.rs::Encoder::encode", "src/store/encoding/bitmap_rle.rs::Encoder::put_from"]}
{"id": "C106", "title": "A string column after anything that fails or panics", "statement": "What a string column hands to its sink, how each call ends, what it holds back and what it has counted depend only on the rows of the buffers, the flushes between them and the answers of the sink, in the way written down in a small description; whatever fails or panics, a call may lose values but none is repeated, changed or moved by encode calls.", "quantifier": "all histories of encode and flush calls on string columns with and without nulls (together fewer than 2^32-1 bytes and at most 2^32-2 rows), all sinks, failed writes and caught panics included, all block sizes below 2^32 and both builds", "why_tests_cant": "no test goes on after a failed write or a panic, and none covers more than a few histories", "anchors": ["src/store/encoding/raw/binary_enc.rs::Encoder::encode", "src/store/encoding/raw/binary_enc.rs::Encoder::flush", "src/store/encoding/raw/binary_enc.rs::Encoder::write_block", "src/store/encoding/raw/binary_enc.rs::Encoder::write_remaining", "src/store/encoding/raw/binary_enc.rs::Encoder::add_rows", "src/store/indexing_buffer.rs::BinaryBuffer::append_from", "src/store/indexing_buffer.rs::BinaryBuffer::clear"]}
{"id": "C107", "title": "A closed segment has the values of its string columns, whatever panicked", "statement": "String columns of a segment are written and closed one after the other, and panics are caught. If no call reports an error and the segment can be closed, the data file has after its signature, for each column in turn, exactly blocks whose values are, in order, those of every write that returned and a first part of those of every write that panicked. If the close of a column panicked, only what it held back is missing, and then this is more than 128 values or more rows than can be counted. The index file describes exactly the columns whose close returned. If nothing panicked, all values are there.", "quantifier": "all segments with any number of raw string columns with and without nulls (each with fewer than 2^32-1 bytes and at most 2^32-2 rows), all divisions into buffers, both builds, every directory before, every maximal size of a background write and every plan of failures", "why_tests_cant": "the data file has no reader in the repository, and no test catches panics", "anchors": ["src/store/segment_writer.rs::ColumnWriter::write", "src/store/segment_writer.rs::ColumnWriter::close", "src/store/segment_writer.rs::SegmentWriter::close", "src/store/encoding/raw/binary_enc.rs::Encoder::encode", "src/store/encoding/raw/binary_enc.rs::Encoder::flush"]}
{"id": "C108", "title": "A closed and synced segment survives a crash, whatever panicked", "statement": "Columns of a segment are written and closed, panics are caught, no call reports an error, and the segment is closed and synced. Then after any crash, if nothing else writes to its two files and a file that was synced keeps its name, the data file has exactly the blocks written, with the values of C107 for string columns, and the index file can be read and describes exactly the columns whose close returned.", "quantifier": "all segments, columns, histories of calls, builds, sizes of background writes and plans of failures; all later effects on other files and all states of the files a crash may leave", "why_tests_cant": "tests do not crash the machine and do not catch panics", "anchors": ["src/store/segment_writer.rs::ColumnWriter::write", "src/store/segment_writer.rs::ColumnWriter::close", "src/store/segment_writer.rs::SegmentWriter::close", "src/store/segment_writer.rs::SegmentWriter::sync"]}
{"id": "C109", "title": "A block read too early is the block or an error, never something else", "statement": "The columns of a segment are being written, panics are caught and no call reports an error. If a reader reads the range of a block at any moment, and sees any beginning of what the data file has by then, it gets exactly that block or an error, and does not panic. Once the calls returned, every block that is followed by one that is not empty is read, without flushing or closing anything.", "quantifier": "all segments, columns, histories of calls, builds, sizes of background writes and plans of failures; all moments, all beginnings of the file and all behaviours of the reads", "why_tests_cant": "tests read a segment after it was closed, and never while a write is in progress", "anchors": ["src/store/segment_writer.rs::SegmentWriter::new", "src/store/segment_writer.rs::ColumnWriter::write", "src/store/segment_writer.rs::ColumnWriter::close", "src/store/io/default_block_writer.rs::Writer::write_block", "src/store/io/unix_disk_block_reader.rs::Reader::read_block"]}

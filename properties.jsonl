{"id": "C01", "title": "Unsigned varint round trip and self-delimitation", "statement": "Encoding any uint64 as a varint and decoding the result, with arbitrary bytes following it, returns the same number and consumes exactly the encoded bytes; the length is the least number of 7-bit groups and is between 1 and 10.", "quantifier": "every uint64 value and every byte string that follows it", "why_tests_cant": "2^64 values times all suffixes; tests sample a few dozen.", "anchors": ["pkg/col/encoding.go: encodeVarInt, decodeVarInt"]}
{"id": "C02", "title": "Signed varint round trip", "statement": "Encoding any int64 (including the minimum) as a zigzag varint and decoding it, with arbitrary bytes following, returns the same number and consumes exactly the encoded bytes.", "quantifier": "every int64 value and every following byte string", "why_tests_cant": "2^64 values.", "anchors": ["pkg/col/encoding.go: encodeSignedVarInt, decodeSignedVarInt"]}
{"id": "C03", "title": "Writer's varints are readable by the reader's varint decoder", "statement": "The reader decodes IDs with the Go library's Uvarint, not with the decoder that matches the encoder: on every encoded uint64 both decoders return the same number and length.", "quantifier": "every uint64 value and suffix", "why_tests_cant": "two independent decoders agree on 2^64 values or not.", "anchors": ["pkg/col/encoding.go: encodeVarInt", "pkg/col/reader_decode.go: decodeUVarInts"]}
{"id": "C04", "title": "Varint decoding is total and bounded", "statement": "Decoding arbitrary bytes always terminates, reports between 0 and min(10, available) bytes read, at least 1 when any byte is available, and yields a value in the uint64/int64 range.", "quantifier": "every byte string", "why_tests_cant": "malformed inputs are unbounded.", "anchors": ["pkg/col/encoding.go: decodeVarInt, decodeSignedVarInt"]}
{"id": "C05", "title": "Delta coding round trip", "statement": "Delta-encoding then delta-decoding any sequence of uint64 (or int64) returns it unchanged, sorted or not, including when differences overflow and wrap.", "quantifier": "every finite sequence of 64-bit numbers", "why_tests_cant": "wrap-around differences and arbitrary lengths.", "anchors": ["pkg/col/encoding.go: deltaEncode, deltaDecode, deltaEncodeInt64, deltaDecodeInt64"]}
{"id": "C06", "title": "Stored statistic conversion is lossless", "statement": "Converting an int64 statistic (min, max, sum) to its stored uint64 form and back returns the same number. (False for the minimum int64, which comes back as 0; true for every other value.)", "quantifier": "every int64 value", "why_tests_cant": "one bad value out of 2^64.", "anchors": ["pkg/col/encoding.go: int64ToUint64, uint64ToInt64"]}
{"id": "C07", "title": "Written blocks read back exactly (raw, delta-both, varint, varint-both)", "statement": "After any sequence of successful WriteBlock calls and Finalize, opening the file succeeds, BlockCount equals the number of blocks written, and GetPairs(i) returns exactly the IDs and values accepted by the i-th successful call, in order.", "quantifier": "every sequence of blocks of every size and content, for the four encodings, every block size target and clock", "why_tests_cant": "the input space is unbounded; offsets, padding and page alignment interact across blocks.", "anchors": ["pkg/col/writer_block_io.go: WriteBlock, writeBlockInternal", "pkg/col/writer_finalize.go: Finalize", "pkg/col/reader.go: NewReader, GetPairs", "pkg/col/reader_block.go: readBlock", "pkg/col/reader_decode.go: decodeBlockData"]}
{"id": "C08", "title": "Every accepted encoding type reads back what was written", "statement": "For each of the eight declared encodings, a block whose WriteBlock and Finalize succeed reads back unchanged. (False: delta-ID returns un-decoded values, delta-value returns un-decoded IDs; varint-ID and varint-value refuse with a size mismatch every block of ordinary magnitude, and what they do store reads back with running sums in place of the IDs, respectively with the right values but IDs decoded from another format.)", "quantifier": "every encoding type and every block", "why_tests_cant": "the repository has no end-to-end test for four of the eight encodings.", "anchors": ["pkg/col/writer_encoding.go: encodeData", "pkg/col/reader_decode.go: decodeBlockData", "pkg/col/format.go: EncodingDeltaID, EncodingDeltaValue, EncodingVarIntID, EncodingVarIntValue"]}
{"id": "C09", "title": "File metadata is what was written", "statement": "A finalized file reports version 1, the encoding type and block size target the writer was configured with, and IsDeltaEncoded / IsVarIntEncoded answer according to the declared encoding table.", "quantifier": "every configuration and history", "why_tests_cant": "holds for every reachable finalized file.", "anchors": ["pkg/col/reader.go: Version, EncodingType, IsDeltaEncoded, IsVarIntEncoded, BlockCount", "pkg/col/reader_header.go: readHeader"]}
{"id": "C10", "title": "Blocks are contiguous, disjoint and page aligned", "statement": "In a finalized file the first block starts at byte 64, every later block starts where the previous one ends and on a 4096-byte boundary, the footer starts on a 4096-byte boundary, and the file ends right after the 24-byte trailer.", "quantifier": "every sequence of successful block writes", "why_tests_cant": "alignment must hold after every possible block size.", "anchors": ["pkg/col/constants.go: calculatePadding", "pkg/col/writer_block_io.go: writeBlockInternal", "pkg/col/writer_finalize.go: Finalize"]}
{"id": "C11", "title": "Block size estimate is exact", "statement": "EstimateBlockSize returns exactly the number of bytes the file grows by when the same block is then written.", "quantifier": "every block and file position, for the four consistent encodings", "why_tests_cant": "every combination of varint widths and page offsets.", "anchors": ["pkg/col/writer_block_io.go: EstimateBlockSize, writeBlockInternal"]}
{"id": "C12", "title": "Block size target is respected and used fully", "statement": "A block written by WriteBlock never exceeds the target size unless it holds exactly one item; and when WriteBlock reports a full block, one more item would have exceeded the target (or only one item was written).", "quantifier": "every block, target and file position", "why_tests_cant": "all widths, targets and positions.", "anchors": ["pkg/col/writer_block_io.go: WriteBlock"]}
{"id": "C13", "title": "Partial writes are reported exactly", "statement": "When WriteBlock reports a full block with n items written, 1 <= n < len(ids), and the file gained exactly the first n pairs as one block; when it returns nil the file gained all of them.", "quantifier": "every input and target", "why_tests_cant": "all sizes and targets.", "anchors": ["pkg/col/writer_block_io.go: WriteBlock, BlockFullError"]}
{"id": "C14", "title": "Invalid blocks are rejected without effect", "statement": "WriteBlock with different numbers of IDs and values, with no items, or under an unknown encoding type returns an error and changes neither the file nor the writer's state.", "quantifier": "every writer state and invalid input", "why_tests_cant": "every prior history.", "anchors": ["pkg/col/writer_block_io.go: WriteBlock, EstimateBlockSize"]}
{"id": "C15", "title": "SimpleWriter loses, duplicates and reorders nothing", "statement": "After any sequence of Write calls and a Close that succeed, the concatenation of GetPairs over all blocks is the concatenation of the batches in call order, each batch sorted by ID (already sorted batches unchanged, others permuted).", "quantifier": "every sequence of batches, block size target and consistent encoding", "why_tests_cant": "buffering, splitting and flushing interact for unbounded histories.", "anchors": ["pkg/col/simple_writer.go: Write, flushIfNeeded, Close, sortByID, isSorted"]}
{"id": "C16", "title": "SimpleWriter accounting", "statement": "At every point TotalItems plus the number of buffered items equals the number of items submitted; fewer than 1000 items stay buffered after a successful Write, and after Close TotalItems equals the number submitted.", "quantifier": "every history of writes", "why_tests_cant": "every batch-size sequence.", "anchors": ["pkg/col/simple_writer.go: TotalItems, flushIfNeeded"]}
{"id": "C17", "title": "SimpleWriter life cycle", "statement": "Close is idempotent; after a successful Close, Write and SetTargetBlockSize return an error, IsClosed is true, and no later call changes the file.", "quantifier": "every history of calls after Close", "why_tests_cant": "unbounded call sequences.", "anchors": ["pkg/col/simple_writer.go: Close, Write, SetTargetBlockSize, IsClosed"]}
{"id": "C18", "title": "Contents do not depend on the block size target", "statement": "Two SimpleWriter runs over the same batches that differ only in block size target or consistent encoding yield files with the same sequence of pairs and the same aggregates read from data.", "quantifier": "every pair of targets/encodings and every batch list", "why_tests_cant": "relates two unbounded runs.", "anchors": ["pkg/col/simple_writer.go", "pkg/col/writer_options.go"]}
{"id": "C19", "title": "Footer aggregation is exact", "statement": "Aggregate() over a finalized file returns the count, minimum, maximum and (64-bit wrapping) sum of all values written, and Avg equal to float64(sum)/float64(count), provided no block statistic equals the minimum int64.", "quantifier": "every file", "why_tests_cant": "every multiset of values, block split and sum overflow.", "anchors": ["pkg/col/reader_aggregate.go: Aggregate, AggregateWithOptions"]}
{"id": "C20", "title": "Footer and scan aggregation agree", "statement": "Aggregate() and AggregateWithOptions{SkipPreCalculated:true} return the same result for every finalized file. (False when a block's min, max or sum is the minimum int64, and for the delta-ID encoding.)", "quantifier": "every file and encoding", "why_tests_cant": "depends on data-dependent corner values.", "anchors": ["pkg/col/reader_aggregate.go: AggregateWithOptions"]}
{"id": "C21", "title": "Filtered aggregation is exact", "statement": "With an allow set and/or a deny set, the result aggregates exactly the pairs whose ID is in the allow set (if given) and not in the deny set (if given), whatever SkipPreCalculated says.", "quantifier": "every file and every pair of optional ID sets", "why_tests_cant": "all subsets of a 2^64 ID space.", "anchors": ["pkg/col/reader_aggregate.go: aggregateWithFilter, readBlockFiltered"]}
{"id": "C22", "title": "Block pruning is sound and tight", "statement": "FilteredBlockIterator returns, in ascending order and without duplicates, every block that contains an allowed ID, and with a non-empty allow set returns no block whose ID range misses the allow set's range.", "quantifier": "every file and filter", "why_tests_cant": "all filters.", "anchors": ["pkg/col/reader_aggregate.go: FilteredBlockIterator"]}
{"id": "C23", "title": "Filter algebra", "statement": "Aggregates over disjoint allow sets add up: count and sum (wrapping) of the union are the sums, min/max are the combined ones; a wider filter never lowers Count; the result depends only on the filter's contents, not on how it was built. More generally, whenever the IDs that pass one allow/deny pair are split between two other pairs, the two results add up to the one: allowing a set and denying the same set together give the unfiltered count and sum. A file's own ID bitmap used as allow set changes nothing and used as deny set leaves nothing.", "quantifier": "every file and pair of filters", "why_tests_cant": "relates several unbounded runs.", "anchors": ["pkg/col/reader_aggregate.go: aggregateWithFilter"]}
{"id": "C24", "title": "Parallel aggregation equals sequential aggregation under every schedule", "statement": "For every number of workers (including negative and larger than the block count), every filter and SkipPreCalculated setting and every interleaving of the worker goroutines, the result equals the sequential result with the same options.", "quantifier": "every worker count, option set, file and goroutine schedule", "why_tests_cant": "schedules are exponential and not controllable from a test.", "anchors": ["pkg/col/reader_aggregate.go: aggregateParallel, aggregateParallelWithFooter, aggregateParallelWithReading"]}
{"id": "C25", "title": "Parallel aggregation always terminates", "statement": "No schedule of the workers deadlocks: as long as the call has not returned some goroutine can take a step, sends never block, and every schedule is finite; each block is processed by exactly one worker.", "quantifier": "every reachable state of every schedule", "why_tests_cant": "deadlock freedom is a statement about all schedules.", "anchors": ["pkg/col/reader_aggregate.go: aggregateParallelWithFooter, aggregateParallelWithReading"]}
{"id": "C26", "title": "Empty results look the same everywhere", "statement": "An aggregation that selects no pair returns Count 0, Sum 0, Avg 0 and Min = Max = 0 on every path. (Count, Sum and Avg hold; Min/Max are sentinels on some paths and 0 on others.)", "quantifier": "every file, filter and option set", "why_tests_cant": "the value depends on which of several code paths is taken.", "anchors": ["pkg/col/reader_aggregate.go: AggregateWithOptions, aggregateWithFilter, aggregateParallel"]}
{"id": "C27", "title": "MultiReader: newest file wins", "statement": "Aggregating files ordered oldest to newest returns the aggregate of exactly those pairs whose ID occurs in no newer file (and is in the filter, if one is given): every update shadows all older versions and nothing else is dropped.", "quantifier": "every list of files and filter", "why_tests_cant": "unbounded numbers of files and overlaps.", "anchors": ["pkg/multicol/aggregate.go: Aggregate, mergeAggregateResults"]}
{"id": "C28", "title": "Global ID bitmap is exactly the set of stored IDs", "statement": "GetGlobalIDBitmap of a finalized file contains an ID if and only if some block of the file holds it (when no WriteBlock failed midway).", "quantifier": "every history and every ID", "why_tests_cant": "all histories and 2^64 IDs.", "anchors": ["pkg/col/writer_finalize.go: writeGlobalIDBitmap", "pkg/col/reader.go: GetGlobalIDBitmap"]}
{"id": "C29", "title": "Bitmap caching is invisible", "statement": "Whatever sequence of enabling, disabling and queries precedes it, GetGlobalIDBitmap returns the file's ID set, provided callers do not modify returned bitmaps. (With caching on, a caller that modifies the returned bitmap changes later answers.)", "quantifier": "every sequence of cache operations, queries and caller modifications", "why_tests_cant": "aliasing across unbounded histories.", "anchors": ["pkg/col/reader.go: EnableGlobalIDBitmapCaching, DisableGlobalIDBitmapCaching, GetGlobalIDBitmap"]}
{"id": "C30", "title": "Foreign files are rejected", "statement": "NewReader succeeds only on bytes that begin with the magic number and version 1 and whose last 8 bytes are the magic number, with a footer that does not overlap the header.", "quantifier": "every byte string", "why_tests_cant": "all byte strings.", "anchors": ["pkg/col/reader_header.go: readHeader, readFooter"]}
{"id": "C31", "title": "Unfinalized files are not accepted", "statement": "A file whose writer stopped (crash or Close) after any number of completed WriteBlock calls but before Finalize is rejected by NewReader, unless the last block exactly fills its page and its last value bytes spell the magic number.", "quantifier": "every history of completed block writes", "why_tests_cant": "crash points after every possible history.", "anchors": ["pkg/col/writer.go: NewWriter", "pkg/col/writer_finalize.go: Finalize, Close", "pkg/col/reader_header.go: readFooter"]}
{"id": "C32", "title": "Torn files are not accepted", "statement": "A file left by a crash in the middle of WriteBlock is rejected by NewReader, if the bytes written do not spell the magic number behind the header. (False without this: user data can spell a valid trailer.)", "quantifier": "every byte-granular crash point", "why_tests_cant": "all crash points and contents.", "anchors": ["pkg/col/writer_block_io.go: writeBlockInternal", "pkg/col/reader_header.go: readFooter"]}
{"id": "C33", "title": "Reader never panics", "statement": "NewReader, GetPairs and Aggregate (with or without filters) return a result or an error on arbitrary file contents. (False: a block index entry with a size below 80 makes GetPairs panic, a header that announces more than 2^45 blocks makes an aggregation with a deny filter alone panic, and one that announces more blocks than the index holds makes parallel aggregation panic; true of NewReader always and of GetPairs and sequential aggregation when every entry's size is at least 80 and, for deny filters alone, the header announces at most 2^45 blocks.)", "quantifier": "every byte string", "why_tests_cant": "all corrupted files.", "anchors": ["pkg/col/reader_block.go: readBlock", "pkg/col/reader_io.go: readBytesAt", "pkg/col/reader_decode.go: decodeBlockData", "pkg/col/reader_aggregate.go: FilteredBlockIterator"]}
{"id": "C34", "title": "IDs and values come in pairs", "statement": "GetPairs returns as many values as IDs on arbitrary file contents. (Never more IDs than values; equality fails for malformed varint sections; holds for fixed-width encodings.)", "quantifier": "every byte string", "why_tests_cant": "all corrupted files.", "anchors": ["pkg/col/reader_decode.go: decodeBlockData, decodeUVarInts"]}
{"id": "C35", "title": "Reader does not invent data", "statement": "Every pair GetPairs returns comes from bytes in the file. (False: missing varint IDs are replaced by 1,2,3,... and missing bytes past the end of the file read as zeros.)", "quantifier": "every byte string", "why_tests_cant": "all truncated files.", "anchors": ["pkg/col/reader_decode.go: decodeUVarInts", "pkg/col/reader_io.go: readBytesAt"]}
{"id": "C36", "title": "Corruption is detected", "statement": "NewReader notices every change of the first 12 or last 8 bytes of a file, and the loss or addition of up to 7 bytes at its end. (That a change to any stored value byte of a finalized file is detected is false: checksums are never computed or verified, and no change of any value of a raw file is noticed.)", "quantifier": "every file and byte position", "why_tests_cant": "all positions and files.", "anchors": ["pkg/col/writer_block_io.go: writeBlockInternal", "pkg/col/writer_finalize.go: Finalize"]}
{"id": "C37", "title": "A successful Finalize means a readable file, even after write errors", "statement": "Under any pattern of I/O failures (failed seeks, short writes, failed syncs) in WriteBlock calls, if Finalize then reports success the file opens and holds exactly the blocks of the calls that returned nil or BlockFull, plus possibly a prefix of those whose only failure was the final sync.", "quantifier": "every history of calls and every fault schedule", "why_tests_cant": "fault points are not reachable from unit tests.", "anchors": ["pkg/col/writer_block_io.go: writeBlockInternal", "pkg/col/writer_finalize.go: Finalize"]}
{"id": "C38", "title": "Finalize may be retried after an I/O error", "statement": "If Finalize fails with an I/O error and a second Finalize succeeds, the file is readable with all blocks. (False: the retry writes at whatever offset the failed attempt stopped.)", "quantifier": "every fault point in Finalize", "why_tests_cant": "needs injected faults.", "anchors": ["pkg/col/writer_finalize.go: Finalize, writeGlobalIDBitmap"]}
{"id": "C39", "title": "SimpleWriter errors do not duplicate data", "statement": "If Write or Close fails and a later Close succeeds, every item is stored exactly once. (False: a failed sync leaves the block in the file and the items in the buffer.)", "quantifier": "every fault schedule", "why_tests_cant": "needs injected faults.", "anchors": ["pkg/col/simple_writer.go: flushIfNeeded, Close"]}
{"id": "C40", "title": "A closed writer never touches the file", "statement": "After the writer's file is closed, WriteBlock, Finalize and EstimateBlockSize return errors and the file's bytes never change.", "quantifier": "every state and later call sequence", "why_tests_cant": "unbounded call sequences.", "anchors": ["pkg/col/writer_finalize.go: FinalizeAndClose, Close"]}
{"id": "C41", "title": "Finalize is repeatable and writing may resume", "statement": "Calling Finalize again, or writing further blocks and finalizing again, yields a readable file with all blocks written so far.", "quantifier": "every interleaving of successful WriteBlock and Finalize calls", "why_tests_cant": "unbounded interleavings.", "anchors": ["pkg/col/writer_finalize.go: Finalize"]}
{"id": "C42", "title": "Out-of-range block numbers are errors", "statement": "GetPairs(i) on a finalized file succeeds exactly for i < BlockCount and returns an error for every other uint64, including those at or above 2^63.", "quantifier": "every uint64 index and file", "why_tests_cant": "2^64 indices.", "anchors": ["pkg/col/reader.go: GetPairs", "pkg/col/reader_block.go: readBlock"]}
{"id": "C43", "title": "Average is the correctly rounded quotient", "statement": "When |Sum| and Count are below 2^53, Avg is the IEEE-754 double nearest to Sum/Count.", "quantifier": "every sum and count in range", "why_tests_cant": "rounding over 2^106 pairs.", "anchors": ["pkg/col/reader_aggregate.go: AggregateWithOptions"]}
{"id": "C44", "title": "Files are reproducible", "statement": "Two runs of the same calls at different times produce files that differ only in the 8-byte creation time field, and read back identically.", "quantifier": "every history and pair of clocks", "why_tests_cant": "relates two unbounded runs.", "anchors": ["pkg/col/format.go: NewFileHeader", "pkg/col/writer_header.go: writeHeader"]}
{"id": "C45", "title": "Statistics stored in blocks and footer are true", "statement": "For each block of a finalized file the stored min/max ID, min/max value, sum and count (in the footer entry and in the block header) are those of the block's pairs.", "quantifier": "every block", "why_tests_cant": "every block content.", "anchors": ["pkg/col/utils.go", "pkg/col/writer_block.go: writeBlockHeader, writeBlockFooter"]}
{"id": "C46", "title": "Command-line write/read round trip", "statement": "`vibecol write` either reports success and produces a file from which `vibecol read --dump` lists exactly the given pairs, or exits with an error; a list too large for one 16 KB block is an error.", "quantifier": "every list of pairs", "why_tests_cant": "unbounded inputs.", "anchors": ["cmd/vibecol/main.go: runWrite, runRead"]}
{"id": "C47", "title": "Closing a multi-file reader closes every reader", "statement": "MultiReader.Close closes every underlying reader, also after one of them fails to close, and returns an error exactly if one of them did. Afterwards an aggregation over readers that hold no cached bitmap returns an error (with a cached bitmap it returns a wrong answer: refuted).", "quantifier": "every list of readers and every finalized file behind them", "why_tests_cant": "any number of readers, in any combination of open and closed.", "anchors": ["pkg/multicol/aggregate.go: Close, Aggregate"]}
{"id": "C48", "title": "What a closed reader answers", "statement": "After Close, GetPairs and GetGlobalIDBitmap return errors for every block; a second Close is an error; but an aggregation that needs the data reports 'no pairs' without an error, and one from the footer answers as before. (The claim that an aggregation which cannot read data reports an error is refuted.)", "quantifier": "every finalized file and all aggregation options", "why_tests_cant": "every file and every filter.", "anchors": ["pkg/col/reader.go: Close", "pkg/col/reader_aggregate.go: AggregateWithOptions", "pkg/col/reader_block.go: readBlock"]}
{"id": "C49", "title": "A scan aggregates exactly the readable blocks", "statement": "On any bytes that the reader accepts, an aggregation that skips the pre-calculated statistics returns the aggregate of exactly the values of the blocks that GetPairs can read; blocks that cannot be read are silently left out.", "quantifier": "every byte string accepted by NewReader (index block sizes at least 80)", "why_tests_cant": "all corrupted files.", "anchors": ["pkg/col/reader_aggregate.go: AggregateWithOptions", "pkg/col/reader_block.go: readBlock", "pkg/col/reader.go: GetPairs"]}
{"id": "C50", "title": "A half-written block cannot be recovered from", "statement": "If a WriteBlock fails after it has changed the file, for another reason than the final sync or a full block, then from then on no Finalize and no FinalizeAndClose of that writer succeeds once any other block has been written (before or after), whatever calls come in between and even if the disk works again. (The claim that an I/O error in one WriteBlock leaves the other blocks recoverable is refuted for every history.)", "quantifier": "every writer history, every placement of the I/O fault, every later call sequence", "why_tests_cant": "it ranges over all fault positions and all continuations; a test that retries after one fault shows one path only.", "anchors": ["pkg/col/writer_block_io.go: WriteBlock, writeBlockInternal", "pkg/col/writer_finalize.go: Finalize, FinalizeAndClose"]}
{"id": "C51", "title": "One Reader used by many goroutines", "statement": "Goroutines that call GetPairs, sequential aggregations, GetGlobalIDBitmap and EnableGlobalIDBitmapCaching on one Reader at the same time all get the answers they would get alone, each finishes within a number of its own steps that does not depend on the others, and returned bitmaps keep the file's IDs. If some goroutine closes the Reader, every other answer is right, an error, or (aggregations) silently the aggregate of some first blocks only; if some goroutine disables caching, GetGlobalIDBitmap may return a nil bitmap without an error. (The claims that a concurrent Close or Disable can only cause errors are refuted.)", "quantifier": "every number of goroutines, every call list of each, every interleaving of their accesses to the shared file, flag, pointer and bitmaps, every accepted file", "why_tests_cant": "the bad interleavings are a few instructions wide; a test, even with the race detector, sees a handful of schedules.", "anchors": ["pkg/col/reader.go: GetGlobalIDBitmap, EnableGlobalIDBitmapCaching, DisableGlobalIDBitmapCaching, Close, GetPairs", "pkg/col/reader_io.go: readBytesAt", "pkg/col/reader_aggregate.go: AggregateWithOptions"]}
{"id": "C52", "title": "Power failure during Finalize", "statement": "Finalize rewrites the header in place without syncing it before the footer. If a power failure loses or tears that header rewrite arbitrarily (byte by byte) while the rest of the file got through, the file still opens and BlockCount, every GetPairs and every sequential aggregation give what they should; but if none of the new header got through, GetGlobalIDBitmap returns an empty bitmap without an error. If the index entries of the footer are what was lost, the file still opens although GetPairs then panics and Aggregate reports zero values without an error (the claim that a file torn by a power failure is rejected is refuted).", "quantifier": "every history of calls and faults before a first Finalize, every subset of the 64 header bytes that got through", "why_tests_cant": "it ranges over all mixtures of old and new header bytes for all files; a test cuts the power at chosen points only.", "anchors": ["pkg/col/writer_finalize.go: Finalize", "pkg/col/reader_header.go: readHeader, readFooter", "pkg/col/reader.go: NewReader, GetGlobalIDBitmap"]}
{"id": "C53", "title": "Memory needed to open a file", "statement": "The block index that NewReader builds in memory for a file written by this library is smaller than the file, and its length is BlockCount. (The claim that this holds for every file it accepts is refuted: for every number below 2^32 there is a 92-byte file that opens and whose index has that many entries, up to 240 GB, and whose BlockCount can be any larger uint64.)", "quantifier": "every finished writer run; every announced number of entries and blocks", "why_tests_cant": "it ranges over all files and all announced counts; large counts cannot even be run.", "anchors": ["pkg/col/reader_header.go: readFooter", "pkg/col/reader_io.go: readBytesAt", "pkg/col/reader.go: NewReader, BlockCount"]}
{"id": "C54", "title": "Load test tool: import writes what it reports, aggregate reports what was written", "statement": "For every random sequence, block size, clock, sort and I/O errors: an import of n values by cmd/loadtest that ends with status 0 reports n values and n items, and the file it made holds exactly the generated pairs, batch after batch, each batch stably ordered by ID when it was not ordered. The aggregate command on that file prints, under every goroutine schedule, with or without stored statistics and with any number of workers, version 1, encoding 7, the block count, the aggregate of exactly the generated values and a full scan of n values. With max-value at least 10, max-id at least 1 and no I/O error the import always ends with status 0. Generated IDs stay below max-id + 100000 and values within max-value/20 of the range 0..max-value. Every random number is used exactly once, in the order drawn: per pair one or two for the ID (a step of at most 10 from the ID before in nine of ten cases, except at the start of a batch of 10000) and two for the value (near the ID in seven of ten cases). (The claims that max-value bounds the values and that values are not negative are refuted, max-value below 10 can crash the import, and max-id 0 always does.)", "quantifier": "every random sequence, number of values, parameters, fault sequence, schedule and worker count", "why_tests_cant": "it ranges over all random sequences, all faults and all schedules; a test runs a few seeds.", "anchors": ["cmd/loadtest/main.go: runImport, runAggregate, runAggregations", "pkg/col/simple_writer.go: Write, Close, TotalItems", "pkg/col/reader_aggregate.go: AggregateWithOptions"]}
{"id": "C55", "title": "The example programs: round trip, separate format, what the dump shows", "statement": "For every clock and checksum function read_example accepts the file write_example writes without I/O errors, shows version 1 and one block, dumps exactly the ten example pairs with their statistics, and aggregates count 10, min 100, max 1000, sum 5500, average 550. No file is accepted by both the library's NewReader and read_example. Any file read_example opens contains all the index entries it announces and ends with the magic number; its dump never fails and prints exactly the ten pairs at fixed offsets with their exact minimum, maximum and sum; its aggregate adds up the index entries. (Refuted: the dump shows all pairs a file announces; the written file contains the size of its footer and its block starts at the offset in its index; write_example notices I/O errors.)", "quantifier": "every clock, checksum function, byte string and fault sequence of a full disk", "why_tests_cant": "it ranges over all byte strings and all checksum functions; a test opens a few files.", "anchors": ["cmd/write_example/main.go: writeFile", "cmd/read_example/main.go: NewReader, readFileHeader, readFooter, DumpKVPairs, AggregateFromMetadataOnly", "pkg/col/reader.go: NewReader"]}
{"id": "C56", "title": "DebugInfo tells the truth about a finished file", "statement": "For every finished file, whatever was written and whatever faults were survived, DebugInfo of the opened file shows magic number, version 1, the number of blocks, the encoding, the footer size, and for every block its offset and size as in the index, its number of pairs, its least and greatest ID and value and their sum, when no statistic of a block is the minimum int64. (Without that exception it is false: such a block is shown with value range 0-0 and sum 0.) For any other file that opens, whoever wrote it, the report is what the accessors say of it and its index entry by entry; numbers are shown in the usual decimal notation, the magic numbers in hexadecimal with capitals and no leading zeros.", "quantifier": "every options value, history of calls, fault sequence and clock", "why_tests_cant": "it ranges over all written contents; the tests only log the text.", "anchors": ["pkg/col/reader.go: DebugInfo", "pkg/col/reader_header.go: readFooter"]}
{"id": "C57", "title": "The printed average has the right two decimals", "statement": "Formatting a finite double with two decimals gives the nearest such decimal, ties to even. The average printed by vibecol read -agg for any finished file has the sign of the sum and differs from the exact quotient of sum and count by at most 0.005 plus 2^-53 of its size, and is exact when the average is a whole number, for counts and sums up to 2^53. (That it is the correctly rounded quotient is false: an exact 2.675 is printed as 2.67, and -1/1000 as -0.00.)", "quantifier": "every finite double; every file, filter, schedule and sum/count up to 2^53", "why_tests_cant": "it ranges over all sums and counts; a test compares a few texts.", "anchors": ["cmd/vibecol/main.go: runRead", "pkg/col/reader_aggregate.go: AggregateWithOptions"]}
{"id": "C58", "title": "Stopping the process at any point leaves a refused or a complete file", "statement": "For every options, every sequence of calls on a Writer and every point at which the process is stopped after NewWriter (between two system calls, or in the middle of a write after any number of bytes, in WriteBlock, Finalize or elsewhere), the bytes left in the file from offset 60 on are a prefix of those the undisturbed run would have written, and NewReader refuses the file, or the file is the complete one, or it ends exactly where the complete file has the magic number somewhere inside. So when the magic number occurs only at the beginning and the end of the complete file, creating it is atomic. If the process stops during NewWriter already (and the clock is before the year 6325), the at most 64 bytes left are refused. (Refuted: a file that a successful Finalize made readable stays readable when the process later stops while writing a further block.)", "quantifier": "every options value, call sequence, crash point and number of bytes of the interrupted write", "why_tests_cant": "it ranges over all crash points and contents; a test kills the process at a few points.", "anchors": ["pkg/col/writer_block_io.go: WriteBlock, writeBlockInternal", "pkg/col/writer_finalize.go: Finalize, writeGlobalIDBitmap", "pkg/col/reader.go: NewReader"]}
{"id": "C59", "title": "Stopping a SimpleWriter process at any point: all or nothing", "statement": "For every options, every sequence of Write, SetTargetBlockSize and Close calls on a SimpleWriter that would succeed undisturbed (or be refused), every sorting and every point at which the process is stopped after NewSimpleWriter (between system calls or after any number of bytes of a write), NewReader refuses the file left behind, or the file is the complete one, or it ends exactly where the complete file has the magic number inside. So for an encoding that is read back faithfully, when the magic number is nowhere inside, the file is refused or holds every batch of every Write: never some of them.", "quantifier": "every options value, call sequence, sort order of equal IDs, crash point and number of bytes of the interrupted write", "why_tests_cant": "it ranges over all crash points and contents, including the splits of blocks that the buffering makes.", "anchors": ["pkg/col/simple_writer.go: Write, Close, flushIfNeeded", "pkg/col/writer_block_io.go: WriteBlock", "pkg/col/writer_finalize.go: Finalize, FinalizeAndClose", "pkg/col/reader.go: NewReader"]}
{"id": "C60", "title": "Opening a file while it is being written", "statement": "Let a process use a Writer (any calls) or a SimpleWriter while another calls NewReader on the same path. Whatever the moments at which NewReader's Stat and its four reads take place (Stat first), and even if a read mixes bytes of several moments, NewReader refuses the file, or the file was complete at the time of Stat and NewReader and all later reads find the complete file; exception: the length found by Stat ends exactly behind a magic number inside the complete file. So, without a magic number inside, a reader opened early on a file a SimpleWriter is writing has all of its data or cannot be opened. (False: that a Reader opened on a finalized file shows that file when the writer goes on; it can mix the header of the second Finalize with the footer of the first.)", "quantifier": "every options value, call sequence, interleaving of the reader's system calls with the writer's (down to bytes)", "why_tests_cant": "the interleavings of two processes at the level of single bytes cannot be enumerated or forced by a test.", "anchors": ["pkg/col/reader.go: NewReader", "pkg/col/reader_header.go: readHeader, readFooter", "pkg/col/reader_io.go: readBytesAt", "pkg/col/writer_finalize.go: Finalize", "pkg/col/writer_block_io.go: WriteBlock", "pkg/col/simple_writer.go: Write, Close"]}
{"id": "C61", "title": "Reads that fail", "statement": "Let any set of the read system calls of one call fail. NewReader, GetPairs and GetGlobalIDBitmap return what they return without failures, or an error, and a failed fetch leaves the reader as it was. An aggregation that reads data (filter or SkipPreCalculated; sequential, or parallel under any schedule) returns the aggregate of exactly those matching pairs that lie in blocks whose read did not fail, without an error; Aggregate from the footer is unaffected. MultiReader.Aggregate reports an error or returns the aggregate of the pairs that could be read and whose ID is in no newer file: pairs may be missing, but an outdated value never takes the place of a newer one, and the same readers give the exact answer once reads succeed again. (False: that an aggregation which could not read everything does not return a result.)", "quantifier": "every finished file (for opening and single reads: any bytes), set of failing reads, option, filter, number of workers, schedule, list of files, state of the caches", "why_tests_cant": "the failing subsets of reads grow exponentially with the file, and disks do not fail on demand.", "anchors": ["pkg/col/reader_io.go: readBytesAt", "pkg/col/reader.go: NewReader, GetPairs, GetGlobalIDBitmap", "pkg/col/reader_block.go: readBlock", "pkg/col/reader_aggregate.go: AggregateWithOptions, aggregateWithFilter, aggregateParallel", "pkg/multicol/aggregate.go: Aggregate"]}
{"id": "C62", "title": "An open Reader is a snapshot", "statement": "A Reader opened on a finished file keeps giving the answers it gave at first -- GetPairs for every block, GetGlobalIDBitmap with any state of the cache, every aggregation under every schedule, and MultiReader.Aggregate over several such Readers -- whatever the writer does with the file afterwards: more WriteBlock, Finalize and Close calls, any failures of their system calls, an interruption anywhere inside one, and whichever of these moments each byte is read at, provided no Finalize failed while it rewrote the header. What GetPairs returns for a block depends on that block's bytes only. (False without the proviso, and false if the file is created again in place: the Reader then reports pairs of the new file, without an error, and aggregates of the old one.)", "quantifier": "every finished file, later sequence of writer calls, failing system calls, moment, mixture of moments per byte, cache state, option, schedule, list of files", "why_tests_cant": "quantifies over all later writer activity and over the interleaving of each read with it", "anchors": ["pkg/col/writer.go: WriteBlock, Finalize, Close", "pkg/col/reader.go: NewReader, GetPairs, GetGlobalIDBitmap", "pkg/col/reader_block.go: readBlock", "pkg/col/reader_aggregate.go: AggregateWithOptions", "pkg/multicol/aggregate.go: Aggregate"]}
{"id": "C63", "title": "vibecol with any command line", "statement": "vibecol write accepts -o, -ids and -values in any order, repeated (the last counts), with one dash or two, with = or as two arguments; if it ends with status 0, the file named by -o (example.col by default) and no other has changed, and vibecol read -f with that name and -dump, in any spelling, lists exactly the pairs given, -agg prints the statistics of any finished file. For every command line: no file changes except by vibecol write with equally many valid IDs and values and then only the one named by -o; unknown flags or commands end with a non-zero status and do nothing; the program does not panic. (False: that vibecol read FILE -dump shows FILE: arguments after the first one without a dash are ignored, and example.col is read.)", "quantifier": "every argument list, contents of all files, I/O failure, clock", "why_tests_cant": "command lines are an unbounded set and each flag has four spellings", "anchors": ["cmd/vibecol/main.go: main, runWrite, runRead"]}
{"id": "C64", "title": "The filter example prints the right numbers", "statement": "examples/filtered_aggregation_example.go stops with an error message or prints exactly the expected text: the count, minimum, maximum, sum and average (two decimals) of all 300 values, of nine chosen IDs, of all but the first block, of the odd IDs up to 200, and of three ranges without the multiples of five. It does not panic, and if no system call fails it prints the text.", "quantifier": "every I/O failure, clock, temporary file name, bitmap representation", "why_tests_cant": "an example run shows one outcome on one disk; failures at each of its system calls are not tried", "anchors": ["examples/filtered_aggregation_example.go: main, createSampleData, printResult"]}
{"id": "C65", "title": "Writers never panic", "statement": "NewWriter and NewSimpleWriter return, and so does every call of every history of calls on what they return -- WriteBlock, EstimateBlockSize, Finalize, FinalizeAndClose, Close; Write, SetTargetBlockSize, Close -- whatever system calls fail, whatever the arguments (lengths that differ, empty, out of order) and also after errors and after Close; no call of a SimpleWriter runs forever. The count in a BlockFullError is at least 1 and less than the number of items given, so slicing by it is safe.", "quantifier": "every option list, history of calls with any arguments, set of failing system calls, sorting function", "why_tests_cant": "the states after a failure in the middle of a call are too many to enumerate, and histories are unbounded", "anchors": ["pkg/col/writer.go: NewWriter", "pkg/col/writer_block_io.go: WriteBlock, EstimateBlockSize", "pkg/col/writer_finalize.go: Finalize", "pkg/col/simple_writer.go: Write, flushIfNeeded, Close"]}
{"id": "C66", "title": "Compaction and updates of several files", "statement": "Among the files a MultiReader reads, any consecutive ones can be replaced by others - for instance by one merged file, in any encoding, block size and order of pairs - that show the same pairs, and MultiReader.Aggregate returns the same result for all options. If no ID occurs twice within one file, the result is the aggregate of a table with one row for each ID (that passes the filter), holding the value put last in the order of the files.", "quantifier": "every list of files, split into older, replaced and newer ones, replacement, aggregation options and earlier use of the readers", "why_tests_cant": "the equivalence is over all contents, splits and replacements; a test compares two particular lists of files", "anchors": ["pkg/multicol/aggregate.go: NewMultiReader, Aggregate, mergeAggregateResults"]}
{"id": "C67", "title": "Blocks of more than 4 GiB", "statement": "Finding: the sizes of blocks are not checked against the 4 bytes they are stored in. With default options and nothing failing, WriteBlock of 2^28 to 2^28+1015 items (over 4 GiB; blocks are meant to have 16 KiB) returns nil, because the estimated size has wrapped around, and Finalize returns nil; the file opens, its footer counts all items, but GetPairs of the block fails, and an aggregation with SkipPreCalculated returns a count of 0 and no error. A SimpleWriter given that many items in one Write returns nil from Write and Close, reports them all in TotalItems, and none can be read.", "quantifier": "every list of 2^28 to 2^28+1015 IDs and values", "why_tests_cant": "the input needs gigabytes, and the claim is for all contents", "anchors": ["pkg/col/writer_block_io.go: EstimateBlockSize, WriteBlock", "pkg/col/reader_block.go: readBlock", "pkg/col/simple_writer.go: Write, Close"]}
{"id": "C68", "title": "SimpleWriter fills its blocks", "statement": "As long as no system call fails and the block size target (a multiple of 4096, 16384 by default) is not changed, every block but the last of the file a closed SimpleWriter leaves holds at least 1000 pairs or so many that another one of the largest size would not have fitted: with the default target at least 812 (1000 under the fixed-width encodings). So n pairs make at most 1 + n/812 blocks, no block is larger than the target (16 KiB by default, not the 128 KiB named in NewSimpleWriter), and the file is not larger than its blocks, bitmap, footer and one page of padding. A client that changes the target with SetTargetBlockSize gets blocks no larger than, and filled for, one of the targets in force at its Writes and Closes, and a file whose header states the target set last.", "quantifier": "every sequence of batches and target changes, faithful encoding and page-multiple targets", "why_tests_cant": "it is about the worst case over all sequences of batch sizes and varint widths, which decide where every block is cut.", "anchors": ["pkg/col/simple_writer.go: NewSimpleWriter, SetTargetBlockSize, Write, flushIfNeeded, Close", "pkg/col/writer_block_io.go: WriteBlock, EstimateBlockSize"]}
{"id": "C69", "title": "A SimpleWriter's file, end to end", "statement": "If no call of a SimpleWriter failed (refused calls aside) and it is closed, then (a) unless SetTargetBlockSize was used, its file is byte for byte one that WriteBlock calls and FinalizeAndClose of a Writer with the same options leave, so that every guarantee for such files holds; (b) aggregating the file with any allow and deny set gives the aggregate of the values handed to Write whose IDs pass, the default aggregation gives that of all values if their absolute values add up to less than 2^63, and GetGlobalIDBitmap holds exactly the IDs handed to Write.", "quantifier": "every sequence of batches, targets, faithful encodings, allow and deny sets, and faults that no call reports", "why_tests_cant": "it relates every history of one API to a history of the other, and every filter to the multiset of all pairs.", "anchors": ["pkg/col/simple_writer.go: Write, Close, flushIfNeeded", "pkg/col/writer_finalize.go: FinalizeAndClose", "pkg/col/reader_aggregate.go: Aggregate, aggregateSequential", "pkg/col/reader.go: GetGlobalIDBitmap"]}
{"id": "C70", "title": "Command lines of loadtest and read_example", "statement": "loadtest import and aggregate take their flags in any order, repeated, with one dash or two, with = or apart, the numbers as exactly the Go integer literals that fit. An import that ends with status 0 changes only the file -file names, and loadtest aggregate on that file, however spelled, reports the aggregate and the count of exactly the values generated from the seed; two imports with the same -seed, -n, -max-value and -max-id give the same aggregate whatever the machine, file and block size. Arguments that are not understood end the program with status 2 (or help) before anything is done. write_example followed by read_example with -dump and/or -agg in any spelling shows the ten pairs; read_example never panics on any file or arguments. False: that -skip-cache false uses the stored statistics (false ends the flags), that numbers are decimal (-n 010 imports 8 values, -n 08 is refused).", "quantifier": "every command line, file system contents, random sequence, sort, schedule, clock and I/O faults", "why_tests_cant": "the command lines, the numerals and the random sequences are unbounded, and the claim relates two runs of the program.", "anchors": ["cmd/loadtest/main.go: main, runImport, runAggregate", "cmd/read_example/main.go: main, NewReader, DumpKVPairs, AggregateFromMetadataOnly", "cmd/write_example/main.go: main, writeFile"]}
{"id": "C71", "title": "Files follow the documented format", "statement": "Whatever history of calls and I/O failures led to it, when Finalize reports success under encoding raw, delta-both, varint or varint-both, the bytes of the file are a column file as column_format_spec.md describes it and hold exactly the stored blocks: header, ID bitmap, block headers that repeat the index, ID and value sections, block index with true statistics, footer. So is the file of a SimpleWriter that was closed without failed calls, whatever its target and however that was changed. The documented checksums are never computed: those fields hold zero. False for delta-ID and delta-value: the Writer takes differences of both sections where the document has differences of one, so a file with a block in which that shows does not follow the document.", "quantifier": "every option list, call history, fault pattern and creation time; every stored block", "why_tests_cant": "that the bytes have the documented meaning for every history cannot be sampled; a round-trip test cannot see a deviation that Writer and Reader share, or one only a reader that follows the document would trip over.", "anchors": ["column_format_spec.md", "pkg/col/format.go: FileHeader, BlockHeader, BlockLayout, FooterEntry", "pkg/col/writer_header.go: writeHeader", "pkg/col/writer_block_io.go: writeBlockInternal", "pkg/col/writer_finalize.go: Finalize", "pkg/col/simple_writer.go: SimpleWriter.Write, SimpleWriter.Close"]}
{"id": "C72", "title": "Every file that follows the document is read", "statement": "NewReader opens every file that follows column_format_spec.md under encodings 0-4 and 7, whoever wrote it (sections in either order and with gaps, varints longer than necessary, bitmap anywhere, arbitrary bytes where nothing is documented), and then the metadata, GetPairs of every index, the global ID bitmap and every aggregation under every schedule give what the file holds. False for varint-ID and varint-value: a file as documented opens and other pairs are read.", "quantifier": "every file (byte sequence) that follows the document, every block, filter, option and schedule", "why_tests_cant": "the project's tests only read files its own Writer made; the set of conforming files is unbounded.", "anchors": ["column_format_spec.md", "pkg/col/reader.go: NewReader, GetGlobalIDBitmap", "pkg/col/reader_block.go: readBlock", "pkg/col/reader_decode.go: decodeBlockData", "pkg/col/reader_header.go: readHeader, readFooter", "pkg/col/reader_aggregate.go: AggregateWithOptions"]}
{"id": "C73", "title": "Aggregating any file the reader accepts", "statement": "On any bytes that NewReader accepts (index entries of at least 80 bytes, at most 2^42 announced blocks), an aggregation that reads data, with any filters, number of workers and schedule, terminates without a panic and returns the aggregate of exactly the passing values of the blocks that GetPairs can read, leaving out only blocks whose ID range in the index does not meet the allow set; if those ranges are true, or there is no allow set, nothing that passes and can be read is left out. An aggregation that does not read data repeats the claims of the index, in parallel too if header and index agree on the number of blocks and no entry claims an empty block. (False: that false index ranges are harmless, and that parallel aggregation is deterministic when an entry claims an empty block: the same call then returns different minima under different schedules.)", "quantifier": "every byte string accepted by NewReader, filter, option, number of workers and schedule", "why_tests_cant": "the file contents, the filters and the schedules are all unbounded; tests use files the Writer made and the schedules that happen.", "anchors": ["pkg/col/reader_aggregate.go: AggregateWithOptions, FilteredBlockIterator, aggregateParallel", "pkg/col/reader_block.go: readBlock"]}
{"id": "C74", "title": "When a writer's file is released, and SimpleWriters that can never be closed", "statement": "NewWriter either succeeds with an open file or releases it; Writer.Close releases the file whatever it returns and changes no byte; FinalizeAndClose releases it exactly when its Finalize succeeded, so a failed FinalizeAndClose can leave the descriptor open. A SimpleWriter's descriptor is released by Close only, and only by a Close that had written everything. A SimpleWriter one of whose calls failed after changing the file, with no item moved out of the buffer (an interrupted block write, not a failed sync), can never be closed: whatever is called afterwards, no Close succeeds and the descriptor stays open. So can one created with an encoding that does not exist, or with EncodingVarIntID and values in [-2^48, 2^48), from the first pair on: everything handed over stays in the buffer, nothing is written and no Close succeeds.", "quantifier": "every option, history of calls, position of I/O faults and later calls", "why_tests_cant": "the claims are about every later call sequence and every fault position; a test can show that one retry fails, not that none succeeds.", "anchors": ["pkg/col/writer.go: NewWriter", "pkg/col/writer_finalize.go: FinalizeAndClose, Close", "pkg/col/simple_writer.go: Write, Close, flushIfNeeded"]}
{"id": "C75", "title": "Several files read together, whatever they contain", "statement": "A MultiReader over any files the Reader accepts (damaged, hostile or written by another program; oldest first), in any state of the bitmap caches: if every file's ID bitmap can be read, Aggregate succeeds with the aggregate of exactly those pairs of readable blocks whose ID is in the allow set (if there is one) and in no newer file's bitmap, leaving out only blocks whose ID range in the index does not meet the allow set; unreadable blocks are passed over silently. If some file's bitmap cannot be read, there is never an answer. Files of this library may be mixed freely with files of other programs that follow the format document and whose bitmap is true: the newest file wins, as for files of this library alone. (That the newest file wins on every accepted set of files is false: a file need not have a bitmap, nor a true one.)", "quantifier": "every list of byte strings the Reader accepts, every session of caching, fetching and aggregating on the readers, every allow set", "why_tests_cant": "it ranges over all files of any origin, including crafted ones, and all sequences of cache operations; tests use a few well-formed files.", "anchors": ["pkg/multicol/aggregate.go: Aggregate, mergeAggregateResults", "pkg/col/reader_aggregate.go: aggregateSequential, filterPairs", "pkg/col/reader.go: GetGlobalIDBitmap"]}
{"id": "C76", "title": "Readers and MultiReaders shared by goroutines", "statement": "Any number of goroutines may use any number of Readers, and MultiReaders over any of them (several MultiReaders may share a Reader), at the same time: however their accesses to what they share interleave, every call gets the answer it gets when made alone, as long as nobody closes a Reader or switches caching off; in particular MultiReader.Aggregate gives the aggregate of the values the newest files leave visible. Nobody waits for anybody, and each goroutine's answers come in the order of its calls. If goroutines also close Readers or MultiReaders at any time, but leave caching alone, Aggregate of a MultiReader over files of this library gives that aggregate or an error, never a part of it. (With caching switched on the last claim is false: the bitmap comes from the cache, and Aggregate reports a part of the values without an error.)", "quantifier": "every list of files, every number of goroutines, every sequence of calls of each, every interleaving of their accesses to shared state", "why_tests_cant": "the number of interleavings is unbounded and a scheduler shows only a few of them; the race detector finds conflicting accesses, not wrong answers.", "anchors": ["pkg/multicol/aggregate.go: Aggregate, Close, mergeAggregateResults", "pkg/col/reader.go: GetGlobalIDBitmap, EnableGlobalIDBitmapCaching, DisableGlobalIDBitmapCaching, Close", "pkg/col/reader_aggregate.go: AggregateWithOptions"]}
{"id": "C77", "title": "Aggregations during which reads stop working", "statement": "While an aggregation that reads the blocks runs, sequentially or with any number of workers, another goroutine may close the Reader at any moment, or reads may fail now and then. On any bytes a Reader accepts (index entries of at least 80 bytes) and in every interleaving: every block that could contribute is read exactly once; the call never crashes, deadlocks or reports an error, and its result is the aggregate of exactly what the blocks contribute whose read worked. So it is complete when all reads worked, the aggregate of nothing when the Reader was closed before, and for a file of this library it is the aggregate of the pairs that pass the filters and lie in blocks whose read worked. (Hence a result without an error need not cover the file.)", "quantifier": "every byte string a Reader accepts, every options and number of workers, every interleaving of the goroutines, every assignment of working and failing moments to it", "why_tests_cant": "the moment of the failure relative to each worker's steps is not under a test's control, and the number of combinations is unbounded.", "anchors": ["pkg/col/reader_aggregate.go: AggregateWithOptions, aggregateParallel, aggregateParallelWithReading", "pkg/col/reader.go: Close, GetPairs"]}
{"id": "C78", "title": "Slices belong to the caller", "statement": "Go slices share memory, but not across this API. A caller may reuse or change the slices it passed as soon as Write, WriteBlock or EstimateBlockSize has returned; may change the slices GetPairs returned to it; and may pass those on to a writer: every call behaves as if each slice the caller holds were a list of numbers of its own, with what it shows at the time of the call. The library never changes a slice the caller holds (not even when SimpleWriter sorts a batch or a delta encoding is in use), and changing one result of GetPairs changes neither another result nor a later answer. So what a SimpleWriter or Writer stores is what its arguments showed at the time of each call.", "quantifier": "every program of makes, element changes, GetPairs calls on any readers, SimpleWriter calls and Writer calls with parts of any held slices; every sorter; every way in which append chooses capacities", "why_tests_cant": "whether an array is shared depends on capacities and on the whole history of calls; a test changes a few slices at a few moments.", "anchors": ["pkg/col/simple_writer.go: Write, Close, flushIfNeeded, sortByID", "pkg/col/writer_encoding.go: encodeData", "pkg/col/encoding.go: deltaEncode, deltaEncodeInt64", "pkg/col/writer_block_io.go: WriteBlock, EstimateBlockSize", "pkg/col/reader_decode.go: decodeBlockData, decodeUVarInts", "pkg/col/reader.go: GetPairs"]}
{"id": "C79", "title": "Damage stays where it is", "statement": "Changing bytes of a file other than those of its file header and footer affects only answers that depend on the changed part. The file still opens with the same header and block index; a block none of whose section bytes changed reads back exactly as before; the ID bitmap is as before if its bytes are; and an aggregation, with any filters, workers and schedule, returns exactly what it returned before unless a changed block matters to it (it reads data, and the index does not rule the block out). If one does, the result is the aggregate of what the untouched blocks contributed before and what the changed ones now show. In a finished file, where the parts do not overlap, any damage to some blocks leaves all others, the bitmap and the index-based aggregates intact. (Refuted for the file header: one changed byte there makes untouched blocks read back differently without an error.)", "quantifier": "every file the reader accepts, every set of changed positions outside header and footer and every new content; every finished history; every options, number of workers and schedule", "why_tests_cant": "a test changes a few bytes of a few files; which bytes an answer depends on is a statement about all positions, contents and schedules.", "anchors": ["pkg/col/reader.go: NewReader, GetPairs, GetGlobalIDBitmap", "pkg/col/reader_header.go: readHeader, readFooter", "pkg/col/reader_block.go: readBlock", "pkg/col/reader_io.go: readBytesAt", "pkg/col/reader_aggregate.go: AggregateWithOptions, FilteredBlockIterator, readBlockFiltered"]}
{"id": "C80", "title": "What an encoding costs", "statement": "EstimateBlockSize answers, and every block of a finished file takes, exactly 80 bytes plus the two sections, rounded up to the next page boundary of the file: eight bytes per number for raw and the delta encodings, one byte per seven bits for varint (signed values alternate around zero), the same of the neighbours' differences for varint-both. So a pair costs 16 bytes, or between 2 and 20; a varint block is never larger than the raw block of the same pairs as long as IDs stay below 2^56 and values within 55 bits and sign (refuted without that); and ascending IDs with gaps of 7a bits and values with steps of 7b bits cost at most a+b bytes a pair under varint-both, plus 100 a block. Finalize adds the serialized ID bitmap with its 4-byte length, padding to the next page boundary, 56 bytes per block and 28 more, so the length of a file that was finalized once is known exactly from its blocks. Before padding, no encoding is smaller than an eighth of raw (README: \"up to 8x\"), and varint-both takes at most a seventh from 303 pairs on when neighbouring IDs grow by less than 128 and values change by at most 63.", "quantifier": "every running history without a torn block, every block, every encoding but the two half-varint ones; every finished history", "why_tests_cant": "tests measure a few blocks; the width of every 64-bit number and difference, at every file position, is a statement about all of them.", "anchors": ["pkg/col/writer_block_io.go: EstimateBlockSize, WriteBlock", "pkg/col/writer_encoding.go: encodeData", "pkg/col/encoding.go: encodeVarInt, encodeSignedVarInt, deltaEncode, deltaEncodeInt64", "pkg/col/constants.go: calculatePadding", "pkg/col/writer_finalize.go: Finalize, writeGlobalIDBitmap"]}
{"id": "C81", "title": "What a call reads", "statement": "Opening an accepted file reads its header, its last 24 bytes and its index, and no block and no bitmap. GetPairs makes at most one read, behind the header of its block. An aggregation that needs data reads each block that the index does not rule out exactly once, whatever the number of workers and the schedule, and in file order when sequential; one that the index answers reads nothing. The ID bitmap takes two reads, none when cached; a closed reader reads nothing; a MultiReader reads, of each file, the blocks its index does not rule out and the bitmap. In a finished file these reads lie inside the file and none overlap. What a call returns depends on nothing but the bytes it reads (and, for opening, the length). A read that fails therefore matters only to the calls that make it: a call none of whose reads fails returns what it would without failures, and opening, GetPairs and GetGlobalIDBitmap return the error if one of theirs fails.", "quantifier": "all accepted files, readers, filters, options, worker counts and schedules; all finished histories for the layout part; all pairs of files that agree on the bytes read", "why_tests_cant": "tests do not observe which bytes are read, and a schedule in which a block is read twice or not at all, or a call whose answer depends on another byte, is one of unboundedly many.", "anchors": ["pkg/col/reader_io.go: readBytesAt", "pkg/col/reader_header.go: readHeader, readFooter", "pkg/col/reader_block.go: readBlock", "pkg/col/reader.go: NewReader, GetPairs, GetGlobalIDBitmap", "pkg/col/reader_aggregate.go: AggregateWithOptions, aggregateWithFilter, aggregateParallel", "pkg/multicol/aggregate.go: MultiReader.Aggregate"]}
{"id": "C82", "title": "One Close wins", "statement": "When goroutines share Readers, and MultiReaders over them, then of all the calls that close a given Reader (its own Close and Close of every MultiReader that has it) at most one reports success; a Close that reports an error has lost a race: another call that closes one of its Readers was made. Once any call that closes a Reader has returned, even with an error, no call begun later returns pairs of that Reader or closes it with success.", "quantifier": "every set of opened files, every program of every goroutine, every interleaving of their accesses, every pair of Close calls", "why_tests_cant": "a test runs a few interleavings of a few goroutines; who closes the file is decided by the schedule.", "anchors": ["pkg/col/reader.go: Close, GetPairs", "pkg/multicol/aggregate.go: Close"]}
{"id": "C83", "title": "Several Writers at once", "statement": "NewWriter starts the file at its path anew, whatever was there and whether or not NewWriter succeeds. From then on, as long as other Writers work on other paths -- or only close or ask older Writers of this path, or call anything on older ones that are closed already -- every call on the new Writer returns, and its file holds, what they would if there were nothing else; so each of any number of files written at the same time, their calls in any order, reads back what was stored in it. (False: that two open Writers on one path give a file of one of them, or an error. Both Finalizes can report success and the file shows the pairs of one Writer and the index, aggregates and IDs of the other.) A Reader that is open on a path which nobody writes answers as before, whatever happens on other paths; but one whose path is created anew keeps its old index and reads the new blocks: it can return wrong pairs, and two different aggregates, without an error.", "quantifier": "all histories before, all numbers of Writers, paths, options, failing system calls, and all orders of their calls", "why_tests_cant": "tests use one Writer at a time on fresh paths; the claim is about every interleaving with any other Writers and every earlier content.", "anchors": ["pkg/col/writer.go: NewWriter, Close", "pkg/col/writer_block_io.go: WriteBlock, EstimateBlockSize", "pkg/col/writer_finalize.go: Finalize, FinalizeAndClose", "pkg/col/reader.go: NewReader, GetPairs"]}
{"id": "C84", "title": "What writing costs in system calls", "statement": "A WriteBlock of n items makes 22 + 2n calls on the file when it succeeds (one fewer when the block needs no padding), between 21 + 2m and 23 + 3m when it stores m of the items and reports the block full, and never more than 21 + 3n: how much the file holds already makes no difference. Finalize makes 26 + 10 calls per block (or one fewer), however many items there are; NewWriter makes 13 (one more if it fails); EstimateBlockSize and Close at most one. A call that reports success had no failing call on the file among these. A whole session costs a number of calls that is linear in its calls and items, and in the blocks for each Finalize. Through SimpleWriter, a Write costs at most 26 calls for each item that leaves the queue (and 21 + 3 for each that still waits, if it fails); a session in which every call succeeds costs at most 36N + 40 for N items, however they are divided over Writes.", "quantifier": "every state of the Writer, every slice of ids and values, every encoding and target size, every sequence of calls and every stream of failures", "why_tests_cant": "A test counts the calls of one run. The bound ranges over all states, all lengths, all splits and all failures; a rewrite of what was stored before, or a search that does not stop, would show only for some.", "anchors": ["pkg/col/writer_block_io.go: WriteBlock, writeBlockInternal, EstimateBlockSize", "pkg/col/writer_block.go: writeBlockHeader, writeBlockFooter", "pkg/col/writer_header.go: writeHeader", "pkg/col/writer_finalize.go: Finalize, FinalizeAndClose, Close", "pkg/col/writer.go: NewWriter", "pkg/col/simple_writer.go: Write, flushIfNeeded, Close"]}
{"id": "C85", "title": "No descriptor is leaked, none is lost", "statement": "In a process that opens any number of Readers and creates any number of Writers and closes them in any order, singly or through MultiReaders, while any open, create, stat, read or write may fail and the files read may contain anything: every open descriptor belongs to a NewReader or NewWriter that succeeded and has not been closed since (a failed opening leaves none behind); every such descriptor is open, whatever was called on other Readers and Writers; a program that closes everything it opened has none left; a second Close is an error and touches none. (With FinalizeAndClose in place of Close the third claim is false: if its Finalize fails, the descriptor stays open.)", "quantifier": "every history of openings, closings and Writer calls, every file content and every failing system call", "why_tests_cant": "a leak shows only when a particular system call fails in the middle of an opening; tests do not make them fail, and cannot try every history.", "anchors": ["pkg/col/reader.go: NewReader, Close", "pkg/col/writer.go: NewWriter", "pkg/col/writer_finalize.go: Close, FinalizeAndClose", "pkg/multicol/aggregate.go: Close"]}

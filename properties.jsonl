{"id": "C01", "title": "sw842 round trip", "statement": "If sw842_compress(in, ilen, out, &olen) returns 0, then sw842_decompress applied to the first olen bytes of out, with an output capacity of at least ilen bytes, returns 0, reports exactly ilen bytes and reproduces in byte for byte.", "quantifier": "every input byte string of every length up to UINT_MAX (including 0 and lengths that are not multiples of 8; see C46 for longer inputs), every output capacity, every previous content of both output buffers, every host endianness", "why_tests_cant": "The template chosen for a block depends on the whole history of the previous 2 KiB of data; unit tests only sample a few patterns.", "anchors": ["src/serial/842_compress.c:sw842_compress", "src/serial/842_decompress.c:sw842_decompress"]}
{"id": "C02", "title": "sw842_compress capacity contract", "statement": "For every input there is one compressed buffer, determined by the input alone: sw842_compress returns 0 with exactly that buffer when the capacity is at least its length (and its length fits in an unsigned int), and otherwise returns -ENOSPC with *olen = 0. It never returns any other code.", "quantifier": "every input, every capacity from 0 upwards, every previous content of the output buffer", "why_tests_cant": "Out-of-space can strike in the middle of any template, including the one whose return code the code ignores; tests only try a few capacities on a few patterns.", "anchors": ["src/serial/842_compress.c:sw842_compress", "src/serial/842_compress.c:add_bits", "src/serial/842_compress.c:add_repeat_template"]}
{"id": "C03", "title": "sw842_compress stays inside its buffers", "statement": "sw842_compress never reads outside in[0, ilen), never reads or writes outside out[0, *olen), and leaves every byte of memory at or after out + *olen untouched, whatever the return code.", "quantifier": "every input, every capacity, success and failure paths alike", "why_tests_cant": "add_bits writes up to 8 bytes at a time near the end of the buffer; an overrun needs a particular bit phase and a particular number of remaining bytes.", "anchors": ["src/serial/842_compress.c:add_bits", "src/serial/842_compress.c:__split_add_bits", "src/serial/842_compress.c:get_next_data"]}
{"id": "C04", "title": "sw842_compress output size", "statement": "On success the size reported by sw842_compress is a multiple of 8, the unused bits at the end are zero, and it is at most ceil((69*(ilen/8) + (ilen%8 ? 8+8*(ilen%8) : 0) + 37)/64)*8 bytes; hence a capacity of that many bytes always suffices.", "quantifier": "every input of every length", "why_tests_cant": "A worst case bound is a statement about all inputs.", "anchors": ["src/serial/842_compress.c:sw842_compress"]}
{"id": "C05", "title": "sw842_decompress decodes exactly the 842 format", "statement": "sw842_decompress returns 0 with output x if and only if its input starts with a well-formed 842 stream (the format of src/common/842.h including the ring-buffer rule for indices and the short-data template) that denotes x and is followed by the CRC of x, and x fits in the output capacity.", "quantifier": "every input byte string, well-formed or not, and every capacity", "why_tests_cant": "The set of inputs is all byte strings; tests try a handful of streams.", "anchors": ["src/serial/842_decompress.c:sw842_decompress", "src/serial/842_decompress.c:__do_index", "src/common/842.h"]}
{"id": "C06", "title": "sw842_decompress stays inside its buffers", "statement": "Whatever bytes it is given, sw842_decompress never reads outside in[0, ilen) or out[0, *olen) and never writes outside out[0, *olen).", "quantifier": "every input byte string (malicious or not), every capacity", "why_tests_cant": "The input is attacker controlled; one bad stream out of all of them is enough.", "anchors": ["src/serial/842_decompress.c:sw842_decompress", "src/serial/842_decompress.c:next_bits", "src/serial/842_decompress.c:do_data", "src/serial/842_decompress.c:__do_index"]}
{"id": "C07", "title": "sw842_decompress error contract", "statement": "When sw842_decompress does not return 0 it returns one of -EINVAL, -ENOSPC, -EOVERFLOW, and *olen is 0.", "quantifier": "every input byte string and capacity", "why_tests_cant": "Every error path of every malformed stream must respect the contract.", "anchors": ["src/serial/842_decompress.c:sw842_decompress"]}
{"id": "C08", "title": "sw842_decompress always terminates", "statement": "sw842_decompress terminates on every input: it executes at most 8*ilen/5 + 1 templates.", "quantifier": "every input byte string and capacity", "why_tests_cant": "Non-termination on some input cannot be excluded by running finitely many inputs.", "anchors": ["src/serial/842_decompress.c:sw842_decompress"]}
{"id": "C09", "title": "truncated streams are rejected", "statement": "Decompressing any strict prefix that cuts a valid compressed stream before the end of its CRC never succeeds; sw842_decompress reports -EOVERFLOW.", "quantifier": "every valid stream and every cut point", "why_tests_cant": "Every cut point of every stream.", "anchors": ["src/serial/842_decompress.c:next_bits", "src/serial/842_decompress.c:sw842_decompress"]}
{"id": "C10", "title": "trailing bytes are ignored", "statement": "Appending arbitrary bytes after a compressed buffer does not change what sw842_decompress returns for it.", "quantifier": "every valid compressed buffer and every suffix", "why_tests_cant": "All suffixes of all streams.", "anchors": ["src/serial/842_decompress.c:sw842_decompress"]}
{"id": "C11", "title": "stored CRC is enforced", "statement": "Replacing the 32 CRC bits of a valid stream by any other 32 bits makes sw842_decompress return -EINVAL.", "quantifier": "every valid stream and every wrong CRC value", "why_tests_cant": "2^32 - 1 wrong values for each of infinitely many streams.", "anchors": ["src/serial/842_decompress.c:sw842_decompress", "src/common/crc32.h:crc32_be"]}
{"id": "C12", "title": "crc32_be computes the CRC-32 of the polynomial 0x04c11db7", "statement": "crc32_be(0, buf, len) equals the bit-serial, most significant bit first CRC with polynomial 0x04c11db7, initial value 0 and no final xor.", "quantifier": "every buffer, every length, every buffer alignment, both host endiannesses", "why_tests_cant": "The slicing-by-8 code has different paths for alignment prologue, 8-byte body and tail; all lengths and contents matter.", "anchors": ["src/common/crc32.h:crc32_be", "src/common/crc32table.h:crc32table_be", "src/tools/gen_crc32table.c:crc32init_be"]}
{"id": "C13", "title": "crc32 tables match their generator and their definition", "statement": "The 8x256 committed table of crc32table.h is what gen_crc32table.c computes, and entry [k][i] is the CRC of byte i followed by k zero bytes.", "quantifier": "all 2048 entries", "why_tests_cant": "No test compares the table with the polynomial definition.", "anchors": ["src/common/crc32table.h:crc32table_be", "src/tools/gen_crc32table.c:crc32init_be"]}
{"id": "C14", "title": "CRC detects bursts", "statement": "Two buffers of equal length whose bits differ only within a window of 32 consecutive bits, and do differ, have different crc32_be values.", "quantifier": "all buffers, all lengths, all burst positions and patterns", "why_tests_cant": "It is a statement about all pairs of buffers.", "anchors": ["src/common/crc32.h:crc32_be"]}
{"id": "C15", "title": "decompression into a too small buffer", "statement": "If a well-formed stream denotes x and the capacity is smaller than x, sw842_decompress returns -ENOSPC.", "quantifier": "every well-formed stream and every smaller capacity", "why_tests_cant": "Every stream and every insufficient capacity.", "anchors": ["src/serial/842_decompress.c:do_data", "src/serial/842_decompress.c:__do_index", "src/serial/842_decompress.c:sw842_decompress"]}
{"id": "C16", "title": "optsw842 round trip", "statement": "For inputs whose length is a positive multiple of 8, if optsw842_compress returns 0 then optsw842_decompress on the produced bytes with capacity at least ilen returns 0 and reproduces the input.", "quantifier": "every such input, every capacity, aligned or unaligned pointers, every initial content of the (uninitialised) dictionary memory", "why_tests_cant": "The optimized compressor keeps lossy hash tables with stale entries; correctness for every history cannot be sampled.", "anchors": ["src/serial_optimized/842_compress.cpp:optsw842_compress", "src/serial_optimized/842_decompress.cpp:optsw842_decompress", "src/serial_optimized/bitstream.cpp:stream_write_bits"]}
{"id": "C17", "title": "optsw842_compress capacity contract", "statement": "For every non-empty input of length multiple of 8 (aligned) there is one compressed buffer determined by the input alone: optsw842_compress returns 0 with that buffer if the capacity is at least its length and -ENOSPC with *olen = 0 otherwise.", "quantifier": "every such input and capacity, every previous content of out and of the dictionary memory", "why_tests_cant": "Bitstream-full can be raised by any write.", "anchors": ["src/serial_optimized/842_compress.cpp:optsw842_compress", "src/serial_optimized/bitstream.cpp:stream_write_word"]}
{"id": "C18", "title": "optsw842_compress stays inside its buffers", "statement": "optsw842_compress never reads outside in[0, ilen) and never writes outside out[0, *olen).", "quantifier": "every input length including 0, every capacity", "why_tests_cant": "Boundary lengths and capacities.", "anchors": ["src/serial_optimized/842_compress.cpp:optsw842_compress", "src/serial_optimized/bitstream.cpp:stream_write_word"]}
{"id": "C19", "title": "optsw842_compress error contract", "statement": "On every non-zero return value of optsw842_compress, *olen is 0 (as its documentation promises).", "quantifier": "every input, capacity and alignment", "why_tests_cant": "All failure paths.", "anchors": ["src/serial_optimized/842_compress.cpp:optsw842_compress"]}
{"id": "C20", "title": "optsw842_decompress decodes exactly the hardware 842 format", "statement": "With 8-byte aligned pointers, optsw842_decompress returns 0 with output x if and only if the whole 8-byte words of the input start with a well-formed 842 stream without short-data templates denoting x, followed by the CRC of x, and x fits in the capacity.", "quantifier": "every input byte string and every capacity", "why_tests_cant": "All byte strings.", "anchors": ["src/serial_optimized/842_decompress.cpp:optsw842_decompress", "src/serial_optimized/842_decompress.cpp:read_bits", "src/serial_optimized/842_decompress.cpp:do_index"]}
{"id": "C21", "title": "optsw842_decompress stays inside its buffers and terminates", "statement": "With aligned pointers, whatever bytes it is given, optsw842_decompress terminates, never reads outside in[0, ilen) or out[0, *olen) and never writes outside out[0, *olen); on failure *olen is 0 and the code is -EINVAL or -ENOSPC.", "quantifier": "every input byte string and capacity", "why_tests_cant": "Malicious inputs.", "anchors": ["src/serial_optimized/842_decompress.cpp:optsw842_decompress", "src/serial_optimized/842_decompress.cpp:read_word", "src/serial_optimized/842_decompress.cpp:do_index"]}
{"id": "C22", "title": "the two software implementations understand each other", "statement": "A buffer compressed by either of sw842_compress / optsw842_compress from an input whose length is a multiple of 8 is decompressed to the original by both sw842_decompress and optsw842_decompress.", "quantifier": "every input (length multiple of 8), both compressors, both decompressors, aligned or not", "why_tests_cant": "Cross compatibility for every input.", "anchors": ["src/serial/842_compress.c", "src/serial/842_decompress.c", "src/serial_optimized/842_compress.cpp", "src/serial_optimized/842_decompress.cpp"]}
{"id": "C23", "title": "alignment does not change results", "statement": "The result of optsw842_compress / optsw842_decompress does not depend on whether the caller's pointers are 8-byte aligned.", "quantifier": "every input, every capacity, every pair of alignments", "why_tests_cant": "Tests use a single alignment for each pattern.", "anchors": ["src/serial_optimized/842_compress.cpp:optsw842_compress", "src/serial_optimized/842_decompress.cpp:optsw842_decompress"]}
{"id": "C24", "title": "compressed buffers are portable between hosts", "statement": "sw842_compress and optsw842_compress produce the same bytes on little-endian and on big-endian hosts, and the decompressors accept and decode the same byte strings on both.", "quantifier": "every input, every capacity", "why_tests_cant": "Tests run on one host.", "anchors": ["src/common/endianness.h", "src/serial/kerneldeps.h", "src/common/memaccess.h"]}
{"id": "C25", "title": "references stay within the hardware windows", "statement": "In every stream accepted by the decompressors each index reference denotes bytes that were already produced and lie within the last 512 (I2), 2048 (I4) or 2048 (I8) bytes of the output produced before the current position rounded down to 8.", "quantifier": "every accepted stream, every reference", "why_tests_cant": "All streams.", "anchors": ["src/serial/842_decompress.c:__do_index", "src/common/842.h"]}
{"id": "C26", "title": "compressed buffers of multiple-of-8 inputs are hardware compatible", "statement": "When ilen is a multiple of 8 the stream produced by sw842_compress contains only templates of the hardware format (no short-data template).", "quantifier": "every input of length multiple of 8", "why_tests_cant": "All inputs.", "anchors": ["src/serial/842_compress.c:sw842_compress", "src/serial/842_compress.c:add_short_data_template"]}
{"id": "C27", "title": "runs are compressed to repeat templates", "statement": "An input made of m >= 1 copies of one 8-byte block compresses with sw842_compress to exactly (5 or 69) + 11*ceil((m-1)/64) + 37 bits, rounded up to 8 bytes (5 for the all-zero block, 69 otherwise).", "quantifier": "every block, every m", "why_tests_cant": "Unbounded run lengths; the counter wraps at 64.", "anchors": ["src/serial/842_compress.c:sw842_compress", "src/serial/842_compress.c:add_repeat_template"]}
{"id": "C28", "title": "chunked calls equal a sequence of single calls", "statement": "sw842_compress_chunked, sw842_decompress_chunked and the optsw842 variants have, for each chunk i, the same effect as the single-chunk function called with in + i*istride, ilens[i], out + i*ostride, &olens[i].", "quantifier": "every number of chunks, every stride, every chunk content", "why_tests_cant": "Offsets are 32-bit in the code; differences only show for large buffers.", "anchors": ["src/common/trivial_chunked.h:LIB842_DEFINE_TRIVIAL_CHUNKED_COMPRESS", "include/lib842/common.h"]}
{"id": "C29", "title": "chunked calls report errors", "statement": "The chunked functions return 0 only if every processed chunk returned 0 or -ENOSPC.", "quantifier": "every combination of chunk results", "why_tests_cant": "All combinations of failing chunks.", "anchors": ["src/common/trivial_chunked.h:LIB842_DEFINE_TRIVIAL_CHUNKED_COMPRESS"]}
{"id": "C30", "title": "chunks are independent and skipped chunks are untouched", "statement": "A chunk whose ilens[i] is SIZE_MAX has its rets[i], olens[i] and output bytes left unchanged, and the outcome for one chunk does not depend on the content of other chunks.", "quantifier": "every combination of chunks, provided the chunk areas do not overlap", "why_tests_cant": "All combinations.", "anchors": ["src/common/trivial_chunked.h:LIB842_DEFINE_TRIVIAL_CHUNKED_COMPRESS"]}
{"id": "C31", "title": "compression stream delivers every block exactly once", "statement": "In an operation of DataCompressionStream that is not cancelled and has no error, block_available_callback is invoked exactly once for each multiple of BLOCK_SIZE below floor(size/BLOCK_SIZE)*BLOCK_SIZE and never for another offset, before finalize_callback.", "quantifier": "every positive number of threads, every size, every interleaving of the threads", "why_tests_cant": "Schedules cannot be enumerated by running the program.", "anchors": ["src/stream/DataCompressionStream.cpp:DataCompressionStream::loop_compress_thread"]}
{"id": "C32", "title": "compression stream finalizes exactly once, after all callbacks", "statement": "finalize_callback is invoked exactly once per operation, by one thread, after every block callback of the operation has returned, with argument true if and only if no block failed.", "quantifier": "every positive number of threads, every interleaving, with and without cancel, with and without errors", "why_tests_cant": "Schedules.", "anchors": ["src/stream/DataCompressionStream.cpp:DataCompressionStream::loop_compress_thread", "src/stream/DataCompressionStream.cpp:DataCompressionStream::finalize"]}
{"id": "C33", "title": "compression stream never deadlocks", "statement": "In every reachable state of an operation either some thread can take a step or the operation is complete; every execution of a started and finalized operation reaches completion.", "quantifier": "every positive number of threads, every interleaving, every epoch setting, every size", "why_tests_cant": "Schedules.", "anchors": ["src/stream/DataCompressionStream.cpp:DataCompressionStream::loop_compress_thread", "include/lib842/detail/barrier.h:barrier"]}
{"id": "C34", "title": "epoch ordering of the compression stream", "statement": "After set_offset_sync_epoch_multiple(E), no block at offset >= k*E is delivered before all blocks at offsets < k*E have been delivered.", "quantifier": "every k, E, number of threads and interleaving, for operations without error and without cancel", "why_tests_cant": "Schedules.", "anchors": ["src/stream/DataCompressionStream.cpp:DataCompressionStream::set_offset_sync_epoch_multiple", "src/stream/DataCompressionStream.cpp:DataCompressionStream::loop_compress_thread"]}
{"id": "C35", "title": "a compressed block restores the original data", "statement": "Every block delivered by a DataCompressionStream over the sw842 or optsw842 implementation, handed to a DataDecompressionStream over the same implementation, reproduces the BLOCK_SIZE source bytes at its offset, whether its chunks were stored compressed or raw.", "quantifier": "every source content", "why_tests_cant": "All contents, including incompressible chunks and chunks exactly at the threshold.", "anchors": ["src/stream/DataCompressionStream.cpp:DataCompressionStream::handle_block", "src/stream/DataDecompressionStream.cpp:DataDecompressionStream::handle_block", "include/lib842/stream/block.h:Block"]}
{"id": "C36", "title": "decompression stream processes every block exactly once", "statement": "In an operation of DataDecompressionStream without cancel and without error every block accepted by push_block (returned true) is decompressed exactly once before finalize_callback is invoked.", "quantifier": "every positive number of threads, every history of pushes, every interleaving", "why_tests_cant": "Schedules.", "anchors": ["src/stream/DataDecompressionStream.cpp:DataDecompressionStream::loop_decompress_thread", "src/stream/DataDecompressionStream.cpp:DataDecompressionStream::push_block"]}
{"id": "C37", "title": "decompression stream finalizes exactly once with the right status", "statement": "finalize_callback is invoked exactly once per operation, after every thread has stopped working on blocks, with argument true if and only if no block failed; after a failure push_block returns false.", "quantifier": "every positive number of threads, every interleaving, with and without cancel", "why_tests_cant": "Schedules.", "anchors": ["src/stream/DataDecompressionStream.cpp:DataDecompressionStream::loop_decompress_thread", "src/stream/DataDecompressionStream.cpp:DataDecompressionStream::finalize"]}
{"id": "C38", "title": "decompression stream never deadlocks", "statement": "In every reachable state of a finalized operation some thread can take a step until the finalize callback has been invoked.", "quantifier": "every positive number of threads, every interleaving", "why_tests_cant": "Schedules.", "anchors": ["src/stream/DataDecompressionStream.cpp:DataDecompressionStream::loop_decompress_thread"]}
{"id": "C39", "title": "corrupted chunks are reported by the decompression stream", "statement": "If a chunk pushed to a DataDecompressionStream over sw842 or optsw842 cannot be decompressed, finalize_callback receives false.", "quantifier": "every corrupted chunk", "why_tests_cant": "All corruptions.", "anchors": ["src/stream/DataDecompressionStream.cpp:DataDecompressionStream::handle_block", "src/common/trivial_chunked.h"]}
{"id": "C40", "title": "barrier", "statement": "No call of arrive_and_wait returns before all num_threads participants have called it in the same round (unless interrupted); when the last one arrives all of them can return; the barrier is reusable; after interrupt() no call blocks.", "quantifier": "every positive number of threads, every number of rounds, every interleaving", "why_tests_cant": "Schedules.", "anchors": ["include/lib842/detail/barrier.h:barrier"]}
{"id": "C41", "title": "latch", "statement": "wait() can return only after count_down has been called as often as the initial value, and then never blocks again.", "quantifier": "every count, every interleaving", "why_tests_cant": "Schedules.", "anchors": ["include/lib842/detail/latch.h:latch"]}
{"id": "C42", "title": "OpenCL kernel decodes like the software decompressor", "statement": "For every stream of whole 8-byte words (what the compressors produce) that the software decompressor accepts and that contains no short-data template, the OpenCL decompression kernel (separate buffers) produces the same bytes and return value 0, for every chunk of a batch; chunks that do not fit get -ENOSPC and bytes outside of the chunks are not touched.", "quantifier": "every accepted stream, every capacity large enough", "why_tests_cant": "All streams.", "anchors": ["src/ocl/decompress.cl:decompress_core"]}
{"id": "C43", "title": "OpenCL kernel bounds", "statement": "With error checking sizes supplied, the OpenCL kernel never reads outside the input chunk or the output chunk and never writes outside the output chunk.", "quantifier": "every input byte string", "why_tests_cant": "Malicious inputs.", "anchors": ["src/ocl/decompress.cl:decompress_core"]}
{"id": "C44", "title": "maybe-compressed chunks are recognised", "statement": "In the MAYBE_COMPRESSED format, a chunk stored with the marker header is decompressed and a chunk stored raw is reproduced as is.", "quantifier": "every chunk content", "why_tests_cant": "All contents.", "anchors": ["src/ocl/decompress.cl:decompress", "include/lib842/common.h:LIB842_COMPRESSED_CHUNK_MARKER"]}
{"id": "C45", "title": "all decompressors agree", "statement": "Every hardware 842 stream in whole words means the same to all implementations: sw842_decompress, optsw842_decompress, an OpenCL work item and a CUDA thread write the same bytes for it.", "quantifier": "every stream, so every sequence of the 26 templates and the other operations with all argument values; every host, every buffer content", "why_tests_cant": "The template tables and formulas are spread over the implementations; tests compare them on a few inputs.", "anchors": ["src/serial/842_decompress.c:decomp_ops", "src/serial_optimized/842_decompress.cpp:optsw842_decompress", "src/ocl/decompress.cl:decompress_core", "src/cuda/842_decompress.cu:cuda842_decompress"]}
{"id": "C46", "title": "very long inputs are restorable", "statement": "Any input that sw842_compress compresses successfully can be restored by sw842_decompress, also when it is longer than UINT_MAX bytes.", "quantifier": "every input longer than UINT_MAX bytes", "why_tests_cant": "Needs inputs of more than 4 GiB.", "anchors": ["src/serial/842_compress.c:sw842_compress", "src/serial/842_decompress.c:sw842_decompress"]}
{"id": "C47", "title": "the format is unambiguous", "statement": "A byte string is a well-formed 842 stream for at most one output: two conforming decoders can never disagree on an accepted buffer.", "quantifier": "every byte string, with or without the software-only short-data template", "why_tests_cant": "A statement about all byte strings and all readings of the format.", "anchors": ["src/common/842.h", "src/serial/842_decompress.c:sw842_decompress"]}
{"id": "C48", "title": "optsw842_decompress rejects truncated input", "statement": "With aligned pointers, a hardware 842 stream cut anywhere before the end of its CRC is refused by optsw842_decompress with -EINVAL and *olen = 0, provided the capacity would have sufficed.", "quantifier": "every well-formed stream, every cut position, every capacity", "why_tests_cant": "Every prefix of every stream.", "anchors": ["src/serial_optimized/842_decompress.cpp:optsw842_decompress"]}
{"id": "C49", "title": "optsw842_decompress ignores trailing bytes", "statement": "With aligned pointers, appending any bytes to a buffer of whole 8-byte words that optsw842_decompress accepts does not change the result.", "quantifier": "every accepted buffer, every suffix", "why_tests_cant": "All suffixes.", "anchors": ["src/serial_optimized/842_decompress.cpp:optsw842_decompress"]}
{"id": "C50", "title": "chunked calls terminate", "statement": "The chunked functions return for every number of chunks.", "quantifier": "every number of chunks a size_t can express", "why_tests_cant": "Needs more than 2^32 chunks.", "anchors": ["src/common/trivial_chunked.h:LIB842_DEFINE_TRIVIAL_CHUNKED_COMPRESS"]}
{"id": "C51", "title": "the size bound is attained", "statement": "Data in which no aligned 16-bit word occurs twice compresses to exactly the maximal size (69 bits per 8 bytes plus trailer, rounded up to whole words), so the documented worst case is real and no smaller output buffer is safe.", "quantifier": "every input of a multiple of 8 bytes without a repeated aligned 16-bit word", "why_tests_cant": "All such inputs of all lengths.", "anchors": ["src/serial/842_compress.c:sw842_compress"]}
{"id": "C52", "title": "destroying a compression stream", "statement": "The destructor of DataCompressionStream may run at any time between calls of the user, also while blocks are being compressed: it returns, and the callbacks invoked meanwhile are still sound: no block is delivered twice or with a wrong offset, nothing is delivered if no operation was running, the finalize callback is invoked at most once and only for an operation that was complete, and no empty function is called.", "quantifier": "every positive number of threads, every moment of destruction, every interleaving", "why_tests_cant": "Schedules.", "anchors": ["src/stream/DataCompressionStream.cpp:DataCompressionStream::~DataCompressionStream", "src/stream/DataCompressionStream.cpp:DataCompressionStream::loop_compress_thread"]}
{"id": "C53", "title": "destroying a decompression stream", "statement": "The destructor of DataDecompressionStream may run at any time between calls of the user, also while blocks are being decompressed: it returns after a bounded number of steps of the threads, and what happens meanwhile is still sound: no block is decompressed more often than it was accepted or to another destination, nothing happens if no operation was running, the finalize callback is invoked at most once and only for an operation that was complete, and no empty function is called.", "quantifier": "every positive number of threads, every moment of destruction, every interleaving", "why_tests_cant": "Schedules.", "anchors": ["src/stream/DataDecompressionStream.cpp:DataDecompressionStream::~DataDecompressionStream", "src/stream/DataDecompressionStream.cpp:DataDecompressionStream::loop_decompress_thread"]}
{"id": "C54", "title": "no lost wakeup in the decompression stream", "statement": "push_block notifies one thread only, but whenever a thread of the stream sleeps while blocks are waiting, there are at least as many awake threads about to fetch a block as there are waiting blocks: no block waits for a sleeping thread.", "quantifier": "every positive number of threads, every history of calls, every interleaving including spurious wakeups", "why_tests_cant": "Schedules.", "anchors": ["src/stream/DataDecompressionStream.cpp:DataDecompressionStream::push_block"]}
{"id": "C55", "title": "a single decompression thread keeps the order", "statement": "With num_threads = 1 the blocks of an operation are decompressed in the order in which push_block accepted them, also when the operation fails, is cancelled or the stream is destroyed.", "quantifier": "every history of calls, every interleaving", "why_tests_cant": "Histories and schedules.", "anchors": ["src/stream/DataDecompressionStream.cpp:DataDecompressionStream::push_block", "src/stream/DataDecompressionStream.cpp:DataDecompressionStream::loop_decompress_thread"]}
{"id": "C56", "title": "OpenCL results do not depend on the schedule", "statement": "The content of all buffers after the kernel has run does not depend on the order in which the device runs the work items, nor on the chunk shuffle map the caller passes.", "quantifier": "every number of chunks, every order of the work items, every permutation as shuffle map, every input", "why_tests_cant": "Orders and shuffle maps: factorially many.", "anchors": ["src/ocl/decompress.cl:decompress", "src/ocl/cl842decompress.cpp:CLDeviceDecompressor::decompress"]}
{"id": "C57", "title": "OpenCL kernel detects corruption", "statement": "The kernel reports an error for a stream whose CRC does not match the decompressed data, as the software decompressors do.", "quantifier": "every stream with a wrong CRC", "why_tests_cant": "All corruptions.", "anchors": ["src/ocl/decompress.cl:decompress_core"]}
{"id": "C58", "title": "cl842_decompress", "statement": "cl842_decompress accepts exactly the hardware streams that fit, for every input size, and delivers what they denote.", "quantifier": "every input, every capacity, every prior content of the device buffers", "why_tests_cant": "All inputs and sizes.", "anchors": ["src/ocl/cl842decompress.cpp:cl842_decompress", "src/ocl/cl842decompress.cpp:CLHostDecompressor::decompress"]}
{"id": "C59", "title": "CUDA kernel decodes every chunk", "statement": "Launched with one thread for each chunk, the CUDA kernel decodes every chunk to what its stream denotes, whatever the order in which the threads run, and changes nothing else in the output buffer; so chunks made by the compressors come back.", "quantifier": "every number of chunks, every order of the threads, all chunk contents, all prior contents of the output buffer", "why_tests_cant": "All inputs, numbers of chunks and schedules.", "anchors": ["src/cuda/842_decompress.cu:cuda842_decompress"]}
{"id": "C60", "title": "CUDA kernel is safe on malformed input", "statement": "A malformed chunk does not make its thread access memory outside of the chunk's input and output.", "quantifier": "every content of the input buffer", "why_tests_cant": "All inputs.", "anchors": ["src/cuda/842_decompress.cu:cuda842_decompress"]}
{"id": "C61", "title": "sw842_compress gives the shortest stream", "statement": "No hardware 842 stream for the same data, however it was made, is shorter than the output of sw842_compress, except that every zero block that follows a zero block may cost sw842_compress 6 bits more (it is encoded as a repetition).", "quantifier": "every input of whole 8-byte blocks, every valid stream for it", "why_tests_cant": "Compares with all streams for all inputs.", "anchors": ["src/serial/842_compress.c:sw842_compress", "src/serial/842_compress.c:process_next", "src/serial/842_compress.c:comp_ops"]}
{"id": "C62", "title": "optsw842_compress takes the cheapest template", "statement": "For every set of references found for a block, optsw842_compress takes the cheapest template that uses only these references.", "quantifier": "every set of found references", "why_tests_cant": "All inputs.", "anchors": ["src/serial_optimized/842_compress.cpp:get_template", "src/serial_optimized/842_compress.cpp:optsw842_compress"]}
{"id": "C63", "title": "The FPGA tokenizer splits every stream correctly", "statement": "For every transfer, well-formed or not, the tokenizer ends, never waits for data beyond the end of the transfer, and delivers exactly the opcodes and argument bits of the stream up to its end template (which it supplies when the transfer stops early), the last one flagged; for a hardware 842 stream the tokens denote the same data.", "quantifier": "every transfer of one or more 128-bit elements, every content, whatever follows in the input stream", "why_tests_cant": "All inputs and all alignments of tokens to the 128-bit elements.", "anchors": ["src/hls/842_decomp.cpp:opcode_tokenizer", "src/hls/842_decomp.cpp:get_parameter_length", "src/hls/842_decomp.cpp:swap_endianness_input"]}
{"id": "C64", "title": "The FPGA tokenizer consumes its transfer", "statement": "After the tokenizer has delivered the last token of a transfer, nothing of that transfer is left in the input stream, so that the next call starts with the next transfer.", "quantifier": "every transfer that carries a hardware stream, its CRC and padding", "why_tests_cant": "All streams and alignments.", "anchors": ["src/hls/842_decomp.cpp:opcode_tokenizer"]}
{"id": "C65", "title": "optsw842_compress gives the shortest stream", "statement": "The output of optsw842_compress is never longer than that of sw842_compress for data without zero blocks.", "quantifier": "every input of whole 8-byte blocks without zero blocks", "why_tests_cant": "All inputs.", "anchors": ["src/serial_optimized/842_compress.cpp:optsw842_compress", "src/serial_optimized/842_compress.cpp:update_hashtables"]}
{"id": "C66", "title": "The branch-free build is interchangeable with the default build", "statement": "Built with BRANCH_FREE set to 1, optsw842_compress and optsw842_decompress return the same code, size and bytes as in the default build, and the decompressor writes nothing outside its output buffer, on every processor on which a 64-bit shift by 64 has a result (for the compressor: leaves 0 at 0).", "quantifier": "every input, valid or not, every buffer size, alignment, endianness, and every result of an overlong shift", "why_tests_cant": "Two implementations of every template must agree on all data and all malformed inputs; the branch-free one is not even built by the tests.", "anchors": ["src/serial_optimized/842_decompress.cpp:do_op", "src/serial_optimized/842_compress.cpp:process_next", "src/common/opcodes.h:templates", "src/serial_optimized/842-internal.h:BRANCH_FREE"]}
{"id": "C67", "title": "The branch-free build has defined behaviour", "statement": "Built with BRANCH_FREE set to 1, no call executes an operation that C++ leaves undefined on inputs that the default build handles.", "quantifier": "every input", "why_tests_cant": "All inputs; a test shows only what one compiler made of it.", "anchors": ["src/serial_optimized/842_decompress.cpp:do_op", "src/serial_optimized/842_compress.cpp:process_next"]}
{"id": "C68", "title": "In-place decompression on the OpenCL device restores every chunk", "statement": "With INPLACE_COMPRESSED_CHUNKS, every chunk that holds a well-formed stream at its end is replaced by the data it denotes, every raw chunk stays as it is, and the memory around the chunks is not touched.", "quantifier": "every number of chunks, content, chunk size, shuffle map and order of the work items", "why_tests_cant": "Whether the output overtakes the input depends on the whole content of a chunk; the header warns of it without saying when.", "anchors": ["src/ocl/decompress.cl:decompress", "src/ocl/decompress.cl:decompress_core", "include/lib842/cl.h:INPLACE_COMPRESSED_CHUNKS"]}
{"id": "C69", "title": "In-place decompression ends and stays inside of its chunk", "statement": "Whatever the content of the buffer, even when the output overwrites compressed data not read yet, in-place decompression of a chunk ends, returns 0, -EINVAL or -ENOSPC, writes at most the announced room and accesses nothing outside of the buffer.", "quantifier": "every content, position and length of the compressed data, room and endianness", "why_tests_cant": "All contents, including those that change under the reader.", "anchors": ["src/ocl/decompress.cl:decompress_core", "src/ocl/decompress.cl:read_bits"]}
{"id": "C70", "title": "The optional arrays of the OpenCL decompressor can be left out", "statement": "Leaving out the array of compressed sizes, of output sizes or of return values changes nothing else: chunks that decompress with the arrays decompress to the same data without them, and nothing outside of the buffers is accessed.", "quantifier": "every number of chunks, content, shuffle map, order of the work items and choice of arrays", "why_tests_cant": "The sizes also bound the reads; whether a read leaves the buffer depends on the content and the position of each chunk.", "anchors": ["include/lib842/cl.h:CLDeviceDecompressor::decompress", "src/ocl/decompress.cl:decompress", "src/ocl/decompress.cl:read_bits"]}
{"id": "C71", "title": "What the sample program writes is what the OpenCL decompressor reads", "statement": "The documented way to lay out a file (chunks compressed with optsw842_compress, or in the mixed format marker, size and data at the end of the chunk) followed by CLHostDecompressor::decompress without arrays gives back the file.", "quantifier": "every file of whole chunks, chunk size, order of compression, shuffle map and order of the work items", "why_tests_cant": "All contents and schedules; two pieces of code must agree on a format.", "anchors": ["sample/compdecomp_cl.cpp:compress_benchmark_core", "src/ocl/cl842decompress.cpp:CLHostDecompressor::decompress", "src/ocl/decompress.cl:decompress"]}
{"id": "C72", "title": "Return values and shuffle map of the device decompressor are what the header says", "statement": "CLDeviceDecompressor::decompress, called as declared, writes the error code of each chunk to returnValues and only reads chunkShuffleMap.", "quantifier": "every number of chunks, content and order of the work items", "why_tests_cant": "All numbers of chunks; the tests use only CLHostDecompressor.", "anchors": ["include/lib842/cl.h:CLDeviceDecompressor::decompress", "src/ocl/cl842decompress.cpp:CLDeviceDecompressor::decompress"]}
{"id": "C73", "title": "The hardware calls do what the software calls do, within limits they check", "statement": "hw842_compress, hw842_decompress and their chunked variants do for every chunk what the driver does for it, skip chunks with length SIZE_MAX, and change nothing else; calls outside of the limits of the driver interface (alignment, number of chunks, 32-bit sizes) fail with -EINVAL and change nothing, and errors of the driver are returned.", "quantifier": "every number of chunks, stride, length, address, alignment requirement and behaviour of the driver", "why_tests_cant": "Overflow of 32-bit sizes and the sentinel for skipped chunks depend on all arguments; the driver is not available in tests.", "anchors": ["src/cryptodev/842_interface.c:hw842_compress", "src/cryptodev/842_interface.c:hw842_decompress", "src/cryptodev/842_interface.c:hw842_compress_chunked", "src/cryptodev/842_interface.c:hw842_decompress_chunked"]}
{"id": "C74", "title": "Threads share the hardware without leaks", "statement": "Each thread that uses the hardware calls has one session of its own, opened by its first call and closed when the thread ends; a call that fails leaves no open descriptor or memory behind, and none is left when all threads have ended.", "quantifier": "every sequence of calls and thread ends, every failure of a system call", "why_tests_cant": "All histories and all combinations of failures.", "anchors": ["src/cryptodev/842_interface.c:hw842_compress", "src/cryptodev/842_interface.c:hw842_decompress", "include/lib842/hw.h"]}
{"id": "C75", "title": "The cache of the OpenCL program never gives a wrong program and never is in the way", "statement": "A decompressor that is built has the program for its own source, chunk size, stride, format and devices, whatever earlier runs left in the cache file, wherever they were interrupted; building fails only if compiling fails; after a complete run the next one with the same configuration uses the cache.", "quantifier": "every sequence of runs and configurations, every point of interruption, every content of the file, processes running at the same time", "why_tests_cant": "Crash points, histories and interleavings of processes.", "anchors": ["src/ocl/cl842decompress.cpp:program_cache", "src/ocl/cl842decompress.cpp:CLDeviceDecompressor::buildProgram"]}
{"id": "C76", "title": "The kernel source compiled into the library is the kernel source", "statement": "The C file that cl2c writes declares a string that denotes exactly the text of the kernel file, and the build fails if the file cannot be read.", "quantifier": "every text", "why_tests_cant": "All texts: quoting must agree with the rules of the C language for any sequence of characters.", "anchors": ["src/tools/cl2c.cpp:main", "CMakeLists.txt:cl2c"]}
{"id": "C77", "title": "The sample program succeeds for every file", "statement": "The sample program for the software codecs pads the given file, compresses and decompresses it in batches of chunks on several threads, and exits with success; it reports as compressed size the sum of what its chunks need on their own.", "quantifier": "every file, every order of the threads, every content of uninitialised memory, both byte orders", "why_tests_cant": "All files and orders: incompressible chunks take another path, and the batches share arrays.", "anchors": ["sample/compdecomp.c:compress_benchmark_core", "sample/compdecomp.c:simple_test_core", "sample/compdecomp_driver.c:compdecomp", "sample/compdecomp_driver.c:nextMultipleOfChunkSize"]}
{"id": "C78", "title": "The threads of a stream are spread evenly over the NUMA nodes", "statement": "Starting a stream binds its threads to NUMA nodes: every thread to the CPUs of one node that the process may use, the nodes taken in turn, so that two nodes differ by at most one thread.", "quantifier": "every machine topology, every number of threads, every failing system call", "why_tests_cant": "A test runs on one machine; the property is about all topologies, including gaps in the CPU numbers and nodes without CPUs.", "anchors": ["src/stream/numa_spread.cpp:spread_threads_among_numa_nodes", "src/stream/numa_spread.cpp:get_numa_cpusets"]}
{"id": "C79", "title": "The logarithm at compile time is the floored base-2 logarithm", "statement": "The header that computes a logarithm at compile time yields, for the argument n, the largest k with 2^k <= n, as its comment says.", "quantifier": "every positive argument of 32 bits", "why_tests_cant": "The table has 32 entries and each is selected by a range of arguments; the three documented examples hit three of them.", "anchors": ["src/common/static_log2.h:STATIC_LOG2_VALUE", "src/cuda/842-internal.h:LIB842_CUDA_CHUNK_SIZE"]}
{"id": "C80", "title": "The sample program for the streams restores its input", "statement": "compress_benchmark_core of the streams sample, which compresses a buffer with one stream and decompresses the blocks with another, returns true exactly if the buffer consists of whole blocks, and has then restored it; it always returns, after a number of steps bounded by the numbers of blocks and threads, and has no undefined behaviour on the way. The program as a whole ends with exit status 0 for every file that is not empty, has restored it (padded with zeros to whole blocks) and reports the sum of the sizes of the chunks.", "quantifier": "every input, every number of threads, every interleaving of the main thread with the threads of both streams, every spurious wakeup", "why_tests_cant": "The result depends on the order in which threads fetch, deliver and decompress blocks; a test sees a few of these orders.", "anchors": ["sample/compdecomp_streams.cpp:compress_benchmark_core", "sample/compdecomp_streams.cpp:simple_test_core", "sample/compdecomp_driver.c:compdecomp", "src/stream/DataCompressionStream.cpp:DataCompressionStream::handle_block", "src/stream/DataDecompressionStream.cpp:DataDecompressionStream::handle_block"]}
{"id": "C81", "title": "The preferred alignment of an implementation meets its required alignment", "statement": "A buffer allocated with the preferred alignment of an implementation has every chunk at a multiple of the required alignment if the chunks are that far apart; the descriptor of the hardware implementation does not change after it was first returned, and chunks of such buffers are never refused for their alignment by the hardware calls.", "quantifier": "every implementation, every buffer and chunk, every history of threads asking for the descriptor, using the hardware and ending, every failure of the operating system on the way, every alignment a driver may ask for", "why_tests_cant": "What a driver asks for, and which call of the operating system fails first, is not under the control of a test.", "anchors": ["include/lib842/common.h:lib842_implementation", "src/cryptodev/842_interface.c:get_hw842_implementation", "src/cryptodev/842_interface.c:hw842_get_required_alignment", "src/aix/aix.c:get_aix842_implementation", "src/serial/842_compress.c:get_sw842_implementation", "src/serial_optimized/842_compress.cpp:get_optsw842_implementation"]}
{"id": "C82", "title": "The chunked calls of the AIX back end equal single calls", "statement": "aix842_compress_chunked and aix842_decompress_chunked do for every chunk what the single call does, skip the chunks marked with SIZE_MAX, and change nothing else.", "quantifier": "every behaviour of the functions of the operating system that stay inside of the output area, every number and size of chunks", "why_tests_cant": "The functions of the operating system are not available on the machines that run the tests.", "anchors": ["src/aix/aix.c:aix842_compress_chunked", "src/aix/aix.c:aix842_decompress_chunked", "src/common/trivial_chunked.h:LIB842_DEFINE_TRIVIAL_CHUNKED_COMPRESS"]}
{"id": "C83", "title": "Threads of the CUDA kernel do not disturb each other", "statement": "However the threads of a launch of the CUDA decompression kernel interleave, at every single access to memory: no two of them race, none accesses memory outside of the buffers or runs on forever, and the chunk of a thread that has ended is what its stream denotes, whatever the others still do.", "quantifier": "every number of chunks, every well-formed input, every interleaving of the accesses of all threads, every moment of the execution", "why_tests_cant": "Which thread runs when is up to the device; a test sees one order of some thousands of accesses.", "anchors": ["src/cuda/842_decompress.cu:cuda842_decompress", "src/cuda/842_decompress.cu:get_index", "sample/compdecomp.cu:compress_benchmark"]}
{"id": "C84", "title": "Work items of the OpenCL kernel do not disturb each other", "statement": "However the work items of a launch of the OpenCL decompression kernel interleave, at every single access to memory: none accesses memory outside of the buffers or runs on forever, and the chunk, size and return value of a work item that has ended, and all buffers when all have ended, are those of the work items running one after the other; valid or not, an input chunk affects no other chunk.", "quantifier": "every number and size of chunks, every content including malformed streams, every shuffle map, every interleaving of the accesses of all work items, every moment of the execution", "why_tests_cant": "Which work item runs when is up to the device; a test sees one order of some thousands of accesses.", "anchors": ["src/ocl/decompress.cl:decompress", "src/ocl/decompress.cl:decompress_core", "src/ocl/cl842decompress.cpp:CLDeviceDecompressor::decompress"]}
{"id": "C85", "title": "Work items of the OpenCL kernel do not race", "statement": "Two work items of a launch of the OpenCL decompression kernel never access the same byte at the same time if one of them writes it (otherwise the behaviour is undefined in OpenCL).", "quantifier": "every number and size of chunks, every content including malformed streams, every interleaving of the accesses of all work items", "why_tests_cant": "Races show in some interleavings on some devices only, and this one needs an input that decompresses to more than a chunk.", "anchors": ["src/ocl/decompress.cl:decompress", "src/ocl/decompress.cl:do_op", "src/ocl/decompress.cl:decompress_core"]}
{"id": "C86", "title": "Streams are free of data races", "statement": "The threads of a compression or decompression stream and the user who calls its members in the documented order never access the same member of the stream, nor the same part of the user's buffers, at the same time if one of them writes it (otherwise the behaviour is undefined in C++).", "quantifier": "every number of threads, every sequence of calls including destruction at any time, every interleaving, every failure pattern, every moment of the execution", "why_tests_cant": "A data race shows only in some interleavings, on some compilers and machines; a race detector sees the executions of the test.", "anchors": ["src/stream/DataCompressionStream.cpp:DataCompressionStream::loop_compress_thread", "src/stream/DataCompressionStream.cpp:DataCompressionStream::~DataCompressionStream", "src/stream/DataDecompressionStream.cpp:DataDecompressionStream::loop_decompress_thread", "src/stream/DataDecompressionStream.cpp:DataDecompressionStream::~DataDecompressionStream"]}
{"id": "C87", "title": "Work items do not need the optional arrays", "statement": "However the work items of a launch of the OpenCL decompressor interleave: leaving out the array of return values changes nothing else for any content, and leaving out the array of output sizes changes nothing else for chunks that decompress.", "quantifier": "every number of chunks, content, shuffle map, choice of arrays, interleaving of memory accesses and moment of it", "why_tests_cant": "Which array is null changes which accesses a work item makes and the bound it checks; interleavings cannot be enumerated.", "anchors": ["src/ocl/decompress.cl:decompress", "include/lib842/cl.h:CLDeviceDecompressor::decompress"]}
{"id": "C88", "title": "No content makes the OpenCL decompressor write outside of its chunks", "statement": "Whatever the compressed data, the work items of the OpenCL decompressor stay inside the buffers and write nothing outside of the output chunks, whichever of the arrays 'only for error-checking' are null.", "quantifier": "every content (also malicious), number of chunks, choice of arrays, interleaving", "why_tests_cant": "It is a statement about all byte strings, including those no compressor makes.", "anchors": ["src/ocl/decompress.cl:decompress", "src/ocl/decompress.cl:decompress_core", "include/lib842/cl.h:CLDeviceDecompressor::decompress"]}
{"id": "C89", "title": "The sample for NUMA machines succeeds", "statement": "On a machine whose nodes have the same number of threads, the sample programs for PGASUS (with its own workers or with nested OpenMP teams) compress and decompress every chunk of every non-empty file of less than 2 GiB exactly once and end with status 0, however the threads are scheduled and whichever number each thread gets.", "quantifier": "every file, chunk size, number of nodes and of threads, schedule of both parallel phases", "why_tests_cant": "The numbers of the threads come from an atomic counter in the order in which they happen to start; schedules cannot be enumerated.", "anchors": ["sample/compdecomp_pgasus.cpp:main", "sample/compdecomp_pgasus_omp.cpp:main"]}
{"id": "C90", "title": "The workspace of a NUMA node holds its buffers", "statement": "The sample for NUMA machines creates, for every node, a memory source whose size is the smallest power of two that is not smaller than its input, compressed and decompressed buffers together.", "quantifier": "every length of the input of a node up to 2^61 bytes", "why_tests_cant": "It is arithmetic over all 64-bit numbers.", "anchors": ["sample/compdecomp_pgasus.cpp:next_pow2", "sample/compdecomp_pgasus_omp.cpp:next_pow2"]}
{"id": "C91", "title": "The CUDA sample succeeds", "statement": "The CUDA sample program restores every non-empty file that it compresses in chunks on the host and decompresses on the device, with unified memory (any size, several launches) and without (up to 16 GiB, one launch), and its fixed string, and reports success, however the loop iterations and the accesses of the threads of the kernel interleave; the program ends if every thread gets 2176 turns.", "quantifier": "every file, order of the compression loop, interleaving of the memory accesses of the kernel's threads", "why_tests_cant": "Interleavings of thousands of threads cannot be enumerated.", "anchors": ["sample/compdecomp.cu:main", "sample/compdecomp.cu:nextMultipleOfChunkSize"]}
{"id": "C92", "title": "A sample program does not report success falsely", "statement": "Whatever the library functions it is built with do (return codes, lengths and output of any kind, without undefined behaviour), the sample program for the CPU, the one for the streams and the two for NUMA machines report success only if the decompressed data is the input.", "quantifier": "every library behaviour, file, schedule of the threads", "why_tests_cant": "A test runs the program with the correct library, where it always succeeds; the claim is about all faulty ones.", "anchors": ["sample/compdecomp.c:compress_benchmark_core", "sample/compdecomp_driver.c:compdecomp", "sample/compdecomp_streams.cpp:compress_benchmark_core", "sample/compdecomp_pgasus.cpp:main", "sample/compdecomp_pgasus_omp.cpp:main"]}
{"id": "C93", "title": "The compressors give back all memory and need only so much", "statement": "When sw842_compress or optsw842_compress returns, successfully or with an error, the blocks allocated are those that were allocated before the call, unchanged: nothing is leaked, freed twice or used after it is freed, and nothing of the caller is touched. The number of blocks the call has allocated at any time is at most 2052 for sw842_compress (2 for optsw842_compress with aligned pointers), however long the input is.", "quantifier": "every input, output buffer, state of the heap and choice of addresses by malloc, content of new memory, byte order", "why_tests_cant": "The tables are linked lists whose shape depends on the whole history of the input; a leak or a dangling pointer shows up only for inputs whose values recur at particular distances.", "anchors": ["src/serial/842_compress.c:replace_hash", "src/serial/842_compress.c:destroy_hashtable", "src/serial/842_compress.c:sw842_compress", "src/serial_optimized/842_compress.cpp:optsw842_compress", "src/serial_optimized/bitstream.cpp:stream_open"]}
{"id": "C94", "title": "Running out of memory is reported as an error", "statement": "If an allocation fails during a call of sw842_compress or optsw842_compress, the call returns an error and gives back what it had allocated.", "quantifier": "every input and every point at which malloc fails", "why_tests_cant": "Tests run with memory left; the claim is about every point of failure.", "anchors": ["src/serial/842_compress.c:sw842_compress", "src/serial/842_compress.c:replace_hash", "src/serial_optimized/842_compress.cpp:optsw842_compress"]}
{"id": "C95", "title": "The OpenCL decompressor uses the available devices of one platform, GPUs first", "statement": "The constructor of the OpenCL decompressor for host memory uses all available GPUs of the first platform that has any; if no platform has an available GPU, all available CPUs of the first platform that has any; the first of them does the decompression. It never uses a device that is not available, and if there is no device it throws CL_DEVICE_NOT_FOUND. An error of a query other than 'no such device' is passed on.", "quantifier": "every list of platforms, every list of devices of each type on each, every outcome of each query", "why_tests_cant": "Tests run on one machine with one set of devices.", "anchors": ["src/ocl/cl842decompress.cpp:CLHostDecompressor::findDevices", "src/ocl/cl842decompress.cpp:CLHostDecompressor::CLHostDecompressor"]}
{"id": "C96", "title": "The other variants of the CPU sample restore the file", "statement": "Built with CHUNKS_PER_BATCH = 1 or with CONDENSE (the compressed chunks are moved together before they are decompressed), compress_benchmark_core of the CPU sample succeeds for every file, reports the sum of the sizes of the compressed chunks and restores the file; and it never reports success without having restored it.", "quantifier": "every file, chunk size and batch size, every order of the threads in each of the three parallel loops, content of uninitialised memory, sw842 and optsw842", "why_tests_cant": "The variants are not compiled by default; positions and sizes depend on how each chunk compresses.", "anchors": ["sample/compdecomp.c:compress_benchmark_core"]}
{"id": "C97", "title": "The OpenCL sample program restores the file", "statement": "Started with any file that is not empty, or with none, the OpenCL sample program ends with status 0 and has restored the file (padded with zeros to whole chunks), in each of its three formats, with and without the shuffle map; the compressed size it reports is the sum of the sizes of the compressed chunks; and it never ends with status 0 if it has not restored the file.", "quantifier": "every file, power of two as the chunk size, content of uninitialised host and device memory, order of the host's threads and of the work items, byte order, format", "why_tests_cant": "Positions, markers and the choice between stored and compressed chunks depend on the data; the in-place format works or not depending on how the compression ratio varies within a chunk.", "anchors": ["sample/compdecomp_cl.cpp:compress_benchmark_core", "sample/compdecomp_cl.cpp:simple_test", "sample/compdecomp_driver.c:compdecomp", "src/cl/cl842decompress.cpp:CLHostDecompressor::decompress"]}
{"id": "C98", "title": "The switches of the optimized codec keep its format", "statement": "Whether the optimized codec is built with or without repeat and zeros templates, with or without the decompressor's error checks and with or without the CRC, what one build compresses any other build restores, provided the CRC is written wherever it is checked; the compressed bytes depend only on the input, conform to the 842 format and have a bounded size; without the error checks every valid input still gives the same result as with them.", "quantifier": "every input, setting of the three switches on either side, buffer content, alignment, byte order", "why_tests_cant": "The switches are compile-time: a test suite is built with one setting, and compatibility ranges over pairs of builds and over all inputs.", "anchors": ["src/serial_optimized/842-internal.h:LIB842_CUDA_STRICT", "src/serial_optimized/842-internal.h:ENABLE_ERROR_HANDLING", "src/serial_optimized/842_compress.cpp:optsw842_compress", "src/serial_optimized/842_decompress.cpp:optsw842_decompress"]}
{"id": "C99", "title": "The switches of the OpenCL kernel keep its format", "statement": "Whether the OpenCL kernel is built with or without its lookahead buffer, its error checks and the CRC: every valid chunk is decompressed to the same bytes, also one written by any build of the optimized compressor, provided the CRC is written wherever it is read; without the lookahead buffer every chunk size up to the buffer's own, and also an absent one, is read safely; with the error checks every other chunk gives an error and nothing is written behind its room.", "quantifier": "every chunk, size, room, memory content, setting of the three switches, byte order", "why_tests_cant": "The switches are compile-time: a test suite is built with one setting; reads outside a device buffer are not observable in a test; all inputs are quantified over.", "anchors": ["src/ocl/decompress.cl:USE_LOOKAHEAD_BUFFER", "src/ocl/decompress.cl:ENABLE_ERROR_HANDLING", "src/ocl/decompress.cl:DISABLE_CRC", "src/ocl/decompress.cl:decompress_core"]}
{"id": "C100", "title": "The CUDA kernel built without the strict format", "statement": "Built without the switch for the standard 842 format, the CUDA kernel decompresses every well-formed stream of its own format (indices that count items from the start of the chunk, no repeat and zeros templates) to the bytes it denotes, whatever the order of the threads, and changes nothing else in the output buffer; and what the optimized compressor writes with any setting of its switches is decompressed back by the standard kernel. A user who builds compressor and kernel with the same setting expects that they fit together.", "quantifier": "every stream, chunk size 2^4 to 2^60 (1024 for launches), output buffer content, order of threads, compressor setting, byte order", "why_tests_cant": "The switch is compile-time and no test is built without it; all streams and thread orders are quantified over.", "anchors": ["src/cuda/842_decompress.cu:LIB842_CUDA_STRICT", "src/cuda/842-internal.h:I2_BITS", "src/serial_optimized/842-internal.h:LIB842_CUDA_STRICT", "src/cuda/842_decompress.cu:cuda842_decompress"]}
{"id": "C101", "title": "Strict mode of the serial compressor", "statement": "With the switch SW842_STRICT, as its comment promises, every compressed buffer that sw842_compress produces can be decompressed by a reader of the hardware format: the optimized decompressor and the CUDA kernel restore the input. A length that is not a multiple of 8 is refused with -EINVAL, size 0, and an untouched output buffer; for other lengths the switch changes nothing. Without the switch, a buffer made from another length is one that no reader of the hardware format accepts as anything.", "quantifier": "every input, output buffer, capacity, address, byte order, both settings of the switch", "why_tests_cant": "The switch is a compile-time constant and off; the format of every output is quantified over.", "anchors": ["src/serial/842_compress.c:SW842_STRICT", "src/serial/842_compress.c:sw842_compress"]}
{"id": "C102", "title": "The size of optsw842_compress output is determined by the data", "statement": "For 8-byte aligned buffers the size of what optsw842_compress writes is a function of the data alone, rounded up to whole 64-bit words: 11 bits for every 64 repetitions of a block, 5 for a zero block, and for any other block 5 plus the arguments of the shortest template all of whose references are found, where a reference for a piece is found exactly if what is now in the place of the last piece entered in the piece's hash slot equals the piece; then the end template and the CRC. With at least that much room the call succeeds with that size, with less it fails with -ENOSPC.", "quantifier": "every input of a multiple of 8 bytes, buffer, capacity, byte order", "why_tests_cant": "Losing references keeps every output correct, so tests of round trips cannot see it; the size must be right for every history of the hash tables.", "anchors": ["src/serial_optimized/842_compress.cpp:find_index", "src/serial_optimized/842_compress.cpp:update_hashtables", "src/serial_optimized/842_compress.cpp:process_next"]}
{"id": "C103", "title": "Recurring data is found by optsw842_compress", "statement": "A block that recurs within the last 256 blocks is encoded as a reference of 13 bits, whatever the blocks between are, as long as none has its hash. (Holds for data with a period of 2 to 256 blocks without zero blocks. Does not hold when zero blocks are between: the code enters a zero block in the slots of the last block that was looked up, and so loses that block; for a block alternating with zero blocks, however long, optsw842_compress needs 74 bits per pair and sw842_compress 18.)", "quantifier": "every period, every number of periods, every block and every length of the alternation", "why_tests_cant": "The data that loses references must be of a special form that no test of the repository has.", "anchors": ["src/serial_optimized/842_compress.cpp:update_hashtables", "src/serial_optimized/842_compress.cpp:optsw842_compress"]}
{"id": "C104", "title": "The FPGA test program prints the tokens of its input", "statement": "The program built from the FPGA source ends for every transfer, well-formed or not, prints one line for every token of the transfer, with its opcode and its arguments as a number, in order up to and including the end, and leaves nothing unread in the stream of tokens. What it prints determines the tokens.", "quantifier": "every transfer of 16-byte blocks and whatever follows it in the input stream", "why_tests_cant": "The program runs on one literal input; alignment and shift of the arguments must be right for every opcode and every position in the 266-bit buffer.", "anchors": ["src/hls/842_decomp.cpp:main", "src/hls/842_decomp.cpp:opcode_tokenizer", "src/hls/842_decomp.cpp:get_parameter_length"]}
{"id": "C105", "title": "What the test suite checks for its samples holds for all data", "statement": "Each program of the test suite passes with both software implementations not only for its built-in patterns, seed and sizes but for all of them: compressing and restoring any pattern, too small buffers, lengths that are not a multiple of 8, any compressed form of a pattern, any stream with a wrong CRC, any stream whose first template is impossible, any pair of sizes in the regression test for writes beyond the capacity, any seed, size and number of rounds in the test with diffused data, and any seed in the fuzz test. The diffused data become all zeroes within the 13 rounds of the program, whatever they were.", "quantifier": "every pattern, compressed form, seed, size, number of rounds, address of the buffers, content of fresh memory and byte order of the host", "why_tests_cant": "The programs run with six patterns, two seeds and three pairs of sizes.", "anchors": ["test/test_compress_pattern.c:main", "test/test_compress_pattern_unaligned.c:main", "test/test_compress_pattern_barelysmall.c:main", "test/test_compress_notmultipleof8.c:main", "test/test_compress_diffuse.c:main", "test/test_decompress_pattern.c:main", "test/test_decompress_pattern_unaligned.c:main", "test/test_decompress_pattern_halfsmall.c:main", "test/test_decompress_pattern_barelysmall.c:main", "test/test_decompress_crcerror.c:main", "test/test_decompress_invalid_simple.c:main", "test/test_decompress_boundscheck.c:test_bound", "test/test_decompress_invalid_generator.c:main"]}
{"id": "C106", "title": "Decompression can be repeated with a larger buffer", "statement": "For every input, valid or not: a call of the decompressor that does not say -ENOSPC has the final result, and every call with a larger buffer gives the same return value, size and data. A caller that enlarges the buffer after -ENOSPC comes to an end: no input of n bytes says -ENOSPC when the buffer has 512/11 bytes for every bit of it (for sw842_decompress, while this is at most UINT_MAX).", "quantifier": "every input, every pair of capacities, every address and content of the output buffers, every host", "why_tests_cant": "The order of the checks for space, for the end of the input and for references must be right in every template and at every position; tests have a few capacities for valid streams.", "anchors": ["src/serial/842_decompress.c:sw842_decompress", "src/serial_optimized/842_decompress.cpp:optsw842_decompress", "src/ocl/decompress.cl:decompress_core"]}
{"id": "C107", "title": "How far compressed data can expand", "statement": "A buffer of n bytes never decompresses to more than 512/11 * (8 n - 37) bytes, whatever bytes it has, and no input compresses to fewer bytes than this allows. The factor is exact: for every k some buffer of at most 11 k + 105 bits decompresses to 512 k + 8 bytes.", "quantifier": "every input of the decompressors, every input of the compressors, every k", "why_tests_cant": "An upper bound on what any byte string expands to, which a service needs against decompression bombs, is not shown by any number of examples.", "anchors": ["src/serial/842_decompress.c:sw842_decompress", "src/serial/842_compress.c:sw842_compress", "src/serial_optimized/842_decompress.cpp:optsw842_decompress", "src/serial_optimized/842_compress.cpp:optsw842_compress", "src/ocl/decompress.cl:decompress_core"]}
{"id": "C108", "title": "Appending data never makes the compressed buffer smaller", "statement": "For a first part of whole 8-byte blocks and any second part: both parts together never compress to fewer bytes than the first alone, and to at most 69 bits more for every 8 bytes of the second part (8 + 8 r bits for r remaining bytes), rounded up to 64-bit words. If the first part does not fit into a buffer, both together do not either.", "quantifier": "every first part of whole blocks, every second part, every buffer, address and host", "why_tests_cant": "It must hold wherever the data is cut, whatever repetition is pending there, and for every state of the dictionaries; tests compress a few samples as a whole.", "anchors": ["src/serial/842_compress.c:sw842_compress", "src/serial_optimized/842_compress.cpp:optsw842_compress"]}
{"id": "C109", "title": "Chunked round trip", "statement": "Data cut into chunks and compressed with a chunked compression call, each chunk with at least the room the size bound asks for, is compressed with return code 0 for every chunk; passing the compressed areas and the reported lengths on to a chunked decompression call restores, for every chunk, return code 0, the original length and the original bytes. It holds for sw842 with chunks of any lengths, and for any mixture of sw842 and optsw842 with non-empty chunks that are multiples of 8 bytes long, at any alignment of the buffers, and across hosts of different endianness; and for the AIX calls and, within the limits they check, the hw842 calls, if the system and the device restore single chunks.", "quantifier": "every number of chunks, all data, lengths, strides with offsets below 2^32, buffers, addresses and both byte orders on each side", "why_tests_cant": "The result depends on every chunk's data, length and position at once and on the alignment of each area; tests use a few equal chunks.", "anchors": ["src/common/trivial_chunked.h:LIB842_DEFINE_TRIVIAL_CHUNKED_COMPRESS", "src/serial/842_compress.c:sw842_compress_chunked", "src/serial/842_compress.c:sw842_decompress_chunked", "src/serial_optimized/842_compress.cpp:optsw842_compress_chunked", "src/serial_optimized/842_compress.cpp:optsw842_decompress_chunked"]}

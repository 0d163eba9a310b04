# Formal model of plauth/lib842 in Rocq: design, trusted base, findings

All Coq sources are in `rocq/theories`, logical name `Verif`, Coq 8.16.1.

| kind of file | names | content |
|---|---|---|
| model | `CBase.v`, `*Model.v`, `*Table.v`, `TestPatterns.v` | definitions only; every definition cites the lines of `/repo` it models and says where it simplifies |
| specification | `Spec*.v` | what the theorems talk about (the format, the CRC, what a caller observes, histories of a stream, ...), without reference to the model |
| proofs | all others | lemmas |
| properties | `Prop*.v` | the property theorems, each proved by `exact lemma`, followed by `Print Assumptions` and beside it an `Example` showing that a concrete non-trivial case meets the hypotheses |

`properties.jsonl` and `MANIFEST.json` are written by `tools/props.py` and `tools/manifest.py`; the latter checks that
every theorem of `Prop*.v` is claimed and every claimed theorem exists.  A name ending in `_partial` is a theorem that
covers part of the property; a name ending in `_refuted` proves, with a witness, that the code does not have the property.
Properties with a `_refuted` theorem have status "partial" in the manifest.

## Representation

* Bytes and machine words are `Z`; buffers are `list Z`; `is_bytes l` says every element is in [0,256).
  Wrap-around is written out (`u64`, `u32`, ... are `mod 2^64`, `mod 2^32`, ...).
* A C function that can go wrong returns `outcome A := Done a | Undef | NoFuel`. `Undef` is undefined
  behaviour (an access outside of a buffer, an invalid shift, an access outside of a table, a failed assertion where
  assertions matter, ...). It is never assumed away: theorems prove that it does not occur or exhibit an input where it does.
  `NoFuel` is exhaustion of an explicit loop bound; theorems prove that it does not occur.
* Host byte order is a parameter `e : endian` (LE or BE); native loads, stores and swaps depend on it.
* Pointers are (buffer, offset); the addresses of the caller's buffers are extra parameters where the code looks at their
  alignment. Input and output buffers do not overlap.
* uthash and utlist are association lists and lists with the documented meaning. `malloc`/`new` succeed, except where the code
  itself turns a size into -ENOMEM. In HeapModel.v both are blocks on a heap with pointers, and `malloc` may fail.
* Threads: a labelled transition system, one step per critical section or per access to shared state; waiting on
  a condition variable is a separate state, `notify_all` moves the waiters, wakeups may be spurious. The theorems
  range over every reachable state, any number of threads and any sequence of calls of the user.

## Specification

* `Spec842.v`: the 842 format as an inductive relation `stream sw before bits after rest`, transcribed from the English in
  `src/common/842.h`, with the ring-buffer rule for indices; `valid_842 sw input x`.
* `SpecCrc.v`: bit-serial CRC-32. `SpecCalls.v`: what a caller observes. `SpecChunked.v`, `SpecBlock.v`: chunked calls, blocks.
* `SpecStream.v`, `SpecDStream.v`, `SpecSync.v`: histories (traces of calls and callbacks) of the streams, barrier, latch.
* `SpecOcl.v`: layout of the GPU buffers. `SpecOptimal.v`: sizes. `SpecRefs.v`: reading a stream with its references.
  `SpecTokens.v`: tokens of the FPGA front end.

## Properties: what is modelled and how it is proved

| id | model | proof idea |
|----|-------|-----------|
| C01 | sw842_compress, sw842_decompress | loop invariant: emitted bits + pending repeat denote the consumed prefix; dictionary invariant: every stored index denotes the value in the decoder's ring buffer; then C05 |
| C02 | same | ghost "ideal bit list"; simulation in two modes (still fits / already overflowed) |
| C03 | same | `Undef` unreachable; frame lemma for bytes after the capacity |
| C04 | same | length of the ideal bit list |
| C05 | sw842_decompress | refinement of next_bits to bit lists; induction on fuel (soundness) and on the relation (completeness) |
| C06 | same | refuted by a concrete stream (short data then repeat); partial theorem for the rest |
| C07, C08 | same | case analysis over the loop; each template consumes 5 bits |
| C09, C10, C11, C15 | same | determinism/prefix properties of the relation + C05 style induction |
| C12, C13, C14 | crc32_be, table, generator | linearity over GF(2); finite computation for tables; slicing lemma |
| C16-C21, C48, C49 | optsw842_* and bitstream | as for C01-C11 with word-granular writer/reader |
| C22-C26, C47 | all four software functions | corollaries of the exact-format theorems; the relation is deterministic |
| C27 | sw842_compress | computation of the ideal bits on runs by induction on their length |
| C28-C30, C50 | trivial_chunked.h | parametric in the single-chunk function; refutations for 32-bit offsets, the dropped error and the 32-bit counter |
| C31-C34, C52 | DataCompressionStream | transition system, n threads, invariant over all reachable states, measure for progress, separate invariant while the destructor runs |
| C35, C39, C51 | handle_block of both streams, Block | composition of chunked and round trip theorems; refutations; a lower bound for incompressible data |
| C36-C38, C53-C55 | DataDecompressionStream | transition system as above |
| C40, C41 | barrier, latch | transition systems |
| C42, C43, C56-C58 | decompress.cl, cl842decompress.cpp | refinement of decompress_core to a pure decoder; work items touch disjoint memory, so their order does not matter |
| C44 | kernel wrapper with the "maybe compressed" format | case analysis; a raw chunk that starts with the marker is a refutation |
| C45 | all decompressors | corollary: all refine the same relation |
| C46 | sw842 round trip above UINT_MAX bytes | refuted, for every such input: the decompressor ends with -ENOSPC above UINT_MAX bytes |
| C59, C60 | 842_decompress.cu | refinement to the pure decoder; refutations for malformed input and thread numbers from 2^24 on; PropOverrun.v: every stream for more than 1024 bytes overwrites the next chunk |
| C61 | sw842_compress | every template is at least as long as the first row of comp_ops that applies; dictionary lookup finds every reference the format allows; induction over any valid stream |
| C62, C65 | optsw842_compress | exhaustive check over the 2^7 sets of available references, lifted to all sets; C65 for data without shared slots by comparing the exact size (C102) with that of sw842_compress block by block; refutation by computation |
| C63, C64 | hls/842_decomp.cpp opcode_tokenizer | invariant: the 266-bit buffer holds the next bits left-aligned, at least 69 of them while the transfer goes on; induction over the tokens |
| C66, C67 | optsw842 with BRANCH_FREE 1 | both builds refine the same decoder and emit the same bits, for every result of an overlong shift; refutation by computation; PropShift.v: the compressor is undefined on every input that starts with a non-zero block and defined on every input of zeros |
| C68, C69 | the kernel built for INPLACE_COMPRESSED_CHUNKS | one iteration reads all its input before it writes; while the output stays behind what has not been read, input reads agree with a copy; otherwise simulation by a decoder with some other input; refutation by computation |
| C70 | the kernel without some of its arrays | what succeeds with a tighter bound succeeds with a wider one; from the specification of well-formed chunks directly, invariant over the work items |
| C71 | sample/compdecomp_cl.cpp, CLHostDecompressor::decompress | invariant over the producer loop in any order, then C70 |
| C72 | CLDeviceDecompressor::decompress as declared and as defined | some work item reads behind the buffer of the return values; in the order of the definition the buffer holds the code of every chunk, whatever its content |
| C73 | c842_compress_chunked, c842_compress, hw842_*; the driver is an arbitrary function | induction over the two loops, bit arithmetic for the alignment |
| C74 | c842_ctx_init/deinit, the thread-specific contexts; every system call may fail | invariant over histories of calls and thread ends |
| C75 | program_cache, buildProgram; compiler, loader and file system are parameters | parser/printer lemmas closed under prefixes, invariant over runs; witnesses for the rest |
| C76 | cl2c; SpecC.v is a small lexer of C string literals (phases 1, 2, 5 and 6) | induction over the text |
| C77 | compdecomp.c and compdecomp_driver.c over the modelled chunked calls; orders of the batches and uninitialised arrays are arguments | invariant over the batches done, using C28 for a batch and C02/C05/C17/C20 for a chunk |
| C78 | numa_spread.cpp over an arbitrary machine (nodes, CPUs, CPUs online, failing calls) | induction over the threads; counting lemma for residues |
| C79 | static_log2.h as a list of bit tests | the first set bit from above is Z.log2 |
| C80 | compdecomp_streams.cpp (compress_benchmark_core, main, the simple test) and compdecomp_driver.c: the main thread composed with the transition systems of both streams, with the data of the blocks | an invariant by position of the main thread; the measures of C33/C38/C52/C53 added up to a potential; a symbolic run for the refutation; for the program as a whole, the sizes of the blocks from those of the chunks, and with assertions the invariant that a raw block cannot be passed |
| C81 | the descriptors of all four implementations; get_hw842_implementation on top of the model of C74 | an invariant of histories; witnesses for the failures |
| C82 | src/aix/aix.c, with the functions of the operating system as parameters | the lemma of C28, which holds for every well-behaved single call |
| C83-C85 | both kernels once more, as threads that stop before every access to the output and to the arrays of sizes and return values | a program logic for one thread (footprint and number of accesses), against the functions of C42 and C59; an invariant of the machine because the footprints are disjoint; a reachable race as witness |
| C86 | the accesses to shared members of each step of both streams, with the mutexes held | the accesses are complete for the model (a step changes and depends on nothing else); races excluded by the guard of each variable, or by the invariants of C31-C38 (no thread works when the user is idle or the leader resets); a reachable race as witness |
| C87 | the kernel of C84 with null arrays | a program with more capacity does the same unless the other fails (simulation of programs); buffers that no program accesses can be removed from the machine; then the invariant of C84 |
| C88 | as C87 | from the invariant of C87 (cells of no work item keep their value); witnesses without output sizes |
| C89 | the two parallel phases as machines whose step is a thread taking its number or handling a chunk | invariant: the numbers of the threads that have started are different, and the chunks in front of the position of each thread are done; at the end a pigeonhole argument gives all chunks; the turns of a thread bound its remaining steps |
| C90 | next_pow2 | after the shifts by 1, 2, ..., 2^(i-1) a bit is set iff one of the 2^i bits from it on was set |
| C91 | main of the CUDA sample: the compression loop in any order, then one or several launches of the kernel of C83 with any schedule of single accesses | the result of the loop is a buffer as C83 needs it; a total schedule of turns refines to the steps of C83; the budget of accesses of a thread bounds the turns it needs |
| C92 | the sample models of C77, C80 and C89 with arbitrary functions in place of the library's | case analysis of the result; for the streams the invariant that all threads have exited before the comparison |
| C93 | the compressors again, with the hash tables as blocks on a heap linked by pointers (HeapModel.v), malloc and free; malloc is an arbitrary function that returns addresses not in use | refinement: the blocks of each table are those of an association list, the lists of utlist are doubly linked; induction over the input |
| C94 | the same with a malloc that may return NULL at any point | every function is undefined or as with a malloc that succeeds |
| C95 | the loops over device types, platforms and devices, with arbitrary answers of the OpenCL runtime and exceptions | induction over the platforms |
| C96 | compress_benchmark_core with CHUNKS_PER_BATCH = 1 and/or CONDENSE, three parallel loops in any order | as C77; the positions are the partial sums of the sizes, so the moved chunks do not overlap |
| C97 | sample/compdecomp_cl.cpp as a whole with its driver, the in-place branch of CLHostDecompressor::decompress | projection of the producer loop on the one of C71; C70, C68 and C16 for the three formats and the simple test |
| C98 | optsw842_compress and optsw842_decompress with LIB842_CUDA_STRICT, ENABLE_ERROR_HANDLING and DISABLE_CRC as parameters | the compressor's invariant (C17) with the loop without repeats and any end; simulation of the checked decompressor (C20) by the others |
| C99 | decompress_core of decompress.cl with USE_LOOKAHEAD_BUFFER, ENABLE_ERROR_HANDLING and DISABLE_CRC as parameters | the kernel without the lookahead simulates the one with it (C41) on the buffer padded by 7 bytes; the unchecked one simulates every successful run of the checked one |
| C100 | the kernel of 842_decompress.cu in its `#else` branches (no LIB842_CUDA_STRICT), chunk size 2^lg | induction on the stream, as C59, against the separate format in SpecCudaFlat.v; witnesses against the compressor's output |
| C101 | sw842_compress with SW842_STRICT as a parameter (StrictModel.v) | C02, C04 and the determinism of streams; hardware streams denote whole words only |
| C102 | optsw842_compress; the size as a function of the data in SpecFinds.v | invariant: every table entry is the place of the last piece entered in its slot; the look-ups then give exactly the found references, C62 the template |
| C103 | optsw842_compress, sw842_compress | from C102: induction over the blocks, for every data without zero blocks; refuted for a block alternating with zero blocks by induction over their number, with C61 for sw842_compress |
| C104 | hls/842_decomp.cpp main: the loop that reads the tokens, for any input stream | C63 and arithmetic on the left-aligned token; induction over the tokens |
| C105 | the test programs of test/ with the implementation, the data, the sizes and the seed as parameters | C02, C05, C15, C17, C20, C21 for every call; induction over the rounds; the largest byte shrinks by a third per round |
| C106 | sw842_decompress, optsw842_decompress, decompress_core (decompress.cl) | on the pure decoders: a step with more room is the same or was refused for space; 11 * written + 512 * bits left never grows |
| C107 | the format (Spec842.v), both compressors and decompressors, decompress_core | 11 * bytes + 512 * bits left never grows along a stream, by induction on it; for the lower bound a family of streams with k repeat templates, by induction on k |
| C108 | sw842_compress, optsw842_compress | both main loops, on the bits they emit: the loop over a ++ b is the loop over a and then the loop over b from the state reached; the bits emitted plus the pending repeat template never shrink and grow by at most 69 per block |
| C109 | the four chunked calls of sw842 and optsw842 | C28 (each chunk is a single call) for the compressing and for the decompressing call, composed with C02, C04 and C05 (sw842, any length) or C17, C20 and C26 (whole blocks, mixed codecs, any alignment); `ChunkedTrip.v`, `PropChunkedTrip.v`; for AIX and cryptodev composed with C82 and C73 (`ChunkedTripHw.v`, `PropChunkedTripHw.v`) |

## Trusted base

* Coq's kernel (and `vm_compute`, used for finite computations; no native_compute). No axioms: `Print Assumptions` says
  "Closed under the global context" for each of the property theorems. (The axiom list of the gate contains
  the `Under_rel` module-type fields of Coq's own ssreflect library: loaded transitively, used by no theorem.)
* No `Admitted`, functors, module types, plugins or switched-off checks.
* The transcription of the code into the `*Model.v` files: by hand, except the tables (`CrcTable.v`, `OpcodesTable.v`, `TestPatterns.v`:
  generated by `tools/gen_*.py` from the sources). As a check of the transcription, `ModelTests.v` runs the repository's own
  test suite (`/repo/test`) on the models when it is compiled (tests, not theorems). The models pass it; and
  stream 26 of test_decompress_invalid_generator.c makes sw842_decompress read before its buffer (C06), which the test does not notice.
* The specification files, to be read by whoever wants to know what was proved.
* Assumptions about the outside: C/C++ arithmetic on an LP64 host, `size_t` of 64 bits; `malloc` succeeds (except in C94); a mutex
  is a mutex; condition variables wake on notify (and maybe spuriously); callbacks and providers given by the user return; OpenCL/CUDA run
  every work item/thread to its end, in some order; PTX shifts by the full width give 0 (CudaModel.v says where).
* Build configuration: as the build files have it: `ENABLE_ERROR_HANDLING`, CRC enabled, `SW842_STRICT` 0, `BRANCH_FREE` 0, `LIB842_CUDA_STRICT`,
  CHUNK_SIZE 65536, 16 chunks in a block.

## What is modelled

| source | modelled in |
|---|---|
| src/common/endianness.h, memaccess.h, 842.h constants | CBase.v |
| src/common/crc32.h, crc32table.h, the generator gen_crc32table | CrcModel.v, CrcTable.v |
| src/common/opcodes.h | OpcodesTable.v |
| src/common/trivial_chunked.h (four instances) | ChunkedModel.v |
| src/serial/842_compress.c, 842_decompress.c | SerialCompModel.v, SerialDecompModel.v |
| src/serial_optimized/bitstream.cpp, 842_compress.cpp, 842_decompress.cpp | OptCompModel.v, OptDecompModel.v; with BRANCH_FREE 1: BranchFreeModel.v |
| include/lib842/detail/barrier.h, latch.h | BarrierModel.v |
| include/lib842/stream/block.h, src/stream/DataCompressionStream.cpp, DataDecompressionStream.cpp | StreamBlockModel.v, CompStreamModel.v, DecompStreamModel.v |
| src/ocl/decompress.cl, cl842decompress.cpp | OclModel.v; in-place mode: InplaceModel.v |
| cl.h, cl842decompress.cpp: CLDeviceDecompressor::decompress | DeviceModel.v |
| sample/compdecomp_cl.cpp, CLHostDecompressor::decompress | SampleModel.v, ClSampleModel.v |
| src/cuda/842_decompress.cu | CudaModel.v |
| src/hls/842_decomp.cpp: opcode_tokenizer | HlsModel.v |
| src/hls/842_decomp.cpp: main | HlsMainModel.v (the numbers of each printed line, not its text) |
| test/*.c: all programs | TestProgModel.v (data, sizes and seed are parameters; no messages, no argument parsing) |
| src/cryptodev/842_interface.c | CryptodevModel.v |
| sample/compdecomp.c, sample/compdecomp_driver.c (sw842, optsw842; without CONDENSE) | BenchModel.v |
| src/stream/numa_spread.cpp, src/common/static_log2.h | MiscModel.v |
| sample/compdecomp_streams.cpp (compress_benchmark_core) | StreamSampleModel.v |
| sample/compdecomp_streams.cpp (main, simple_test_core) with sample/compdecomp_driver.c | StreamMainModel.v |
| src/aix/aix.c; the descriptors (get_*_implementation) | ImplModel.v |
| src/cuda/842_decompress.cu, src/ocl/decompress.cl as interleaving threads | GpuModel.v, GpuOclModel.v |
| accesses to shared members in DataCompressionStream.cpp, DataDecompressionStream.cpp | StreamAccessModel.v |
| sample/compdecomp_pgasus.cpp, sample/compdecomp_pgasus_omp.cpp | PgasusModel.v |
| sample/compdecomp.cu (without USE_STREAMS, which does not compile) | CudaSampleModel.v |
| src/serial/842_compress.c, src/serial_optimized/842_compress.cpp: dynamic memory; utlist.h and uthash.h as far as used | HeapModel.v |
| src/ocl/cl842decompress.cpp: findDevices | DevicesModel.v |
| sample/compdecomp.c with CHUNKS_PER_BATCH = 1 or CONDENSE | CondenseModel.v |
| src/serial_optimized/842_compress.cpp, 842_decompress.cpp with the other settings of LIB842_CUDA_STRICT, ENABLE_ERROR_HANDLING, DISABLE_CRC (not BRANCH_FREE) | OptConfigModel.v |
| src/ocl/decompress.cl with the other settings of USE_LOOKAHEAD_BUFFER, ENABLE_ERROR_HANDLING, DISABLE_CRC; an invalid opcode without error handling is undefined behaviour | OclConfigModel.v |
| src/cuda/842_decompress.cu without LIB842_CUDA_STRICT (the inline assembly that loads an index value is modelled by its effect) | CudaFlatModel.v |
| src/serial/842_compress.c with SW842_STRICT | StrictModel.v |
| src/tools/cl2c.cpp | Cl2cModel.v |
| src/ocl/cl842decompress.cpp: program_cache, buildProgram | CacheModel.v |

## Not modelled

* The kernel driver behind `src/cryptodev` (a parameter of the model) and behind `src/aix` (accel_compress, accel_decompress; parameters as well).
* `hw842_decompress` in hls/842_decomp.cpp: not compiled (`#ifdef NOSYNTH`, nobody defines it).
* OpenCL program build, buffer transfer; CUDA launch and error handling; logging.
* Memory model: the transition systems are sequentially consistent; accesses outside of a lock are steps of their own. C86 shows that the only data race
  of the streams is that on `_quit`.
* Caches and reordering of the GPUs: C83-C85 interleave single accesses to one memory (sequential consistency), each of 1 to 16 bytes at once.
* Running time, cache effects, allocation failure (except in the compressors: C94).
* In `sample`: the calls of the C library that read files, bench.sh. All of `contrib`; of `test` the messages.

## Findings

Violations proved as `_refuted` theorems:

* C06: sw842_decompress: a repeat template after only 1..7 bytes of short data reads before the output buffer.
* C18: optsw842_compress with an empty input and aligned pointers reads 8 bytes of it.
* C19: optsw842_compress returning -EINVAL for a length that is not a multiple of 8 leaves `*olen` as it was (others set it to 0).
* C23: results of optsw842_* depend on the alignment of the buffers (unaligned calls fall back to sw842_*).
* C28: chunk offsets are `unsigned int` and wrap from 4 GiB on; with any input stride chunk j is read at j*istride mod 2^32 (`C28_input_offsets_wrap_partial`). C29: the chunked functions always return 0.
  C50: more than UINT_MAX chunks never end.
* C35: `assert` in block.h:53 is inverted: with assertions enabled (the default) a block with a raw chunk aborts; another assert reads
  uninitialised chunk results. C39: handle_block of the decompression stream never reports a corrupted chunk.
* C43: the OpenCL kernel reads two bytes behind a full output chunk for an I2 index to its last two bytes (only then, and never on the way to a success: `C43_overread_only_when_full`), and up to 7 bytes behind
  an input whose size is not a multiple of 8. C44: a raw chunk that starts with the marker is lost. C57: the CRC comparison is disabled.
  C58: cl842_decompress with more than 99999 bytes of input reads behind its arguments.
* C46: the sw842 round trip fails above UINT_MAX bytes.
* C59: 32-bit products wrap from thread 2^24 on. C60: the CUDA kernel checks nothing: malformed input reads and writes outside of the chunk.
* C64: long padding (229 bits or more behind the CRC) leaves elements of the transfer in the FPGA input stream; C64_unread_elements gives their number.
* C64: the front end reads the next element before it looks whether the token at hand is the end, so a stream whose elements carry no flag "last" makes it wait for ever with the end already in its buffer, unless 133 bits or more follow the end (C64_missing_last).
* C65: optsw842_compress output can be longer than sw842_compress output (stale hashes in update_hashtables).
* C103: a zero block (or a repeated one) is entered in the hash slots of the last block that was looked up, because `p->hashes` is only set in process_next; a block followed by a zero block is therefore not found again. For a block alternating with zero blocks optsw842_compress needs 74 bits per 16 bytes, sw842_compress 18 (C103_zeros_between_refuted).
* C67: with BRANCH_FREE 1, both functions shift 64-bit values by 64, which is undefined; C66 shows that the results do not depend on what
  such a shift gives.
* C68: in-place decompression: a chunk of 880 bytes made with optsw842_compress is reported as decompressed (return value 0), but size and
  content are wrong: the output overwrote input not read yet (cl.h:37-51 warns of it). It cannot happen for chunks of up to 560 bytes, and
  the infinite loops the comment fears cannot happen (C69). C69: a size field larger than the chunk makes the kernel read far outside of it.
* C70: the compressed sizes are documented as "only for error-checking" (cl.h:91-92), but they also stop the read-ahead: without them the kernel
  reads up to 48 bytes behind the end of a stream, outside of the buffer for the last chunk.
* C71: an incompressible chunk that starts with the marker makes the sample fail (as C44).
* C68: the chunk stride of in-place decompression must be the chunk size; neither the header nor cl842decompress.cpp says so or checks it. With a larger stride one chunk's output
  overwrites another's compressed data, depending on the order of the work items (C68_gaps_refuted).
* C72: cl.h declares CLDeviceDecompressor::decompress with (..., returnValues, chunkShuffleMap), cl842decompress.cpp:43-55 defines it with
  (..., chunkShuffleMap, returnValues). The types are the same. A caller who passes a buffer for the return values has it read as the
  map, behind its end; a map without return values is overwritten with return values.
* C74: create_thread_ctx_key (cryptodev/842_interface.c:218-224) sets the error to -ENOMEM when tss_create fails, and to 0 in the next line. Calls
  then use a key that was never created. Built without CIOCGSESSINFO, the alignment mask of the context is never set, but read.
* C75: the cache file /tmp/cl842_cache.bin is truncated and written in place, without a lock: two processes that start at the same time (also with the
  same configuration) can leave or see a file with the right header and a mixture of programs. If the file cannot be written (it belongs to another
  user), buildProgram throws although the program was compiled. A damaged length throws std::length_error or std::bad_alloc, which is not
  caught. Only a CRC-32 of the source is compared.
* C76: cl2c does not notice that its input cannot be opened; it writes an empty kernel and succeeds.
* C77: the sample program given an empty file fails; built for optsw842 it reads 8 bytes from a buffer of 0 bytes (842_compress.cpp, see C18).
* C78: get_numa_cpusets looks only at CPU numbers below get_nprocs(), the number of CPUs *online*. With a CPU offline, the CPUs numbered above are never used, and a node whose CPUs are all numbered above (or a node with memory but no CPU) gets an empty set; binding the first thread to it fails with EINVAL, and the loop returns, so all later threads stay unbound.
* C105: in the test suite: the programs that compress a pattern allocate too little for a pattern of three bytes; with optsw the empty pattern is undefined behaviour (C18);
  with sw the fuzz test is undefined behaviour from its stream 26 on (C06); test_compress_pattern_halfsmall.c is the same program as _barelysmall.c.
* C79: STATIC_LOG2_VALUE is -1 for 1 and 0 for 2 and 3 (bit 1 yields 0, bit 0 is not tested). The only use has the chunk size of the CUDA decompressor as argument, where it is right from 4 on.
* C80: built without NDEBUG the streams sample aborts on data that cannot be compressed (C35): the first chunk stored as it is fails an assertion in the decompression stream. This is so for every file of more than one block with a chunk that saves less than 24 bytes, and under every schedule (`C80_assertions_always_abort_refuted`). An empty file makes it fail, with optsw842 by a read outside the buffer (`C80_empty_file_refuted`, as C91). Also, line 170 sets comp_error = false after the stream was started: it races with the block callback (a data race in C++, not modelled: the steps of the model are atomic), and what it overwrites is not lost only because the finalize callback reports the failure again. If the size is not a multiple of the block size the sample always reports a failure, since the streams drop the rest.
* C81: src/aix/aix.c:27-28 gives 4096 as required and 128 as preferred alignment; the streams and samples allocate with the preferred one, so their buffers are not aligned as required. If the device cannot be opened when get_hw842_implementation is first called, the required alignment is 65536 from then on, although later calls work.
* C85: decompress.cl:250-251 loads four bytes for an index to two; if the output already fills its chunk, the last two of them belong to the next chunk, which another work item may be writing: a data race, in principle undefined. It needs a stream that denotes more than the chunk holds.
* C86: `while (!_quit)` (DataCompressionStream.cpp:107, DataDecompressionStream.cpp:103) reads the plain bool _quit without the mutex; the destructor writes it under the mutex: a data race, in principle undefined (a compiler may even hoist the read; the wait that follows re-reads it under the mutex, so in practice nothing happens). The comments in comp.h:89-90 and decomp.h:86-87 claim that the mutex protects _quit.
* C88 (`C88_without_sizes_refuted`, `C88_other_chunk_refuted`, and for every such chunk `C88_every_long_chunk_overruns_refuted`): cl.h:96-97 calls outputChunkSizes optional and "only for error-checking", but it is the only bound for what is written: decompress.cl:439 uses SIZE_MAX without it and never looks at CL842_CHUNK_SIZE. A chunk that decompresses to more than the chunk size overwrites its neighbour (both return values 0) or memory behind the output buffer.
* C89 (`C89_empty_file_refuted`): with an empty file chunks_per_cpu is 0 and chunkEndLocal wraps to SIZE_MAX (compdecomp_pgasus.cpp:165, 191; compdecomp_pgasus_omp.cpp:160, 189): every thread starts with a chunk outside of the buffers.
* C89 (`C89_different_nodes_refuted`): the comment in compdecomp_pgasus.cpp:38 assumes nodes with the same number of threads; otherwise threads of the larger nodes write outside the buffers of their node.
* C89 (`C89_large_file_refuted`): `int file_length` (compdecomp_pgasus.cpp:46, compdecomp_pgasus_omp.cpp:45) keeps only 32 bits of the length: for a file of 4 GiB and n bytes (n < 2 GiB) the program handles the first n bytes, padded to whole chunks, and reports success.
* C91 (`C91_large_file_refuted`): without unified memory the sample launches one thread for each chunk of the file; beyond 2^24 chunks (16 GiB) the offset of the kernel wraps (C59) and the program reports a difference. With unified memory the launches are small and there is no limit.
* C91 (`C91_empty_file_refuted`): an empty file makes ilen 0, and optsw842_compress is called on an empty buffer (C18). The sample does not check fopen, goes on after a failed fread, does not initialise its pointers with more than one argument, and its exit status is 0 even if it reports a failure. With USE_STREAMS it does not compile (compressedH and decompressedH are not declared, compdecomp.cu:181, 193), and would not destroy the first stream (line 291).
* C94: sw842_compress and optsw842_compress do not check what malloc returns (842_compress.c:540-548, 188-197; 842_compress.cpp:586-588) and write through the null pointer.
* C96: compdecomp.c with CONDENSE: line 154 adds SIZE_MAX to the position and line 167 copies SIZE_MAX bytes for a chunk that could not be compressed; with CHUNKS_PER_BATCH > 1 line 194 still passes CHUNK_STRIDE as the distance of the compressed chunks. (With CHUNKS_PER_BATCH = 1 lines 208-210 also ignore the return value of the decompressor; the comparison at the end catches that.)
* C97: compdecomp_cl.cpp:125 sums the sizes with std::accumulate and an initial value of type int, so that the reported size is wrong from 2^31 bytes on. With INPLACE_COMPRESSED_CHUNKS the program fails for files for which the output catches up with the input (C68), with MAYBE_COMPRESSED_CHUNKS for stored chunks that start with the marker (C71); an empty file makes optsw842_compress read behind its buffer (as C77).
* C98: src/serial ignores DISABLE_CRC, and optsw842_decompress falls back to it for unaligned buffers, so that with DISABLE_CRC data compressed in aligned buffers cannot be decompressed in unaligned ones. Without ENABLE_ERROR_HANDLING *olen is ignored, and truncated inputs, a leading repeat and large outputs are undefined behaviour.
* C99: the lookahead buffer of decompress.cl is what makes chunk sizes that are no multiple of 8, and absent ones, read behind the buffer: without it the same calls are safe. With USE_LOOKAHEAD_BUFFER but without ENABLE_ERROR_HANDLING the kernel does not compile (p.istart is missing).
* C100: without LIB842_CUDA_STRICT the CUDA kernel reads a format nothing in the repository writes: optsw842_compress without the same switch keeps 8/9/8-bit ring indices, the kernel expects 9/8/7-bit positions. Templates where these sizes add up (0x09, for one) give wrong bytes with no sign of it.
* C33/C38 (`_zero_threads_hang`): with num_threads = 0 the finalize callback never comes.

Seen while modelling, not stated as theorems: after the
destructor of the compression stream has started, epochs may be out of order; the OpenCL kernel copies CHUNK_SIZE bytes of a raw
chunk regardless of the capacity, and a marker chunk with a size above CHUNK_SIZE makes a size negative; the sample ignores the return value of the compressor (harmless: the room is always enough, C71) and sums
the compressed sizes in an `int`, so the reported size is wrong from 2 GiB on.

## Tests against wrong programs

`seeded/LOG.jsonl` has one line for each seeded fault: the definition edited in a scratch copy, the edit, the claim that it breaks and the
theorems that then failed. How to read it:

* `first_broken_proof` are the proofs at which the build stopped, often a lemma below the theorems. `theorems_failed` are all theorems in property
  files that could not be built any more. It is an upper bound: a file is not built if one of its proofs or examples fails, or a file that it
  imports, so a theorem in that list need not be false of the edited program. What the entry shows is that the build rejects the edit.
* Edits that no theorem rejected at first have `theorems_tightened`, with the theorem that was added or strengthened for them
  (C62, C64, C68, C72, C73, C74, C87, C89, C92, C102), or a note why the edited program is equivalent.
* Sixteen entries are marked as not valid: there the edited model did not type-check, the edit changed the arguments of the definition, or the edited program still
  satisfies the claim, so that the proofs failed for that reason alone. They count for nothing; the first two kinds were repeated with edits that keep the types.

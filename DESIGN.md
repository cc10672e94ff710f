# HXHIM: a machine-checked model

Source: hpc/hxhim (C++), read as text from /repo. Prover: Coq 8.16.1.

## 1. Method

* `rocq/theories/Model*.v`: executable Gallina definitions, one per C++ function,
  each with a comment naming the file and lines it models and any simplification.
* `rocq/theories/Spec*.v`: small specifications that do not use the model's helpers.
* `rocq/theories/Proof*.v`: lemmas. `Example*.v`: concrete cases and witnesses.
* `rocq/theories/Prop*.v`: the property theorems only, each closed by `exact`, followed by
  `Print Assumptions`, with an `Example` that a non-trivial case meets its hypotheses.

Undefined behaviour (out-of-range indexing, null dereference, signed overflow, use after free)
is a separate outcome `UB` of the modelled function, never a default value.
C++ exceptions are the outcome `Throw`.

A property that is false of the code is kept at full strength in `properties.jsonl`; the
theorem `Cxx_..._refuted` exhibits the witness, and `Cxx_..._partial` proves the largest part
that does hold. In MANIFEST.json such properties have status `partial` and the note starts with `REFUTED`.

Theorems are tested by changing one definition of the model in a scratch copy and rebuilding
(`seeded/LOG.jsonl`): each line names the changed definition, the claim the change breaks and the theorems that failed.

## 2. Trusted base

* Coq's kernel, with `vm_compute` for examples and refutation witnesses.
* The axioms of section 5.
* The reading of the C++ source: every definition cites the lines it models. Nothing was compiled or run.
* Platform: little endian (the `#else` branch of include/utils/little_endian.hpp), 8-byte `size_t` and pointers,
  4-byte `int` and enums, two's complement, IEEE 754 `float` and `double`, `char` compared as unsigned by
  `std::string` and LevelDB.
* Containers (`std::map`, `std::unordered_map`, `std::deque`, `std::string`, `std::vector`) behave as the standard says.
  `std::map<std::string, std::string>` is a list sorted by unsigned bytewise lexicographic order.
* LevelDB and RocksDB: a sorted map with batches applied in order, iterators, and writes that do not fail.
* Floating point: arithmetic is Coq.Floats.SpecFloat (round to nearest, ties to even). `log10`, `round` and `pow(10, n)`
  are parameters about which `SpecFp.good_libm` is assumed: the rounded logarithm is monotone and off by at most 1/10 near
  half integers, powers of ten are off by at most one unit in the last place, overflow gives infinity.
  `ProofFpLibm.exact_good` shows that such functions exist. `log2`, `cbrt` and `log` of the bucket generators are parameters
  about which `SpecGen.good_glibm` is assumed (error at most 2^-40, exact for log 1 and log 0; `ProofGen5.real_good`); `sqrt` is correctly rounded. `std::stringstream` prints and reads correctly rounded.
* Threads: sequentially consistent interleavings of the steps stated in ModelAsync.v, ModelMpi.v, ModelThal.v and ModelPar.v (there one request is one
  step, because the datastore's mutex is held while it is carried out).
* MPI and Thallium deliver messages reliably; what they deliver, and to whom, is modelled.

## 3. What is modelled

| Area | Code | Model file |
|---|---|---|
| bytes, little endian numbers, outcomes | include/utils/little_endian.hpp | ModelBytes.v |
| reading raw buffers | src/message/Unpacker.cpp, Blob.cpp, Histogram.cpp (unpack) | ModelWire.v |
| storage keys | src/datastore/triplestore.cpp | ModelKey.v |
| integer encoding | include/utils/elen.tpp, include/datastore/transform.tpp | ModelElen.v |
| floating point encoding | the same | ModelFloat.v |
| choice of encodings | src/datastore/transform.cpp, options.cpp, init.cpp | ModelTransform.v |
| datastores | src/datastore/{datastore,InMemory,LevelDB,RocksDB}.cpp | ModelStore.v, ModelDs.v |
| GETOP | the same, include/datastore/datastore.tpp | ModelGetOp.v |
| messages, Blob bytes | src/message/*.cpp, src/utils/Blob.cpp | ModelMsg.v |
| Blob ownership | src/utils/Blob.cpp, memory.cpp | ModelBlob.v |
| histograms | src/utils/Histogram.cpp | ModelHist.v |
| bucket generators | src/utils/Histogram.cpp, include/hxhim/config.hpp | ModelGen.v |
| life of a session: objects and collective calls | src/hxhim/{hxhim,init,destroy,private}.cpp, src/datastore/datastores.cpp, src/transport/transports.cpp, include/hxhim/private/process.hpp, get_addrs of Thallium | ModelLife.v |
| layout, hashing, endpoints, names | src/hxhim/{RangeServer,Datastore,hash,accessors,hxhim,init}.cpp, src/transport | ModelRoute.v |
| client queues, flush, one-type bulk calls | src/hxhim/ops/*.cpp, include/hxhim/private/process.hpp, local/RangeServer.hpp | ModelClient.v |
| clients working at the same time | the same, src/transport/backend/Thallium/*.cpp, src/datastore/datastore.cpp (mutex) | ModelPar.v |
| threads and packets of the MPI transport | include/transport/backend/MPI/EndpointGroup.tpp, src/transport/backend/MPI/RangeServer.cpp | ModelMpi.v, ModelMpiServe.v |
| buffers and RPCs of the Thallium transport, the end of a session | src/transport/backend/Thallium/{EndpointGroup,RangeServer}.cpp, src/hxhim/hxhim.cpp (Close) | ModelThal.v, ModelThalServe.v |
| histogram requests while others store | src/datastore/datastore.cpp, src/message/{BHistogram,Packer}.cpp | ModelHistRace.v |
| background PUT thread | src/hxhim/{init,private,destroy,hxhim}.cpp, PUT/BPUT/FLUSH.cpp | ModelAsync.v |
| the background PUT thread and the requests of all clients together | the same, include/hxhim/private/process.hpp; the thread is a client of its own of the same rank | ModelBack.v |
| the logger: masks, facilities, names of priorities, lines, the message buffer, levels of sessions | src/utils/mlog2.c, include/utils/mlog2.h:113-143, src/hxhim/hxhim.cpp:110, 192, 274; one thread, no log file, syslog or UDP console, the date is part of the header given | ModelLog.v |
| the command line interface and printing of results | examples/hxhim/cli.cpp:43-370, examples/hxhim/print_results.c; main is not modelled (the input is read, one client runs it; --ds calls OpenOne, see C61), nor inf, nan and hexadecimal numbers, bytes of 2^31 and more | ModelCli.v |
| configuration files | src/utils/Configuration.cpp | ModelConf.v |
| options | src/hxhim/config.cpp, include/hxhim/config.hpp, src/hxhim/options.cpp | ModelOptions.v |
| results | src/hxhim/Results.cpp | ModelResults.v |
| creating directories | src/utils/mkdir_p.cpp; the system call mkdir as POSIX describes it, without symbolic links | ModelDir.v |
| the rest of the elen library: 8 and 16-bit integers, the count of characters, small and large decimals, lex_comp | include/utils/elen.tpp, src/utils/elen.cpp; negative precisions are left out | ModelLarge.v |
| statistics of a session and their report | src/hxhim/Stats.cpp, include/hxhim/private/{Stats,process}.hpp, what src/hxhim/ops/*.cpp record; clock readings are arbitrary integers| ModelStats.v |
| statistics of a datastore, its report | include/datastore/datastore.hpp:130-146, src/datastore/datastore.cpp:30-85, 338-367, what src/datastore/{datastore,InMemory,LevelDB}.cpp count; clock readings are arbitrary integers; long double is the 80-bit format, rounded to nearest | ModelDsStats.v |
| datastores whose callbacks lose something, LOWEST of numbers (C84) | nothing new: the datastore of ModelDs.v with the callbacks of ModelTransform.v and ModelFloat.v; rows as examples/hxhim/lowest.c stores them | SpecLossy.v, SpecLowest.v |
| the example lowest.c (C86) | examples/hxhim/lowest.c:88-138; the ranks store one after the other, rand is a parameter, reading of the arguments and opening are not modelled | ModelLowest.v |
| the example hx.cpp (C87) | examples/hxhim/hx.cpp:124-226, spo_gen.c:39-90 (hx.c makes the same calls); print_results, hx.cpp:11-68 and print_results.c:44-122; rand is a parameter, other printing, timing, barriers, reading of the arguments and opening are not modelled | ModelHx.v, ModelHxPrint.v |
| the example puts.c (C89) | examples/hxhim/puts.c:63-123, spo_gen.c:93-150; rand is a parameter, timing, printing, reading of the arguments and opening are not modelled | ModelPuts.v |
| memory of messages (C90) | include/utils/memory.hpp:28-51, constructors, destructors, alloc, add, steal, steal_timestamps, cleanup of src/message/{Message,Response,SubjectPredicate,BPut,BGet,BGetOp,BDelete,BHistogram}.cpp, include/transport/backend/local/RangeServer.hpp:32-88; arrays are blocks with a number of elements, their contents are left out except the pointers to records | ModelOwn.v |
| setting options one by one (C91) | src/hxhim/options.cpp:20-627 without transforms, src/hxhim/private.cpp:7-20, Init, Open and Close as far as they concern settings, transports.cpp:45-55, datastores.cpp:139-154; functions and their arguments of users are numbers, Open is the successful one | ModelSet.v |
| clearing and printing histograms (C92) | src/utils/Histogram.cpp:203-237, 280-296, 532-553 with the cache as an array that outlives clear; how std::ostream writes a double is a parameter | ModelClear.v |
| times of operations and results | include/utils/Stats.hpp:35-61, include/message/Message.hpp:41-46, src/message/Message.cpp, src/hxhim/ops/{impl,SYNC}.cpp, include/transport/backend/local/RangeServer.hpp, src/transport/backend/Thallium/EndpointGroup.cpp, src/hxhim/Results.cpp:101-153; the clock is a sequence of readings | ModelTimes.v |
| trace of a session | print_event (src/utils/Stats.cpp:61-86), Result::~Result (src/hxhim/Results.cpp:35-69), GetPrintBufferContents, GetEpoch, HaveHistogram (src/hxhim/accessors.cpp); the buffer is used by one thread; long double is printed as %Lg with six digits, rounded to nearest even | ModelTrace.v |
| warnings about types; blobs as text | HXHIM_DATA_STR (src/hxhim/hxhim.cpp:33-35), mlog in BGet and BGetOp (src/datastore/InMemory.cpp:134-140, src/datastore/LevelDB.cpp:180-186, include/datastore/datastore.tpp:19-45), << for Blob (src/utils/Blob.cpp:256-272); a warning is the pair of names, the rest of the message is left out | ModelNames.v |
| the functions for float and double objects | src/hxhim/ops/float.cpp, src/hxhim/ops/double.cpp (equal up to names): which call of the general functions they make. A pointer to a number is an address and the bytes there; the C functions call the C++ ones | ModelTyped.v |

Not modelled: what most functions log (the logger itself is), the file system
but for mkdir (the files of LevelDB, symbolic links), Thallium and Mercury themselves, the MPI transport of a session that is closed while
requests are on their way, memory exhaustion, the C, Fortran, Python and Java
wrappers, the HDF5 connector in contrib/vol (it calls an older interface and does not
compile against this one), the vendored libraries.

## 4. Results per property

The exact statements are the theorems named in MANIFEST.json; in short:

| Id | Property | Status | Remark |
|---|---|---|---|
| C01 | Distinct subject/predicate pairs never share storage | proved | Storage keys of distinct (subject, predicate) pairs are distinct. |
| C02 | Subject and predicate recovered from a stored key are the ones that were PUT | proved |  |
| C03 | A datastore behaves like a map from (subject, predicate) to the last object PUT | proved | For callbacks that handle each value without loss or refuse it; the second theorem shows which values the default callbacks handle. |
| C04 | DELETE removes exactly the named pair | proved |  |
| C05 | Bulk responses match requests item by item | proved | Both backends. |
| C06 | A PUT reported successful is stored | partial | REFUTED: LevelDB/RocksDB report success for items that could not be encoded. Proved for the in-memory datastore and, on the others, for items that can be encoded. |
| C07 | Backends are interchangeable | partial | REFUTED: DELETE of an absent pair, failed encodings, HIGHEST. Proved: same rows and same responses up to a hidden error, for histories without HIGHEST. |
| C08 | Integers survive storage | partial | REFUTED: negating the smallest INT32/INT64 overflows (undefined). Proved for every other value of the four types. |
| C09 | Stored integer order is numeric order | proved | For symbols that surround the digits (the default ones do); the smallest signed values cannot be encoded at all (C08). |
| C10 | Floating point values survive storage | partial | REFUTED: -1e8 comes back as -0.1 (exponent 9 of negative, -9 of positive numbers), 1e308 as infinity, 1e-310 as 0, precision 0 throws on reading, and with the default precisions different values are stored alike. Proved for every libm within the stated accuracy: all other values come back within half a unit of the last digit kept plus the binary roundings; with the default precisions 14 (DOUBLE) and 5 (FLOAT) significant digits. |
| C11 | Stored floating point order is numeric order | proved | For every monotone libm within the stated accuracy (SpecFp.good_libm), all finite values, all precisions and all symbols around the digits. |
| C12 | GETOP FIRST and LAST | partial | REFUTED for LAST on an empty in-memory datastore (undefined behaviour). FIRST proved everywhere, LAST on every other datastore. |
| C13 | GETOP NEXT walks forward from the given pair | partial | Which triples NEXT returns is proved exactly. That it starts with a stored pair is REFUTED in general (keys of variable length share prefixes) and proved where no other key starts with the same bytes. |
| C14 | GETOP PREV walks backward from the given pair | partial | REFUTED: PREV from a pair that is not stored starts at the next larger key, or fails. Proved from stored pairs; exact behaviour proved for all. |
| C15 | GETOP EQ returns the requested triple or an error | partial | REFUTED: EQ of a pair that is not stored returns the next triple. Proved for stored pairs; exact behaviour proved for all. |
| C16 | GETOP LOWEST returns the lowest records of the given prefix | partial | REFUTED: LOWEST with a type hint skips keys. Proved where all keys with the prefix are above the search start. |
| C17 | GETOP HIGHEST returns the highest records of the given prefix | partial | REFUTED: HIGHEST never finds anything. Exact LevelDB behaviour and the general negative result proved. |
| C18 | GETOP returns only stored triples, at most the requested number | proved |  |
| C19 | GETOP with any record count is memory safe | partial | REFUTED: 0 records, LAST on an empty and HIGHEST on an in-memory datastore are undefined behaviour. Proved for all other requests. |
| C20 | A closed datastore neither answers nor changes | proved |  |
| C21 | Requests survive the wire | proved |  |
| C22 | Responses survive the wire | partial | REFUTED: a GET answer with an empty object (a datastore gives one for an empty object that was PUT) packs but unpacking it is undefined. Proved for responses whose blobs are not empty. |
| C23 | Message buffers are large enough | partial | REFUTED for reading: a null field (GETOP with null predicate) packs to nothing and unpacking reads out of bounds. Writing always fits (all messages); reading is in bounds for messages without null fields. |
| C24 | Field ownership is safe | proved | All programs that create, copy, move, assign, release and destroy handles. Beyond the claim: unpacking into a handle that owns memory, and clear, leak that memory (C24_unpack_leaks). That a reference can outlive the owner is by design and not excluded. |
| C25 | Invalid calls are rejected without effect | proved |  |
| C26 | PUT stores exactly the requested permutations | partial | REFUTED: of two permutations that go to two datastores of the same other rank one is lost. Proved otherwise, after any history, for any clients of the cluster. |
| C27 | Every operation is sent to an existing datastore, determined by its key | partial | REFUTED for RANK_MOD_DATASTORES (depends on the rank) and for SUM_MOD_DATASTORES with keys of many MiB (signed overflow). Proved for every other built-in hash, and for the sum hash where the sum fits into int. |
| C28 | Datastore ids and ranks correspond one to one | proved |  |
| C29 | Reported datastore location is where the datastore is | partial | REFUTED: get_rank is called with the arguments of another overload, so the reported rank is wrong. Proved: ids that do not exist are rejected, the offset is right, datastore 0 is right. |
| C30 | Packets respect the configured limits | partial | REFUTED for the size: the check leaves out the address fields. Proved: the number of operations, and the size up to 16 or 20 bytes. |
| C31 | Operations to one datastore are executed in the order they were issued | proved | For sessions without the background thread (for it see C36_once_partial). Operations get lost if several datastores of another rank are used (C32_lost_refuted); those sent keep their order, and which are sent is stated exactly. Hypotheses: requests to other ranks reach them and fit the wire format, and no request is undefined behaviour. |
| C32 | Every queued operation yields exactly one result | partial | REFUTED: packets to two datastores of the same other rank overwrite each other; datastores that are not open give no results; a GETOP for no records is undefined behaviour. Proved otherwise, for PUT, GET, DELETE and HISTOGRAM; always one result for every operation that is sent (C31_sent says which). |
| C33 | A client reads its own writes through the whole stack | partial | REFUTED with several datastores per rank. Proved for any number of clients taking turns, if no turn uses two datastores of the same other rank; always so with one datastore per rank or one rank. In general what is left of every turn takes effect on one map. |
| C34 | Close does not lose queued operations | partial | REFUTED: Close marks the session as not running before it calls Sync, which then does nothing. Proved in general: what is queued makes no difference to the cluster; after Close nothing is queued and every call fails. |
| C35 | Success of a queueing call means the operation was queued | partial | REFUTED for hash functions that fail: bulk calls ignore it, a PUT may have queued some permutations. Proved when every pair has a datastore, and for single calls other than failing PUTs. |
| C36 | Background PUTs are executed exactly once | partial | Proved for all schedules (with spurious wake-ups), programs and thresholds, for executions without the use after free of C38. REFUTED for PUTs that are not flushed before Close: they are dropped, or their results are. |
| C37 | Flushing PUTs waits for all earlier PUTs and always terminates | partial | Termination bound and freedom from deadlock for all schedules; that a flush waits for everything is proved for executions without the use after free of C38. |
| C38 | Results of background PUTs are accessed without data races | partial | REFUTED: a schedule with a data race and one with a use after free. Proved safe for programs that never queue max_queued PUTs. |
| C39 | Queues stay addressable for every datastore | partial | REFUTED for OpenOne, which leaves no queues at all, and with the background thread when there are fewer range servers than datastores: it leaves one queue per range server. Proved for sessions opened by Open without the background thread; with it, exactly which PUTs are undefined. |
| C40 | Remote requests reach the rank that hosts the datastore | partial | REFUTED: Thallium endpoints are numbered by range server but looked up by rank; the MPI transport never sends anything. Proved: exactly when Thallium reaches the right rank. |
| C41 | Datastores of one process have distinct names | partial | REFUTED after ChangeHash, which gives the datastores one name. Proved for the names given when opening and by ChangeDatastoreName. |
| C42 | User supplied transformations replace the defaults | partial | REFUTED: a registration for any of the types hxhim knows is without effect, and so is a second registration for another type (emplace keeps the entry that is there), though it reports success. Proved for single registrations of other types. |
| C43 | Histograms count every value | partial | REFUTED: values below the first boundary are counted in the total but in no bucket. Proved: exact total, and bucket sums equal to the number of values not below the first boundary. |
| C44 | Each value is counted in the bucket that contains it | partial | REFUTED: the upper end starts at DBL_MIN (the smallest positive double), so for values below it none of them is reported. Proved: the bucket, and in C43_histogram_counts_partial the upper end up to that. |
| C45 | Histograms survive packing | partial | REFUTED: adding to an unpacked histogram that is still caching calls a null generator. Proved: everything else survives. |
| C46 | Histograms do not disturb stored triples | partial | REFUTED: histograms are stored among the user's triples with subject HISTOGRAM. Proved for GET of every other pair and for reading histograms back. |
| C47 | Histograms track exactly the successful PUTs of their predicate | proved |  |
| C48 | Later configuration sources override earlier ones | partial | Proved for all sequences of sources whose files are ASCII. REFUTED for other bytes at the ends of a value: isspace gets a negative char, which is undefined. |
| C49 | Configuration settings present in a configuration take effect | partial | Proved for complete configurations with all ranks as endpoints. REFUTED otherwise: without DATASTORE everything after the ratios is dropped silently, endpoint lists hang or are rejected silently, HASH is ignored with the null transport, the default negative symbol is not the one meant, some settings cannot come from the environment, a Thallium thread count that cannot be read is replaced by another number silently. |
| C50 | Iterating results visits each result once, in order | proved | For all lists and positions. The accessor of histograms needs a successful histogram result to have a histogram, which servers guarantee. Beyond the claim: after results are added the position is undefined until the next GoToHead. |
| C51 | GETOP results keep all records | partial | Proved for answers with at least one record, with the memory of the nodes. REFUTED for answers without records: the only node is destroyed and then read. |
| C52 | Histograms of every datastore can be requested | partial | REFUTED: ids are compared with the number of range servers, not of datastores; HaveHistogram of a null pointer with a length throws. Proved: exactly those ids are accepted, and they exist; HaveHistogram tells the names of a session. |
| C53 | Admissible number-encoding symbols keep order and values | partial | REFUTED: the configuration accepts symbols that break values or order. Proved: of the accepted pairs, exactly those around the digits preserve both. |
| C54 | Bulk operations of one type | partial | REFUTED: BPUT of one type may execute early and its results are not returned; BGETOP of one type is always an error. Proved for BGET, and for BPUT below the limit. |
| C55 | LevelDB data and histograms survive closing and opening | proved |  |
| C56 | Storing floating point fields is defined behaviour | partial | REFUTED: the exponent of an infinity or NaN is converted to int, and a field shorter than the type is read past its end. Proved: defined exactly for finite values of sufficient length. |
| C57 | Clients working at the same time see one store | partial | REFUTED with several datastores per rank (packets get lost). Proved for all interleavings of any number of clients' requests, also that every Flush can complete, if no Flush uses two datastores of the same other rank; in general for what is left of every Flush; GETOPs that cannot fail included, each seeing the store as it is at one moment of its Flush. With the background thread: C79. Missing: GETOPs whose failure (C76) depends on what others do, histograms (C58). |
| C58 | Histogram results are snapshots | partial | REFUTED: the answer refers to the live histograms and is packed after the lock has been released, into a buffer sized before: one PUT in between makes the server write past the buffer or the client read uninitialised memory; a result from the own rank keeps changing. Proved for histograms that have their buckets or are not added to meanwhile. |
| C59 | Every named bucket generator gives usable buckets | partial | REFUTED: Scott's rule never gives buckets (negative bucket count: undefined behaviour or none), the logarithmic rules are undefined for values 1 apart and give none for equal values, first_n 0 never gives any. Proved for every libm within SpecGen.good_glibm: 10_BUCKETS (any number of buckets), SQUARE_ROOT_CHOICE, STURGES_FORMULA and RICE_RULE always, the logarithmic rules for distances from 2 to 2^50. |
| C60 | Bucket generators make the number of buckets their rule says | partial | REFUTED: Sturges' formula has one bucket too many for powers of two, the Rice rule always too few from 64 values on. Proved: square root below 2^48 values, Sturges otherwise below 2^30 values. |
| C61 | Open gives a usable session or reports an error | partial | REFUTED: a datastore that cannot be opened is reported as HXHIM_SUCCESS because the error has the same number; with background PUTs any failure of Open ends the process (join of a thread that was never started); Init on MPI_COMM_NULL ends the process; OpenOne always reads the configuration it has just released. Proved: Open without failures, and a failing transport without background PUTs. |
| C62 | A session releases everything once | partial | REFUTED for Flushes that use two datastores of the same other rank (the first packet is lost). Proved for all other sequences of calls; the background thread is started and joined but its work is not part of this model. |
| C63 | Calls on sessions that are not open are rejected | partial | REFUTED: Open, OpenOne, Flush and hxhim_results_destroy dereference the null pointer of a closed session. Proved for the other calls. |
| C64 | All ranks make the same collective calls | partial | REFUTED if a datastore of one rank cannot be opened: the others wait in collective calls that it never makes. Proved if Open succeeds on all ranks. |
| C65 | With the MPI transport clients receive the answers to what they sent | partial | REFUTED: the results of packing and unpacking are compared with the wrong constant, so that nothing is ever sent or returned; two threads of a rank (for example a background PUT and a Flush) can end the program with a truncated message or get each other's answers. Proved, for the code with the right constant and any other: if each rank has one sending thread and range servers are numbered like ranks, for any number of ranks, listeners, calls and steps. Closing a session while requests are on their way is not modelled. |
| C66 | The MPI transport does not hang | partial | REFUTED: with one listener per range server and sends that wait for their receiver (large messages) three ranks that ask each other wait forever; if range servers are not numbered like ranks the answer is awaited from another rank than it comes from. Proved under the conditions of C65 if MPI buffers sends, or if every range server has as many listeners as there are clients; the bound on the number of steps needs no condition. |
| C67 | Thallium: buffers, responses and the end of a session | partial | Proved for every order of steps: no use after free, no double free, buffers left over are those of cleanups on their way, each request is carried out once and answered to its thread, runs are bounded and cannot get stuck; for clients of a connected cluster no fault before Close. REFUTED for the end of a session: a cleanup RPC may reach a rank that has closed, and so may a request of a background thread; and a request without an endpoint follows a null pointer if the message is logged and vanishes if not. |
| C68 | The directory of a datastore is created with all its parents | partial | Proved for all paths of at least two characters, all file systems and rights, and while other processes create directories: success means that the path exists, nothing disappears, nothing but the directories of the path is added, and it succeeds if no file is in the way. REFUTED: a path of one character is reported created and is not, and success is reported for a path that is a file. |
| C69 | elen: integers of every width survive and keep their order | partial | Round trip with any following characters and the count of characters for the 16, 32 and 64-bit types; order for all eight types and between types. Refuted for 8-bit types: decoding reads a character, so no value but 0, 53 and -53 comes back. Refuted for the smallest int16_t, which comes back as -6; the count of characters is not set for 0. hxhim uses the 32 and 64-bit types only. |
| C70 | elen: small and large decimals survive and keep their order | partial | Large decimals: proved for all floats and doubles whose magnitude fits an int, all precisions; beyond, all positive numbers have one encoding, negative ones are undefined, infinity sorts before 3/2. Small decimals: proved up to one unit of the last digit below one; what rounds to one is written as zeroes and sorts before 1/2. hxhim itself uses neither (it uses floating_point, C10 and C11). |
| C71 | elen: lex_comp is a total order that agrees with datastores | partial | lex_comp on strings is a strict total order. Both functions agree with datastores on characters below 128, hence order encoded integers by value. Refuted for characters from 128, where plain char is signed: they disagree with datastores and with each other. |
| C72 | Statistics of a session account for its calls and packets | partial | Packets and durations: proved for all histories of calls and flushes (foreground PUTs). Calls: proved if all pairs have datastores, except that a single GETOP is recorded among the bulk calls (refuted). Refuted: a call that fails for lack of a datastore is recorded as well. Fill rates: proved up to 2^46 operations per packet and 2^53 in all. The arithmetic of durations is that of the integers. |
| C73 | Statistics of a datastore account for its operations, and its report is defined | partial | Proved for all runs of both datastores: what is counted, with which bytes and times; durations; seconds and rates (long double, 64 bits of precision) up to 2^59 bytes per second. Refuted: GetStats counts requests, not PUTs; records of GETOPs, errors and histograms count as GETs (DELETEs are not reported); the bytes of GETs are those of the keys (InMemory) or none (LevelDB); with no time between clock readings the destructor reads UNITS[6]. Stored bytes: without histograms. |
| C74 | Results carry the times of the operations they answer | partial | Proved for all runs with foreground PUTs and messages of representable size. REFUTED: operations on datastores of the client's own rank lose the times of the hash function and the insertion (local::range_server moves them to a message that is thrown away); results of a GETOP after the first have no times (all zero), and those of Sync start the trip after it ended and never set the cleanup. Which operations get no result at all is C31 and C32. |
| C75 | Numbers stored through one client are read through any other, as precisely as the callbacks allow | partial | Proved for all turns of all clients of a cluster with one datastore in use per other rank, any codec, objects stored in the order subject, predicate, object; numbers within the ranges of C10; BPut below the queue limit (C54). REFUTED: numbers between -4e8 and -25e6 and others (C10) come back wrong through the whole system; GetFloat returns a double if one is stored; BPutFloat and BPutDouble of no objects are errors where BPut succeeds; BGetOpFloat and BGetOpDouble always fail. |
| C76 | A GETOP through the whole cluster answers from the store | partial | Proved for all turns of any number of clients with PUT, GET, GETOP and DELETE: a GETOP answers, exactly as described by SpecScan.reply, from the triples of the one map whose pairs have the datastore of its own pair; with a single datastore from all. REFUTED: with several datastores FIRST does not give the first triple of the store; FIRST of an empty datastore on another rank, and LOWEST of a pair that does not occur, are undefined behaviour. Missing as in C33: turns that use two datastores of the same other rank. |
| C77 | The trace of a session can be read back and is complete | partial | Proved: every line is read back, the times exactly and the duration within one part in 10^5; nothing printed is lost or repeated as long as the buffer is not asked for when empty; the first result of every operation sent to another rank prints its whole duration and its parts, with the readings taken for that operation; one that stays on the rank of the client prints the parts after the insertion. REFUTED: asking for an empty buffer fails the caller's stream, and what is printed later is lost while HXHIM_SUCCESS is returned; operations that stay on the client's rank, and the other records of a GETOP, print starts near 2^64 (the times were never set); destroying a result after Close reads a null pointer. |
| C78 | Warnings about types are exact and harmless; blobs that print alike are alike | partial | Proved for all histories of PUTs, GETs, GETOPs, DELETEs and histogram requests of both datastores in which every type has a name. REFUTED: asking for a type without a name (10), or for an object stored with a type of the user's as another type, reads HXHIM_DATA_STR beyond its ten names as soon as warnings are logged. Not covered: rows that WriteHistograms stored, the values of which carry no type. |
| C79 | PUTs carried out in the background take effect in a cluster as if they had been flushed | partial | The two threads of C36-C38 together with the requests of C57. Missing: executions with the use after free of C38, programs whose PUTs use two datastores of the same other rank (C32), GETOPs whose failure depends on what others do, histograms; the last PUT of a pair is stated for pairs that no other client has changed. Requests are those of the Thallium transport; with MPI two threads of a rank may not send at the same time (C65). |
| C80 | The message buffer of the logger holds the last lines, and is found in memory | partial | Proved for all buffers, masks and messages, with one thread. The buffer is found if nothing before it in the memory begins with its magic string, and if all of it is there. REFUTED: the check of the end leaves out the 24 bytes of the header, so memory that ends within the buffer gives pieces beyond its end. Not modelled: log file, syslog and UDP console, which get the same line; threads (the buffer is changed under the mutex of the logger). |
| C81 | A message is logged exactly if the mask of its facility wants it | partial | Proved for all sequences of calls with facilities that are not negative (mlog_setlogmask(-1) writes before the array), texts of entries with known priorities, and sessions that do not overlap, with a level that is a priority and not 0. REFUTED: a facility without a name is written as its number, which mlog_setmasks does not read; of two sessions open in one process the first sets the level and closing either silences both; lines on stdout leave out the date if stderr is a terminal. Not modelled: what mlog_setmasks itself logs about unknown entries; threads. |
| C82 | The command line interface does what its lines say | partial | Proved: every line of the language adds the commands it means whatever the other lines are, lines that start with no command are reported and add nothing, commands and flushes (also of one kind) in any order give the results of one map, GETOPs those of C76. REFUTED: a bulk command with an error is run up to the error, words too many and words run together are accepted, -1 is accepted for unsigned types, BGETOP is rejected in the form the help text gives, GETOP for 0 records has undefined behaviour. Reading inf, nan and hexadecimal numbers is not modelled. |
| C83 | Printed results show the values | partial | Proved for signed integers, unsigned integers below 2^31 (2^63), bytes without zeros, finite numbers, and for all results of all commands with such values, GETOPs and flushes of one kind included, from the text that is typed in to the lines that are printed. REFUTED: unsigned integers are printed as signed ones, bytes are cut at a zero, small floats that differ print the same. |
| C84 | The lowest and highest numbers of a subject are found, also when the encoding loses digits | partial | Proved for all callbacks and histories, GETOP for what can be read back and for the requests of answerable; LOWEST of numbers of one type if every other row that starts with the subject comes after the numbers, which holds if what follows the subject starts above the positive symbol. REFUTED: HIGHEST finds none of the numbers; the type does not select, so rows with other predicates are returned when there are fewer numbers than asked for; subjects that start with the one asked for are taken for it. |
| C85 | Clients may call and flush in any order | partial | Proved for all interleavings of any number of clients without background thread; with one datastore per range server and without GETOPs nothing else is assumed; in general no flush may use two datastores of the same other rank (C33 says what is lost then), and GETOPs are those of C76. BPutSingleType, Sync and histograms are left out. REFUTED: a GET made after a PUT of the same pair misses it if only GETs are flushed. |
| C86 | lowest.c shows the lowest temperatures | partial | Proved for LOWEST asked by the rank of datastore 0, for square grids and grids with num_x = 1, ranks storing one after the other. REFUTED: asked by another rank the request has undefined behaviour (witness); HIGHEST has undefined behaviour (witness); for every grid with num_x > num_y the program writes outside its array; with 2 <= num_x < num_y cells share their memory, for every such grid and every y from num_x below 2 * num_x and num_y the cell (0, y) is never stored, and names can be stored with the end of an older one (witness). |
| C87 | hx.cpp shows failures, successes and the numbers | partial | Proved for all interleavings of the ranks (the barriers are not needed) and all numbers that come back at all (fourteen digits for those of C10); with one datastore per range server nothing else is assumed, in general no flush may use two datastores of the same other rank (C33). REFUTED: that the numbers shown are those stored (1/3 comes back as something else). What print_results of hx.cpp and of hx.c print of the three flushes is proved line by line; the numbers printed are the numbers PUT to fourteen digits. Missing: numbers that are no finite doubles (rand may return 0), other output. |
| C88 | BPUTs of one type among other calls are the BPUTs they stand for | partial | Proved for all interleavings of any number of clients without background thread and without GETOPs; with one datastore per range server nothing else is assumed, in general no flush (and no BPUT at the limit) may use two datastores of the same other rank (C33). |
| C89 | puts.c leaves exactly the triples it makes | partial | Proved for all interleavings of the ranks (no barrier needed before the end); in general no flush may use two datastores of the same other rank (C33). REFUTED: that the ranks together store as many pairs as they report; srand is not called, so that where rand starts the same way in every process all ranks store the same pairs. Missing: times and rates that are printed. |
| C90 | Messages own their arrays: everything allocated is released exactly once | partial | Proved for all sequences of operations within the room of the messages. The bytes that Blobs own are C24's; serialization (C21, C22) and the buffers of the transports are not part of this model. REFUTED: that the count may be set to 0 without stealing the records (witness: three arrays are left). C90_full and C90_reuse state what the code does where it checks nothing: undefined behaviour, and a size that counts old contents. |
| C91 | Options: every option has the value given last, and refused calls change nothing | partial | Proved for all orderly lives of a session (no Init of an existing one, no null strings, no hxhim_set_transport_mpi without a session, Open only of existing ones and successful). REFUTED: that refused calls change nothing (MPI_COMM_NULL is stored), that all setters may be called without a session (hxhim_set_transport_mpi), that null strings are refused, that MPI options follow the communicator, and that Init may be repeated. Setting transforms is C42; reading configurations is C49. |
| C92 | Histograms: clear forgets everything, and print is always possible | partial | Proved for all values and generators: histograms that are never cleared are those of C43-C45; after clear there are no buckets and no values, and pack and unpack give an empty histogram of the same name; without a limit on the first values, clear gives back a new histogram; print never reads outside the arrays. REFUTED that a cleared histogram with a limit is like a new one: clear sets the limit to 0 and leaves the cache, so the next value makes the buckets, out of the first value from before clear (0 if there was none). |

## 5. Axioms

`Print Assumptions` stands below every theorem of the files Prop*.v. Its answers:

* "Closed under the global context" for 351 theorems, all except the following.
* `ClassicalDedekindReals.sig_forall_dec`, `ClassicalDedekindReals.sig_not_dec`, `Classical_Prop.classic`, `FunctionalExtensionality.functional_extensionality_dep` for: C82_lines_partial, C83_text_partial, C73_seconds, C73_rate_partial, C73_unit, C73_rate_refuted, C10_precision_partial, C10_double_partial, C10_float_partial, C10_exponent_9_refuted, C10_exponent_309_refuted, C10_subnormal_refuted, C10_precision_0_refuted, C10_same_value_refuted, C11_float_order, C56_defined_partial, C59_generators_partial, C59_log_partial, C59_scott_refuted, C59_log_refuted, C60_square_root_partial, C60_sturges_partial, C60_sturges_refuted, C60_rice_refuted, C87_numbers_partial, C87_exact_refuted, C87_output_partial, C70_large_order_partial, C70_large_round_trip_partial, C70_small_round_trip_partial, C84_lowest_partial, C84_highest_refuted, C72_fill_partial, C86_lowest_partial, C77_lines, C77_results_partial, C77_records_refuted, C77_local_refuted, C75_double_partial, C75_float_partial, C75_lost_refuted.
* `ClassicalDedekindReals.sig_forall_dec`, `FunctionalExtensionality.functional_extensionality_dep` for: C82_half_refuted, C82_loose_refuted, C82_negative_refuted, C82_bgetop_refuted, C82_getop_refuted, C83_values_partial, C83_lines_partial, C83_session_partial, C83_unsigned_refuted, C83_bytes_refuted, C83_floats_refuted, C87_lines, C70_large_beyond_refuted, C70_small_order_partial, C70_small_refuted.

These are the axioms under the real numbers of Coq's standard library (Coq.Reals) and the classical logic it uses;
they serve to say how far a floating point number is from another. No axiom comes from another library, and none
from this development. `coqchk` also lists constants that the standard library seals behind module types, which are
definitions and not axioms in the sense of `Print Assumptions`: `Coq.Reals.Rdefinitions.RbaseSymbolsImpl.*` and
`RinvImpl.*` (the real numbers) and `Coq.ssr.ssrunder.Under_rel.*` (loaded by ssreflect).

Libraries used in proofs: the standard library; Flocq (Core, Operations, BinarySingleNaN, Relative) for the rounding
of floating point operations. Flocq's PrimFloat part is not used.

{"id": "C01", "title": "Distinct subject/predicate pairs never share storage", "statement": "If two (subject, predicate) pairs differ in any byte, any length, or any data type, then a PUT to one never changes what a GET of the other returns; storage keys of distinct pairs are distinct, even when concatenating the two fields gives the same bytes.", "quantifier": "all pairs of (subject, predicate), each field any byte string (any length below 2^64, including bytes 0x00 and 0xff) with any one-byte data type", "why_tests_cant": "collisions would only show for adversarial byte strings (field bytes that imitate the length/type trailer); finitely many tests cannot exclude them", "anchors": ["src/datastore/triplestore.cpp:sp_to_key", "src/utils/Blob.cpp:Blob::operator=="]}
{"id": "C02", "title": "Subject and predicate recovered from a stored key are the ones that were PUT", "statement": "Splitting a stored key yields exactly the subject bytes, subject type, predicate bytes and predicate type that were combined, for every content of the fields.", "quantifier": "all byte strings for subject and predicate (empty allowed) and all one-byte types", "why_tests_cant": "a parser that reads the trailer from the end can be confused only by particular contents; all contents must be covered", "anchors": ["src/datastore/triplestore.cpp:sp_to_key", "src/datastore/triplestore.cpp:key_to_sp"]}
{"id": "C03", "title": "A datastore behaves like a map from (subject, predicate) to the last object PUT", "statement": "For every history of bulk PUT/GET/DELETE requests to an open in-memory datastore: GET returns the object bytes and the object type of the most recent successful PUT to that (subject, predicate) not followed by a successful DELETE, whatever object type the GET asked for, and reports an error if there is none; operations on one pair do not affect any other pair.", "quantifier": "all finite histories of bulk requests with any items, all encodable data types, any lossless transformation callbacks", "why_tests_cant": "the claim is about every history of operations; tests sample a few", "anchors": ["src/datastore/InMemory.cpp:BPutImpl", "src/datastore/InMemory.cpp:BGetImpl", "src/datastore/InMemory.cpp:BDeleteImpl", "src/datastore/datastore.cpp:append_type", "src/datastore/datastore.cpp:remove_type"]}
{"id": "C04", "title": "DELETE removes exactly the named pair", "statement": "On the in-memory datastore DELETE of a present pair reports success, afterwards GET of that pair reports an error until it is PUT again, every other pair is unchanged; DELETE of an absent pair reports an error and changes nothing.", "quantifier": "all datastore states reachable by any history, all pairs", "why_tests_cant": "needs every reachable state and every other pair to be checked", "anchors": ["src/datastore/InMemory.cpp:BDeleteImpl"]}
{"id": "C05", "title": "Bulk responses match requests item by item", "statement": "Every bulk PUT/GET/DELETE processed by an open datastore returns exactly one status per item, in request order, each carrying the caller's original subject and predicate references; a bulk request has the same effect and the same statuses as issuing its items one at a time.", "quantifier": "all bulk requests of any length, all datastore states", "why_tests_cant": "lengths and duplicate keys inside one request are unbounded", "anchors": ["src/datastore/InMemory.cpp:BPutImpl", "src/datastore/InMemory.cpp:BGetImpl", "src/datastore/InMemory.cpp:BDeleteImpl", "src/message/BPut.cpp:Response::BPut::add"]}
{"id": "C06", "title": "A PUT reported successful is stored", "statement": "For every storage backend, if the result of a PUT says success then an immediately following GET of the same subject and predicate (same datastore, no operation in between) returns that object.", "quantifier": "all backends (in-memory, LevelDB/RocksDB), all items including ones whose encoding callback fails, all bulk positions", "why_tests_cant": "needs every mixture of encodable and non-encodable items in one batch", "anchors": ["src/datastore/LevelDB.cpp:BPutImpl", "src/datastore/RocksDB.cpp:BPutImpl", "src/datastore/InMemory.cpp:BPutImpl"]}
{"id": "C07", "title": "Backends are interchangeable", "statement": "The same history of requests gives the same responses on the in-memory and on the LevelDB/RocksDB datastore.", "quantifier": "all finite histories of PUT/GET/GETOP/DELETE requests", "why_tests_cant": "equivalence over all histories", "anchors": ["src/datastore/InMemory.cpp", "src/datastore/LevelDB.cpp", "src/datastore/RocksDB.cpp"]}
{"id": "C08", "title": "Integers survive storage", "statement": "Every INT32, INT64, UINT32 and UINT64 value that is PUT as subject, predicate or object comes back as the same value.", "quantifier": "all values of the four integer types, all admissible encoding symbols", "why_tests_cant": "2^64 values per type; extreme values (minimum integers) are the interesting ones", "anchors": ["include/utils/elen.tpp:encode::integers", "include/utils/elen.tpp:decode::integers", "include/datastore/transform.tpp"]}
{"id": "C09", "title": "Stored integer order is numeric order", "statement": "The byte order in which the datastore keeps integer subjects and predicates is the numeric order, so ordered retrieval (FIRST, NEXT, PREV, LAST) walks integers numerically, across signs and digit counts.", "quantifier": "all pairs of integers", "why_tests_cant": "all pairs of 64-bit integers", "anchors": ["include/utils/elen.tpp:encode::unique", "include/utils/elen.tpp:encode::integers"]}
{"id": "C10", "title": "Floating point values survive storage", "statement": "Every finite FLOAT/DOUBLE value PUT as a field comes back as the same value; at least, as the value rounded to the configured precision.", "quantifier": "all finite floating point values, all precisions, all exponents", "why_tests_cant": "value space far too large to sample; failures sit at single exponents", "anchors": ["include/utils/elen.tpp:encode::floating_point", "include/utils/elen.tpp:decode::floating_point", "include/utils/elen.tpp:frexp10"]}
{"id": "C11", "title": "Stored floating point order is numeric order", "statement": "If x < y then the encoding of x does not sort after the encoding of y; if their encodings differ the order is strict.", "quantifier": "all pairs of finite values and all precisions", "why_tests_cant": "pairs over the whole range of exponents and signs", "anchors": ["include/utils/elen.tpp:encode::floating_point"]}
{"id": "C12", "title": "GETOP FIRST and LAST", "statement": "GETOP FIRST with n records returns the min(n, stored) smallest triples of the datastore in ascending key order; LAST returns the min(n, stored) greatest in descending order; on an empty datastore both report an error; nothing is returned twice and nothing is modified.", "quantifier": "all datastore contents, all n >= 1, both kinds of backend", "why_tests_cant": "all contents and all n; the empty store and n larger than the store are corner cases", "anchors": ["src/datastore/InMemory.cpp:BGetOpImpl", "src/datastore/LevelDB.cpp:BGetOpImpl"]}
{"id": "C13", "title": "GETOP NEXT walks forward from the given pair", "statement": "GETOP NEXT with n records returns, in ascending order and without gaps or duplicates, the first n stored triples that do not sort before the given subject+predicate, starting with the given pair itself when it is stored; it reports an error exactly when there is none.", "quantifier": "all datastore contents, all starting pairs, all n >= 1", "why_tests_cant": "all contents and starting points", "anchors": ["src/datastore/InMemory.cpp:BGetOpImpl", "src/datastore/datastore.cpp:BGetOp_loop_init"]}
{"id": "C14", "title": "GETOP PREV walks backward from the given pair", "statement": "GETOP PREV with n records returns in descending order the n greatest stored triples that do not sort after the given subject+predicate, starting with the given pair itself when it is stored; it reports an error exactly when there is none.", "quantifier": "all datastore contents, all starting pairs, all n >= 1", "why_tests_cant": "all contents and starting points, including starting points that are not stored", "anchors": ["src/datastore/InMemory.cpp:BGetOpImpl", "src/datastore/LevelDB.cpp:BGetOpImpl"]}
{"id": "C15", "title": "GETOP EQ returns the requested triple or an error", "statement": "GETOP EQ returns the triple stored under exactly the given subject and predicate, and an error if that pair is not stored.", "quantifier": "all datastore contents and pairs", "why_tests_cant": "needs stores whose other keys share or follow the prefix", "anchors": ["src/datastore/InMemory.cpp:BGetOpImpl", "include/hxhim/constants.h:hxhim_getop_t"]}
{"id": "C16", "title": "GETOP LOWEST returns the lowest records of the given prefix", "statement": "GETOP LOWEST with n records returns, in ascending order, the first n stored triples whose key starts with the given subject (and predicate, if given), and nothing else.", "quantifier": "all datastore contents, all prefixes and all n >= 1", "why_tests_cant": "prefix relations between keys are unbounded", "anchors": ["src/datastore/datastore.cpp:BGetOp_get_seek", "src/datastore/InMemory.cpp:BGetOpImpl"]}
{"id": "C17", "title": "GETOP HIGHEST returns the highest records of the given prefix", "statement": "GETOP HIGHEST with n records returns, in descending order, the last n stored triples whose key starts with the given subject (and predicate, if given), and nothing else.", "quantifier": "all datastore contents, all prefixes and all n >= 1", "why_tests_cant": "prefix relations between keys are unbounded", "anchors": ["src/datastore/datastore.cpp:BGetOp_get_seek", "src/datastore/InMemory.cpp:BGetOpImpl", "src/datastore/LevelDB.cpp:BGetOpImpl"]}
{"id": "C18", "title": "GETOP returns only stored triples, at most the requested number", "statement": "Every record of a successful GETOP (any operator) is a currently stored triple with its stored object, no record is returned twice, at most num_recs records are returned, and the datastore is unchanged.", "quantifier": "all operators, contents, arguments and num_recs >= 1", "why_tests_cant": "all contents times all operators", "anchors": ["src/datastore/InMemory.cpp:BGetOpImpl", "include/datastore/datastore.tpp:BGetOp_copy_response"]}
{"id": "C19", "title": "GETOP with any record count is memory safe", "statement": "A GETOP request with any num_recs, including 0, against any datastore, including an empty one, does not access memory outside the response.", "quantifier": "all operators, all contents, all num_recs", "why_tests_cant": "undefined behaviour may go unnoticed in a test run", "anchors": ["src/datastore/datastore.cpp:BGetOp_error_response", "src/datastore/InMemory.cpp:BGetOpImpl", "src/utils/memory.cpp"]}
{"id": "C20", "title": "A closed datastore neither answers nor changes", "statement": "Requests (PUT, GET, GETOP, DELETE) that reach a datastore which is not open produce no response and have no effect; re-opening an in-memory datastore starts empty.", "quantifier": "all sequences of open, close and requests", "why_tests_cant": "all interleavings of lifecycle and data operations", "anchors": ["src/datastore/datastore.cpp:operate", "src/datastore/InMemory.cpp:OpenImpl", "src/datastore/InMemory.cpp:CloseImpl"]}
{"id": "C21", "title": "Requests survive the wire", "statement": "Unpacking a packed request gives back the same operation, source, destination and items: same bytes, same types, and the sender's field addresses in the slots used to build the reply, for PUT, GET, GETOP, DELETE and HISTOGRAM.", "quantifier": "all requests with any number of items whose fields are non-empty", "why_tests_cant": "all item counts, lengths and contents", "anchors": ["src/message/Packer.cpp", "src/message/Unpacker.cpp"]}
{"id": "C22", "title": "Responses survive the wire", "statement": "Unpacking a packed response gives back the same statuses, original references and, for successful items, the same records, for every response a range server can produce.", "quantifier": "all responses, including ones carrying empty objects and failed items", "why_tests_cant": "item contents are unbounded; zero-length fields are easy to miss", "anchors": ["src/message/Packer.cpp", "src/message/Unpacker.cpp", "src/utils/Blob.cpp:Blob::pack"]}
{"id": "C23", "title": "Message buffers are large enough", "statement": "The number of bytes written while packing a message never exceeds the size announced for it (the allocated buffer), and unpacking never reads beyond what packing wrote.", "quantifier": "all requests and responses built through the public add functions", "why_tests_cant": "overflow depends on the exact combination of items", "anchors": ["src/message/Packer.cpp", "src/message/BPut.cpp", "src/message/BGet.cpp", "src/message/BGetOp.cpp", "src/message/BDelete.cpp", "src/message/BHistogram.cpp"]}
{"id": "C24", "title": "Field ownership is safe", "statement": "In every sequence of creating, copying, moving, assigning, releasing and destroying field handles, no buffer is released twice, no owned buffer is leaked, and a buffer owned by a live handle is never released by another handle.", "quantifier": "all finite programs over any number of handles (no use of the raw ownership switch)", "why_tests_cant": "all sequences of operations; double frees depend on history", "anchors": ["src/utils/Blob.cpp", "include/utils/Blob.hpp"]}
{"id": "C25", "title": "Invalid calls are rejected without effect", "statement": "PUT, GET, GETOP and DELETE on a handle that is not open, or with a null or zero-length subject (or predicate, except for GETOP; or object for PUT) return an error and queue nothing.", "quantifier": "all argument combinations and all handle states", "why_tests_cant": "all combinations of null/empty arguments in every state", "anchors": ["src/hxhim/ops/PUT.cpp", "src/hxhim/ops/GET.cpp", "src/hxhim/ops/GETOP.cpp", "src/hxhim/ops/DELETE.cpp", "src/hxhim/private.cpp:started"]}
{"id": "C26", "title": "PUT stores exactly the requested permutations", "statement": "A PUT of (s, p, o) with a permutation mask stores one triple for every permutation in the mask and nothing else; each stored permutation can be retrieved by GET on its first two fields and yields the third.", "quantifier": "all masks and all triples", "why_tests_cant": "64 masks times all contents, including fields that are equal to each other", "anchors": ["src/hxhim/ops/impl.cpp:PutImpl", "include/hxhim/constants.h"]}
{"id": "C27", "title": "Every operation is sent to an existing datastore, determined by its key", "statement": "Each predefined hash function returns a datastore id in [0, number of datastores); for the content based ones the id depends only on subject bytes, predicate bytes and the number of datastores, so that a GET from any process goes to the datastore the PUT went to.", "quantifier": "all subjects and predicates, all datastore counts >= 1, all ranks", "why_tests_cant": "all key contents and cluster sizes", "anchors": ["src/hxhim/hash.cpp", "include/utils/uthash.h"]}
{"id": "C28", "title": "Datastore ids and ranks correspond one to one", "statement": "For every cluster size, client:server ratio and datastores per server, every datastore id in [0, total) is hosted by exactly one rank, which is a range server inside the cluster, at exactly one offset, and the id computed from that rank and offset is the original id; ranks that are not range servers host nothing.", "quantifier": "all sizes >= 1, all ratios >= 1, all datastores per server >= 1", "why_tests_cant": "all parameter combinations", "anchors": ["src/hxhim/RangeServer.cpp", "src/hxhim/Datastore.cpp", "src/hxhim/init.cpp:datastore"]}
{"id": "C29", "title": "Reported datastore location is where the datastore is", "statement": "hxhimGetDatastoreLocation reports for each datastore id the rank that hosts it.", "quantifier": "all ids and configurations", "why_tests_cant": "all parameter combinations", "anchors": ["src/hxhim/accessors.cpp:GetDatastoreLocation", "src/hxhim/RangeServer.cpp:get_rank"]}
{"id": "C30", "title": "Packets respect the configured limits", "statement": "No request packet contains more than MAXIMUM_OPS_PER_REQUEST operations, and none with more than one operation is larger than MAXIMUM_SIZE_PER_REQUEST bytes.", "quantifier": "all sequences of queued operations, all limits >= 1", "why_tests_cant": "all sequences and sizes", "anchors": ["src/hxhim/ops/impl.cpp:setup_packet", "src/message/Message.cpp:size"]}
{"id": "C31", "title": "Operations to one datastore are executed in the order they were issued", "statement": "Within one Flush, operations of the same kind that go to the same datastore are executed in issue order (so of two PUTs to the same key the later wins), whatever packets they were split into; Flush executes PUTs, then GETs, then GETOPs, then DELETEs, then HISTOGRAMs.", "quantifier": "all sequences of queued operations, all packet limits, all routings", "why_tests_cant": "order across packet boundaries and rounds depends on sequence and limits", "anchors": ["include/hxhim/private/process.hpp:process", "src/hxhim/ops/FLUSH.cpp", "src/hxhim/ops/impl.cpp"]}
{"id": "C32", "title": "Every queued operation yields exactly one result", "statement": "A Flush returns exactly one result for every operation queued since the last Flush, and every queued operation is executed exactly once.", "quantifier": "all sequences of queued operations, all cluster layouts", "why_tests_cant": "depends on how operations spread over datastores and ranks", "anchors": ["include/hxhim/private/process.hpp:process", "src/hxhim/Results.cpp:AddAll"]}
{"id": "C33", "title": "A client reads its own writes through the whole stack", "statement": "For a client on a cluster of any size: after PUTs and a Flush, GETs followed by a Flush return for every pair the object of the last PUT to it, as if the cluster were one map.", "quantifier": "all operation sequences with flushes between them, all cluster layouts and packet limits", "why_tests_cant": "all sequences, layouts and limits at once", "anchors": ["src/hxhim/ops", "include/hxhim/private/process.hpp", "include/transport/backend/local/RangeServer.hpp"]}
{"id": "C34", "title": "Close does not lose queued operations", "statement": "Operations that were accepted before hxhimClose are executed by the time hxhimClose returns.", "quantifier": "all sequences of operations followed by Close", "why_tests_cant": "all histories ending in Close", "anchors": ["src/hxhim/hxhim.cpp:Close", "src/hxhim/ops/SYNC.cpp"]}
{"id": "C35", "title": "Success of a queueing call means the operation was queued", "statement": "When PUT, BPUT, GET, BGET, GETOP, BGETOP, DELETE or BDELETE returns success, every item of the call has been queued; when it returns an error, none has.", "quantifier": "all calls, all hash functions (including user supplied ones that fail)", "why_tests_cant": "depends on which item or permutation fails", "anchors": ["src/hxhim/ops/PUT.cpp", "src/hxhim/ops/impl.cpp:PutImpl", "src/hxhim/ops/GETOP.cpp"]}
{"id": "C36", "title": "Background PUTs are executed exactly once", "statement": "With asynchronous PUTs enabled, every accepted PUT is executed exactly once and its result is delivered exactly once by some flush, for every schedule of the client thread and the background thread.", "quantifier": "all interleavings of the two threads, all numbers of PUTs and flushes, all thresholds", "why_tests_cant": "thread schedules cannot be enumerated by testing", "anchors": ["src/hxhim/init.cpp:async_put_thread", "src/hxhim/private.cpp:wait_for_background_puts", "src/hxhim/ops/FLUSH.cpp:FlushPuts"]}
{"id": "C37", "title": "Flushing PUTs waits for all earlier PUTs and always terminates", "statement": "When FlushPuts returns, all PUTs accepted before the call have been executed; the two threads never deadlock.", "quantifier": "all interleavings of the two threads", "why_tests_cant": "deadlocks and lost wake-ups depend on schedules", "anchors": ["src/hxhim/private.cpp:wait_for_background_puts", "src/hxhim/init.cpp:async_put_thread"]}
{"id": "C38", "title": "Results of background PUTs are accessed without data races", "statement": "The client thread and the background thread never access the list of background PUT results at the same time.", "quantifier": "all interleavings of the two threads", "why_tests_cant": "data races are schedule dependent", "anchors": ["src/hxhim/init.cpp:async_put_thread", "src/hxhim/ops/FLUSH.cpp:FlushPuts"]}
{"id": "C39", "title": "Queues stay addressable for every datastore", "statement": "At any time after opening, an operation hashed to any datastore id in [0, total) indexes an existing queue, also after the background thread has taken the queued PUTs and also for handles opened on a single datastore.", "quantifier": "all sequences of PUTs and background flushes, all layouts", "why_tests_cant": "needs particular layouts combined with particular schedules", "anchors": ["src/hxhim/init.cpp:async_put_thread", "src/hxhim/init.cpp:queues", "src/hxhim/init.cpp:one_datastore"]}
{"id": "C40", "title": "Remote requests reach the rank that hosts the datastore", "statement": "A request for a remote datastore is delivered to the rank that hosts that datastore and its response is returned to the requester, for both transports.", "quantifier": "all sizes, ratios, datastores per server, senders and datastores", "why_tests_cant": "all parameter combinations", "anchors": ["include/transport/backend/MPI/EndpointGroup.tpp", "src/transport/backend/MPI/Init.cpp", "src/transport/backend/Thallium/EndpointGroup.cpp", "src/transport/backend/Thallium/Init.cpp"]}
{"id": "C41", "title": "Datastores of one process have distinct names", "statement": "Opening, changing the hash and changing the datastore name give every datastore of the cluster its own name, determined by its id.", "quantifier": "all layouts, prefixes, basenames and postfixes", "why_tests_cant": "all strings and ids", "anchors": ["src/datastore/datastores.cpp:generate_name", "src/hxhim/hxhim.cpp:ChangeHash", "src/hxhim/hxhim.cpp:ChangeDatastoreName"]}
{"id": "C42", "title": "User supplied transformations replace the defaults", "statement": "After a user registers an encode/decode pair for a data type, values of that type are encoded and decoded with it.", "quantifier": "all data types and all sequences of registrations", "why_tests_cant": "all sequences of registrations", "anchors": ["src/hxhim/init.cpp:transform", "src/hxhim/options.cpp:hxhim_set_transform_function"]}
{"id": "C43", "title": "Histograms count every value", "statement": "After any sequence of values has been added, the number of values reported equals the number added, and after the buckets are generated the bucket counts sum to it; bucket boundaries are ascending.", "quantifier": "all sequences of values, all bucket generators and thresholds", "why_tests_cant": "all value sequences", "anchors": ["src/utils/Histogram.cpp:add", "src/utils/Histogram.cpp:gen_counts", "src/utils/Histogram.cpp:insert"]}
{"id": "C44", "title": "Each value is counted in the bucket that contains it", "statement": "A value v not below the first boundary is counted in the bucket i with boundary[i] <= v < boundary[i+1] (the last bucket has no upper bound), and the reported upper end is the largest value added.", "quantifier": "all boundary lists in ascending order and all values", "why_tests_cant": "all boundary lists and values", "anchors": ["src/utils/Histogram.cpp:insert"]}
{"id": "C45", "title": "Histograms survive packing", "statement": "Unpacking a packed histogram gives the same name, cached values, boundaries and counts, and using it afterwards is safe.", "quantifier": "all histograms reachable by any sequence of additions", "why_tests_cant": "all histogram states", "anchors": ["src/utils/Histogram.cpp:pack", "src/utils/Histogram.cpp:unpack"]}
{"id": "C46", "title": "Histograms do not disturb stored triples", "statement": "Writing histograms to and reading them from a datastore neither changes what GET returns for user data nor is confused by user data.", "quantifier": "all user triples and histogram names", "why_tests_cant": "collisions need one specific subject and predicate", "anchors": ["src/datastore/InMemory.cpp:WriteHistogramsImpl", "src/datastore/InMemory.cpp:ReadHistogramsImpl"]}
{"id": "C47", "title": "Histograms track exactly the successful PUTs of their predicate", "statement": "The values added to a histogram are exactly the FLOAT/DOUBLE objects of successful PUTs whose predicate is a byte string equal to the histogram name, in order.", "quantifier": "all sequences of bulk PUTs", "why_tests_cant": "all sequences", "anchors": ["src/datastore/datastore.cpp:operate"]}
{"id": "C48", "title": "Later configuration sources override earlier ones", "statement": "After reading a sequence of configuration sources, each key has the value of the last source that mentions it, and keys mentioned by no source are absent.", "quantifier": "all sequences of sources and all file contents", "why_tests_cant": "all contents", "anchors": ["src/utils/Configuration.cpp:Sequence::process", "src/utils/Configuration.cpp:parse_kv_stream"]}
{"id": "C49", "title": "Configuration settings present in a configuration take effect", "statement": "Every valid setting in the configuration that is read takes effect, independently of which other settings are present, or an error is reported.", "quantifier": "all configurations", "why_tests_cant": "all subsets of settings", "anchors": ["src/hxhim/config.cpp:fill_options", "src/hxhim/config.cpp:parse_endpointgroup", "src/hxhim/config.cpp:default_reader"]}
{"id": "C50", "title": "Iterating results visits each result once, in order", "statement": "Going to the head of a result list and stepping forward visits every result exactly once in order, ends exactly after the last one, and accessors report errors outside the list, for the wrong kind of result and for failed results.", "quantifier": "all result lists and positions", "why_tests_cant": "all lists and accessor sequences", "anchors": ["src/hxhim/Results.cpp"]}
{"id": "C51", "title": "GETOP results keep all records", "statement": "A GETOP response with k records becomes exactly k retrievable results in order.", "quantifier": "all responses, including those with no records", "why_tests_cant": "record counts are unbounded, zero is a special case", "anchors": ["src/hxhim/Results.cpp:GetOp::init", "src/hxhim/Results.cpp:Add"]}
{"id": "C52", "title": "Histograms of every datastore can be requested", "statement": "A histogram request is accepted for exactly the ids of existing datastores.", "quantifier": "all layouts and ids", "why_tests_cant": "all layouts", "anchors": ["src/hxhim/ops/HISTOGRAM.cpp", "src/hxhim/ops/BHISTOGRAM.cpp"]}
{"id": "C53", "title": "Admissible number-encoding symbols keep order and values", "statement": "Every pair of number-encoding symbols the configuration accepts (negative < positive) preserves integer values and order.", "quantifier": "all symbol pairs accepted by the configuration and all integers", "why_tests_cant": "all symbol pairs times all integers", "anchors": ["src/hxhim/config.cpp:parse_elen", "include/utils/elen.tpp", "include/hxhim/config.hpp:DEFAULT_CONFIG"]}
{"id": "C54", "title": "Bulk operations of one type", "statement": "The single-type bulk calls (BPUT/BGET/BGETOP/BDELETE with one data type for all items) behave like the general bulk calls with that type repeated, and their results are returned by the next Flush.", "quantifier": "all calls", "why_tests_cant": "all argument lists", "anchors": ["src/hxhim/ops/single_type.cpp"]}
{"id": "C55", "title": "LevelDB data and histograms survive closing and opening", "statement": "A LevelDB datastore that is closed and opened again answers every GET and GETOP as before; if its histograms were written on closing, those asked for by name are read back unchanged.", "quantifier": "all histories of calls and all histograms", "why_tests_cant": "histories and stored contents are unbounded", "anchors": ["src/datastore/leveldb.cpp:open", "src/datastore/leveldb.cpp:close", "src/datastore/datastore.cpp:WriteHistogramsImpl"]}
{"id": "C56", "title": "Storing floating point fields is defined behaviour", "statement": "Storing any FLOAT or DOUBLE field, including infinities, NaN and fields of other lengths, executes no undefined behaviour and does not throw.", "quantifier": "all byte strings given as fields, all precisions and symbols", "why_tests_cant": "undefined behaviour usually yields some value on the test machine", "anchors": ["include/utils/elen.tpp:encode::frexp10", "include/datastore/transform.tpp:encode::floating_point"]}
{"id": "C57", "title": "Clients working at the same time see one store", "statement": "For any number of clients calling PUT, GET, GETOP, DELETE and Flush at the same time, every interleaving of their requests is explained by operations on one map that take effect one at a time, each between the call and the return of the Flush that sends it; operations of one client on one datastore keep their order. In particular a PUT whose Flush has returned is seen by every GET called later.", "quantifier": "all interleavings of any number of clients and all sequences of calls", "why_tests_cant": "interleavings of requests cannot be enumerated or forced by tests", "anchors": ["include/hxhim/private/process.hpp:process", "src/datastore/datastore.cpp:operate", "src/transport/backend/Thallium/RangeServer.cpp:process", "src/hxhim/ops/FLUSH.cpp:Flush"]}
{"id": "C58", "title": "Histogram results are snapshots", "statement": "A histogram result holds the histogram as the datastore had it at one moment between the request and the answer, whatever other clients store meanwhile, and does not change afterwards.", "quantifier": "all datastores, requested names and sequences of other clients' requests between looking the histograms up and packing them", "why_tests_cant": "needs a request of another thread in a window of a few instructions", "anchors": ["src/datastore/datastore.cpp:operate", "src/message/BHistogram.cpp:add", "src/message/Packer.cpp:pack", "src/utils/Histogram.cpp:pack"]}
{"id": "C59", "title": "Every named bucket generator gives usable buckets", "statement": "For every name of a bucket generator in the configuration, any positive number of finite values gives at least one bucket boundary, the boundaries ascend and the first is the smallest value, so that a histogram counts each of the values its buckets were made from.", "quantifier": "all generators, all non-empty lists of finite doubles, all positive first_n below 2^64", "why_tests_cant": "all doubles, all numbers of values, all roundings", "anchors": ["src/utils/Histogram.cpp:histogram_n_buckets", "src/utils/Histogram.cpp:histogram_sturges_formula", "src/utils/Histogram.cpp:histogram_scotts_normal_reference_rule", "src/utils/Histogram.cpp:histogram_uniform_logn", "include/hxhim/config.hpp:HISTOGRAM_BUCKET_GENERATORS"]}
{"id": "C60", "title": "Bucket generators make the number of buckets their rule says", "statement": "For n values the square-root choice makes floor(sqrt n) buckets, Sturges' formula ceil(log2 n) + 1 and the Rice rule ceil(2 cbrt n).", "quantifier": "all non-empty lists of finite doubles", "why_tests_cant": "all numbers of values, all roundings", "anchors": ["src/utils/Histogram.cpp:histogram_square_root_choice", "src/utils/Histogram.cpp:histogram_sturges_formula", "src/utils/Histogram.cpp:histogram_rice_rule"]}
{"id": "C61", "title": "Open gives a usable session or reports an error", "statement": "After Init, Open either returns HXHIM_SUCCESS and leaves a session whose queues exist for every datastore, whose table maps every datastore to its rank and which has opened the datastores of this rank, or returns another value and leaves no session; it never terminates the process. OpenOne does the same for one datastore.", "quantifier": "all layouts, ranks, transports, failures of datastores and of the transport", "why_tests_cant": "failures of single ranks, layouts and transports cannot be combined exhaustively; needs MPI", "anchors": ["src/hxhim/hxhim.cpp:Open", "src/hxhim/hxhim.cpp:OpenOne", "src/hxhim/hxhim.cpp:Init", "src/hxhim/init.cpp", "include/hxhim/constants.h:HXHIM_OPEN_ERROR"]}
{"id": "C62", "title": "A session releases everything once", "statement": "Whatever calls are made on a session in an order that makes sense, nothing is released twice and after Close nothing that the session allocated is left: private data, configurations, datastores, transformations, transport, thread and packets.", "quantifier": "all sequences of calls", "why_tests_cant": "sequences of calls are unbounded; leaks do not change results", "anchors": ["src/hxhim/hxhim.cpp:Close", "src/hxhim/destroy.cpp", "src/datastore/datastores.cpp:destroy", "src/transport/transports.cpp:destroy", "include/hxhim/private/process.hpp:process"]}
{"id": "C63", "title": "Calls on sessions that are not open are rejected", "statement": "Every call other than Init on a null, closed or not yet opened session returns an error and changes nothing, and an open session cannot be opened or configured again.", "quantifier": "all handles and calls", "why_tests_cant": "all calls times all states of a session", "anchors": ["src/hxhim/private.cpp:started", "src/hxhim/hxhim.cpp", "src/hxhim/ops/FLUSH.cpp", "src/hxhim/ops/SYNC.cpp", "src/hxhim/Results.cpp:hxhim_results_destroy"]}
{"id": "C64", "title": "All ranks make the same collective calls", "statement": "Ranks that call Init, Open, Sync, ChangeHash, ChangeDatastoreName and Close in the same order make the same collective MPI calls in the same order, whatever local calls they make in between.", "quantifier": "all sequences of calls on any two ranks", "why_tests_cant": "a mismatch shows as a hang that depends on what fails on which rank", "anchors": ["src/hxhim/hxhim.cpp:Open", "src/hxhim/hxhim.cpp:Close", "src/hxhim/ops/SYNC.cpp", "src/transport/backend/Thallium/Utilities.cpp:get_addrs"]}
{"id": "C65", "title": "With the MPI transport clients receive the answers to what they sent", "statement": "Whatever the order in which the threads of clients and range servers take steps, a call of communicate returns one answer for every request it sent to a range server, the answer is what that range server computed for that request, range servers carry out whole requests one after the other, each once and in the order the client made its calls, and no message is received in a buffer of another length.", "quantifier": "all numbers of ranks, listeners and calls, all requests, all interleavings", "why_tests_cant": "interleavings cannot be enumerated by tests; needs MPI with many ranks and threads", "anchors": ["include/transport/backend/MPI/EndpointGroup.tpp:parallel_send", "include/transport/backend/MPI/EndpointGroup.tpp:parallel_recv", "include/transport/backend/MPI/EndpointGroup.tpp:return_msgs", "src/transport/backend/MPI/RangeServer.cpp:listener_thread"]}
{"id": "C66", "title": "The MPI transport does not hang", "statement": "If every range server has a listener thread, every call of communicate returns after finitely many steps, in any order of steps.", "quantifier": "all numbers of ranks, listeners and calls, all interleavings, with or without buffering by MPI", "why_tests_cant": "a deadlock shows only under rare schedules and message sizes", "anchors": ["include/transport/backend/MPI/EndpointGroup.tpp:parallel_send", "include/transport/backend/MPI/EndpointGroup.tpp:parallel_recv", "src/transport/backend/MPI/RangeServer.cpp:recv", "src/transport/backend/MPI/RangeServer.cpp:send"]}
{"id": "C67", "title": "Thallium: buffers, responses and the end of a session", "statement": "In every order of the steps of clients, handlers and cleanup RPCs no buffer is used after it was freed or freed twice, all buffers are freed in the end, every request is carried out once and its response reaches the thread that sent it, nothing waits for ever, and no RPC reaches a rank whose transport is destroyed.", "quantifier": "all numbers of ranks, threads and requests, all addresses that operator new gives out, all interleavings of threads, handlers, cleanups and Close", "why_tests_cant": "use after free and RPCs to a destroyed engine depend on rare orders of steps of several processes", "anchors": ["src/transport/backend/Thallium/EndpointGroup.cpp:process_request", "src/transport/backend/Thallium/RangeServer.cpp:process", "src/transport/backend/Thallium/RangeServer.cpp:cleanup", "src/hxhim/hxhim.cpp:Close"]}
{"id": "C68", "title": "The directory of a datastore is created with all its parents", "statement": "mkdir_p never touches memory outside the copy of the path, adds nothing but the missing directories of the path, removes nothing, succeeds if no file is in the way, and when it reports success the path is a directory; other processes creating the same directories at the same time do not disturb it.", "quantifier": "all paths, file systems, access rights and concurrent creations of directories", "why_tests_cant": "file systems, paths and interleavings with other processes are unbounded", "anchors": ["src/utils/mkdir_p.cpp", "src/datastore/datastores.cpp"]}
{"id": "C69", "title": "elen: integers of every width survive and keep their order", "statement": "Every integer of the eight types of the elen library except the smallest of a signed type is encoded to a string from which the decoder reads the same integer and the number of characters it took, whatever follows the string; integers in numerical order, also of different types, are encoded to strings in the order of bytes.", "quantifier": "all eight integer types, all values, all symbols, all following characters", "why_tests_cant": "tests of the library take a few values of each type and never decode the 8-bit types", "anchors": ["include/utils/elen.tpp:encode::integers", "include/utils/elen.tpp:decode::integers", "src/utils/elen.cpp:41", "src/utils/elen.cpp:80"]}
{"id": "C70", "title": "elen: small and large decimals survive and keep their order", "statement": "Decimals in numerical order are encoded to equal strings or strings in the order of bytes, and a decoded decimal differs from the encoded one by no more than one unit of the last digit kept and the rounding of the format (half a unit for small decimals).", "quantifier": "all finite floats and doubles, all precisions and symbols", "why_tests_cant": "rounding happens four times on the way; the values where a carry would leave its field are a few out of 2^64", "anchors": ["include/utils/elen.tpp:encode::small_decimals", "include/utils/elen.tpp:encode::large_decimals", "include/utils/elen.tpp:decode::small_decimals", "include/utils/elen.tpp:decode::large_decimals"]}
{"id": "C71", "title": "elen: lex_comp is a total order that agrees with datastores", "statement": "lex_comp on strings is a strict total order; both lex_comp functions agree with the order in which datastores keep keys, so they order encoded integers by value.", "quantifier": "all strings, all memory after the strings", "why_tests_cant": "strings are unbounded; plain char is signed on some machines only", "anchors": ["src/utils/elen.cpp:31", "src/utils/elen.cpp:120"]}
{"id": "C72", "title": "Statistics of a session account for its calls and packets", "statement": "Every successful call is recorded once, in order, with its times, under its operation and apart from calls of the other form (single or bulk); refused or failed calls are not. The packets counted hold exactly the operations issued that wait no more, each between one operation and the limit, each counted for one datastore, which gets as many as needed. The printed fill rates are right and at most 100%; durations add up to no more than the time that passed.", "quantifier": "all sequences of calls and flushes, all placements, all limits, all clock readings", "why_tests_cant": "the tables are printed to a log nobody compares; a call recorded in the wrong table looks plausible", "anchors": ["src/hxhim/Stats.cpp:6", "include/hxhim/private/process.hpp:74", "src/hxhim/ops/GETOP.cpp:39", "src/hxhim/ops/single_type.cpp:7"]}
{"id": "C73", "title": "Statistics of a datastore account for its operations, and its report is defined", "statement": "GetStats and the report at the end of a datastore give the number of PUTs and GETs it has answered, the bytes written and read (a datastore holds no more than the bytes PUT), and the time spent, which is no more than the time that passed; the seconds are right up to the error of a long double per event; bytes per second are shown in a unit of 1024^i, rounded to a thousandth of it, without undefined behaviour.", "quantifier": "all sequences of requests to both datastores, all codecs, all clock readings, all sizes", "why_tests_cant": "the report goes to a log at the very end; wrong byte counts look plausible, and the read past the table of units needs a clock that does not advance or an enormous rate", "anchors": ["src/datastore/datastore.cpp:30", "src/datastore/datastore.cpp:338", "src/datastore/InMemory.cpp:145", "src/datastore/LevelDB.cpp:191", "include/datastore/datastore.hpp:130"]}
{"id": "C74", "title": "Results carry the times of the operations they answer", "statement": "Every result of a Flush belongs to one operation and says when that operation was hashed and put into a packet (and, for the first of a packet, when the packet was allocated), when its packet was sent and received, and when the result was made; these moments are in order, and no operation is accounted for twice. Recording times changes neither what is stored nor which results there are.", "quantifier": "all sequences of operations, Flushes and Syncs, all clocks that do not go back, all packet limits, all layouts", "why_tests_cant": "times end up in traces that nobody compares with the operations; exchanged or missing times look like plausible numbers", "anchors": ["src/hxhim/ops/impl.cpp", "src/hxhim/Results.cpp:101", "src/transport/backend/Thallium/EndpointGroup.cpp:98", "include/transport/backend/local/RangeServer.hpp:35", "src/hxhim/ops/SYNC.cpp:26"]}
{"id": "C75", "title": "Numbers stored through one client are read through any other, as precisely as the callbacks allow", "statement": "Clients of a cluster see one map that holds, for every object, what encoding and decoding make of it. In particular a double put with PutDouble (float: PutFloat) is read by every client, until the pair is overwritten or deleted, as a number within 1e-14 (1e-5) of it relative to its size with the default configuration, and as the type it was stored with. The bulk functions for floats and doubles do what BPut, BGet and BGetOp do with that type.", "quantifier": "all sequences of turns of all clients, all layouts with one datastore in use per other rank, both datastores, all numbers in the ranges of C10, all configurations of precision and symbols", "why_tests_cant": "needs the encoding error, the map semantics and the transport together; tests store a few round numbers and read them in the same process", "anchors": ["src/hxhim/ops/float.cpp:20", "src/hxhim/ops/double.cpp:20", "src/hxhim/ops/single_type.cpp:7", "src/hxhim/ops/single_type.cpp:116", "include/utils/memory.hpp:30", "src/datastore/InMemory.cpp"]}
{"id": "C76", "title": "A GETOP through the whole cluster answers from the store", "statement": "GETOPs issued by clients of a cluster see the same store as PUTs, GETs and DELETEs: the PUTs of earlier turns and of their own turn, not the DELETEs of their own turn. FIRST, LAST, NEXT, PREV, EQ and LOWEST answer from all stored triples in key order; every triple returned is stored; every GETOP gets at least one result and no GETOP has undefined behaviour, whichever rank the datastore is on.", "quantifier": "for every number of clients taking turns, every list of calls of each turn, every layout, hash function, codec and both datastores", "why_tests_cant": "the answer depends on which datastore the hash function picks, on what other clients stored before and on whether the request crosses the wire; tests use one rank and one datastore", "anchors": ["src/hxhim/ops/impl.cpp:246", "src/hxhim/Results.cpp:177", "src/datastore/InMemory.cpp:181", "src/datastore/datastore.cpp:519", "src/message/BGetOp.cpp", "include/hxhim/private/process.hpp"]}
{"id": "C77", "title": "The trace of a session can be read back and is complete", "statement": "In a build with PRINT_TIMESTAMPS every event is one line: rank, name, start and end in nanoseconds after the epoch of the session, duration in seconds. A reader gets back the rank, the name, the start and the end exactly and the duration to six digits, whatever their values. Everything printed is handed out by GetPrintBufferContents once and in order, or logged by Close. A result prints, when it is destroyed, the whole duration of the operation it answers and its parts, with the times that were taken for that operation; destroying it is possible at any time. GetEpoch splits the epoch into seconds and nanoseconds.", "quantifier": "for every rank, epoch and list of events, every order of printing, destroying results, asking for the buffer and closing, and the results of every session of C74", "why_tests_cant": "durations are printed in fixed or exponential form with zeros removed depending on their size, from 1 ns to 584 years; losses depend on the order of calls and on the state of the caller's stream", "anchors": ["src/utils/Stats.cpp:61", "src/hxhim/Results.cpp:35", "src/hxhim/accessors.cpp:27", "src/hxhim/accessors.cpp:338", "src/hxhim/hxhim.cpp:269", "src/hxhim/private.cpp:22"]}
{"id": "C78", "title": "Warnings about types are exact and harmless; blobs that print alike are alike", "statement": "When a GET or GETOP succeeds, a datastore that logs warnings logs one for each subject, predicate and object whose stored type is not the one asked for, naming both, in the order of the records, and no others. Logging them changes no response and no stored triple and reads only names that exist. Printing a blob reads only names that exist, and two blobs that print alike have the same address, length, type and ownership.", "quantifier": "for every codec, both datastores, every history of requests, every type, with and without logging; every two blobs", "why_tests_cant": "tests run with types that have names, and the table of names is only read at the log level that prints warnings", "anchors": ["src/hxhim/hxhim.cpp:33", "src/datastore/InMemory.cpp:134", "src/datastore/LevelDB.cpp:180", "include/datastore/datastore.tpp:19", "src/utils/Blob.cpp:256"]}
{"id": "C79", "title": "PUTs carried out in the background take effect in a cluster as if they had been flushed", "statement": "In a session with the background PUT thread, PUTs are sent by that thread while the client goes on and other clients work. Whatever the schedule, no request fails, and everything that the client and all others see is explained by operations on one map that take effect one at a time, those of the session's PUTs while the thread (or FlushPuts) has them in its hands. When FlushPuts returns, every PUT called before it has taken effect, in order: the last one of a pair is what any client gets until someone changes the pair. The thread can always complete what it has taken, without help from the others.", "quantifier": "for every program of PUTs and flushes, every number of clients and ranks, every interleaving of client, thread, requests and other clients, both backends", "why_tests_cant": "tests do not control when the thread wakes up, and run one client", "anchors": ["src/hxhim/init.cpp:223", "src/hxhim/ops/FLUSH.cpp:33", "src/hxhim/ops/PUT.cpp:37", "include/hxhim/private/process.hpp:43"]}
{"id": "C80", "title": "The message buffer of the logger holds the last lines, and is found in memory", "statement": "The logger keeps the newest output in a circular buffer of n bytes. Whatever was logged, the buffer holds exactly the last n bytes of the lines of all messages that the masks of their facilities wanted, in order; a line is header and message, without a second newline at its end, not more than 4095 bytes; mlog_mbcount is the number of bytes, and mlog_mbcopy(offset, len) gives the len bytes before the newest offset. mlog_findmesgbuf finds the buffer in a core file of either byte order and returns pieces inside the file that hold this text.", "quantifier": "for every buffer length, every sequence of messages of any length and priority, every offset and length, every memory around the buffer", "why_tests_cant": "tests of the logger do not exist; wrapping around depends on the lengths of all lines before", "anchors": ["src/utils/mlog2.c:197", "src/utils/mlog2.c:616", "src/utils/mlog2.c:638", "src/utils/mlog2.c:1335", "src/utils/mlog2.c:1457"]}
{"id": "C81", "title": "A message is logged exactly if the mask of its facility wants it", "statement": "A mask is a level, which wants that level and all above, or a set of streams of debugging. mlog_filter (of the macros) and vmlog agree, for every facility and priority, also for facilities that do not exist. Names and masks of facilities are what the last call set them to, however many facilities are added; mlog_setmasks sets what its text says, mlog_getmasks writes a text that sets the same masks again, and any part of it. A session of HXHIM writes the messages that its own debug level wants.", "quantifier": "for every sequence of calls that name and mask facilities, every text of well formed entries, every priority, every sequence of sessions", "why_tests_cant": "tests of the logger do not exist; debug levels are only looked at by people", "anchors": ["include/utils/mlog2.h:113", "src/utils/mlog2.c:335", "src/utils/mlog2.c:537", "src/utils/mlog2.c:742", "src/utils/mlog2.c:1113", "src/utils/mlog2.c:1225", "src/hxhim/hxhim.cpp:110", "src/hxhim/hxhim.cpp:274"]}
{"id": "C82", "title": "The command line interface does what its lines say", "statement": "The program of examples/hxhim reads one command per line: PUT, GET, GETOP, DEL with typed arguments, the same with B and a count, and the flushes. A line of this language (words separated by white space, integers in the range of their type, decimal numbers, which become the nearest float or double) adds exactly the commands it means, in order; any other line is reported and adds nothing, and does not affect other lines. Run on a cluster, a script of commands and FLUSHes gives the results of one map, and its behaviour is defined.", "quantifier": "for every text and every division into lines, every spelling of numbers, all white space; every script, layout, hash function and both datastores", "why_tests_cant": "tests type in a few lines; partial reads depend on where a line breaks off and on how far a number reaches into the next word", "anchors": ["examples/hxhim/cli.cpp:107", "examples/hxhim/cli.cpp:122", "examples/hxhim/cli.cpp:203", "examples/hxhim/cli.cpp:305"]}
{"id": "C83", "title": "Printed results show the values", "statement": "print_results prints one line per result, with the operation, subject, predicate, object, status and range server. What is printed for a value denotes this value: typed in again it gives the same bytes; floats and doubles are printed to the nearest number with FLT_DECIMAL_DIG (DBL_DECIMAL_DIG) digits behind the point and can be told apart. Nothing is printed from memory that is no longer there.", "quantifier": "for all values of all types, all results of all scripts of C82", "why_tests_cant": "tests print small positive integers and short texts only", "anchors": ["examples/hxhim/print_results.c:9", "examples/hxhim/print_results.c:44"]}
{"id": "C84", "title": "The lowest and highest numbers of a subject are found, also when the encoding loses digits", "statement": "Floating point values, and values of types with registered callbacks, need not come back exactly as they were stored. A datastore keeps, of each pair of encoded subject and predicate, the last PUT that was not deleted, and GET and GETOP return it as the callbacks read it back. LOWEST (HIGHEST) of a subject with a numeric type instead of a predicate returns the n lowest (highest) numbers of that type stored under the subject, in ascending (descending) order of the values that were stored, or all if there are fewer, and nothing else; integers come back as they were.", "quantifier": "for all callbacks, all histories of PUTs, GETs and DELETEs, both backends; all numbers of the four integer types and of float and double, all configured symbols that surround the digits and all precisions, every libm as accurate as assumed in C10", "why_tests_cant": "the example lowest.c prints random temperatures and nobody compares; tests of GETOP use byte strings", "anchors": ["src/datastore/datastore.cpp:444", "include/datastore/datastore.tpp:10", "src/datastore/LevelDB.cpp:315", "src/datastore/LevelDB.cpp:336", "src/datastore/InMemory.cpp:275", "examples/hxhim/lowest.c:113"]}
{"id": "C85", "title": "Clients may call and flush in any order", "statement": "Several clients share the cluster. Each makes calls and flushes whenever it likes, everything or only PUTs, GETs, GETOPs or DELETEs. An operation waits until a flush of its kind (or of everything) of its own client, and then takes effect on one map of subject, predicate and object that all clients share; the flush returns exactly one result for every waiting GET, PUT and DELETE that it covers, and the triples for every GETOP, and nothing for the operations that keep waiting. Flushing everything is: PUTs, GETs, GETOPs, DELETEs. A client reads what it has put before.", "quantifier": "for all numbers of clients, all interleavings of their calls and flushes, all layouts, hash functions, both backends, all codecs", "why_tests_cant": "tests flush everything after each call; orders in which operations of one kind overtake those of another are not tried", "anchors": ["src/hxhim/ops/FLUSH.cpp:33", "src/hxhim/ops/FLUSH.cpp:88", "src/hxhim/ops/FLUSH.cpp:215", "src/hxhim/private.cpp:63"]}
{"id": "C86", "title": "lowest.c shows the lowest temperatures", "statement": "examples/hxhim/lowest.c gives every rank a grid of cells with temperatures, stores them all in datastore 0, and lets one rank ask for the lowest and for the highest. What it shows for LOWEST are the n lowest temperatures of all cells of all ranks, in ascending order, each with the name of a cell that has it; of temperatures that are stored alike only one is shown; nothing else is shown unless there are fewer than n. For HIGHEST likewise in descending order. Every place of the grid has a cell of its own.", "quantifier": "for all numbers of ranks, grids, temperatures (finite doubles that can be stored and read back), n, precisions, C libraries within C10's error bounds, layouts, both backends, orders in which the ranks store", "why_tests_cant": "the example is not run by any test; rand chooses temperatures and the rank that asks", "anchors": ["examples/hxhim/lowest.c:88", "examples/hxhim/lowest.c:93", "examples/hxhim/lowest.c:98", "examples/hxhim/lowest.c:113", "examples/hxhim/lowest.c:117", "examples/hxhim/lowest.c:130"]}
{"id": "C87", "title": "hx.cpp shows failures, successes and the numbers", "statement": "examples/hxhim/hx.cpp (and hx.c) lets every rank PUT count doubles under texts made of its rank and an index, GET them all and flush only the GETs, flush the PUTs, and GET them all again. Whatever the other ranks do in the meantime, the first flush returns a failed GET for every pair, the second a successful PUT for every pair, and the third for every pair the number stored under it, as far as the callbacks keep it; nothing else is returned. If asked to, the rank prints one line for each of these results, with its rank, the range server and, for the last flush, the texts and the number. No text is longer than the buffer for it, and no two pairs of the same or of different ranks have the same texts.", "quantifier": "for all numbers of ranks and counts below 2^64, interleavings of the moves of the ranks, numbers that come back, precisions, C libraries within C10's error bounds, layouts, hash functions, both backends", "why_tests_cant": "the example is not run by any test; its output depends on rand; the comment in hx.c only says that early GETs will likely return errors", "anchors": ["examples/hxhim/hx.cpp:127", "examples/hxhim/hx.cpp:142", "examples/hxhim/hx.cpp:163", "examples/hxhim/hx.cpp:168", "examples/hxhim/hx.cpp:184", "examples/hxhim/hx.cpp:215", "examples/hxhim/hx.cpp:226", "examples/hxhim/spo_gen.c:39", "examples/hxhim/spo_gen.c:52", "examples/hxhim/hx.cpp:11", "examples/hxhim/hx.c:18", "examples/hxhim/print_results.c:44"]}
{"id": "C88", "title": "BPUTs of one type among other calls are the BPUTs they stand for", "statement": "When clients call and flush in any order and some of the calls are BPUTs of one type, every GET that is flushed sees the one map of all PUTs and DELETEs executed before, in the order of the flushes. A BPUT of one type after which max_queued PUTs of the client wait is executed at once, like FlushPuts, and the results of these PUTs are in no later list of results; otherwise it is the BPUT with the type repeated. Without BPUTs of one type this is C85.", "quantifier": "for all interleavings of any number of clients, lists of triples, types, limits max_queued, objects that come back from the callbacks, layouts, hash functions, both backends", "why_tests_cant": "no test mixes BPutSingleType with flushes of one kind, and no test has a limit below the number of PUTs", "anchors": ["src/hxhim/ops/single_type.cpp:7", "src/hxhim/private.cpp:71", "src/hxhim/ops/FLUSH.cpp:33"]}
{"id": "C89", "title": "puts.c leaves exactly the triples it makes", "statement": "examples/hxhim/puts.c makes count random triples of 8, 4 and 24 bytes, PUTs them with BPutSingleType and flushes, times times, on every rank. Afterwards the cluster has an object for every pair that some rank made, one of those made with it, and no other pair; with one rank it is the object made last. This does not depend on max_queued, although PUTs are executed early when the limit is reached. The ranks together store as many pairs as they report PUTs.", "quantifier": "for all numbers of ranks, counts and rounds, values of rand, interleavings of the ranks, limits max_queued, layouts, hash functions, both backends, pairs asked for", "why_tests_cant": "the example is not run by any test, checks nothing itself and destroys the results it is given; no test compares what different processes draw from rand", "anchors": ["examples/hxhim/puts.c:70", "examples/hxhim/puts.c:75", "examples/hxhim/puts.c:86", "examples/hxhim/puts.c:95", "examples/hxhim/spo_gen.c:93", "examples/hxhim/spo_gen.c:109"]}
{"id": "C90", "title": "Messages own their arrays: everything allocated is released exactly once", "statement": "Whatever sequence of constructions, allocs, adds, steals, steals of timestamps and destructions of requests and responses of all kinds is executed within the room of the messages, no array is released twice, used after its release or accessed beyond its end, every array in use is pointed to by exactly one member or record of one message, and none is left when all messages are destroyed. In particular local::range_server loses and releases nothing twice when it steals the datastore's response. Room is not checked by add and steal, setting the count to 0 is only right when all records are stolen, and alloc of a used message starts from the size of its old contents.", "quantifier": "for all sequences of these operations on any number of messages of the ten kinds, numbers of items and records, statuses and sizes", "why_tests_cant": "leaks and double releases do not change what the unit tests look at; tests build each message once, fill it to its capacity at most and destroy it", "anchors": ["include/utils/memory.hpp:29", "src/message/BGetOp.cpp:132", "src/message/BGetOp.cpp:146", "src/message/Message.cpp:73", "src/message/Message.cpp:91", "include/transport/backend/local/RangeServer.hpp:66"]}
{"id": "C91", "title": "Options: every option has the value given last, and refused calls change nothing", "statement": "Before Open every hxhim_set_* call is answered with HXHIM_SUCCESS exactly when its arguments are proper, and whatever sequence of calls is made every option has the value of the last successful call for it, the endpoint group is what was added since the last clear, all tracked predicates are kept, and the thread for asynchronous PUTs is wanted exactly when a limit is set. Sessions that run or do not exist refuse every call and stay as they are. The objects with the settings of the datastore and the transport are destroyed exactly once. Exceptions: MPI_COMM_NULL is refused but stored, hxhim_set_transport_mpi dereferences an absent session, its options keep the communicator of the moment, strings are not tested for null, and a second Init loses the objects.", "quantifier": "for all sequences of Init, setters with any arguments, Open and Close", "why_tests_cant": "tests set each option once on a fresh session; leaks of replaced settings, refused calls and calls in another order are not looked at", "anchors": ["src/hxhim/options.cpp:20", "src/hxhim/options.cpp:157", "src/hxhim/options.cpp:338", "src/hxhim/options.cpp:375", "src/hxhim/options.cpp:425", "src/hxhim/options.cpp:464", "src/hxhim/options.cpp:539"]}
{"id": "C92", "title": "Histograms: clear forgets everything, and print is always possible", "statement": "After Histogram::clear a histogram has no values and no buckets and behaves like a new one with the same name, limit and generator. Printing a histogram, which its destructor does, is possible after every sequence of add and clear.", "quantifier": "all names, limits, generators and sequences of add and clear", "why_tests_cant": "tests clear histograms once and then add values from the same range; whether old cached values influence new buckets shows only with other values and limits", "anchors": ["src/utils/Histogram.cpp:203-237", "src/utils/Histogram.cpp:280-296", "src/utils/Histogram.cpp:532-553", "src/utils/Histogram.cpp:562-572"]}

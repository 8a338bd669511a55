{"id": "C01", "title": "Max-flow optimality", "statement": "When compute_residual_maxflow() followed by transform_residual_to_flow() completes on a graph, get_flow() equals the largest value of any feasible flow from the source to the sink for the edges that were added; no other assignment of flow to the edges that respects capacities and conservation carries more.", "quantifier": "every graph: any number of vertices, any multiset of source, inner and sink edges (including parallel edges and self loops) with any capacities", "why_tests_cant": "The set of graphs and of competing flows is infinite; tests compare with hand-computed values on a few small graphs.", "anchors": ["lib/tethys/tethys_graph.cpp:compute_residual_maxflow", "lib/tethys/tethys_graph.cpp:find_source_sink_path", "lib/tethys/tethys_graph.cpp:get_flow"]}
{"id": "C02", "title": "Flow feasibility", "statement": "After the max-flow computation every edge carries between 0 and its capacity units, and at every inner vertex the incoming flow equals the outgoing flow; at no intermediate moment does the unsigned arithmetic on an edge underflow.", "quantifier": "every graph and every intermediate state of the augmentation loop", "why_tests_cant": "Invariant over all augmenting-path histories; tests only look at final states of small graphs.", "anchors": ["lib/include/sse/schemes/tethys/details/tethys_graph.hpp:Edge::update_flow", "lib/tethys/tethys_graph.cpp:compute_residual_maxflow", "lib/tethys/tethys_graph.cpp:transform_residual_to_flow"]}
{"id": "C03", "title": "Max-flow termination", "statement": "compute_residual_maxflow() always returns: each path search visits each vertex at most once, and there are at most as many augmentations as the total capacity leaving the source.", "quantifier": "every finite graph with any finite capacities", "why_tests_cant": "Termination on all inputs cannot be tested.", "anchors": ["lib/tethys/tethys_graph.cpp:find_source_sink_path", "lib/tethys/tethys_graph.cpp:compute_residual_maxflow"]}
{"id": "C04", "title": "Graph life-cycle guards", "statement": "Edges can be added only before the flow is computed, the flow can be computed only once, and flow values can be read only after it has been computed; every call out of order, and every call with a vertex index out of range, throws and leaves the graph unchanged.", "quantifier": "every sequence of API calls on a graph", "why_tests_cant": "Unbounded call histories.", "anchors": ["lib/tethys/tethys_graph.cpp:add_edge", "lib/tethys/tethys_graph.cpp:add_edge_from_source", "lib/tethys/tethys_graph.cpp:add_edge_to_sink", "lib/tethys/tethys_graph.cpp:transform_residual_to_flow", "lib/tethys/tethys_graph.cpp:get_flow"]}
{"id": "C05", "title": "Parallel max-flow agrees with sequential", "statement": "parallel_compute_residual_maxflow() on a freshly built graph ends with a feasible flow of the same (maximum) value as the sequential computation, whatever order the per-component jobs take turns in; every execution of the jobs is finite and none gets stuck.", "quantifier": "every graph and every interleaving of the per-component jobs at augmentation granularity", "why_tests_cant": "Schedules are not enumerable by tests.", "anchors": ["lib/tethys/tethys_graph.cpp:compute_connected_components", "lib/tethys/tethys_graph.cpp:parallel_compute_residual_maxflow"]}
{"id": "C06", "title": "Allocation respects page capacity", "statement": "After allocate(), for every bin the total number of entries assigned to it is at most the page size.", "quantifier": "every multiset of inserted lists (lengths up to page size, arbitrary bin pairs), every table size and page size", "why_tests_cant": "Infinite input space; overflow appears only for particular congested graphs.", "anchors": ["lib/tethys/tethys_allocator.cpp:TethysAllocator::allocate", "lib/tethys/tethys_allocator.cpp:TethysAllocator::insert"]}
{"id": "C07", "title": "Allocation accounts for every entry", "statement": "After allocate(), for every inserted list the parts assigned to its two bins never exceed the list length, and they sum to exactly the list length unless the list is reported in the stashed set; a stashed list's missing part is what goes to the stash.", "quantifier": "every multiset of inserted lists", "why_tests_cant": "Conservation law over all inputs.", "anchors": ["lib/tethys/tethys_allocator.cpp:TethysAllocator::allocate", "lib/tethys/tethys_allocator.cpp:get_stashed_edges"]}
{"id": "C08", "title": "Allocation minimises the stash", "statement": "The total number of entries that do not fit in the table after allocate() is the minimum over all possible ways of splitting every list between its two bins under the page capacity.", "quantifier": "every multiset of lists and every competing assignment", "why_tests_cant": "Optimality quantifies over all competing assignments.", "anchors": ["lib/tethys/tethys_allocator.cpp:TethysAllocator::allocate", "lib/tethys/tethys_graph.cpp:compute_residual_maxflow"]}
{"id": "C09", "title": "Allocator guards", "statement": "insert() refuses lists longer than a page, the reserved value index, and any insertion after allocate(); bin and stash accessors refuse to answer before allocate(); a refused call leaves the allocator unchanged.", "quantifier": "every sequence of calls", "why_tests_cant": "Unbounded call histories.", "anchors": ["lib/tethys/tethys_allocator.cpp:TethysAllocator::insert", "lib/tethys/tethys_allocator.cpp:TethysAllocator::allocate"]}
{"id": "C10", "title": "Bucket encode/decode round trip", "statement": "For a page built by encoding any sequence of non-empty list parts, decoding with a key returns exactly the encoded part for that key if it is present, and nothing otherwise; other lists in the page never leak into the result.", "quantifier": "every sequence of (key, values, assignment) with distinct keys that fits in the page, every lookup key", "why_tests_cant": "Unbounded input space; wrong boundaries only appear for particular page fills.", "anchors": ["lib/include/sse/schemes/tethys/encoders/encode_separate.hpp:EncodeSeparateEncoder::encode", "lib/include/sse/schemes/tethys/encoders/encode_separate.hpp:EncodeSeparateEncoder::finish_block_encoding", "lib/include/sse/schemes/tethys/encoders/encode_separate.hpp:EncodeSeparateDecoder::decode_single_bucket"]}
{"id": "C11", "title": "Encoded page fits", "statement": "The bytes written for the lists assigned to a bin never exceed the page size when the entries assigned to the bin do not exceed the page capacity; so building never aborts with a page overflow after a successful allocation.", "quantifier": "every allocation result and every page", "why_tests_cant": "Depends on every possible allocation.", "anchors": ["lib/include/sse/schemes/tethys/encoders/encode_separate.hpp:EncodeSeparateEncoder::encode", "lib/include/sse/schemes/tethys/tethys_store_builder.hpp:TethysStoreBuilder::build"]}
{"id": "C12", "title": "List split is exact", "statement": "For every list and every assignment produced by the allocator, the part encoded in the first bin, the part written to the stash and the part encoded in the second bin are disjoint and concatenate to the original list, in particular when one or both assigned parts are too small to hold the control words.", "quantifier": "every list, every pair of assigned lengths whose sum is at most the list length plus control words", "why_tests_cant": "Boundary cases of three min/subtract computations.", "anchors": ["lib/include/sse/schemes/tethys/encoders/encode_separate.hpp:EncodeSeparateEncoder::encode", "lib/include/sse/schemes/tethys/encoders/encode_separate.hpp:EncodeSeparateEncoder::serialize_key_value"]}
{"id": "C13", "title": "Page encryption is transparent and never reuses a keystream", "statement": "Decrypting an encrypted page with the same key and page index gives back the encoded page for every keystream function, and a build never encrypts two pages under the same nonce.", "quantifier": "every page content, every key, every table", "why_tests_cant": "All contents and all tables.", "anchors": ["lib/include/sse/schemes/tethys/encoders/encode_encrypt.hpp:EncryptEncoder::finish_block_encoding", "lib/include/sse/schemes/tethys/encoders/encode_encrypt.hpp:DecryptDecoder::decode_buckets"]}
{"id": "C14", "title": "Stash file round trip", "statement": "Reading back the stash file yields, for every key, exactly the stashed values that were written for it, and no entry for the other keys.", "quantifier": "every collection of stashed lists with distinct keys", "why_tests_cant": "Unbounded inputs.", "anchors": ["lib/include/sse/schemes/abstractio/kv_serializer.hpp", "lib/include/sse/schemes/tethys/encoders/encode_separate.hpp:serialize_key_value", "lib/include/sse/schemes/tethys/encoders/encode_separate.hpp:deserialize_key_value"]}
{"id": "C15", "title": "Tethys store returns every inserted list", "statement": "After inserting any collection of non-empty lists under distinct keys, building, and opening the store, get_list(key) returns exactly the values inserted under key (each with its multiplicity, possibly reordered) and returns nothing for a key never inserted.", "quantifier": "every collection of lists of admissible length, every hash function, table size and page size", "why_tests_cant": "Quantifies over all databases and all hash collisions.", "anchors": ["lib/include/sse/schemes/tethys/tethys_store_builder.hpp:TethysStoreBuilder::insert_list", "lib/include/sse/schemes/tethys/tethys_store_builder.hpp:TethysStoreBuilder::build", "lib/include/sse/schemes/tethys/tethys_store.hpp:TethysStore::get_list"]}
{"id": "C16", "title": "Empty lists are harmless in the Tethys store", "statement": "Inserting an empty list under some key must not change what get_list returns for the other keys.", "quantifier": "every database containing an empty list", "why_tests_cant": "The failure needs a particular bin collision; tests never insert an empty list next to others.", "anchors": ["lib/include/sse/schemes/tethys/encoders/encode_separate.hpp:encode", "lib/include/sse/schemes/tethys/encoders/encode_separate.hpp:decode_single_bucket", "lib/include/sse/schemes/tethys/tethys_builder.hpp:GenericTethysBuilder::insert_list"]}
{"id": "C17", "title": "Tethys scheme search is complete and correct", "statement": "For a database built with TethysBuilder::insert_list, a client search request answered by the server and decoded by the client returns exactly the document identifiers inserted for the keyword, whatever the length of the list (including lists longer than one page and lists of length an exact multiple of the block length).", "quantifier": "every database with distinct keywords, every keyword", "why_tests_cant": "All list lengths and all bin collisions.", "anchors": ["lib/include/sse/schemes/tethys/tethys_builder.hpp:GenericTethysBuilder::insert_list", "lib/include/sse/schemes/tethys/tethys_client.hpp:search_request", "lib/include/sse/schemes/tethys/tethys_client.hpp:decode_search_results", "lib/include/sse/schemes/tethys/tethys_server.hpp:search"]}
{"id": "C18", "title": "Asynchronous Tethys lookup delivers once and correctly", "statement": "async_get_list / async_get_buckets call the user callback exactly once with the two buckets of the key, whichever order and on whichever threads the two page reads complete, and never touch freed or missing memory.", "quantifier": "every interleaving of the two read completions", "why_tests_cant": "Data race: schedules cannot be enumerated by tests.", "anchors": ["lib/include/sse/schemes/tethys/tethys_store.hpp:async_get_list_helper", "lib/include/sse/schemes/tethys/tethys_store.hpp:async_get_buckets"]}
{"id": "C19", "title": "Cuckoo allocator never loses or duplicates a value", "statement": "After any sequence of insertions, each inserted value sits in exactly one slot, one of its two admissible slots, or was returned as the spilled value of some insertion; each insertion spills at most one value and a slot holds at most one value.", "quantifier": "every insertion sequence, hash values, table size >= 1 and search depth", "why_tests_cant": "Eviction chains: unbounded histories.", "anchors": ["lib/oceanus/cuckoo.cpp:CuckooAllocator::insert"]}
{"id": "C20", "title": "Cuckoo insertion spills only after the full search depth", "statement": "insert() returns after at most max_search_depth evictions, and reports a spill only when every step of the eviction walk found an occupied slot; if it reports no spill, all values previously stored are still stored.", "quantifier": "every insertion, every state", "why_tests_cant": "Unbounded states.", "anchors": ["lib/oceanus/cuckoo.cpp:CuckooAllocator::insert"]}
{"id": "C21", "title": "Oceanus lookup returns the inserted value", "statement": "After building a table from key/value pairs with distinct keys and committing it, get(key) returns the value of every inserted key that was not spilled, and throws for a key never inserted.", "quantifier": "every set of pairs, every hash function, every table size", "why_tests_cant": "All databases and collisions.", "anchors": ["lib/include/sse/schemes/oceanus/cuckoo.hpp:CuckooBuilder::insert", "lib/include/sse/schemes/oceanus/cuckoo.hpp:CuckooBuilder::commit", "lib/include/sse/schemes/oceanus/cuckoo.hpp:CuckooHashTable::get"]}
{"id": "C22", "title": "Oceanus loses no key", "statement": "Every key accepted by CuckooBuilder::insert can be looked up after commit, even if insertions spilled.", "quantifier": "every insertion sequence", "why_tests_cant": "Needs a long eviction chain.", "anchors": ["lib/include/sse/schemes/oceanus/cuckoo.hpp:CuckooBuilder::insert", "lib/include/sse/schemes/oceanus/cuckoo.hpp:spilled_data"]}
{"id": "C23", "title": "Asynchronous Oceanus lookup calls back exactly once", "statement": "async_get calls the user callback exactly once, after both reads completed, with the value if one of the slots matches and with nothing otherwise, under every interleaving of the two completions; the shared state is released once and never used afterwards.", "quantifier": "every interleaving of the two completion handlers", "why_tests_cant": "Schedules.", "anchors": ["lib/include/sse/schemes/oceanus/cuckoo.hpp:CuckooHashTable::async_get"]}
{"id": "C24", "title": "Write-once vector returns what was pushed", "statement": "After pushing any sequence of values and committing, get(i) returns the i-th value for all i below the length; closing and reopening the file gives the same vector, already committed.", "quantifier": "every sequence of values", "why_tests_cant": "All lengths.", "anchors": ["lib/include/sse/schemes/abstractio/awonvm_vector.hpp:push_back", "lib/include/sse/schemes/abstractio/awonvm_vector.hpp:get", "lib/include/sse/schemes/abstractio/awonvm_vector.hpp:commit"]}
{"id": "C25", "title": "Committed vectors are immutable", "statement": "Once committed (or reopened from a non-empty file), push_back throws and the content never changes; before commit, get throws.", "quantifier": "every history of calls", "why_tests_cant": "Unbounded histories.", "anchors": ["lib/include/sse/schemes/abstractio/awonvm_vector.hpp:push_back", "lib/include/sse/schemes/abstractio/awonvm_vector.hpp:commit", "lib/include/sse/schemes/abstractio/awonvm_vector.hpp:get"]}
{"id": "C26", "title": "Out-of-range reads are refused", "statement": "get(i) throws an out-of-range error for every index i not below the number of values pushed.", "quantifier": "every vector and every index", "why_tests_cant": "Off-by-one at exactly one index.", "anchors": ["lib/include/sse/schemes/abstractio/awonvm_vector.hpp:get", "lib/include/sse/schemes/abstractio/awonvm_vector.hpp:async_get"]}
{"id": "C27", "title": "Crash while writing is detected", "statement": "If the process dies at any point before commit() returned, reopening the file must not present a vector that looks committed but lacks some pushed values.", "quantifier": "every crash point", "why_tests_cant": "Crash points.", "anchors": ["lib/include/sse/schemes/abstractio/awonvm_vector.hpp:awonvm_vector(ctor)", "lib/include/sse/schemes/abstractio/awonvm_vector.hpp:reserve", "lib/include/sse/schemes/abstractio/awonvm_vector.hpp:commit"]}
{"id": "C28", "title": "Asynchronous pushes land at their index", "statement": "If only async_push_back is used, then after all writes complete, in any order, the file holds the i-th pushed value at index i; mixing it with the synchronous push_back keeps that guarantee.", "quantifier": "every completion order and every mix of push kinds", "why_tests_cant": "Completion orders.", "anchors": ["lib/include/sse/schemes/abstractio/awonvm_vector.hpp:async_push_back", "lib/include/sse/schemes/abstractio/awonvm_vector.hpp:push_back"]}
{"id": "C29", "title": "Pluto search is complete and correct", "statement": "For a database built with PlutoBuilder, a search for a keyword returns exactly the identifiers inserted for it, whatever the list length.", "quantifier": "every database with distinct keywords, every list length", "why_tests_cant": "All lengths, all layouts.", "anchors": ["lib/include/sse/schemes/pluto/pluto_builder.hpp:insert_list", "lib/include/sse/schemes/pluto/pluto_server.hpp:search", "lib/include/sse/schemes/pluto/types.hpp:DefaultPlutoParams"]}
{"id": "C30", "title": "Pluto hides the number of full blocks", "statement": "The number of key/value blocks stored in the hash table after build() depends only on the declared number of elements, not on how the elements are distributed over keywords.", "quantifier": "every database whose total size is at most the declared number of elements", "why_tests_cant": "Quantifies over pairs of databases.", "anchors": ["lib/include/sse/schemes/pluto/pluto_builder.hpp:build", "lib/include/sse/schemes/pluto/pluto_builder.hpp:insert_list"]}
{"id": "C31", "title": "Keyword counters count", "statement": "The k-th get_and_increment on a keyword since it was created or removed returns k-1, independently of operations on other keywords; get returns the last value handed out.", "quantifier": "every sequence of counter operations with fewer than 2^32 increments per key", "why_tests_cant": "Unbounded histories.", "anchors": ["lib/utils/rocksdb_wrapper.cpp:RocksDBCounter::get_and_increment", "lib/utils/rocksdb_wrapper.cpp:RocksDBCounter::get", "lib/utils/rocksdb_wrapper.cpp:RocksDBCounter::remove_key"]}
{"id": "C32", "title": "Concurrent counter increments are distinct", "statement": "Concurrent get_and_increment calls on the same keyword hand out pairwise distinct values.", "quantifier": "every interleaving of concurrent calls", "why_tests_cant": "Race.", "anchors": ["lib/utils/rocksdb_wrapper.cpp:RocksDBCounter::get_and_increment", "lib/sophos/sophos_client.cpp:insertion_request"]}
{"id": "C33", "title": "Sophos search returns exactly the inserted documents", "statement": "After any history of insertions (each request delivered to the server) and searches, searching a keyword returns all documents inserted for it, newest first, and nothing else.", "quantifier": "every history over any set of keywords, any trapdoor permutation and collision-free token derivation", "why_tests_cant": "Unbounded histories.", "anchors": ["lib/sophos/sophos_client.cpp:insertion_request", "lib/sophos/sophos_client.cpp:search_request", "lib/sophos/sophos_server.cpp:search"]}
{"id": "C34", "title": "Sophos parallel searches agree with the sequential one", "statement": "search_parallel, search_parallel_light and the callback variants deliver exactly the same documents as search, each exactly once, for every thread count and every schedule.", "quantifier": "every request, thread count and interleaving", "why_tests_cant": "Schedules and thread counts.", "anchors": ["lib/sophos/sophos_server.cpp:search_parallel", "lib/sophos/sophos_server.cpp:search_parallel_light", "lib/sophos/sophos_server.cpp:search_parallel_callback", "lib/sophos/sophos_server.cpp:search_parallel_light_callback"]}
{"id": "C35", "title": "A lost update only loses itself (Sophos and Diana)", "statement": "If some update requests are generated but never reach the server (crash or network failure), later searches still return every document whose update was delivered, and nothing else.", "quantifier": "every history and every subset of lost updates", "why_tests_cant": "Crash points.", "anchors": ["lib/sophos/sophos_client.cpp:insertion_request", "lib/sophos/sophos_server.cpp:search", "lib/include/sse/schemes/diana/diana_server.hpp:search"]}
{"id": "C36", "title": "Counter exhaustion", "statement": "A search returns all documents of a keyword whatever the number of insertions made on it.", "quantifier": "every number of insertions, including 2^32 and beyond", "why_tests_cant": "4 billion insertions are not tested.", "anchors": ["lib/utils/rocksdb_wrapper.cpp:get_and_increment", "lib/sophos/sophos_client.cpp:search_request", "lib/include/sse/schemes/diana/diana_client.hpp:search_request"]}
{"id": "C37", "title": "Diana search returns exactly the inserted documents", "statement": "After any history of insertions (single or bulk) the search for a keyword returns all documents inserted for it, in insertion order, and nothing else.", "quantifier": "every history over any set of keywords", "why_tests_cant": "Unbounded histories.", "anchors": ["lib/include/sse/schemes/diana/diana_client.hpp:insertion_request", "lib/include/sse/schemes/diana/diana_client.hpp:bulk_insertion_request", "lib/include/sse/schemes/diana/diana_client.hpp:search_request", "lib/include/sse/schemes/diana/diana_server.hpp:search"]}
{"id": "C38", "title": "Diana parallel search covers every position once", "statement": "search_parallel evaluates every leaf position exactly once for every thread count between 1 and 255 and every number of matches; the list variant returns the documents in insertion order and the vector variant stores the i-th inserted document at index i.", "quantifier": "every count, thread count and schedule", "why_tests_cant": "Range-splitting arithmetic and schedules.", "anchors": ["lib/include/sse/schemes/diana/diana_server.hpp:search_parallel"]}
{"id": "C39", "title": "get_match_count counts", "statement": "DianaClient::get_match_count returns the number of insertions made for the keyword.", "quantifier": "every history", "why_tests_cant": "Off by one for every non-empty keyword, not covered by any test.", "anchors": ["lib/include/sse/schemes/diana/diana_client.hpp:get_match_count"]}
{"id": "C40", "title": "Diana search with deletion consumes the results", "statement": "search(req, true) returns the results and removes exactly those entries from the server; entries of other keywords are untouched, and the same request then returns nothing.", "quantifier": "every server state", "why_tests_cant": "All states.", "anchors": ["lib/include/sse/schemes/diana/diana_server.hpp:search", "lib/include/sse/schemes/diana/diana_server.hpp:retrieve_entry"]}
{"id": "C41", "title": "Janus search reflects insertions and deletions", "statement": "After any history of insertions, removals and searches, a search returns exactly the documents inserted for the keyword and not removed since.", "quantifier": "every history, including several removals on the same keyword between two searches", "why_tests_cant": "Unbounded histories; tests remove at most one document per keyword between two searches.", "anchors": ["lib/janus/janus_client.cpp:insertion_request", "lib/janus/janus_client.cpp:removal_request", "lib/janus/janus_client.cpp:search_request", "lib/janus/janus_server.cpp:search", "lib/include/sse/schemes/diana/diana_client.hpp:get_match_count"]}
{"id": "C42", "title": "Janus re-insertion", "statement": "A document that is removed and later inserted again for the same keyword is returned by the next search.", "quantifier": "every history", "why_tests_cant": "Order of removal and re-insertion within one search epoch.", "anchors": ["lib/janus/janus_client.cpp:insertion_request", "lib/janus/janus_client.cpp:removal_request", "lib/janus/janus_server.cpp:search"]}
{"id": "C43", "title": "Janus repeated searches are stable", "statement": "Searching twice with no update in between returns the same documents, served from the cache the second time; search_parallel returns the same documents as search.", "quantifier": "every history", "why_tests_cant": "Unbounded histories.", "anchors": ["lib/janus/janus_server.cpp:search", "lib/janus/janus_server.cpp:search_parallel"]}
{"id": "C44", "title": "Janus search survives a lost request", "statement": "If a search request is generated but its processing by the server fails, a later search still returns all current documents.", "quantifier": "every history and crash point", "why_tests_cant": "Crash points.", "anchors": ["lib/janus/janus_client.cpp:search_request"]}
{"id": "C45", "title": "Janus name derivation is injective", "statement": "Different (keyword, search counter) pairs and different (keyword, document) pairs are mapped to different strings.", "quantifier": "every pair of keywords and counters", "why_tests_cant": "All strings.", "anchors": ["lib/janus/janus_client.cpp:meta_keyword", "lib/janus/janus_client.cpp:keyword_doc_string", "lib/utils/utils.cpp:hex_string"]}
{"id": "C46", "title": "List store round trip", "statement": "RockDBListStore::get returns exactly the list given to the last put on the key, for the Janus cache element type.", "quantifier": "every list", "why_tests_cant": "All lists.", "anchors": ["lib/include/sse/schemes/utils/rocksdb_wrapper.hpp:RockDBListStore::put", "lib/include/sse/schemes/utils/rocksdb_wrapper.hpp:RockDBListStore::get", "lib/janus/janus_server.cpp:serialization"]}
{"id": "C47", "title": "Thread pool runs every accepted task exactly once", "statement": "Every task accepted by enqueue() is executed exactly once and has finished when join() returns; enqueue after the pool was stopped throws; with no spurious blocking: as long as tasks are queued some worker can make progress.", "quantifier": "every interleaving of producers and workers, every number of workers >= 1", "why_tests_cant": "Schedules.", "anchors": ["lib/include/sse/schemes/utils/thread_pool.hpp:ThreadPool"]}
{"id": "C48", "title": "Thread-pool IO scheduler completes everything it accepted", "statement": "Every accepted read or write is performed exactly once, its callback is called exactly once with the result of that operation, and wait_completions() returns only when none is pending.", "quantifier": "every interleaving", "why_tests_cant": "Schedules.", "anchors": ["lib/abstractio/thread_pool_aio_scheduler.cpp"]}
{"id": "C49", "title": "Linux AIO scheduler bookkeeping", "statement": "The notification loop stops only after every successfully submitted operation was notified; each callback is called exactly once; requests that are not aligned are refused before reaching the kernel.", "quantifier": "every order of submissions, partial submissions and completion batches", "why_tests_cant": "Schedules and kernel behaviours.", "anchors": ["lib/abstractio/linux_aio_scheduler.cpp"]}
{"id": "C50", "title": "Server setup is all-or-nothing", "statement": "If the setup of a Sophos or Diana server fails or is interrupted, the server can be set up again later; a server that answers requests has a complete on-disk state.", "quantifier": "every failure and crash point of setup", "why_tests_cant": "Crash points.", "anchors": ["lib/diana/server_runner.cpp:setup", "lib/sophos/sophos_server_runner.cpp:setup"]}
{"id": "C51", "title": "A refused session insertion has no effect", "statement": "Calling insert_in_session when no update session is open throws and leaves the client unchanged, so later searches are not affected.", "quantifier": "every client state", "why_tests_cant": "Requires comparing later observable behaviour over all histories.", "anchors": ["lib/sophos/sophos_client_runner.cpp:insert_in_session", "lib/diana/client_runner.cpp:insert_in_session"]}
{"id": "C52", "title": "Random database generator size", "statement": "gen_db(N) generates exactly N documents for every positive number of hardware threads, never divides by zero, and every fixed-size group keyword G of size s gets at most s documents per thread.", "quantifier": "every N, thread count and random stream", "why_tests_cant": "Random streams.", "anchors": ["lib/utils/db_generator.cpp:generation_job", "lib/utils/db_generator.cpp:gen_db"]}
{"id": "C53", "title": "Masking is an involution", "statement": "Masking an identifier twice with the same mask returns the identifier, for Sophos's and Diana's masking functions.", "quantifier": "every identifier and mask", "why_tests_cant": "2^128 cases.", "anchors": ["lib/include/sse/schemes/utils/utils.hpp:xor_mask", "lib/include/sse/schemes/diana/types.hpp:xor_mask"]}
{"id": "C54", "title": "Concatenating iterator enumerates both containers", "statement": "Iterating from concat_iterator's begin to its end visits all elements of the first container, then all elements of the second, for any two containers, including empty ones.", "quantifier": "every pair of containers", "why_tests_cant": "All sizes.", "anchors": ["lib/include/sse/schemes/utils/concat_iterator.hpp"]}
{"id": "C55", "title": "Labelling connected components beforehand is harmless", "statement": "Calling compute_connected_components() before compute_residual_maxflow() or parallel_compute_residual_maxflow() does not change the value of the computed flow.", "quantifier": "every graph and every point of the construction phase where the components are computed", "why_tests_cant": "no test calls the public labelling function itself; the interaction between stale labels and the path search only shows on particular call orders", "anchors": ["lib/tethys/tethys_graph.cpp: TethysGraph::compute_connected_components, TethysGraph::find_source_sink_path, TethysGraph::parallel_compute_residual_maxflow"]}
{"id": "C56", "title": "A built Tethys store builder is final", "statement": "After a successful build(), insert_list and build are refused with an exception and leave the builder as it was.", "quantifier": "every builder state from which build() returned, every later call", "why_tests_cant": "Tests call the builder once in one order; the claim is about every state reached by any history of accepted and refused insertions.", "anchors": ["lib/include/sse/schemes/tethys/tethys_store_builder.hpp:TethysStoreBuilder::insert_list", "lib/include/sse/schemes/tethys/tethys_store_builder.hpp:TethysStoreBuilder::build"]}
{"id": "C57", "title": "Moving a vector keeps it", "statement": "A vector built by moving from a committed vector answers every get as the original did: its size and its committed state move with the file.", "quantifier": "every committed vector, every index", "why_tests_cant": "No test reads from a moved vector; whether a field is forgotten shows only for moved objects, and the builder code moves vectors that are not yet committed.", "anchors": ["lib/include/sse/schemes/abstractio/awonvm_vector.hpp:175-181"]}
{"id": "C58", "title": "Destroying the thread-pool IO scheduler is safe once everything completed", "statement": "When wait_completions() of the thread-pool scheduler has returned, no thread uses the scheduler any more, so its destructor, which calls it, can release the scheduler.", "quantifier": "every interleaving of the submitters, the pool threads and the thread that waits", "why_tests_cant": "the window between the decrement of the counter and the release of the lock is a few instructions long; tests do not hit it, and the memory accessed is usually still mapped", "anchors": ["lib/abstractio/thread_pool_aio_scheduler.cpp:ThreadPoolAIOScheduler::wait_completions", "lib/abstractio/thread_pool_aio_scheduler.cpp:28-40"]}
{"id": "C59", "title": "There is one shared pool of IO threads", "statement": "All the thread-pool IO schedulers of a process use the same pool of threads, created once, however many threads submit for the first time at the same moment.", "quantifier": "every interleaving of any number of first submissions", "why_tests_cant": "tests submit for the first time from a single thread", "anchors": ["lib/abstractio/thread_pool_aio_scheduler.cpp:16-26"]}
{"id": "C60", "title": "A submitter that finds the kernel queue full is woken up", "statement": "A submission that waits because the kernel context is full is resumed after events complete: a call of submit_pread, submit_preads or submit_pwrite always returns.", "quantifier": "every interleaving of submitters, completions and the notification loop", "why_tests_cant": "the lost wake-up needs the completion of every request in flight between the return of io_submit and the acquisition of the lock", "anchors": ["lib/abstractio/linux_aio_scheduler.cpp:LinuxAIOScheduler::submit_iocbs", "lib/abstractio/linux_aio_scheduler.cpp:LinuxAIOScheduler::notify_loop"]}
{"id": "C61", "title": "A failed submission is not in flight", "statement": "If submit_pread, submit_pwrite or submit_preads of the kernel-based scheduler reports a failure, none of its requests was accepted by the kernel, so the caller may release its buffers.", "quantifier": "every call and every sequence of partial acceptances and errors of io_submit", "why_tests_cant": "io_submit does not fail after a partial acceptance on test machines", "anchors": ["lib/abstractio/linux_aio_scheduler.cpp:LinuxAIOScheduler::submit_iocbs", "lib/include/sse/schemes/abstractio/awonvm_vector.hpp: async_gets"]}
{"id": "C62", "title": "Malformed messages are refused", "statement": "The servers of Sophos and Diana decode every protobuf message without memory errors and without reading uninitialised memory, and decoding gives back what the client encoded.", "quantifier": "every message: any byte strings in its fields", "why_tests_cant": "the tests only exchange messages built by the library's own client, with fields of the right sizes", "anchors": ["lib/sophos/sophos_server_runner.cpp:306-333 message_to_request", "lib/diana/server_runner.cpp:368-396 message_to_request", "lib/sophos/sophos_client_runner.cpp:432-451 request_to_message", "lib/diana/client_runner.cpp:513-522 request_to_message"]}
{"id": "C63", "title": "A constructed client has a set-up server", "statement": "If the construction of a client runner succeeds, the server it talks to was set up with its keys; if it fails, constructing the client again can succeed once the cause is gone and then the server is set up.", "quantifier": "every state of the client directory and of the server, every result of the remote call, every sequence of constructions", "why_tests_cant": "the tests construct each client once with a server that is running", "anchors": ["lib/sophos/sophos_client_runner.cpp:57-229", "lib/diana/client_runner.cpp:55-276"]}
{"id": "C64", "title": "Searches during updates", "statement": "A Sophos or Diana search answered while several client threads insert and while update requests arrive at the server returns only documents inserted before the search request was made, all those that had arrived before its first look-up, and otherwise only documents that arrived before its end; in the order of the scheme for the sequential searches, in any order for the parallel ones.", "quantifier": "every interleaving of any number of inserting threads (the keyword searched being inserted by one thread at a time, the others by any number of threads), of deliveries in any order with losses, and of any number of searches", "why_tests_cant": "the tests insert everything first and search afterwards, from one thread; the outcome depends on the interleaving", "anchors": ["lib/sophos/sophos_client.cpp:83-169", "lib/sophos/sophos_server.cpp:46-127", "lib/include/sse/schemes/diana/diana_client.hpp:132-207", "lib/include/sse/schemes/diana/diana_server.hpp:110-183", "lib/utils/rocksdb_wrapper.cpp:101-132"]}
{"id": "C65", "title": "Parallel load of an inverted index", "statement": "After load_inverted_index, once all the jobs are done and all the requests have arrived, a search of a keyword returns exactly the documents listed for it.", "quantifier": "every index, every interleaving of the jobs of the pool and of the deliveries", "why_tests_cant": "the loss of a document needs two jobs with the same keyword whose counter accesses interleave", "anchors": ["lib/sophos/sophos_client_runner.cpp:383-429 load_inverted_index", "lib/diana/client_runner.cpp:436-486 load_inverted_index", "lib/utils/rocksdb_wrapper.cpp:101-132"]}
{"id": "C66", "title": "A search request does not reach later insertions", "statement": "A search request that is answered late returns exactly the documents that were inserted before the request was made and had arrived when the look-ups began, whatever has been inserted, delivered or searched since; nothing inserted after the request is returned.", "quantifier": "every history before the request, every interleaving between the request and its answer", "why_tests_cant": "the tests answer each request at once", "anchors": ["lib/sophos/sophos_client.cpp:83-112", "lib/sophos/sophos_server.cpp:46-89", "lib/include/sse/schemes/diana/diana_client.hpp:132-164", "lib/include/sse/schemes/diana/diana_server.hpp:160-183"]}
{"id": "C67", "title": "Size of the cuckoo tables", "statement": "The size computed in floating point for each half of a cuckoo table is defined, at least the declared number of elements (hence not zero if there is one), and equal to (1+epsilon/2)n rounded up, up to a relative error of 2^-51.", "quantifier": "every number of elements and every epsilon; the conditions under which it holds (finite nonnegative epsilon, n at most 2^53, result below 2^63) are part of the theorem and cases outside are refuted", "why_tests_cant": "rounding errors appear only for some pairs of a size and an epsilon, the loss of precision only beyond 2^53 elements", "anchors": ["lib/include/sse/schemes/oceanus/details/cuckoo.hpp:15-18 cuckoo_table_size", "lib/oceanus/cuckoo.cpp:31"]}
{"id": "C68", "title": "Number of pages of Tethys", "statement": "The number of pages computed in floating point is even, each half holds all the declared elements in buckets of the given size, and it is twice (1+epsilon) times the least number of buckets, rounded up, up to a relative error of 2^-51.", "quantifier": "every number of elements, bucket size and epsilon; the conditions under which it holds are part of the theorem and cases outside are refuted", "why_tests_cant": "rounding errors appear only for some values, the loss of precision only beyond 2^53 buckets", "anchors": ["lib/tethys/tethys_allocator.cpp:11-16 tethys_graph_size", "lib/include/sse/schemes/tethys/tethys_store_builder.hpp:25-28", "lib/include/sse/schemes/tethys/tethys_store_builder.hpp:129-135"]}
{"id": "C69", "title": "Percentile keywords of the generator", "statement": "In a generated database the keywords 0.1_i_1, 1_i_1 and 10_i_1 list exactly the documents whose last three, two, one digits are i, and the keywords ..._2 those for the digits that precede the last three; the keywords of one kind share out the documents: their sizes add up to N.", "quantifier": "every N, thread count and random stream", "why_tests_cant": "random streams; the test of the 10% keywords is commented out", "anchors": ["lib/utils/db_generator.cpp:166-202"]}
{"id": "C70", "title": "Ownership of the buffers of asynchronous operations", "statement": "In any interleaving of async_get, async_gets and async_push_back calls with the completions and with the destruction of the results, no buffer is written or freed when it is not allocated, a buffer in flight is not freed, every buffer is eventually freed, and each request is called back once if its call returned and never if it threw.", "quantifier": "every number of threads and calls, every interleaving, every outcome of the reads, allocations and submissions", "why_tests_cant": "needs failing reads, allocations and partial submissions, and a completion at a precise moment", "anchors": ["lib/include/sse/schemes/abstractio/awonvm_vector.hpp:242-289", "lib/include/sse/schemes/abstractio/awonvm_vector.hpp:359-484", "lib/include/sse/schemes/abstractio/scheduler.hpp:98-110"]}
{"id": "C71", "title": "An error of the database fails only the operation it hits", "statement": "When RocksDB reports an error for a read or a write, the operation concerned fails or returns less, and later operations behave as if nothing else had happened: an insertion reported to succeed is found by later searches, no document inserted before is lost, no update token is used for two documents.", "quantifier": "every history of insertions, bulk insertions and searches, every assignment of outcomes to the reads and writes of the client and of the server", "why_tests_cant": "the error paths are excluded from the coverage (LCOV_EXCL) and need a failing disk", "anchors": ["lib/utils/rocksdb_wrapper.cpp:85-190", "lib/include/sse/schemes/utils/rocksdb_wrapper.hpp:148-220", "lib/sophos/sophos_client.cpp:126-134", "lib/include/sse/schemes/diana/diana_client.hpp:178-186", "lib/janus/janus_client.cpp:113-120"]}
{"id": "C72", "title": "Memory accesses of the parallel max-flow jobs", "statement": "The jobs of parallel_compute_residual_maxflow() have no data race; and whatever the order in which their reads and writes of flows, reciprocal flows and parent edges take place, they terminate, never access memory out of range, and end with the same edge flows: those of a maximum flow, whose value is the sum of what the jobs added to computed_capacity.", "quantifier": "every graph, every interleaving of the single memory accesses of the jobs, every value returned by a racy read", "why_tests_cant": "the number of interleavings of single accesses is astronomic, and a thread sanitizer only sees the schedules that occur", "anchors": ["lib/tethys/tethys_graph.cpp:146-324", "lib/tethys/tethys_graph.cpp:445-513", "lib/include/sse/schemes/tethys/details/tethys_graph.hpp:148-159"]}
{"id": "C73", "title": "The keys of a client survive crashes and restarts", "statement": "All the clients that are ever constructed on the same path have the same keys, whatever happened in between; and once a client was constructed, the files on the disk are enough to construct it again.", "quantifier": "every sequence of constructions on a path, every failure or partial success of mkdir, of the opening, writing and reading of the key files and of RocksDB, a crash after any byte written", "why_tests_cant": "the tests create and reopen clients on a working disk; they do not crash between two bytes of a key", "anchors": ["lib/sophos/sophos_client_runner.cpp:57-229", "lib/diana/client_runner.cpp:55-247", "lib/sophos/sophos_client.cpp:42-50"]}
{"id": "C74", "title": "Search requests, known and unknown keywords", "statement": "The message sent for the search of a keyword is determined by the keys, the counter and the keyword; decoded by the server and answered by its synchronous or asynchronous search, it gives the documents of the keyword, and none if the keyword is unknown.", "quantifier": "every history of insertions, every keyword, every content of the uninitialised memory, every number of threads, every trapdoor permutation, with the strings on which it throws", "why_tests_cant": "what uninitialised memory contains varies, and a test of an unknown keyword sees only some of it", "anchors": ["lib/sophos/sophos_client.cpp:83-112", "lib/sophos/sophos_client_runner.cpp:269-301", "lib/sophos/sophos_server_runner.cpp:158-245", "lib/sophos/sophos_server.cpp:46-482", "lib/include/sse/schemes/diana/diana_client.hpp:132-164", "lib/diana/client_runner.cpp:286-324"]}
{"id": "C75", "title": "remove_directory removes the directory and nothing else", "statement": "When remove_directory() returns true nothing is left at the path or below; whatever happens, nothing else is changed and no link is followed; if the system allows everything, it succeeds.", "quantifier": "every finite file system, every path, every order in which fts visits the entries, every failure of the system calls, directories of other devices", "why_tests_cant": "the tests remove a few directories with regular files; they have no links, no failures and no other device", "anchors": ["lib/utils/utils.cpp:66-152", "lib/utils/utils.cpp:52-57"]}
{"id": "C76", "title": "Sophos: an update says nothing before its keyword is searched", "statement": "With a random PRF as the function that derives update tokens and masks, everything the server sees (update tokens, masked documents, search requests, answers) is distributed the same for two histories that differ only in keyword and document of insertions made after the last search of their keywords; and the requests give the server no access to the PRF inputs of those insertions.", "quantifier": "every pair of histories of insertions and searches of any length, every PRF, every trapdoor permutation, key and hash without collisions among the insertions made", "why_tests_cant": "it compares the whole distributions of what is seen in two executions, over all functions the PRF may be", "anchors": ["lib/sophos/sophos_client.cpp:83-169", "lib/sophos/sophos_common.cpp:18-31", "lib/sophos/sophos_server.cpp:46-89", "lib/sophos/sophos_server.cpp:484-491"]}
{"id": "C77", "title": "Diana: an update says nothing before its keyword is searched", "statement": "With a random generator that expands the leaves to update tokens and masks, everything the server sees is distributed the same for two histories that differ only in keyword and document of insertions made after the last search of their keywords; and the constrained keys given in the requests evaluate only at leaves that were revealed on purpose.", "quantifier": "every pair of histories of single insertions, bulk insertions (each update delivered or lost) and searches with or without deletion, every generator, every constrained PRF", "why_tests_cant": "it compares the whole distributions of what is seen in two executions, over all functions the generator may be", "anchors": ["lib/include/sse/schemes/diana/diana_client.hpp:132-251", "lib/diana/diana_common.cpp:28-37", "lib/include/sse/schemes/diana/diana_server.hpp:83-183", "lib/include/sse/schemes/diana/diana_server.hpp:315-323"]}
{"id": "C78", "title": "Tethys and Pluto: what the stored tables reveal", "statement": "With a random keystream, the table of Tethys, the search requests and the answers are distributed the same for any two databases in which the searched keywords have the same number of blocks; the table of Pluto hides the incomplete blocks. (Complete blocks of Pluto are not encrypted, and two tables built with one key reveal the difference of their contents: refuted.)", "quantifier": "every pair of databases whose builds succeed, every list of searches, every PRF and hash, every page size and number of pages, every keystream", "why_tests_cant": "it compares the distributions of the whole files for two databases, over all keystreams", "anchors": ["lib/include/sse/schemes/tethys/tethys_store_builder.hpp:167-310", "lib/include/sse/schemes/tethys/encoders/encode_encrypt.hpp:61-91", "lib/include/sse/schemes/tethys/tethys_builder.hpp:78-125", "lib/include/sse/schemes/tethys/tethys_client.hpp:119-139", "lib/include/sse/schemes/tethys/tethys_server.hpp:49-71", "lib/include/sse/schemes/pluto/pluto_builder.hpp:84-178", "lib/include/sse/schemes/pluto/pluto_server.hpp:50-77"]}
{"id": "C79", "title": "Janus: an update says nothing before its keyword is searched", "statement": "With random generators in the two instances of Diana, everything the server of Janus sees (insertions, removals, search requests, ciphertexts and key shares found, answers) is distributed the same for two histories that differ only in keyword and document of insertions and removals made after the last search of their keywords.", "quantifier": "every pair of histories of fewer than 2^32 insertions, removals (each delivered or lost) and searches, every pair of generators, every constrained PRF, every puncturable encryption", "why_tests_cant": "it compares the whole distributions of what is seen in two executions, over all functions the generators may be", "anchors": ["lib/janus/janus_client.cpp:82-175", "lib/janus/janus_server.cpp:95-161", "lib/janus/janus_server.cpp:295-303"]}
{"id": "C80", "title": "Concurrent setups and requests of a server", "statement": "When setups, searches, insertions and bulk insertions arrive in several threads, at most one setup succeeds; disk and memory are always as if one setup had run alone up to some point; the server object is never replaced once created; no request uses a null pointer; every call returns. (False for searches of Diana that arrive during the setup, which use the null token_wrapper_; and the pointers are read and written without synchronisation: refuted.)", "quantifier": "every list of calls, every interleaving, every behaviour of the file system and of RocksDB during the setups, every initial state of the server", "why_tests_cant": "it quantifies over the interleavings of any number of calls", "anchors": ["lib/diana/server_runner.cpp:101-344", "lib/sophos/sophos_server_runner.cpp:76-294", "lib/utils/utils.cpp:52-62"]}
{"id": "C81", "title": "An interrupted build of an Oceanus table is not taken for a table", "statement": "If the process dies between two system calls of a build, the table that is on disk either cannot be opened, or is the whole table. (False: space is reserved before the pages are written, so a table of the final size opens after the first ftruncate and lacks keys: refuted. What holds: such a table never gives a value that was not inserted for the key asked, except for the keys 00..0 and FF..F; a key found at some point is found with the same value at all later points; if a write may itself be cut, wrong values appear.)", "quantifier": "every list of insertions, every size, depth and hash, every point of the sequence of system calls", "why_tests_cant": "it quantifies over all the points at which the process may die, for every input", "anchors": ["lib/include/sse/schemes/oceanus/cuckoo.hpp:111-243", "lib/include/sse/schemes/abstractio/awonvm_vector.hpp:139-240", "lib/utils/utils.cpp:155-190"]}
{"id": "C82", "title": "Building again after an interrupted build", "statement": "After a builder of Oceanus died, building again at the same path makes the table, or fails and leaves no table that opens. (False: every insertion of the second builder throws because the value file of the first one is taken for a committed vector, and the destruction of the second builder then writes an empty table that opens, and removes the value file: refuted. What holds: the insertions do throw, and a table that is there already is never changed.)", "quantifier": "every first build, every point at which it dies, every second builder and every sequence of calls to it", "why_tests_cant": "it quantifies over the points of death of the first build and over the calls of the second", "anchors": ["lib/include/sse/schemes/oceanus/cuckoo.hpp:111-243", "lib/include/sse/schemes/oceanus/oceanus.hpp:143-147", "lib/include/sse/schemes/abstractio/awonvm_vector.hpp:139-240"]}
{"id": "C83", "title": "A commit of an Oceanus builder that returned has written the table", "statement": "If commit() returns without an exception, the table on disk is the one of the keys inserted. (False of a second commit: the flag is set before the work, so after a commit that threw the next one returns at once: refuted. It holds of the first commit, which throws, and changes nothing, if there is a table already.)", "quantifier": "every list of insertions and every initial content of the disk", "why_tests_cant": "it quantifies over all inputs and all files found on disk", "anchors": ["lib/include/sse/schemes/oceanus/cuckoo.hpp:186-243"]}
{"id": "C84", "title": "An interrupted build of a Tethys store is not taken for a store", "statement": "If the process dies between two system calls of TethysStoreBuilder::build, a store either cannot be opened on the files left, or gives the lists that were inserted. (False: the table is complete before the stash is begun and a missing stash counts as an empty one, so a list loses its stashed part without notice: refuted; a stash cut short is read past its end; an encrypted page that was not written is decrypted to garbage. What holds: with plain pages at every point, and with encrypted ones once all pages are written, the store cannot be opened because nothing was written, or the stash was cut, or every answer is a part of the list of the key; after the last system call it is the whole list.)", "quantifier": "every database, allocation, cipher, way the stream cuts its bytes into writes, and every point of the sequence of system calls", "why_tests_cant": "it quantifies over all the points at which the process may die, for every input", "anchors": ["lib/include/sse/schemes/tethys/tethys_store_builder.hpp:167-310", "lib/include/sse/schemes/tethys/tethys_store.hpp:121-160", "lib/include/sse/schemes/abstractio/awonvm_vector.hpp:139-240"]}
{"id": "C85", "title": "A build of a Tethys store that throws leaves no store that was not there", "statement": "If build() throws, the files are as before the call. (True on top of an existing table: the build throws and no file is changed at any point. False in general: a builder whose build was refused and that is built again with nothing in its way throws because its allocator has already run, after the table was reserved: a table of zeros is left, on which a store opens; with plain pages it has no list at all: refuted.)", "quantifier": "every database, every content of the disk, every point of the sequence of system calls", "why_tests_cant": "it quantifies over all inputs and all files found on disk", "anchors": ["lib/include/sse/schemes/tethys/tethys_store_builder.hpp:167-310", "lib/tethys/tethys_allocator.cpp:66-178"]}
{"id": "C86", "title": "A Tethys store is made of one build only", "statement": "The store opened after a build that returned gives the lists of that build, whatever was at the paths. (False: the stash is written only if it is not empty, so the stash of an older build is loaded with the new table: refuted. What holds: if the new build stashes something the old stash is gone; otherwise every answer is the list of the new build followed by what the old stash has for the key.)", "quantifier": "every database, every older stash", "why_tests_cant": "it quantifies over all databases and all older files", "anchors": ["lib/include/sse/schemes/tethys/tethys_store_builder.hpp:277-303", "lib/include/sse/schemes/tethys/tethys_store.hpp:145-160"]}
{"id": "C87", "title": "Requests that a Janus server processes at the same time", "statement": "However the accesses of several requests to the three databases of a Janus server are interleaved, the searches return what they return when the requests are processed one after the other in the order of the client. (False: JanusServer takes no lock; a search that reads the cache before an earlier search of the same keyword has written it, and writes it after, loses the documents for ever; a search overtaken by a later one brings a removed document back for ever; an insertion overtaken by the search that follows it is lost: refuted. What holds: if a search waits for the end of the requests made before it for the same keyword, and nothing else waits for anything, then the answers and the final databases are exactly those of the sequential execution, and no such execution gets stuck.)", "quantifier": "every history of the client, every number of requests in flight, every interleaving of their accesses and of the threads of the parallel searches", "why_tests_cant": "it quantifies over all the interleavings of unboundedly many requests", "anchors": ["lib/janus/janus_server.cpp:95-303", "lib/include/sse/schemes/diana/diana_server.hpp:83-93", "lib/include/sse/schemes/diana/diana_server.hpp:255-313", "lib/include/sse/schemes/janus/janus_server.hpp:26-54"]}
{"id": "C88", "title": "A process that dies while it builds a Pluto database", "statement": "Whenever the process of a Pluto builder dies between two system calls (or calls to RocksDB), a server refuses to start on what it leaves, or every keyword gives its documents. (False: the server starts as soon as the file of the store has been reserved, and the incomplete blocks are missing without any error: refuted for both hash tables. What holds: if nothing happens, the files are those of the build of C29, and the server is the same; at every point, the server refuses to start or the hash table is complete, dummy blocks included, so that only the incomplete blocks can be lost.)", "quantifier": "every database, every parameters of the scheme, both hash tables, every point of death, every way of cutting the stash into system calls", "why_tests_cant": "it quantifies over all databases and all the points of all their executions", "anchors": ["lib/include/sse/schemes/pluto/pluto_builder.hpp:70-178", "lib/include/sse/schemes/pluto/pluto_server.hpp:43-48", "lib/include/sse/schemes/oceanus/cuckoo.hpp:111-243", "lib/include/sse/schemes/pluto/rocksdb_store.hpp:43-63"]}
{"id": "C89", "title": "The hash table of Pluto on disk hides the number of complete blocks", "statement": "The number of blocks of the hash table found on disk after the life of a Pluto builder is determined by the declared number of elements. (False: with RocksDB, a repeated build, which throws, adds its own dummy blocks, and the size tells the number of complete blocks; a cuckoo builder destroyed before any build writes a table without dummy blocks: both refuted. What holds: after one build on a disk without files the table has the declared number of blocks, whatever the point of death at which a server starts; in general, with RocksDB, the size is the number of complete blocks plus the dummy blocks of every build.)", "quantifier": "every database, every number of builds, every point of death", "why_tests_cant": "it is about every pair of databases and every sequence of builds", "anchors": ["lib/include/sse/schemes/pluto/pluto_builder.hpp:84-119", "lib/include/sse/schemes/oceanus/cuckoo.hpp:132-138", "lib/pluto/rocksdb_store.cpp:77-114"]}
{"id": "C90", "title": "A Pluto builder at the paths of an existing database", "statement": "A builder run at the paths of an existing Pluto database throws from build and leaves this database as it was; once the files in the way are removed, the build can be repeated. (False: with RocksDB the blocks of the refused builder replace those of the existing database, which then answers with documents of the other one; with the cuckoo table, the builder can never be built again if it needs a dummy block: refuted. What holds: with the cuckoo table, at every point of any sequence of calls and of the destructor, the three files are unchanged and the server is the same; with RocksDB, the store is unchanged, and so are all the blocks whose keys are not those of the new database; in both cases no build succeeds.)", "quantifier": "every existing database, every sequence of calls to the new builder, every point of death", "why_tests_cant": "it quantifies over all contents of the files and all sequences of calls", "anchors": ["lib/include/sse/schemes/pluto/pluto_builder.hpp:70-178", "lib/include/sse/schemes/abstractio/awonvm_vector.hpp:181-240", "lib/include/sse/schemes/oceanus/cuckoo.hpp:147-243", "lib/include/sse/schemes/tethys/tethys_store_builder.hpp:167-310", "lib/include/sse/schemes/pluto/rocksdb_store.hpp:43-63"]}
{"id": "C91", "title": "Random databases of the Sophos client program", "statement": "After the option -r of the Sophos client program, once the requests have arrived, a search returns every document generated with the keyword. (False: the threads of the generator share the keywords of the percentiles, and two of them may read a counter before either writes it; one insertion then overwrites the other: refuted by an execution without loss. What holds: for the keywords of the groups, which belong to one thread, and for all keywords if there is one thread, the search returns exactly the generated documents, last one first, whatever the interleaving; and at any time, for any keyword, with losses, only generated documents are returned, none more often than it was generated.)", "quantifier": "every number of documents and of threads, every random stream, every interleaving of the threads, deliveries and searches", "why_tests_cant": "the generator is not tested with a client, and the outcome depends on the interleaving of the threads", "anchors": ["src/sophos_client.cpp:96-107", "lib/utils/db_generator.cpp:519-548", "lib/utils/rocksdb_wrapper.cpp:101-132", "lib/sophos/sophos_client_runner.cpp:326-341"]}
{"id": "C92", "title": "Random databases of the Diana client program", "statement": "After the option -r of the Diana client program, once the requests have arrived, a search returns every document generated with the keyword. (False: the pairs are buffered by fifty in each thread, and what is in a buffer when its thread ends is never inserted: refuted. What holds: each thread inserts its first callbacks, in order, all but fewer than fifty; a search for a keyword of a group returns the first documents generated with it, in order, all but fewer than fifty; at any time only generated documents are returned; and with at most two documents per thread nothing at all is inserted, and every search is empty.)", "quantifier": "every number of documents and of threads, every random stream, every interleaving of the threads, deliveries and searches", "why_tests_cant": "the program is not tested, and the outcome depends on the number of threads, the random streams and the interleaving", "anchors": ["src/diana_client.cpp:104-125", "lib/utils/db_generator.cpp:519-548", "lib/diana/client_runner.cpp:368-393", "lib/include/sse/schemes/diana/diana_client.hpp:209-246"]}
{"id": "C93", "title": "Searches after power failures", "statement": "A document that was inserted and found is found by the later searches. (False: the counters of the client are not synchronized to its disk; after a power failure of the client alone the document is not found and the next insertion of the keyword overwrites it: refuted. What holds: after any insertions, lost requests, searches, flushes and power failures of both sides, a search returns exactly, for each number the client still remembers, the document last written there among those the server still has; newest first for Sophos, oldest first for Diana.)", "quantifier": "every history of insertions, searches, flushes, lost requests and power failures, every part of the unsynchronized writes that is lost", "why_tests_cant": "tests do not cut the power, and there are unboundedly many histories", "anchors": ["lib/utils/rocksdb_wrapper.cpp:101-132", "lib/include/sse/schemes/utils/rocksdb_wrapper.hpp:183-235", "lib/sophos/sophos_client.cpp:114-169", "lib/include/sse/schemes/diana/diana_client.hpp:166-207", "lib/sophos/sophos_server.cpp:484-491", "lib/include/sse/schemes/diana/diana_server.hpp:315-329"]}
{"id": "C94", "title": "Durability of acknowledged insertions", "statement": "An insertion that the server has acknowledged survives a power failure of the server. (False: the Sophos server never flushes, the Diana server does it only at the end of a session: refuted. What holds while the client keeps its counters: all that arrived between the last failure of the server and a flush is in the results of all later searches whatever fails afterwards on the server; all that arrived since the last failure is in the results; the other results are documents that arrived, in the order of the insertions, none more often than it arrived.)", "quantifier": "every history in which the power of the client does not fail", "why_tests_cant": "tests do not cut the power, and there are unboundedly many histories", "anchors": ["lib/diana/server_runner.cpp:98", "lib/diana/server_runner.cpp:341", "lib/include/sse/schemes/diana/diana_server.hpp:315-329", "lib/sophos/sophos_server.cpp:484-491", "lib/include/sse/schemes/utils/rocksdb_wrapper.hpp:183-235"]}
{"id": "C95", "title": "Forward privacy and power failures of the client", "statement": "No update token is sent twice, and the request of a search does not open the documents inserted after it. (False after a power failure of the client, which reuses the numbers it has forgotten: refuted; moreover, for every scheme, the two requests with one number give the exclusive or of their documents to whoever sees them, and a search request made before the failure opens the document inserted after it. What holds: as long as the client keeps its counters, whatever happens to the server, all tokens sent are distinct and a later update changes no access of an earlier search request.)", "quantifier": "every history, every keyword, every database", "why_tests_cant": "a property of pairs of requests over all histories, with failures that tests do not cause", "anchors": ["lib/utils/rocksdb_wrapper.cpp:101-132", "lib/sophos/sophos_client.cpp:83-169", "lib/include/sse/schemes/diana/diana_client.hpp:132-207"]}
{"id": "C96", "title": "Searches of clients whose connections break", "statement": "Whatever calls are made (insertions, sessions, lists, loads, searches, restarts of the client) and wherever the connections break, a search returns exactly the documents that have arrived for the keyword, newest first for Sophos and oldest first for Diana, cut or reordered only by its own stream; the numbers used by the requests that were lost do not disturb the others.", "quantifier": "every history of calls and network events, every keyword", "why_tests_cant": "the tests use connections that do not break", "anchors": ["lib/sophos/sophos_client_runner.cpp:273-380", "lib/diana/client_runner.cpp:286-433", "lib/sophos/sophos_server_runner.cpp:271-294", "lib/diana/server_runner.cpp:316-344"]}
{"id": "C97", "title": "Update sessions on streams that break", "statement": "When a session has ended without an exception everything inserted in it has arrived. (False: a failed write and the status of the stream are only logged; load_inverted_index returns true although nothing arrived: refuted. What holds: what arrived of a session is a prefix of what was inserted, in order, and everything if no error is logged at its end.)", "quantifier": "every history before the session, every sequence of insertions and events in it, every point where the stream breaks", "why_tests_cant": "the tests use connections that do not break", "anchors": ["lib/sophos/sophos_client_runner.cpp:326-380", "lib/diana/client_runner.cpp:350-433"]}
{"id": "C98", "title": "load_inverted_index and the sessions around it", "statement": "load_inverted_index leaves the sessions of its caller as they were. (False: it ends the session of its caller, whose next insertion throws; and when the parser throws it leaves its own session open, so that later insertions, which return normally, may be lost: refuted. What holds: without an error in the log, all the documents of the file are found; and its behaviour is undefined, by a counter used after its destruction, exactly if the parser throws before the jobs have finished.)", "quantifier": "every history, every file, every order of the jobs, every point where the stream breaks or the parser throws", "why_tests_cant": "the parser of the tests does not throw, and nested sessions and broken streams are not tested", "anchors": ["lib/sophos/sophos_client_runner.cpp:382-430", "lib/diana/client_runner.cpp:436-493"]}
{"id": "C99", "title": "Counters of Tethys left by earlier builders", "statement": "When all the calls of a Tethys builder return normally, a search finds the documents of the inserted lists. (False: the answer of the write of a counter is ignored, and a keyword inserted twice keeps only the counter of its last list: refuted. What holds: counters left on disk by any earlier processes that died before building do no harm; a search finds the first blocks of the list, exactly as many as the counter on disk says; and all the documents, and nothing for other keywords, when each keyword is inserted once and the counters are written.)", "quantifier": "every database, every counters found on disk, every processes that died before, every subset of counter writes that fail, every keyword", "why_tests_cant": "the tests delete the directory before each builder and RocksDB does not fail in them", "anchors": ["lib/include/sse/schemes/tethys/tethys_builder.hpp:50-125", "lib/include/sse/schemes/tethys/tethys_client.hpp:100-182"]}
{"id": "C100", "title": "A Tethys builder at the paths of an existing database", "statement": "A builder whose build throws because the database exists leaves the database as it was. (False: its insertions have already changed the counters, and a keyword inserted again with a shorter list loses the documents of its other blocks: refuted. What holds: build throws, or the process dies, and the files of the store are unchanged; searches of the keywords that were not inserted again are unchanged; the others find the first blocks of the old list, as many as the new list has.)", "quantifier": "every old database, every new database, every point of death of the process, every keyword", "why_tests_cant": "no test opens a builder over an existing database", "anchors": ["lib/include/sse/schemes/tethys/tethys_builder.hpp:50-125", "lib/include/sse/schemes/tethys/tethys_store_builder.hpp:148-310"]}
{"id": "C101", "title": "Update sessions used by several threads, started and ended by one that is alone", "statement": "When sessions are only started and ended while no other thread uses the runner (as load_inverted_index does), any threads may insert at the same time, alone or by lists: there is no data race, no null or destroyed object is used, nobody waits for ever, and at the end the messages of each session, the unary messages and what the calls returned are as if the calls had been made one after the other, each thread in its order, the lists in one piece.", "quantifier": "every sequence of groups of threads, every program of the threads, every interleaving of their accesses to memory", "why_tests_cant": "the number of interleavings, and the tests use one thread", "anchors": ["lib/sophos/sophos_client_runner.cpp:303-430", "lib/diana/client_runner.cpp:326-493"]}
{"id": "C102", "title": "Update sessions used by several threads in any way", "statement": "Whatever the threads call, the members of the session are used without data race or invalid pointer, and a document whose insertion returned was sent. (False: only the writes are protected by the mutex. A session ended during an insertion gives a null pointer, a data race or a document that is not sent; two sessions started at the same time give a destroyed context or a stream that is never finished: refuted. What holds: two threads are never writing at the same time, and a document was sent if its insertion returned without an exception and without an error in the log.)", "quantifier": "every program of the threads, every interleaving of their accesses to memory", "why_tests_cant": "races appear only in some interleavings", "anchors": ["lib/sophos/sophos_client_runner.cpp:303-380", "lib/diana/client_runner.cpp:326-433"]}
{"id": "C103", "title": "Command lines of the clients", "statement": "A client goes beyond its options exactly when its command line is made of its options (-d, -l file, -b database, -r number, and -q for Diana, alone, grouped or with attached arguments) and of keywords, in any order, possibly with -- before keywords, and all the numbers fit in 32 bits. It then opens the last database named, loads all the files in order, generates the last number of documents, searches the keywords in order, closes, and returns 0; if one of these throws, it is the last thing done.", "quantifier": "every list of strings as command line, every std::stod, every outcome and result of the actions", "why_tests_cant": "command lines are unbounded lists of strings; the programs have no tests", "anchors": ["src/sophos_client.cpp:20-145", "src/diana_client.cpp:25-160"]}
{"id": "C104", "title": "Wrong command lines of the clients", "statement": "A wrong command line makes a client return 1 before it opens anything, with a message that names the option and says whether it is unknown or lacks its argument. (False: -o and -i make the Sophos client exit with status 255 and no message, and make the Diana client ask for an argument; an unknown -t does the same in both; a number that does not fit in 32 bits is undefined behaviour and a word that is no number kills the program: refuted. What holds: the message for missing arguments, and for unknown options other than o, i and t, after any right options; every return of the Diana client before its actions has status 1 and a message.)", "quantifier": "every right beginning of a command line, every wrong option, every continuation", "why_tests_cant": "the option strings and the characters of the messages are lists kept by hand in two places", "anchors": ["src/sophos_client.cpp:36-66", "src/diana_client.cpp:42-76"]}
{"id": "C105", "title": "Command lines and ports of the servers", "statement": "A server starts exactly when its command line is made of -s, -b database and words, with the last database named and asynchronous searches unless -s is given; otherwise it returns 1 with a message. The client of a scheme asks for the port on which the server of that scheme listens. (The last is false of Diana, whose client asks for the port of the Sophos server; the message for -b without argument says that the option is unknown: refuted.)", "quantifier": "every pair of command lines", "why_tests_cant": "the programs have no tests; the ports are constants in different files", "anchors": ["src/sophos_server.cpp:41-87", "src/diana_server.cpp:42-87", "src/sophos_client.cpp:84-85", "src/diana_client.cpp:94-95"]}
{"id": "C106", "title": "What the clients print", "statement": "The output of a client is, for each search that returned, in order, a fixed header and the results in decimal between braces, separated by commas (nothing between the braces with -q); without -q the output determines the results of every search.", "quantifier": "every command line, every results in any number and order, every action that throws", "why_tests_cant": "results are unbounded lists; that texts cannot be confused is a statement about all pairs of lists", "anchors": ["src/sophos_client.cpp:105-133", "src/diana_client.cpp:120-153"]}
{"id": "C107", "title": "Signals sent to the servers", "statement": "A signal makes a server exit with status 0, whenever it comes; without signals it serves for ever; if the port cannot be bound the program says so. (False: a signal that comes before the handlers are installed kills the process, one that comes while the server is being set up is lost, one that comes while main writes to the log blocks the process for ever; when the port cannot be bound a null pointer is used: refuted. Proved: the exact effect of a signal at every step of main, after any number of earlier signals; the server serves for ever without signals.)", "quantifier": "every interleaving of the steps of main with any number of signals", "why_tests_cant": "signals can arrive between any two instructions", "anchors": ["src/sophos_server.cpp:18-99", "src/diana_server.cpp:17-96", "lib/diana/server_runner.cpp:408-440"]}
{"id": "C108", "title": "Counters of clients down to their bytes", "statement": "On a new database, any calls of get, get_and_increment, increment, set and remove_key answer like counters modulo 2^32, each value being stored as its four bytes in little-endian order, and nothing is read outside of the stored strings. The counters of the models of the schemes are this database. On a database written by something else, a value of more than four bytes is read as its first four, a value of three bytes is read with the null character behind it. (A shorter value is read from outside of its string: refuted.)", "quantifier": "every sequence of calls, every keys and values; every database", "why_tests_cant": "sequences of calls are unbounded; reading behind a string is not visible in its answer", "anchors": ["lib/utils/rocksdb_wrapper.cpp:85-190"]}
{"id": "C109", "title": "Typed stores and lists: keys and values down to their bytes", "statement": "After any calls, get answers the beginning of the data that was put last under the key (sizeof(V) bytes), false if it was removed or never put; with one type of objects the answer is exactly what was put and nothing is undefined. A list that was put is got back with all its elements, whatever the serializer. (False of keys of 256 bytes or more: the pointer overloads take the length modulo 256, so that get of a list looks for another key; and of objects of different sizes, where get reads behind the string: refuted.)", "quantifier": "every sequence of calls, every keys, data and sizes, every serializer with a left inverse", "why_tests_cant": "the tests use short keys and one type", "anchors": ["lib/include/sse/schemes/utils/rocksdb_wrapper.hpp:143-232", "lib/include/sse/schemes/utils/rocksdb_wrapper.hpp:285-470"]}
{"id": "C110", "title": "RocksDB table of Pluto down to its bytes", "statement": "After any insertions of arrays of n numbers, get of n numbers returns the array inserted last under the key and throws out_of_range if there is none. Opened with another page size, a table is read as the first numbers of each array, or from outside of the string when the page is larger.", "quantifier": "every list of insertions, every key, every two page sizes", "why_tests_cant": "the page size is a template parameter: a test instantiates a few; reading behind the string is not visible", "anchors": ["lib/include/sse/schemes/pluto/rocksdb_store.hpp:35-140"]}
{"id": "C111", "title": "Choice of the logger and of the file of the benchmarks", "statement": "Whatever calls are made, logger() gives the logger chosen last by set_logger (a null logger for a null pointer), the console before any choice; set_benchmark_file makes the benchmarks go to its file; no call throws. (False: a null logger can be asked for only once, the second call throws and the previous logger goes on; the second file is refused; a program that registers the name \"console\" makes every call of the library that logs throw: refuted. Proved: the exact logger, file and exceptions for any calls.)", "quantifier": "every sequence of calls, every loggers and names of the program", "why_tests_cant": "the registry of names is global to the process; sequences are unbounded", "anchors": ["lib/utils/logger.cpp:35-72"]}
{"id": "C112", "title": "First use of the logger by several threads", "statement": "Any number of threads may call logger(): all get the same logger, none throws and the shared pointer is never assigned while it is read. (False of the first calls when they are concurrent: refuted, with an exception and with a race. Proved when logger() was called once before the threads, as the programs do in main, and for one thread; in all cases the logger is created at most once.)", "quantifier": "every number of threads, every interleaving, any number of calls", "why_tests_cant": "the window is a few instructions in the first call of the process", "anchors": ["lib/utils/logger.cpp:37-44", "src/sophos_server.cpp:32", "src/diana_server.cpp:33"]}
{"id": "C113", "title": "Reports of the benchmarks", "statement": "A benchmark reports the time between its construction and its first stop, the last count, and the time divided by the count when it is not 0; the line of a search is a JSON object from which the message and the numbers can be read. (The time is that of the destruction, whatever the stops, because stopped_ is never set: refuted; a message with braces is formatted, so that nothing or another message is written: refuted. Proved: the exact report for any calls; the lines of messages without quotes and braces, which those of the servers are.)", "quantifier": "every calls and times, every message and numbers", "why_tests_cant": "times are not reproducible; the benchmarks are not tested", "anchors": ["lib/utils/logger.cpp:74-122", "lib/include/sse/schemes/utils/logger.hpp:42-76"]}
{"id": "C114", "title": "Texts in hexadecimal and map of the keywords", "statement": "hex_string and print_hex write two digits for each byte, from which the bytes can be read, and leave the stream as it was; hex_string of an array writes all the bits of its elements; the file of append_keyword_map determines the keywords and their indexes. (False: print_hex leaves the stream in hexadecimal; elements of more than a byte lose their high bits; keywords with line breaks are ambiguous: refuted. Proved: the texts, whatever the stream; the low bytes of the elements; the map for keywords without line breaks.)", "quantifier": "every string, array, stream and list of keywords", "why_tests_cant": "that a text determines its source is a statement about all pairs", "anchors": ["lib/utils/utils.cpp:205-244", "lib/include/sse/schemes/utils/utils.hpp:62-98"]}
{"id": "C115", "title": "Files loaded by the builders", "statement": "load_inverted_index of the builders of Tethys and Pluto returns true exactly when the parser reached its end and every list was inserted; after the build, searches find exactly the documents of the lists of the files whose load returned true. (False for Tethys when a failed load is tried again, when a file has a keyword twice or a list that fills its blocks before another one: refuted. Proved: the result and the builder, exactly, for every insertion function; the searches after one load, which are also those of the lists given before a failure.)", "quantifier": "every file, end of the parser, parameters and keyword", "why_tests_cant": "the failures of the parser and of the insertions can come after any number of lists", "anchors": ["lib/include/sse/schemes/tethys/tethys_builder.hpp:205-256", "lib/include/sse/schemes/pluto/pluto_builder.hpp:181-233"]}
{"id": "C116", "title": "Committed vectors and power failures", "statement": "After commit() of an awonvm_vector has returned, the values pushed before it are read back from the file, whatever power failure comes next. (False with a scheduler, which the library always sets: commit then does not call fsync, and a value may come back as zeros or not at all: refuted. Proved without scheduler; and in every case each byte that is read after a power failure is the one of the value pushed at this index, or zero.)", "quantifier": "every history of calls, every power failure that keeps any of the bytes written since the last synchronization, and every index", "why_tests_cant": "the bytes that the disk loses cannot be chosen by a test, and depend on the machine", "anchors": ["lib/include/sse/schemes/abstractio/awonvm_vector.hpp:291-308", "lib/include/sse/schemes/abstractio/awonvm_vector.hpp:310-331"]}
{"id": "C117", "title": "A Tethys store built before a power failure", "statement": "After build() of TethysStoreBuilder has returned, the store opened after a power failure finds every accepted list. (False, since neither the table nor the stash is synchronized: no store, a store that finds nothing, or, with encrypted pages, values that were never inserted: refuted. Proved: the keys of which the two pages were left, with the stash, are answered with their whole list; and when plain pages are lost whole, the store does not open because the table is empty, or answers every key with part of its list.)", "quantifier": "every database, parameters, disk left by a power failure, and key", "why_tests_cant": "the pages that the disk loses cannot be chosen by a test", "anchors": ["lib/include/sse/schemes/tethys/tethys_store_builder.hpp:280-303", "lib/include/sse/schemes/tethys/tethys_store.hpp:121-166"]}
{"id": "C118", "title": "A map of Oceanus built before a power failure", "statement": "After commit() of CuckooBuilder has returned, the map opened after a power failure finds every key that was not spilled, or the values can still be read from the temporary file. (False: the temporary file is removed and the table is not synchronized: refuted. Proved: the keys of which the two slots were left are answered as before; and when slots are lost whole, the map does not open because its table is empty, or answers every key with a value inserted for it or with out_of_range.)", "quantifier": "every list of insertions, parameters, hash function, disk left by a power failure, and key", "why_tests_cant": "the slots that the disk loses cannot be chosen by a test", "anchors": ["lib/include/sse/schemes/oceanus/cuckoo.hpp:186-243"]}
{"id": "C119", "title": "Optionals given to the callbacks", "statement": "Whatever operations of the contained type throw, the optional of the library reads no object that does not exist, destroys each object once and loses none, answers as an optional value, and keeps its value when a call throws. (Its last part is false, and emplace with a reference to its own value reads a destroyed object: refuted. Proved: the exact state and answers after any calls, with any exceptions; a call that throws, other than emplace, has not changed whether the optionals hold a value.)", "quantifier": "every type, every sequence of calls on any number of optionals, every choice of the operations that throw", "why_tests_cant": "the exceptions can come at any operation, and a lost or doubly destroyed object often shows nothing", "anchors": ["lib/include/sse/schemes/utils/optional.hpp:460-856", "lib/include/sse/schemes/oceanus/cuckoo.hpp:281-282"]}
{"id": "C120", "title": "Comparisons of optionals", "statement": "The comparisons between optionals, values and nullopt are those of one total order in which nullopt comes first, and equal optionals have the same hash. (False when the contained type has values that do not compare, like NaN: the same operator gives different results for a value and an optional that holds it: refuted. Proved when the six operators of the type are those of a total preorder.)", "quantifier": "every type, every operator and every pair of operands", "why_tests_cant": "there are thirty overloads, for all types", "anchors": ["lib/include/sse/schemes/utils/optional.hpp:994-1328", "lib/include/sse/schemes/utils/optional.hpp:1355-1378"]}
{"id": "C121", "title": "A Janus server and power failures", "statement": "If flush_edb() of the Janus server has returned, a power failure of the server changes no later answer. (False: flush_edb flushes the databases of the insertions and of the removals, from which a search takes out what it reads, but not the cache where it puts the results: documents found before the flush are lost for ever, and with an older list left in the cache removed documents come back: refuted twice. Proved: the exact answers after any number of such failures; keywords of which the cache kept the searches are answered as they should be.)", "quantifier": "every history of insertions, removals, searches, flushes and power failures that follow a flush, every number of writes kept by each database", "why_tests_cant": "the power of the machine would have to be cut", "anchors": ["lib/janus/janus_server.cpp:95-161", "lib/janus/janus_server.cpp:295-309", "lib/include/sse/schemes/diana/diana_server.hpp:83-93", "lib/include/sse/schemes/utils/rocksdb_wrapper.hpp:203-235"]}
{"id": "C122", "title": "A Janus client that dies, or whose power fails", "statement": "If a Janus client dies in the middle of search_request, or its power fails, then once it is opened again its searches are right, and its updates have tokens that the server cannot know. (False: after the first write the documents inserted since the last search are lost; and as the three counter maps are not synchronized, after a power failure an insertion can have a token that an earlier search request gave to the server, and a removal can be forgotten: refuted. Proved: a client that dies acts as if the request had been made and lost, or not made; and whenever it dies, the token of each update is new to the server.)", "quantifier": "every history of insertions, removals and searches, with the client dying between any two writes of search_request", "why_tests_cant": "the process would have to be killed between two particular writes", "anchors": ["lib/janus/janus_client.cpp:82-175", "lib/utils/rocksdb_wrapper.cpp:101-190", "lib/include/sse/schemes/diana/diana_client.hpp:166-207"]}
{"id": "C123", "title": "Servers that choose the operations of the client as they go", "statement": "A server that chooses the next operation of the client from everything it has seen so far, and that may also ask for values of the random function, sees the same (up to a bijection of the random functions) in the game where the client does the left operations as in the game where it does the right ones, in Sophos, Diana and Janus; and with Tethys and Pluto, a server that chooses the searches from the table and the answers so far chooses the same searches and sees the same with two databases that reveal the same. The questions must avoid the inputs of the insertions to hide. (Without this condition on the questions the games can be told apart: refuted.)", "quantifier": "every strategy of the server, any number of turns, every scheme instance, every random function (keystream), every pair of operations or databases that reveal the same on purpose", "why_tests_cant": "the strategy is any function of what was seen; the executions compared depend on the random function itself", "anchors": ["lib/sophos/sophos_client.cpp:83-169", "lib/sophos/sophos_common.cpp:18-31", "lib/sophos/sophos_server.cpp:46-89", "lib/sophos/sophos_server.cpp:484-491", "lib/include/sse/schemes/diana/diana_client.hpp:132-251", "lib/diana/diana_common.cpp:28-37", "lib/include/sse/schemes/diana/diana_server.hpp:83-183", "lib/include/sse/schemes/diana/diana_server.hpp:315-323", "lib/include/sse/schemes/tethys/tethys_store_builder.hpp:167-310", "lib/include/sse/schemes/tethys/encoders/encode_encrypt.hpp:61-91", "lib/include/sse/schemes/tethys/tethys_builder.hpp:78-125", "lib/include/sse/schemes/tethys/tethys_client.hpp:119-139", "lib/include/sse/schemes/tethys/tethys_server.hpp:49-71", "lib/include/sse/schemes/pluto/pluto_builder.hpp:84-178", "lib/include/sse/schemes/pluto/pluto_server.hpp:50-77", "lib/janus/janus_client.cpp:82-175", "lib/janus/janus_server.cpp:95-161", "lib/janus/janus_server.cpp:295-303"]}
{"id": "C124", "title": "What the random database generator logs", "statement": "The messages of a thread of the generator change nothing of what is generated. \"completed keyword\" is written exactly once for each keyword of a fixed-size group that gets all its documents, and for nothing else, and what it says is true from then on. The line at each 1000 documents tells how many documents and entries there are. The last line of a thread tells how many keywords of the groups of 10 to 10^5 documents are complete, and for each size of random groups the least number of documents of a group, the number of groups and the number of those that are not full. (Refuted: a keyword is said to be complete before its last document is generated; the line at each 1000 documents tells neither number, because its format has no place for them; what the last line tells about the groups of 10^2 and 10^3 documents is not true of the keywords named Group-rand-10^3.)", "quantifier": "every number of documents up to the size of the counters, every number of threads, every thread, every stream of random numbers, every number of random groups, every value read from the shared counters", "why_tests_cant": "the tests do not look at the log; a keyword of a group of 10^5 documents takes that many documents to complete", "anchors": ["lib/utils/db_generator.cpp:38", "lib/utils/db_generator.cpp:165-409", "lib/utils/db_generator.cpp:411-516"]}
{"id": "C125", "title": "Stash files that are cut short", "statement": "A stash file that lacks bytes at its end (a disk that was full, a process that died) is not taken for a whole one. (False: entries are missing without notice when the cut is between two of them, and a list is empty when the cut is after its key or within its number of elements, if the bytes of the number that are left are zero: refuted. What holds: for every number of bytes left, exactly which entries are read is given; at all other places an element or a key is read past the end of the file; a cut file that is read never gives a key elements that are not those of its list: it has the whole list, an empty one or none.)", "quantifier": "every stash (any parameters of the encoder, any number of entries and elements below 2^64), every number of bytes left", "why_tests_cant": "one test per length of each file; lists of 256 elements or more are needed for some of the cuts", "anchors": ["lib/include/sse/schemes/tethys/encoders/encode_separate.hpp:171-239", "lib/include/sse/schemes/tethys/encoders/encode_separate.hpp:331-352", "lib/include/sse/schemes/tethys/encoders/encode_encrypt.hpp:197-223", "lib/include/sse/schemes/abstractio/kv_serializer.hpp:76-106"]}
{"id": "C126", "title": "Optional references", "statement": "An optional reference designates the object it was last bound to (by construction, emplace, or the copy or exchange of another one); assigning one binds it again and never changes an object; value() throws exactly when nothing is bound; programs that use variables that exist and read or write only through references to objects alive are exactly those that are defined, and each call then gives what the calls before it determine. Not so, and refuted: that a reference that has_value() can be read (its object may be gone), and that equal references designate the same object or stay equal.", "quantifier": "every sequence of calls on any number of variables and objects, every type of values with equality", "why_tests_cant": "aliasing: the effect of a call depends on all the bindings made before; one test per sequence", "anchors": ["lib/include/sse/schemes/utils/optional.hpp:861-984", "lib/include/sse/schemes/utils/optional.hpp:995-999"]}
{"id": "C127", "title": "Alignment of the accesses to a vector", "statement": "The asynchronous accesses of a vector have the addresses, sizes and offsets its scheduler and direct accesses need. (Not in general: refuted for the default alignment of elements that are arrays of bytes, for which every asynchronous access throws; for page sizes of the system or of the device above 4096 bytes, with which buffers of the tables of Tethys may be refused; for alignments that do not divide the size, which the test at compile time lets through; the warning of the constructor is given neither always nor only when accesses may fail; page sizes that are not powers of two are tested wrongly. What holds: exactly which requests are submitted, with which arguments; exactly which alignments and sizes are accepted wherever the allocator puts the buffers; that the tables of Tethys are, if and only if the page size is at most 4096; that all writes are at multiples of the size of the elements, hence of every block size that divides it.)", "quantifier": "every alignment, size of elements, page size, index and address of a buffer; every sequence of calls on a vector", "why_tests_cant": "depends on the machine, the file system and the allocator; tests use one page size", "anchors": ["lib/utils/utils.cpp:247-263", "lib/abstractio/scheduler.cpp:9-12", "lib/include/sse/schemes/abstractio/awonvm_vector.hpp:23-31", "lib/include/sse/schemes/abstractio/awonvm_vector.hpp:103-171", "lib/include/sse/schemes/abstractio/awonvm_vector.hpp:242-484", "lib/abstractio/linux_aio_scheduler.cpp:94-109"]}
{"id": "C128", "title": "Files read as stashes", "statement": "The byte strings that are read as a stash without passing their end are exactly those made of entries (key, number of elements in eight bytes, elements), the last of which may lack bytes of its number if the others are zero; the stash read holds what they say, the last list of each key; what is read determines the file up to its length. Every other byte string is read past its end. (That every entry of a file that is read is kept is false for files in which a key comes twice: refuted.)", "quantifier": "every byte string, every size of the keys and of the elements but zero", "why_tests_cant": "all byte strings; tests read files written by the builder", "anchors": ["lib/include/sse/schemes/abstractio/kv_serializer.hpp:76-106", "lib/include/sse/schemes/tethys/encoders/encode_separate.hpp:331-352"]}

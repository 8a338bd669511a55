# Formal model of opensse-schemes: design

Target: the C++ sources in `/repo` (OpenSSE/opensse-schemes, pinned commit).
Tool: Coq 8.16.1.  All Coq files are in `rocq/theories`, logical prefix `Verif`.

## Method

* The model is a set of small, total, computable Gallina functions, one per C++
  function; each definition cites the file and lines it models and says what it
  simplifies.
* Exceptions are a distinct outcome of each function (`None`/`Err`), undefined
  behaviour is another one (`UB`), and loops which do not terminate structurally
  are fuelled with an explicit out-of-fuel outcome that a theorem excludes.
* Integers are unbounded (`Z`, `N`, `nat`) unless a wrap-around matters for the
  property; then the wrap is written in the model (`mod 2^32`, `mod 2^8`, ...).
  Where unsigned subtraction occurs, the theorems show that it does not
  underflow.
* Cryptographic primitives (PRF, hash, RCPRF, trapdoor permutation, stream
  cipher, puncturable encryption), RocksDB, the kernel and the file system are
  not modelled in depth: they are `Section` variables, quantified in the final
  theorems, with their assumed behaviour written as explicit hypotheses
  (e.g. "token derivation does not collide on the pairs used"), and a
  satisfiability example beside them.
* Concurrency is modelled as a small-step relation whose steps are the atomic
  actions of the code (atomic operations, critical sections, database calls);
  theorems quantify over all executions of the relation.
* If the code violates a property, the theorem is named `..._refuted`: it
  exhibits a concrete execution of the model which violates it.  A positive
  theorem then gives the exact condition under which the property holds.
* For every area there is a model file (no proofs), a proof file, and a
  `Props_*.v` file holding only the final theorems, each closed by
  `exact lemma.`, followed by `Print Assumptions` and by an `Example` showing
  that the hypotheses are met by a concrete non-trivial case.
* `seeded/LOG.jsonl` records the wrong programs tried against the theorems.  `failed` names
  the proofs at which the compiler stopped (`File.lemma`) and the theorems of the manifest
  that depend on them.

## Plan per property

| Id | Modelled | How it is proved |
|----|----------|------------------|
| C01 | `TethysGraph` edges, vertices, DFS path search, augmentation loop, `get_flow` | loop invariant + residual cut argument (max-flow/min-cut) |
| C02 | same | invariant `flow + rec_flow = capacity`, `0 <= flow, rec_flow`, conservation; preserved by each augmentation |
| C03 | DFS with explicit stack and visited set; outer loop | DFS fuel bound by number of edges and vertices; outer loop measured by remaining source capacity |
| C04 | state machine of the graph API | case analysis lifted to all call histories |
| C05 | connected components + one job per component, interleaved at augmentation granularity | each component is an independent flow problem; any interleaving reaches a maximal flow |
| C06-C08 | `TethysAllocator::insert/allocate` on top of the graph | from C01/C02; optimality by converting a competing assignment to a flow |
| C09 | allocator state machine | case analysis, lifted to histories |
| C10-C12 | byte-level encoder and decoder | induction over the lists of a page; arithmetic on the split |
| C13 | stream cipher as arbitrary keystream function of (key, nonce) | xor involution; list of nonces used by `build` has no duplicates |
| C14 | byte-level stash serialisation | induction |
| C15 | store builder + store on top of allocator and encoders | combination of C06, C07, C10, C11, C12, C14 |
| C16 | same model | refutation with a concrete bin collision |
| C17 | Tethys builder, client, server | from C15 with chunking lemma; refutation when the length is a multiple of the block length |
| C18 | two completion handlers as interleaved atomic steps on a heap cell | refutation by a concrete interleaving; proof for serialised handlers |
| C19,C20 | `CuckooAllocator::insert` | invariant: multiset of stored + spilled values; positions admissible |
| C21,C22 | builder/commit/lookup | from C19; refutation for spilled keys and for the all-ones key |
| C23 | two completion handlers, atomic counter | invariant over all interleavings |
| C24-C28 | vector on top of a byte-file model with a file position | induction on histories; refutations for index = size with reserved space, crash before commit, mixed pushes |
| C29,C30 | Pluto builder/server/client with abstract hash table and Tethys store | chunking lemma; refutation for the default parameters (block array longer than the block) |
| C31,C32 | counter on a key-value map; get and put as separate atomic steps | induction; two-thread refutation |
| C33-C36 | Sophos client and server, all five search variants | invariant relating history, counter map and server map; job partition lemma; refutation at the 32-bit wrap |
| C37-C40 | Diana client and server | idem; range splitting lemma |
| C41-C46 | Janus client and server over Diana and an abstract puncturable encryption | refinement to an abstract epoch-based specification; refutation with two removals in one epoch |
| C47-C49 | thread pool and the two IO schedulers | invariant over all interleavings |
| C50,C51 | setup protocol with crash points; session insert | case analysis; refutations |
| C52 | generator loop | induction; relative errors of the chains of roundings for the numbers of random groups and the thresholds (`GenFloatAcc.v`) |
| C53,C54 | xor masks, iterator | algebra, induction; refutation for an empty first container |
| C55 | component labelling before the max-flow | labelling changes no field that the search reads |
| C56 | store builder state machine | case analysis, lifted to histories |
| C57 | move constructor of the vector | refutation (size and commit flag are lost), conditional theorem |
| C58,C59 | thread-pool IO scheduler: destruction, `get_shared_io_pool` | refutation by an interleaving; conditional theorem |
| C60,C61 | kernel IO scheduler: waiting submitters, failed submissions | invariant; refutation of the part that fails |
| C62 | conversion of protocol messages to requests | refutation for short fields; exact length condition |
| C63 | client construction followed by the remote setup call | case analysis; refutation for an already constructed client |
| C64 | small-step model of inserting threads, network and searches, for both schemes | invariant over executions, history variables in the labels |
| C65 | jobs of `load_inverted_index` as threads of that model | invariant on the remaining work of each job; refutation for a repeated keyword |
| C66 | the same executions | corollary of C64 |
| C69 | generator loop | counting over the calls, induction over iterations and threads |
| C70 | interleaving model of the calls, completions and destructions | counting invariant: each allocated buffer has exactly one owner; refutations by execution |
| C71 | clients and servers with an outcome for every call of RocksDB | the invariants of C35, with emptied slots for the updates that fail; refutations by execution |
| C72 | the jobs of C05 as programs of single reads and writes; a racy read returns anything | footprint logic: a job alone only writes the cells of its component and ignores the other cells it reads; ghost memory per job; the result is compared with the jobs run one after the other |
| C73 | key files byte by byte, attempts to construct a client with failures and crashes | invariant over the attempts: the files are missing, a prefix of the keys of one attempt, or complete; refutations by execution |
| C74 | request with the memory it is made from, messages, runners, a permutation that may throw | the invariant of C35 extended with the domain of the permutation; refutations by execution |
| C75 | file system as a map from paths, traversals of fts as an inductive relation | mutual induction on the traversal: post-order, so that directories are empty when they are removed |
| C76 | what the server of Sophos sees of a history, for any PRF behind the tokens and masks (`HideSpec.v`) | a bijection of the PRFs that exchanges the hidden inputs of the two histories and corrects the masks; simulation of the two views, `HideProofs.v` |
| C77 | the same for Diana, with bulk insertions, lost updates and deletions (`HideDSpec.v`) | the same bijection over the leaves of the tree; the counters determine which leaves a constrained key covers |
| C78 | what the servers of Tethys and Pluto see, for any keystream under the key of the encoder (`HideTSpec.v`) | the encrypted build is the mask of the unencrypted one (equation, failures included); a bijection of the keystreams; refutations by execution for Pluto and for two builds under one key |
| C79 | what the server of Janus sees, for any generators of its two instances of Diana (`HideJSpec.v`) | the view of Janus is a function of the views of two Diana histories on keywords joined with epochs (invariant: the counters of Janus agree with those of Diana from the current epoch on); C77 twice |
| C80 | executions of any list of calls against a server, small steps (`SetupSpec.v`) | invariant: no thread or exactly one has passed mkdir, and disk and memory are the effects of a prefix of its setup; refutations by execution |
| C81 | the disk after any number of the system calls of a build (`LifeSpec.v`) | the table file is a prefix of the pages followed by zero pages; lookups in such a file; the complete sequence gives the file of `cb_build`; refutation by execution |
| C82 | a second builder on the disk left by the first (`LifeSpec.v`) | invariant: the value file is not empty, hence committed, and the allocator stays empty; no system call touches a non-empty table; refutation by execution |
| C83 | answers of commits and the table file (`LifeSpec.v`) | from C81 and C82; refutation by execution |
| C84 | the disk after any number of the system calls of a build (`TethysLifeSpec.v`) | the table file is a prefix of the pages followed by zero pages, the stash file a prefix of the entries; decoding a zero page and deserializing a cut stash; refutations by execution |
| C85 | the disk after a build that threw (`TethysLifeSpec.v`) | the vector on a non-empty file is committed and refuses; an allocator that has run refuses after the reservation; refutation by execution |
| C86 | lists of a store opened over an older stash (`TethysLifeSpec.v`) | as C84, with the older stash in the place of the missing one; refutation by execution |
| C87 | interleaved accesses of the requests, and the waiting asked for (`JanusConcSpec.v`) | footprints of the requests (which keys of which database), accesses to different keys commute, so an execution is moved to a serial one; the serial one is a run of `JanusModel.v`; refutations by execution |
| C88 | what is on disk after the first k operations (`PlutoLifeSpec.v`) | operations of the hash table precede those of the store; the files of an undisturbed life by C29 and C84; refutation by execution |
| C89 | the complete blocks and the dummy blocks as lists of pairs, and their number | C30 and C88 for one build; induction on the builds for RocksDB; the destructor of the cuckoo builder by C82; refutations by execution |
| C90 | `same_files`, before and after | every operation of a life is harmless to files that are not empty (invariant over the calls); contents of RocksDB by C89; refutation by execution |
| C91 | `search_when_done`, `search_any_time` over the executions of C64, jobs being the callbacks of the threads (`GenClientSpec.v`) | C64 with the keyword in one job; an invariant for shared keywords (each token holds the document of one put); counts of C52 for the counters; refutation by execution |
| C92 | prefixes of the callbacks of each thread | induction on the callbacks; the same theorems; refutation by execution |
| C93 | `spec_find`: lists of the insertions that client and server remember (`PowerSpec.v`) | invariant: counters and database are those of the remembered lists |
| C94 | `p_delivered`: the documents that arrived, as a list | the numbers rise along the list of the server while the client keeps its counters; induction on the history after the flush |
| C95 | distinct tokens, unchanged accesses, exclusive or of two requests | the number of a keyword never decreases; masks depend on keyword and number only; refutation by execution |
| C96 | `z_run`: queue of documents on the way and list of those that arrived, without counters or tokens (`StreamSpec.v`) | invariant: counters, database and stream are those of numbered lists whose numbers rise |
| C97 | prefixes of the insertions of a session | induction on the calls of the session |
| C98 | the same, with the documents of a file | C97; the state of the session after each way of ending; unwinding of the local variables |
| C99 | `t_found`: documents found after a process, as a prefix of the list of the database (`TethysCtrSpec.v`) | C11 for the blocks, induction on the insertions for the counters, which are independent of the store |
| C100 | the same, over the files of an existing database | C85 (build refuses before it writes) and C99 |
| C101 | `zgroups`: the calls one after the other on a session seen as a list of messages; `srace` (`SessSpec.v`) | invariant: at most one thread is changing the members, the others only read them; a call takes effect when it returns |
| C102 | the same | invariants (mutex; documents already written by each call); schedules run by `vm_compute` |
| C103 | grammar of command lines: lists of words, groups of options, options with argument (`ProgSpec.v`) | getopt inverted on the rendered items; induction on the options |
| C104 | the same, followed by a wrong word | the same; refutations by `vm_compute` |
| C105 | the same; `port` of an address | the same |
| C106 | `commas` of the decimal texts | texts of lists are injective (decimal digits end at a comma or brace) |
| C107 | `will_exit`, `runs_for_ever`: executions of main without further signals | the reachable states are the positions in main; case analysis |
| C108 | `value_after`: a counter folded over the calls about its key | the database holds the four bytes of each value; simulation, induction on the calls |
| C109 | `stored`: the last write about a key in the history | induction on the history; lists: left inverse of the serializer, induction on the list |
| C110 | `last_insert`: the last insertion of the key | chunks of eight bytes, induction |
| C111 | `choices`, `bench_paths`: the choices in the history | invariant on the names registered; induction on the calls |
| C112 | `log_race`: two accesses of which one assigns | invariants on the positions of the threads |
| C113 | `given_counts`, `stops`, `numeral`, `plain_message` | induction on the calls; characters that cannot be in the parts |
| C114 | `unhex` of chunks of the text | induction on the list |
| C115 | `inserted`: the builder after insertions that all succeed; `ids_of`, `answer` | induction on the file; C17 and C29 |
| C116 | `leaves`: the files that a power failure can leave, from the contents since the last synchronization | invariant over the calls, on top of that of C24-C28: each content since the last synchronization agrees with the values; refutation by execution |
| C117, C118 | `leaves`, `page_of`, `whole_pages` | the exact system calls of C84 and C81; a page that was left is read as before, a page of zeros holds nothing; refutations by execution |
| C119 | optional values without flags or objects, with the exceptions of the type (`OptSpec.v`) | each call on the image of an ideal state gives the image of the next one, by cases |
| C120 | a total preorder on optional values (`OptSpec.v`) | by cases on the operands; refutation by execution |
| C121 | `jd_expected`: documents inserted and not removed, and the keywords of which the cache lost a search; `jd_returned`: the lists that the cache remembers | the logged databases refine the model of C41, whose invariant is kept with the cache after every prefix of its writes; refutations by execution |
| C122 | the history with lost requests (`jk_plain`); `jk_fresh`: tokens received or given by a request before | invariant of C41: the counters of past epochs do not matter; tokens spent are those of insertions counted in the history; refutations by execution |
| C123 | a server that chooses each turn from what it saw (`AdaptSpec.v`): two operations, of which the client does the left or the right one, or a question to the random function | the bijection of C76, C77, C79 for the whole history, as chosen from the function itself, and its inverse; the view of the first turns does not change (induction on turns); for tables the bijection does not depend on the searches; refutation by execution |
| C124 | the messages of a thread of the generator, in order with its calls of the callback (`GenLogModel.v`), and its last line | the calls are those of C52 (same steps); state after k documents from DbGenProofs; counting of the documents of a keyword, exact below the size of the counters; minimum by induction on the vector; refutations by execution |
| C125 | the reads of EncModel on a prefix of a stash file, against `cut` of `StashCutSpec.v`, which says what each prefix holds | induction on the entries; a short read of the little-endian number of elements is a remainder; refutation by execution |
| C126 | the pointer of each optional reference and the objects, call by call (OptRefModel), against functions of the calls made before (`OptRefSpec.v`) | invariant by induction on the calls, in both directions for definedness; refutations by execution |
| C127 | the arguments of the asynchronous accesses (AlignModel, with the tests of AioLinuxModel), against divisibility; positions of the writes of VecModel | masks of powers of two as remainders; invariant by induction on the calls; refutations by execution |
| C128 | the reads of EncModel on any byte string, against the inductive description `stash_file` of `StashReadSpec.v` | inversion of the reads; little-endian numbers of bytes below 256 are determined by their bytes; induction on the fuel, which is shown sufficient |
| C67,C68 | sizes of the tables in binary64 arithmetic (Flocq) | monotone rounding, relative error; refutations outside of the range |

## Trusted base

1. Coq 8.16.1's kernel (and `vm_compute`, which it includes).
2. `Print Assumptions` of every theorem listed in `MANIFEST.json` answers
   **"Closed under the global context"**: no axiom is used, neither of ours nor of
   a library; **except** for the theorems of C67 and C68 (`Props_Float.v`), of C91 and C92
   (`Props_GenClient.v`) and for `C52_float`, `C52_rand_groups`, `C52_rand_drawn` and
   `C69_float` (`Props_GenFloat.v`), which
   speak of real numbers and of Flocq's binary64 numbers, or run the generator with them.  These use four axioms of the standard
   library: `ClassicalDedekindReals.sig_forall_dec`,
   `ClassicalDedekindReals.sig_not_dec`,
   `FunctionalExtensionality.functional_extensionality_dep` and
   `Classical_Prop.classic`.  No other file imports them.  (Loading std++ also loads the standard library's
   `Coq.ssr.ssrunder.Under_rel.*` parameters, and loading the real numbers the sealed
   modules `RbaseSymbolsImpl` and `RinvImpl` of `Coq.Reals.Rdefinitions`; `vcheck` lists the
   components of these modules, which are definitions behind a signature and not axioms.)  Every `Props_*.v` file prints the
   assumptions of its theorems during the build.
3. The reading of the C++ code embodied by the model: each definition cites the
   lines it models, and says what it simplifies.
4. The behaviour assumed of the components outside of the repository.  It is never
   an axiom: it is a field of a record or a hypothesis that the theorem quantifies
   over, with an example showing that it can be met.

### Assumed of external components

| Component | Model |
|-----------|-------|
| `crypto::Prf`, `crypto::Hash`, `derive_key` | arbitrary functions; where a theorem needs it, "no collision on the inputs that the history uses" and "output of the declared length" are hypotheses. In C76, C77 and C79 they are uniformly random: the theorems give a bijection of the functions that maps one view to the other |
| trapdoor permutation | `eval` is an inverse of `invert` (a hypothesis); multiple evaluation is iteration. In C74 it may throw outside a domain that contains the tokens of the client and is stable (`tdp_domain`); in C73 a truncated secret key is refused or read as the key itself (`load_prefix`) |
| `RCPrf`, `ConstrainedRCPrf` | arbitrary leaf function; the constrained version agrees with it on its range |
| puncturable encryption | decryption succeeds exactly when the tag is not punctured (hypotheses of the Janus theorems). `key_share_type` is taken to be an array, so that the moves at `janus_server.cpp:208-210` do not empty the list read at 242-250 |
| ChaCha20 | arbitrary keystream function of key and nonce; in C78 uniformly random for the key of the encoder |
| RocksDB | a finite map whose calls are atomic; `Get` of an absent key fails; errors other than that are the subject of `FaultModel.v` (each call carries its outcome; a failed write may have reached the database or not), elsewhere calls succeed. In C93 to C95, C121 and C122 a power failure keeps a prefix of the writes made since the last `Flush`, in each database |
| kernel AIO, `pread`, `pwrite` | `io_submit` accepts any prefix of its requests; each accepted request completes once, at any time, with any result; `pread`/`pwrite` are atomic |
| file system | a file is a byte string with a position; short writes happen only where the model says so. In C75 `fts` visits a directory before and after its entries, each entry once, in any order, without following links; it stops with an error entry or a null pointer. In C116 to C118 a power failure keeps any of the bytes written since the last `fsync`, in any order, with zeros elsewhere, and one of the lengths that the file had since then; `fsync` succeeds and makes the entry of the file in its directory durable too |
| threads | sequentially consistent interleaving of the atomic steps; data races are shown absent, or made undefined behaviour, or (C72) let the read return anything |
| C library | pointers have 8 bytes and `posix_memalign` refuses alignments that are not powers of two or not multiples of 8; `getopt` is that of the GNU library without POSIXLY_CORRECT; `std::stod` is an arbitrary function; a signal is handled by the thread of `main`, between two steps; writing to the log takes and releases a mutex that is not recursive; `BuildAndStart` answers a null pointer if it cannot listen |
| spdlog, fmt | making a logger with a registered name throws; `{{`, `}}` and `{d}` are replaced, other braces are errors, after which nothing is written |
| gRPC, protobuf | a message arrives unchanged or the call fails; fields are arbitrary byte strings. In C96 to C98 a stream is a queue; when it breaks the unread messages are lost, and its status is OK only if all were read |

### What is modelled

| Code | Model |
|------|-------|
| `tethys_graph.hpp/.cpp` | `GraphModel.v`; single memory accesses of the jobs: `RaceModel.v` |
| `tethys_allocator.hpp/.cpp` | `AllocModel.v`; `tethys_graph_size` in `FloatModel.v` |
| `encode_separate.hpp`, `encode_encrypt.hpp`, `kv_serializer.hpp`, `core_types.hpp` | `EncModel.v` |
| `tethys_store_builder.hpp`, `tethys_store.hpp` | `StoreModel.v`, asynchronous part in `AsyncModel.v`, system calls in `TethysLifeModel.v` |
| `rocksdb_wrapper.hpp/.cpp` | counters: `KvModel.v`, interleaved in `Props_Ctr.v`; list store: `JanusModel.v`; bytes of keys and values: `RawModel.v`; errors: `FaultModel.v`; power failures: `PowerModel.v` |
| `tethys_builder.hpp`, `tethys_server.hpp`, `tethys_client.hpp`, `tethys_utils.hpp` | `SchemeModel.v`; successive builders over the same files: `TethysCtrModel.v` |
| `awonvm_vector.hpp`, `submit_preads` of `scheduler.hpp` | `VecModel.v`; ownership of the buffers in `AioBufModel.v`; power failures, for the stores too: `DurModel.v` |
| `thread_pool.hpp` | `PoolModel.v` |
| `utils.hpp/.cpp` (masks, hexadecimal, alignment), `concat_iterator.hpp` | `UtilsModel.v`, `AioLinuxModel.v`; page sizes: `AlignModel.v` |
| `sophos_client`, `sophos_server`, `sophos_common` | `SophosModel.v` |
| `diana_client.hpp`, `diana_server.hpp`, `diana_common` | `DianaModel.v` |
| `janus_client.cpp`, `janus_server.cpp` | `JanusModel.v`, requests processed at the same time in `JanusConcModel.v`, power failures of the server in `JanusDurModel.v`, a client that dies in `JanusKillModel.v` |
| `oceanus/cuckoo.hpp`, `cuckoo.cpp`, `oceanus.hpp` | `CuckooModel.v`, asynchronous part in `AsyncModel.v`, system calls in `LifeModel.v` |
| `pluto_builder.hpp`, `pluto_server.hpp`, `pluto_client.hpp`, `rocksdb_store` | `PlutoModel.v`, system calls of a builder in `PlutoLifeModel.v`, bytes of the table in `RawModel.v` |
| `thread_pool_aio_scheduler` | `AioPoolModel.v` |
| `linux_aio_scheduler` | `AioLinuxModel.v` |
| concurrent use of the clients and servers of Sophos and Diana, `load_inverted_index` after its parser | `ConcModel.v` |
| `db_generator.cpp` | `DbGenModel.v`, `GenFloatModel.v` |
| option -r of `sophos_client.cpp`, `diana_client.cpp` | `GenClientModel.v` |
| client and server runners of Sophos and Diana, protocol messages | `RunnerModel.v`; search requests and their memory: `ReqModel.v`; key files: `KeyModel.v`; setups and requests in several threads: `SetupModel.v`; broken streams: `StreamModel.v`; threads that share a session: `SessModel.v` |
| `remove_directory` of `utils.cpp` | `RmModel.v` |
| `logger.hpp/.cpp`, texts of `utils.cpp` | `LogModel.v` (names of `UtilsModel.v` for the keys of Janus) |
| `load_inverted_index` of the builders of Tethys and Pluto | `LoadModel.v` |
| `optional.hpp` | `OptModel.v`; `optional<T&>` in `OptRefModel.v` |
| `src/*.cpp`: command lines, printed results, signals | `ProgModel.v`; what the option -r generates: `GenClientModel.v` |

### What is not modelled

* The messages logged, levels and sinks of the logs, and timing (but the choice of the logger,
  the reports of the benchmarks, the messages of the database generator and the results printed
  by the clients).
* Tests.
* Floating-point computations are modelled apart, with Flocq: `FloatModel.v` for
  `tethys_graph_size` and `cuckoo_table_size`, `GenFloatModel.v` for the thresholds of the
  generator.  The other models take the results as parameters and their theorems hold for all
  values.  Rounding to the nearest, binary64 without excess precision for `double` and the
  80-bit format for `long double` are assumed.
* Key generation and the text form of the secret key of the trapdoor permutation.
* The parser of `load_inverted_index` (an empty submodule): it is the sequence of its calls and its end.
* The text of error messages.
* Computational security.  The theorems about what is revealed are C13 (keystream reuse), C30
  (number of accesses), C76, C77 and C79 (updates), C78 (tables).  The last four are
  information-theoretic: the PRF (the generator, the keystream) is a uniformly random function, the other functions are fixed, and the
  histories are chosen in advance.  In C123 the server chooses them as it goes, and may ask for
  values of the random function at inputs that are not hidden.  That a server cannot compute the hidden inputs from what it
  holds (one-wayness of the trapdoor permutation, security of the constrained PRF) is left to
  cryptography; it is only shown that no request covers one.
* Weak memory, allocation failure, and exceptions thrown by the standard library
  when memory is exhausted.

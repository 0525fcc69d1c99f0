# Formal model of casync-nano in Rocq (Coq 8.16.1)

## Approach

Everything is an executable Gallina function. The C program is deterministic once
every answer of its environment is fixed, so each answer of the environment is an
explicit input:

* `w_io` - the outcome of every read/pread/write/pwrite call, one event per call
  (short transfer of at most k+1 bytes, EINTR, error, return value 0);
  when the list is exhausted the run stops with outcome `Halt`: a process that is still
  running or was killed. Quantifying over the list therefore quantifies over schedules *and*
  crash points.
* `e_server` - the result of the n-th `curl_easy_perform` for a URL (status, body
  segments delivered to the write callback, final CURLcode).
* `w_alloc` - success/failure of every allocation; `w_kev` - kernel crypto API results.
* `e_H` (SHA-256), `e_qsort`, `e_bsearch`, `e_zstep` (ZSTD_decompressStream, an arbitrary
  function of its call history), `e_open`/`e_open_rw`/`e_kind` (name resolution, file types),
  `e_getenv` - libraries and operating system.
  Nothing is assumed about them except the contracts in `SpecEnv.env_ok` (hash length 32,
  qsort sorts and permutes, bsearch is correct on sorted arrays, zstd stays inside the
  buffers it is given) and, where a theorem says so, `server_ok` (SpecHttp: body segments shorter than 2^63 bytes) or `has_chunk` (SpecAvail: a server that has the chunks).

Outcomes are `Ok a | Abort | UB | Halt`: failed `u_assert` is `Abort`, undefined behaviour
(out of bounds access, division by zero, use after free, double free, NULL dereference, float
to integer overflow, a conversion specification without argument) is `UB`.

The world carries a ghost trace (`w_trace`): store queries, transfers, writes, flushes,
performs, sleeps, scans, progress. `TPut` (arguments of target_write) and `TAnswer`
(answer of a store) have no counterpart in the code; they only record what happens.

Files: model `Base` (outcomes, world, monad), `Utils`, `Sha`, `Encrypt`, `Discr`, `Chunker`,
`Caibx`, `Index`, `StoreLocal`, `Target`, `StoreHttp`, `Chain`, `Ui`, `MainProg`, `Patchdd`,
`Tool`, `Log`, `LogSites`, `Bench`, `Res` (ownership), `Stats` and `Queries` (counters of a chain), `Report`, `Closing` (messages), `Curl` (options of curl handles), `Rate` (figures of csn-bench). Specifications are in `Spec*.v`, proofs in `Pf*.v` and
`Lib.v`, the property theorems (only statements, `exact`, `Print Assumptions`) in
`Properties*.v`, witnesses showing that hypotheses can be met and the concrete runs of the
refutations in `Ex*.v` and `Toy.v`, published test vectors in `Vectors.v`.

## What is modelled

| C file | functions | model |
|--------|-----------|-------|
| utils.c, utils.h | preadall, readall, writeall, pwriteall, fd_size (+ blockdevice_size), slurp_file, parse_hex, nibble, chomp, rol32, (un)p32le, unp64le, streq, startswith, u_assert | `Utils`, `Base` |
| chunk.c, chunk.h | chunk_format_id, chunk_calculate_id | `Utils`, `Sha` |
| sha.c | sha_kcapi_init/_deinit, sha_once | `Sha` |
| encrypt.c | chacha20_rounds, encrypt_init/_restart/_do, encrypt_parse_keyspec | `Encrypt` |
| chunker.c | all | `Chunker`, `Discr` (IEEE binary64 arithmetic of the discriminator) |
| caibx.c | all | `Caibx` |
| index.c | all | `Index` |
| store-local.c | all | `StoreLocal` |
| target.c | all | `Target` |
| store-http.c | all; the curl options apart (`Curl`; in `StoreHttp` a flag `e_http_ok`: all succeed or setup fails) | `StoreHttp`, `Curl` |
| store.c | all | `Chain`, `Stats`, `Queries` |
| ui.c | show_progress | `Ui` |
| main.c | all, with getopt_long for casync's options (only the help text is left out) | `MainProg` |
| patchdd.c | all | `Patchdd` |
| csn-tool.c | all, over a small file system indexed by path | `Tool` |
| log.c, log.h | all, with the printf conversions used; every call in the program (`LogSites`) | `Log` |
| csn-bench.c, test/xorshift32.c | all | `Bench`, `Rate` (the lines printed) |

Not modelled: the texts of usage messages, the test programs and the build system, curl, zstd, OpenSSL,
libc and the kernel themselves.

Simplifications, each also noted at its definition:

* Little-endian 64-bit machine, `BUFSIZ` 8192, double arithmetic without contraction to FMA, asserts
  enabled (CMakeLists.txt does not define NDEBUG).
* Files are smaller than 2^63 bytes (`files_ok`) and change only through the program.
  fstat and lseek succeed on open files; BLKGETSIZE64 works on block devices. A block device
  has a fixed size, a regular file grows.
* C strings are byte lists without NUL; arguments and environment are assumed to be so (`no_nul`).
* The size of the chain's array does not wrap (argc is an int). The sizes of the entries arrays and of the decode buffer are
  computed in size_t as the code does; a write past what realloc was asked for is `UB`, so C53 includes that they do not wrap.
* `curl_easy_perform` returns: a response is a finite list of segments. A callback that
  refuses data makes it return CURLE_WRITE_ERROR.
* OpenSSL's SHA256() never returns NULL; EVP_Cipher of csn-tool behaves as a stream cipher on the
  length it is given, which is an unsigned int (C52).
* csn-tool: one name per file, all files regular and readable unless missing.
* Loops whose number of iterations is not structural use a fuel that is proved to suffice (C43, C14, C54).
* clock readings of csn-bench are inputs. `Rate.v` has the lines it prints, with the rate in binary64.
* `Res.v` goes through the functions that own something a second time (C66-C71) and keeps only
  acquisitions, uses and releases of descriptors, heap blocks, library handles and the buffers with key
  material. A condition that depends on data or on the system is answered by an arbitrary list of answers,
  so all paths of the C code are covered; paths that the data excludes are covered too. Contents are
  followed only where the key is concerned; what OpenSSL keeps inside an EVP context is not (it cleanses
  it). realloc keeps the identity of a block. Assertions are left out (C55). The kernel hash is
  treated apart from a run. The working block of hchacha20 counts as a copy of the key.
* The counters of a chain are computed from the trace of a run (`Stats.v`); its counter `queries` is carried along in `Queries.v` (C107).
* `Curl.v` (C108) has store_http_new from line 473 on, store_http_get_chunk up to the end of its transfers and store_http_free once more, with
  the options of the handles. A call that fails leaves its option unchanged or unset, as libcurl does. What happens to the data is left
  to `StoreHttp.v`. In `StoreHttp.v` setting CURLOPT_WRITEDATA, which stores a pointer, does not fail.
* `Closing.v` has the lines that csn and patchdd print at the end of a run, with readings of the clock and the number of skipped chunks
  as inputs. `%.2f` is taken to round the exact value to the nearest hundredth, ties to even, as glibc does; the sign of a NaN is left out.
* `Report.v` composes the lines about stores (store.c:71/73, main.c:99) from `Log.v`; the other messages are treated one by one (`LogSites.v`).

## Plan per property

| id | model | proof |
|----|-------|-------|
| C01 | whole `csn` run | invariant over processed index entries: target prefix, target index, chunk buffer, local indices are all vouched for |
| C02 | whole run incl. kernel hash failures | C01 invariant with "some suffix hashes to id" instead of "hashes to id", then lengths force the suffix to be everything |
| C03 | whole run, all outcomes | write trace invariant: every pwrite lies inside an entry and carries vouched bytes |
| C04 | whole run, ghost trace of store queries and writes | induction over the resumed prefix |
| C05 | whole run with a faithful server | no-failure lemma per function, induction over entries |
| C06 | counterexample evaluated in the model | `_refuted` + positive theorem = C01 |
| C07 | counterexamples + UB-freedom under consistency | evaluation; invariant |
| C08 | store chain | case analysis and induction over the store list, monotonicity of activity |
| C09 | entry callback | direct + trace |
| C10 | whole run, trace | invariant: every processed id is in the target index |
| C11 | target store | part of the C01 invariant |
| C12 | all functions | frame lemmas |
| C13 | alias counterexample | evaluation |
| C14-C18 | chunker vs direct specification; table checked against one transcribed from chunker.c, known answer of test/chunker_test.c | rolling hash invariant, segmentation induction, evaluation |
| C19 | IEEE binary64 via `SpecFloat` | Flocq error-free sign reasoning, evaluation |
| C20, C21 | caibx reader vs file layout | arithmetic on byte positions |
| C22 | index vs multiset of insertions | invariant, any conforming qsort/bsearch |
| C23-C27 | local store | invariant on validated entries; counterexamples |
| C28-C34 | HTTP store | adversarial server invariant; streaming-decoder contract |
| C35 | chacha/xchacha | equality with an index based specification; xor algebra |
| C36-C38 | parsers | induction on strings |
| C39-C41 | csn-tool over a small file system | schedule induction; counterexamples |
| C42 | sha_once | schedule induction; counterexample |
| C43, C44 | I/O loops, packing | schedule induction; bit arithmetic |
| C45, C46 | patchdd | block induction |
| C47 | write-back cache model over the write trace | counterexample for csn, theorem for patchdd |
| C48, C49 | command line | evaluation, string lemmas |
| C50 | progress arithmetic | arithmetic |
| C51 | HTTP store | family of bodies with unbounded decode buffer; bound by the responses |
| C52 | csn-tool | file sizes modulo 2^32 |
| C53 | whole run, all outcomes | per-function lemmas "never UB", ownership of indices; counterexample |
| C54 | whole run | cost logic: each function uses a bounded number of answers |
| C55 | whole run | per-function lemmas "never Abort" under conditions; counterexamples |
| C56, C57 | log.c and every call in the program | composition lemmas for format strings; table of calls checked by evaluation |
| C58 | hexdump | loop invariant, rows |
| C59-C62 | csn-bench | chunker invariant over rounds; bit-level injectivity of xorshift |
| C63, C64 | patchdd, csn-tool | cost logic, no failing assertion |
| C65 | whole run, trace | weights of events, per function |
| C66, C67 | ownership in csn-tool | separation logic `own` over `Res.v`: what is owned, what was given back and with which contents, open descriptors |
| C68-C70 | ownership in stores, chain, run | the same, induction over parameters, requests, stores, entries; counterexamples |
| C71 | ownership in sha.c | the same |
| C72 | counters of a chain | slots of the array, induction over the trace; counterexample |
| C73 | messages about stores | composition of log lines; counterexample |
| C74 | numbers of a run | loop invariant over the entries, counting answers |
| C75 | restarts, with stores and command lines that may differ from run to run | below-offset invariant of one run, induction over the runs |
| C76 | a run after success | loop invariant "still resuming", composition with C01 |
| C77 | casync and csn | equality of the two set-ups as programs, slots of the chain; counterexamples |
| C78 | runs that cannot start | contrapositive of the set-up's postcondition |
| C79 | command lines of casync | grammar equivalent to the getopt model (both directions), then C77; counterexample |
| C80 | csn-tool and csn | composition of C39 and C30/C05 through a hosted directory |
| C81 | requests to stores after a local one | stocked store as invariant of the chain loop and of the entries; exact contents after a scan or a side-load |
| C82 | requests after an edit | C17's resynchronisation twice, then C81; sizes of complete chunks |
| C83 | two successful runs | C01 twice, induction over the entries |
| C84 | exit statuses | every path of the programs; counterexample |
| C85 | the memory of a run | sizes of arrays and decode buffers carried through scans, requests and entries |
| C86 | chunks spread over several stores | every store that is relied on answers (a chunk, or its absence) and stays in the chain; bounded set-up by C54's cost logic |
| C87 | two error-free schedules | a relational logic (both runs end alike or one still waits); two calls of chunker_scan on consecutive buffers are one call on both |
| C88 | the target after success, to the last byte | C02 for the bytes of the image, C03 for those after it; refutation: a regular file longer than the image keeps its tail |
| C89 | transfers and delays with `down` servers | amortised cost logic: every active store has a budget of 11 requests minus its error count; a refused request uses up one or the store is deactivated |
| C90 | updates between two images | the index of an image is valid and describes its chunks; then C86 (success), C88 (target) and C81 (requests) |
| C91 | the chunks, indices and update of the end-to-end tests | the windows that occur in such a chunk are three; C17's resynchronisation; C90 |
| C92 | what encrypted chunks show of their contents | both files are the data combined with the same key stream (C29, C40); refutation: two compressed versions of one chunk |
| C93 | where every byte of the target comes from; chunks nobody has | provenance of answers (decoding of the pieces of a body, slices of files, earlier entries) carried through the chain and the entries; uniqueness of what a frame decompresses to |
| C94 | resumption; damaged local stores | C86's reasoning for the chunks that are still missing; the invariant of a store whose index is wrong: either nothing has been read yet, or it was scanned and answers as a scanned store; cost of a scan per request |
| C95 | the progress display on a terminal | a terminal as a state machine over the printed bytes; each step covers the line before; C50 for the percentages; refutation: two equal neighbours in the spinner |
| C96 | all that a successful run asks for and writes | invariant over the entries: the requests and writes so far, consecutive requests for one id merged, are those listed for the entries after the ones found in the target (C74 gives the counters); with C02 in terms of the image; the number of entries found is maximal when reads and hashing work |
| C97 | the target as first store: only what is new is asked for elsewhere | the index of the target holds exactly the ids of the entries before the current one (both directions; C10 needs one), so the first store answers exactly for those; combined with the diary of C96 and the pass over all entries; with C02 in terms of the image. Needs a run without I/O errors and failing allocations: an entry that cannot be added to the index would be asked for again |
| C98 | program names | specification of basename (libgen.h) by the last component (`is_basename` of C56), then that the rest of argv is used the same; written after a mutant of basename failed only the example of C77 |
| C99 | requests and writes of runs that end anyhow | the diary of C96 without the data; what is to be done is given by the index alone (`steps`), and a run's outline is a beginning of it, by an invariant that holds at every outcome, also Abort, UB and Halt; `gapless` says it again for the places written, without reference to the entries |
| C100 | closing lines (`Closing.v`) | whole seconds against readings of the clock; `kept` describes the skipped bytes of patchdd by the files, carried through the loop invariant of C45; the percentage in binary64 by Flocq's relative errors, then the rounding of `%.2f` |
| C101 | the target after runs that end anyhow | `laid` replays a diary on a file, `frontier` is a beginning of the image followed by the rest of the old file; the invariant of C99 with the contents of the target added, partial writes from C45's `put`; sequences of runs by transitivity of `frontier` |
| C102 | the work of interrupted runs together | the number of entries the target holds is the potential: a run's diary has one of the forms of `steps_form`, where it began follows from C04, what it completed from C101; sums over runs by induction |
| C103 | what interrupted runs of patchdd write | invariant of the block loop: position up to which the destination holds the source, writes so far ascending up to it; partial writes by induction over the I/O events; runs by induction, where one run's position is the next one's start |
| C104 | how big chunks may be | C05 for chunks up to 256 KiB; for a bigger one the invariant of C01 (the buffer keeps its size, an answer fits the buffer) with all writes so far in front of it |
| C105 | csn followed by patchdd | C02, C45 and C103 put together: attempts leave a beginning of the source, which does not change what the last one makes |
| C106 | power failures | every transfer to the target is part of data given to `target_write`; induction over `survives` for one run, over the attempts for several |
| C107 | `Queries.v`: the functions from `entry_cb` on with the chain's counter `queries` | erasing the counter gives the model of main.c; counting lemma of C74 per entry |
| C108 | `Curl.v`: the handles with their options, the objects these refer to, and the transfers started | invariant between operations: every store that exists has a handle of its own with the five options of store_http_new; each request sets the other two before it starts a transfer |
| C109 | `Rate.v`: the lines of csn-bench | each binary64 operation has a relative error of at most 2^-53 (Flocq); errors of products and quotients added up; rounding to two decimals from C100 |

All theorems quantify over all inputs, files, servers and schedules they mention. `_refuted`
theorems are existential: the code violates the property, the witness is evaluated in the model.

## Findings about the code

Disagreements between the code and a property (the refuted ones) and remarks:

* **Index entries** (C06, C07): entries longer than UINT32_MAX are skipped and the run still succeeds;
  entries shorter than the minimum only warn. `entry_cb` checks the length only while resuming; an
  entry repeating the previous id reuses the buffer without checking the length (wrong data, or
  reading beyond the data). A zero-length entry with an unknown id accepts "not found".
* **Assertions** (C27, C55): local stores smaller than 5/6 of the average chunk size abort (the
  estimated number of entries is 0); so do an index without entries when the target is a store or
  is side-loaded, and zero-length entries in those cases.
* **Aliasing** (C13): a local store that is the target under another name is read while being
  written; its entries are not verified again (C26: neither are scanned entries).
* **Side-loaded indices** (C24): an entry past the end of the store or longer than the buffer
  deactivates the store instead of causing a scan; an incomplete index makes other chunks "not
  found". If the rescan of a special file fails its index is freed twice at exit (C53).
* **Chunker** (C19): the discriminator is 0 for average 1 and undefined from 9324557 on; the window
  takes up to 48 bytes before any boundary is considered (C16 states sizes accordingly).
* **Index files** (C21): a proper prefix of a valid file can be a valid file when the chunk ids imitate a footer.
* **HTTP** (C32, C33, C51): a retry keeps the decoder, cipher and request state of the failed
  attempt; any success resets the error counter, also with the wrong chunk; the decode buffer grows
  without bound.
* **Kernel hashing** (C42): after a failure only the unsent rest of the data is hashed. Within a run
  this can only reject right data or accept data whose suffix has the id (C02).
* **Parsers** (C37, C38): parse_hex accepts an odd number of digits; chomp cuts at the last run of
  line ends; chunk_id_from_path accepts any four characters before ".cacnk" (C41).
* **csn-tool** (C40, C41, C52): an existing, possibly partial output counts as finished; an unknown
  command exits with 0; a read error on stdin counts as its end; of files of 4 GiB and more only
  the size modulo 2^32 is transformed. With OpenSSL 3 EVP_Cipher returns the length or -1, so errors
  go unnoticed and an empty file counts as a failure.
* **Durability** (C47): csn never flushes the target. patchdd's fsync is not repeated after EINTR.
* **Longer targets** (C88): a target file that is longer than the image is not truncated and keeps its tail.
* **casync -h** with index and target continues with a NULL store (C48).
* **Progress** (C50, C95): the product overflows uint32_t beyond 42949672 entries. The spinner's characters are `-\|//`, so it
  stands still in every fifth step.
* **Log** (C56, C58): the message at store-local.c:70 is cut; a format cut within a conversion would be
  undefined, no call in the program is. hexdump of nothing prints an uninitialised buffer (it is never called).
* **csn-bench** (C59, C62): the buffer allocation is unchecked, an unknown benchmark exits with 0.
* **csn-tool** (C84): so does an unknown command (csn-tool.c:206).
* **patchdd, csn-tool** (C63, C64): a write that returns zero aborts. patchdd prints a share of nan% for an empty source.
* **Key stream reuse** (C92): the nonce is the chunk's id, so two compressed versions of a chunk (zstd is not
  reproducible across versions and levels) encrypted with one key share the key stream and show their difference.
* **Keys in memory** (C67, C68): do_crypt and store_handle_params never wipe their buffer `key`; slurp_file
  frees a partly read key file unwiped; store_http_new frees the store with the key when it fails later.
  A key given with `encrypt=key:` stays in the store's name and in its copy of the argument, both freed unwiped.
* **Leaks** (C68, C69, C70): store_http_new loses the cipher context on a later failure and with a second
  `encrypt=`; store_local_new leaves the descriptor (and the index) when the scan fails; store_local_free
  does not close the descriptor; the index file, the target and the target's index are never given back.
* **Keys in the log** (C73): store_http_new takes the whole argument as the store's name, so store_chain_free prints a key given
  with `encrypt=key:` at the default level; so does main.c:99 when the store cannot be made.
* **casync with options last** (C79): main.c:210 and 221 take index and target from the end of argv before getopt reorders it, while the
  check at main.c:260 looks at the reordered words. `casync extract INDEX TARGET --store=X` passes the check's
  grammar but looks for the index under the name TARGET (`C79_late_refuted`). POSIXLY_CORRECT is assumed unset.
* **casync and the kernel hash** (C77): the manual (doc/csn.1.scd:87) announces CSN_KCAPI_DRIVER without
  restriction; only csn() reads it, casync() never does (`C77_driver_ignored`). main.c:227 says that (more than) enough
  slots are reserved; with options in the form `--store=X` they are too few, and the chain must grow (`C77_slots_refuted`).
* **Counters** (C72): store_chain_append leaves `hits` of reallocated slots uninitialised; casync's
  `(argc - 4) / 2 + 1` is too small for three options of the form --store=X.
* **patchdd with an empty source** (C100): patchdd.c:104 divides zero by zero and prints `nan` or `-nan` as the percentage.

## Trusted base

* Coq's kernel including its `vm_compute` evaluator (the final check with `coqchk` does not use it).
* The reading of the C code in the model, as delimited above, and the library contracts
  named in the hypotheses of each theorem.
* The statements: `properties.jsonl` lists what each property says, `MANIFEST.json` which theorems claim it.

`Print Assumptions` is executed beneath every property theorem. All of them are "Closed under the
global context" except these six, which speak about real numbers (Flocq) and list axioms of
Coq's standard library:

* `C19_discriminator_ok`, `C19_discriminator_undefined_above`, `C100_patchdd`,
  `C109_line`, `C109_chunker`, `C109_hash`:
  `ClassicalDedekindReals.sig_not_dec`, `ClassicalDedekindReals.sig_forall_dec`,
  `FunctionalExtensionality.functional_extensionality_dep`, `Classical_Prop.classic`.

`coqchk -o` additionally lists the constants of the Reals modules and of `ssrunder` that are axioms of
opaque module types in the standard library; they come with the imported libraries and no theorem uses them.
No axiom, parameter, functor or module type is defined here, no kernel check is switched off, no proof is admitted.

## Mutation tests

`seeded/LOG.jsonl` lists wrong programs: each line names the definition edited, the edit, the claim it
breaks, the theorems that then fail to prove and the theorems that were tightened because of it.

{"id": "C01", "title": "A successful csn run leaves only authenticated chunks", "statement": "If csn INDEX TARGET STORE... exits with success, then for every entry of a well-formed INDEX (non-decreasing end offsets, every chunk shorter than 4 GiB, equal neighbouring ids having equal lengths) TARGET reaches to the entry's end and, unless the entry is empty, the bytes between its start and end hash to the entry's chunk id, whatever TARGET contained before, whatever the stores contain and whatever the HTTP servers answer, provided no local STORE is another name for TARGET and the kernel hash interface is off or does not fail.", "quantifier": "all index files, initial target contents, store lists, store contents, server behaviours, read/write schedules with short transfers and EINTR", "why_tests_cant": "unit and e2e tests sample a handful of images and one well-behaved server; the claim is over every malicious server, store and I/O schedule", "anchors": ["main.c:entry_cb", "main.c:main", "caibx.c:caibx_iterate_entries", "target.c:target_write", "store.c:store_chain_get_chunk"]}
{"id": "C02", "title": "A successful csn run restores the described image, up to an explicit hash collision", "statement": "If INDEX describes an image (its entries cut the image into consecutive pieces shorter than 4 GiB and list each piece's hash) and csn exits with success, then the first |image| bytes of TARGET equal the image, or two different byte strings with the same hash are exhibited. This holds even if the kernel hash interface fails during the run.", "quantifier": "all images, indices describing them, environments as in C01, plus all kernel-crypto failure schedules", "why_tests_cant": "quantifies over all server/store/kernel behaviours and all images", "anchors": ["main.c:main", "main.c:entry_cb", "sha.c:sha_once", "store-http.c:store_http_get_chunk", "store-local.c:store_local_get_chunk"]}
{"id": "C03", "title": "Nothing but correct image bytes is ever written, at any crash point", "statement": "At every point at which the run may stop (success, reported failure, assertion, kill, power cut of the process) every byte of TARGET is either what it was before the run or the byte of the described image at that offset, and bytes past the end of the image are never changed (or a hash collision is exhibited).", "quantifier": "every prefix of every execution", "why_tests_cant": "crash points between and inside individual pwrite calls cannot be enumerated by tests", "anchors": ["main.c:entry_cb", "target.c:target_write", "utils.c:pwriteall"]}
{"id": "C04", "title": "An interrupted synchronisation can be resumed and makes forward progress", "statement": "If the beginning of TARGET already holds the first k chunks of INDEX, a run whose reads of TARGET do not fail fetches none of those k chunks from any store and issues no write below their end.", "quantifier": "all targets, all k, all stores and schedules without read errors", "why_tests_cant": "depends on every possible interruption point and every previous history", "anchors": ["main.c:entry_cb", "target.c:target_check_chunk"]}
{"id": "C05", "title": "A run succeeds whenever every chunk can be obtained", "statement": "If INDEX is accepted and describes an image whose chunks fit the 256 KiB buffer, no I/O error or allocation failure occurs, and every chunk is served by a faithful HTTP store in the chain, then csn does not report failure: it exits with success once the I/O schedule is long enough, whatever the stores listed before it answer.", "quantifier": "all images, indices, store lists containing one faithful server, server segmentations, error-free schedules", "why_tests_cant": "availability over all segmentations and all misbehaving earlier stores", "anchors": ["main.c:entry_cb", "store.c:store_chain_get_chunk", "store-http.c:store_http_get_chunk"]}
{"id": "C06", "title": "Success is not reported for an index with unrepresentable entries (refutable)", "statement": "csn exits with success only if every entry of INDEX, including entries of 4 GiB or more and entries whose end offset goes backwards, was processed. The code instead skips such entries and still reports success.", "quantifier": "all index files", "why_tests_cant": "the offending indices are outside what tests generate", "anchors": ["caibx.c:caibx_iterate_entries"]}
{"id": "C07", "title": "A repeated chunk id never causes a write of bytes that were not verified for it (refutable for inconsistent indices)", "statement": "Whatever INDEX contains, every write to TARGET made for an entry consists of bytes whose hash is that entry's id and never reads outside the 256 KiB chunk buffer. The code violates this when an index repeats an id with a different length, or lists a zero-length entry first; it holds when equal neighbouring ids have equal non-zero lengths.", "quantifier": "all index files and histories of the chunk buffer", "why_tests_cant": "needs the content of a static buffer across arbitrary histories", "anchors": ["main.c:entry_cb", "target.c:target_write"]}
{"id": "C08", "title": "Stores are consulted in order, failed stores never again", "statement": "A chunk request to a store list asks the stores that have not failed yet in the order they were given, stops at the first one that answers with data, and a store that reported failure once is never asked again for the rest of the run.", "quantifier": "all store lists, all sequences of requests and answers", "why_tests_cant": "holds for every history of requests", "anchors": ["store.c:store_chain_get_chunk", "store.c:store_chain_append"]}
{"id": "C09", "title": "A chunk repeated back to back is fetched once", "statement": "While processing INDEX, an entry with the same id as the directly preceding processed entry causes no store request after that preceding entry was fetched.", "quantifier": "all indices and runs", "why_tests_cant": "over all indices and resume points", "anchors": ["main.c:entry_cb"]}
{"id": "C10", "title": "Using the target as a store avoids fetching any chunk twice", "statement": "If TARGET is also given as a STORE and neither I/O nor allocation fails, every chunk id is requested from the stores listed after TARGET at most once in the whole run.", "quantifier": "all indices, targets, store lists", "why_tests_cant": "over all histories of the growing target index", "anchors": ["target.c:target_as_store", "target.c:target_get_chunk", "target.c:target_add_chunk", "main.c:append_store_from_arg"]}
{"id": "C11", "title": "Chunks served from the target are the chunks that were written", "statement": "When TARGET is used as a store, every chunk it returns hashes to the requested id even though target reads are not re-verified.", "quantifier": "all runs over well-formed indices", "why_tests_cant": "depends on no later write overlapping an indexed region, for all histories", "anchors": ["target.c:target_get_chunk", "index.c:index_query"]}
{"id": "C12", "title": "Index, stores and everything but the target are read only", "statement": "csn never modifies any file other than TARGET.", "quantifier": "all runs and outcomes", "why_tests_cant": "negative property over all executions", "anchors": ["main.c:main", "target.c:target_write"]}
{"id": "C13", "title": "A local store aliased to the target under another name is safe (refutable)", "statement": "csn writes only verified chunks even if a local STORE names the same device as TARGET under a different path. The code violates this: chunks found by the initial scan are trusted for the rest of the run while the target is being overwritten.", "quantifier": "all path aliases", "why_tests_cant": "needs interleaving of target writes and store reads on one device", "anchors": ["store-local.c:store_local_get_chunk", "main.c:append_store_from_arg"]}
{"id": "C14", "title": "Chunk boundaries depend on content only", "statement": "For every way the input is cut into buffers or reads, scanning a byte string yields the same list of chunks, namely the one given by the content-defined specification: a chunk ends at the first position at or after 48 bytes at which its length reaches the maximum, or its length is at least the minimum and the buzhash of its last 48 bytes modulo the discriminator equals the discriminator minus one; a shorter rest is the last chunk.", "quantifier": "all inputs, all parameters with a non-zero discriminator, all segmentations", "why_tests_cant": "tests check one pseudo random input with a few segmentations", "anchors": ["chunker.c:chunker_scan", "chunker.c:chunker_scan_fd", "chunker.c:chunker_reset"]}
{"id": "C15", "title": "The rolling hash equals the hash of the window", "statement": "After consuming any n >= 48 bytes of a chunk, the chunker's hash value is the buzhash of the last 48 consumed bytes, computed from scratch.", "quantifier": "all inputs and positions", "why_tests_cant": "one vector is tested", "anchors": ["chunker.c:chunker_scan", "utils.h:rol32"]}
{"id": "C16", "title": "Scanning tiles the file", "statement": "Chunks reported by scanning a file are consecutive from offset 0, non-empty, cover exactly the bytes read, each reported id is the hash of exactly its bytes, and every chunk but the last has a length between max(48,min) and max(48,max), so that the 32 bit length never truncates.", "quantifier": "all files, parameters, read schedules", "why_tests_cant": "over all files", "anchors": ["chunker.c:chunker_scan_fd"]}
{"id": "C17", "title": "Re-synchronisation of content-defined chunking", "statement": "If a chunk boundary falls at the end of a, then the chunks of a followed by b are the chunks of a followed by the chunks of b, for every b: equal tails after a common boundary produce equal chunks.", "quantifier": "all byte strings a, b and parameters", "why_tests_cant": "statement about all pairs of inputs", "anchors": ["chunker.c:chunker_reset", "chunker.c:chunker_scan"]}
{"id": "C18", "title": "A chunker at a boundary consumes nothing until it is reset", "statement": "After chunker_scan has reported a boundary, every further call returns 0 and consumes nothing until chunker_reset.", "quantifier": "all states at a boundary and all further inputs", "why_tests_cant": "tests try one input", "anchors": ["chunker.c:chunker_scan"]}
{"id": "C19", "title": "Accepted chunk-size parameters never make the chunker undefined (refutable)", "statement": "For every parameter set accepted by chunker_params_set the discriminator is well defined and non-zero. The code violates this for average size 1 (division by zero) and for average sizes from 9324557 on (negative floating point value converted to size_t); it holds for all averages from 2 to 9324556.", "quantifier": "all uint32 average sizes", "why_tests_cant": "4 billion parameter values, floating point", "anchors": ["chunker.c:chunker_params_set", "chunker.c:chunker_init", "chunker.c:chunker_shall_break"]}
{"id": "C20", "title": "Index files round-trip", "statement": "Every list of entries with 64 bit end offsets and 32 byte ids and every accepted parameter set, written in the caibx layout, is accepted by caibx_load_header with exactly these parameters and entry count, and caibx_iterate_entries delivers exactly these entries in order with start = previous end and length = difference.", "quantifier": "all parameter sets and entry lists (chunks below 4 GiB, monotone ends)", "why_tests_cant": "over all index files", "anchors": ["caibx.c:caibx_load_header", "caibx.c:caibx_iterate_entries"]}
{"id": "C21", "title": "Only structurally valid index files are accepted", "statement": "caibx_load_header accepts a file if and only if its size is 104 + 40 n, header magic, flags, header length, parameters, table magic and every field of the table footer are valid; in particular every accepted file extended by 1 to 39 bytes is rejected, and every proper prefix of an accepted index file is rejected provided no entry ends at offset 0 (an entry ending at 0 can imitate a footer, so without this condition the claim is false).", "quantifier": "all files", "why_tests_cant": "tests cover only valid files", "anchors": ["caibx.c:caibx_load_header", "caibx.c:validate_table_footer", "caibx.c:load_index_header"]}
{"id": "C22", "title": "Chunk index lookup is exact for every insertion history", "statement": "After any sequence of insertions and lookups, looking up an id returns an entry that was inserted with that id if there is one, and nothing otherwise; no insertion writes outside the allocated array.", "quantifier": "all sequences of inserts and queries, any conforming qsort/bsearch, any allocation failures", "why_tests_cant": "over all histories and all unstable sorts", "anchors": ["index.c:index_insert", "index.c:index_query", "index.c:index_init"]}
{"id": "C23", "title": "A local store never returns wrong data while its contents stay unchanged", "statement": "Whatever side-loaded index was given, every chunk returned by a local store whose contents do not change hashes to the requested id and fits the buffer.", "quantifier": "all store contents, side-loaded indices, request histories", "why_tests_cant": "over all incorrect indices", "anchors": ["store-local.c:store_local_get_chunk", "store-local.c:store_scan", "store-local.c:store_sideload_index"]}
{"id": "C24", "title": "A wrong side-loaded index is discarded and the run continues as without it (refutable)", "statement": "If a side-loaded index does not match the store, the store answers every request as if no index had been given. The code violates this when the index points past the end of the store (the store is disabled instead), when an entry is longer than the buffer, and when an entry has length zero (the program aborts).", "quantifier": "all stores and side-loaded indices", "why_tests_cant": "over all mismatching indices", "anchors": ["store-local.c:store_local_get_chunk", "store-local.c:store_sideload_index", "index.c:index_insert"]}
{"id": "C25", "title": "At most one rescan per local store", "statement": "In the whole lifetime of a local store its contents are rescanned at most once because of a validation failure, and a request terminates after that rescan.", "quantifier": "all stores, indices, request histories", "why_tests_cant": "termination over all inputs", "anchors": ["store-local.c:store_local_get_chunk"]}
{"id": "C26", "title": "Bit rot of a scanned local store is detected on every read (refutable)", "statement": "Every chunk retrieved from a local store is verified against its id when it is read. The code only verifies entries of side-loaded indices on first use; entries found by scanning are returned unverified even if the store changed afterwards.", "quantifier": "all changes of the store contents over time", "why_tests_cant": "needs contents changing between scan and read", "anchors": ["store-local.c:store_local_get_chunk", "store-local.c:store_scan"]}
{"id": "C27", "title": "Small or special local stores do not crash the program (refutable)", "statement": "Scanning any readable local store, in particular one smaller than 5/6 of the average chunk size, does not abort the program. The code aborts on an assertion because the estimated chunk count is zero.", "quantifier": "all store sizes and parameters", "why_tests_cant": "boundary over all sizes and averages", "anchors": ["store-local.c:store_scan", "index.c:index_init"]}
{"id": "C28", "title": "An HTTP store only returns authentic chunks", "statement": "Whatever a server answers (status codes, redirects, bodies, segmentation, resets) and whatever the decompressor does within its buffer contract, a positive result of an HTTP store request means the returned bytes hash to the requested id and fit the buffer; nothing is written outside the output and decode buffers.", "quantifier": "all servers, all decompressors within contract, all histories, encrypted or not", "why_tests_cant": "adversarial servers", "anchors": ["store-http.c:store_http_get_chunk", "store-http.c:store_http_data_cb", "store-http.c:handle_data", "store-http.c:decode_buffer_absorb"]}
{"id": "C29", "title": "HTTP delivery is independent of how the body is segmented", "statement": "If the server answers 200 with the zstd frame of the requested chunk, the store returns the chunk for every way the transfer library cuts the body into callbacks.", "quantifier": "all segmentations of all bodies", "why_tests_cant": "segmentations are exponential", "anchors": ["store-http.c:store_http_data_cb", "store-http.c:handle_data", "store-http.c:decode_buffer_absorb"]}
{"id": "C30", "title": "Chunk encryption is transparent for HTTP stores", "statement": "A store with key K whose server sends the XChaCha20 encryption of a body under K and the first 24 bytes of the id returns exactly what a store without encryption returns for the plain body.", "quantifier": "all keys, ids, bodies and segmentations", "why_tests_cant": "over all keys, bodies and segmentations", "anchors": ["store-http.c:decode_buffer_absorb", "encrypt.c:encrypt_restart", "encrypt.c:encrypt_do"]}
{"id": "C31", "title": "Retries are bounded and back off exponentially", "statement": "One chunk request performs at least 1 and at most 10 transfers, stops at the first one that does not fail transiently, and waits 200 ms doubled after each transient failure up to 10 s in between.", "quantifier": "all sequences of transfer results", "why_tests_cant": "timing and failure sequences", "anchors": ["store-http.c:retried_curl_easy_perform"]}
{"id": "C32", "title": "A transfer that succeeds after transient failures is used (refutable)", "statement": "If a transfer fails transiently and a later retry delivers the complete valid body, the chunk is returned. The code violates this when the failed attempt had already delivered data, because decoder, decode buffer, cipher and request state are not reset; it holds when the failed attempts delivered no data.", "quantifier": "all failure sequences", "why_tests_cant": "needs timeouts in the middle of a body", "anchors": ["store-http.c:retried_curl_easy_perform", "store-http.c:store_http_get_chunk"]}
{"id": "C33", "title": "An HTTP store is given up after more than ten unrecovered errors", "statement": "The store reports permanent failure for error statuses or exhausted retries exactly when more than 10 such errors have occurred since the last successfully decoded response; not-found answers and undecodable responses neither count nor reset.", "quantifier": "all histories of requests and answers", "why_tests_cant": "over all histories", "anchors": ["store-http.c:increase_error_counter", "store-http.c:store_http_get_chunk"]}
{"id": "C34", "title": "Chunk URLs follow the casync layout and never overflow", "statement": "For every base URL and id the requested URL is base/xxxx/ID.cacnk (plus .enc with encryption) with ID the 64 lower-case hex digits and xxxx its first four, and it always fits the allocated buffer.", "quantifier": "all base URLs and ids", "why_tests_cant": "over all lengths", "anchors": ["store-http.c:set_url", "store-http.c:store_http_new", "chunk.c:chunk_format_id"]}
{"id": "C35", "title": "Chunk encryption is XChaCha20, self-inverse and streamable", "statement": "For every key, nonce and data, encrypting is XOR with the XChaCha20 key stream of the draft, encrypting twice with a restart in between is the identity, and splitting the data over several calls does not change the result.", "quantifier": "all keys, nonces, data, splits", "why_tests_cant": "over all inputs", "anchors": ["encrypt.c:hchacha20", "encrypt.c:chacha20_rounds", "encrypt.c:encrypt_restart", "encrypt.c:encrypt_do"]}
{"id": "C36", "title": "Key specifications accept exactly 64 hex digits", "statement": "encrypt_parse_keyspec succeeds iff the selected source yields a string of exactly 64 hex digits (either case), the key is the bytes they denote, and after an invalid digit no key material is left in the output buffer.", "quantifier": "all strings, environments and key files", "why_tests_cant": "over all strings", "anchors": ["encrypt.c:encrypt_parse_keyspec", "utils.c:parse_hex", "utils.c:chomp"]}
{"id": "C37", "title": "Hex ids round-trip", "statement": "Parsing the formatted form of any id gives the id back, and parsing accepts a string iff all its characters are hex digits.", "quantifier": "all ids and strings", "why_tests_cant": "2^256 ids", "anchors": ["chunk.c:chunk_format_id", "utils.c:parse_hex"]}
{"id": "C38", "title": "chomp only removes trailing line ends (refutable)", "statement": "chomp removes the trailing run of CR/LF characters and nothing else. The code instead cuts at the last run of CR/LF wherever it is; it agrees when the string has no interior line end after which text follows.", "quantifier": "all strings", "why_tests_cant": "over all strings", "anchors": ["utils.c:chomp"]}
{"id": "C39", "title": "csn-tool crypt round-trips and never modifies existing output", "statement": "For every key and every chunk file, crypting NAME.cacnk into NAME.cacnk.enc and crypting that back yields the original bytes; an existing output file is never modified, and the input file is never modified.", "quantifier": "all keys, names, contents, write schedules", "why_tests_cant": "over all contents and schedules", "anchors": ["csn-tool.c:encrypt_one", "csn-tool.c:chunk_id_from_path"]}
{"id": "C40", "title": "csn-tool crypt can be re-run after an interruption (refutable)", "statement": "If csn-tool crypt was interrupted or failed, running it again until it reports success leaves a complete, correct output file. The code violates this: a partially written output file is taken for a finished one.", "quantifier": "all interruption points", "why_tests_cant": "crash points inside writes", "anchors": ["csn-tool.c:encrypt_one"]}
{"id": "C41", "title": "csn-tool only accepts chunk file names (refutable)", "statement": "The file name passed to csn-tool must be 64 hex digits followed by .cacnk or .cacnk.enc. The code also accepts 64 hex digits followed by four arbitrary characters and .cacnk.", "quantifier": "all file names", "why_tests_cant": "over all names", "anchors": ["csn-tool.c:chunk_id_from_path"]}
{"id": "C42", "title": "sha_once returns the SHA-256 of its whole input (refutable with the kernel interface)", "statement": "Whenever sha_once reports success the output is the hash of the complete input. With the kernel interface the fallback after a failure hashes only the part of the data that had not been sent yet; without failures, or without the kernel interface, the claim holds for every schedule of partial sends.", "quantifier": "all inputs and kernel schedules", "why_tests_cant": "failures in the middle of a hash operation", "anchors": ["sha.c:sha_once", "sha.c:sha_kcapi_deinit"]}
{"id": "C43", "title": "I/O helpers transfer everything or report failure", "statement": "For every schedule of short transfers and EINTR, readall/preadall success means the buffer holds exactly the requested bytes of the file, writeall/pwriteall success means exactly the given bytes were written at the given place and nothing else changed; on failure a prefix was transferred.", "quantifier": "all lengths, offsets, files, schedules", "why_tests_cant": "exponentially many schedules", "anchors": ["utils.c:readall", "utils.c:preadall", "utils.c:writeall", "utils.c:pwriteall"]}
{"id": "C44", "title": "Little-endian packing round-trips", "statement": "unp64le and unp32le decode exactly the little-endian value, and unp32le inverts p32le for every 32 bit value.", "quantifier": "all values", "why_tests_cant": "2^64 values", "anchors": ["utils.h:unp64le", "utils.h:unp32le", "utils.h:p32le"]}
{"id": "C45", "title": "patchdd makes the destination equal to the source", "statement": "If patchdd exits with success, the first |source| bytes of the destination equal the source, the rest of the destination is unchanged and everything is flushed; it refuses a destination smaller than the source without writing.", "quantifier": "all files and schedules", "why_tests_cant": "over all files", "anchors": ["patchdd.c:main"]}
{"id": "C46", "title": "patchdd never writes a wrong byte", "statement": "At every stopping point of patchdd every destination byte is its old value or the source byte at that offset, and no byte before the first difference of a block is rewritten.", "quantifier": "all crash points", "why_tests_cant": "crash points", "anchors": ["patchdd.c:main", "patchdd.c:memcmp_offset"]}
{"id": "C47", "title": "csn results survive a power cut after success (refutable)", "statement": "After csn reports success the image is on stable storage. The code never flushes TARGET, so a power cut may lose any subset of the writes; patchdd does flush.", "quantifier": "all orders in which the cache is written back", "why_tests_cant": "power failure cannot be tested", "anchors": ["main.c:main", "patchdd.c:main"]}
{"id": "C48", "title": "casync --help never starts a synchronisation (refutable)", "statement": "casync with -h/--help prints the help and exits. The code goes on with a NULL store when index and target are given.", "quantifier": "all command lines", "why_tests_cant": "null pointer on an untested command line", "anchors": ["main.c:casync", "main.c:main"]}
{"id": "C49", "title": "Store arguments are classified as documented", "statement": "An argument equal to TARGET becomes the target store, otherwise one starting with http an HTTP store, otherwise the part before the first colon names a local store and the part after it its side-loaded index; stores keep the command line order.", "quantifier": "all argument lists", "why_tests_cant": "over all strings", "anchors": ["main.c:append_store_from_arg", "main.c:csn", "main.c:casync"]}
{"id": "C50", "title": "Progress display stays in range", "statement": "The percentage shown never exceeds 100, never decreases, reaches 100 exactly at the last entry, for up to 42949672 entries, and the bar buffer is never overrun for any percentage.", "quantifier": "all entry counts", "why_tests_cant": "32 bit overflow for large counts", "anchors": ["ui.c:show_progress", "main.c:entry_cb"]}
{"id": "C51", "title": "A chunk request uses bounded memory (refutable)", "statement": "The memory an HTTP store uses for one request is bounded by a function of the output buffer. The code collects everything the decoder does not take in a buffer that grows without limit, so a server can make the client allocate as much as it likes.", "quantifier": "all bodies", "why_tests_cant": "over all body sizes", "anchors": ["store-http.c:decode_buffer_absorb", "store-http.c:store_http_data_cb"]}
{"id": "C52", "title": "csn-tool crypt transforms the whole file (refutable)", "statement": "The output of a successful csn-tool crypt is the XChaCha20 transform of the entire input. The code passes the size to EVP_Cipher, whose length parameter is an unsigned int: a file of 4 GiB is written out unencrypted, of a larger one only the first size mod 2^32 bytes are transformed.", "quantifier": "all contents of any size", "why_tests_cant": "needs files above 4 GiB", "anchors": ["csn-tool.c:encrypt_one", "encrypt.c:encrypt_do"]}
{"id": "C53", "title": "No undefined behaviour in a run (refutable)", "statement": "A run of csn or casync on a well-formed index performs no out-of-bounds access, use after free, double free or other undefined operation, whatever the stores, the server and the operating system answer. This fails in one case: a special file with an index of its own that cannot be scanned again has its index freed twice.", "quantifier": "all files, servers, schedules and allocation failures", "why_tests_cant": "over all failures in all orders", "anchors": ["main.c:main", "main.c:csn", "main.c:casync", "store-local.c:store_scan", "index.c:index_cleanup"]}
{"id": "C54", "title": "A run ends", "statement": "For every set of files there is a number of answers of the operating system (transfers, ends of file, errors; interruptions not counted) after which every run of csn or casync has ended; a run that has not ended is waiting for an answer.", "quantifier": "all command lines, files and schedules", "why_tests_cant": "absence of infinite loops over all schedules", "anchors": ["main.c:main", "store.c:store_chain_get_chunk", "store-local.c:store_local_get_chunk", "utils.c:preadall"]}
{"id": "C55", "title": "No assertion fails (refutable)", "statement": "No run of csn or casync ends in a failed assertion, whatever the stores, the server and the operating system answer. The code meets this only when no index in use is empty or lists an empty chunk, every local store has at least five sixths of the average chunk size, and no write returns zero; each of the index and store conditions is needed.", "quantifier": "all files, servers, schedules and allocation failures", "why_tests_cant": "over all failures in all orders", "anchors": ["index.c:index_init", "index.c:index_insert", "store-local.c:store_local_new", "target.c:target_new", "store-http.c:handle_data", "utils.c:pwriteall"]}
{"id": "C56", "title": "Log messages are printed completely (refutable)", "statement": "A message is printed with its level, the last component of the file name, function and line, followed by the text its format and arguments denote and a newline. The format is copied into a buffer of 128 bytes before it is used: none of the calls in the program is cut within a conversion (which would be undefined), and all but one are printed in full; the message about mismatching parameters of a side-loaded index is cut.", "quantifier": "all calls in the program, all arguments, with and without a terminal", "why_tests_cant": "over all argument values and every call, including those on error paths", "anchors": ["log.c:_u_log", "log.h:u_log", "utils.h:u_assert_se", "store-local.c:store_sideload_index"]}
{"id": "C57", "title": "LOGLEVEL selects what is printed", "statement": "debug, info, warn/warning and err/error select the levels, without the variable it is info, another value gives info and a warning; messages above the level print nothing.", "quantifier": "all values of the variable", "why_tests_cant": "over all strings", "anchors": ["log.c:u_log_init", "log.c:check_loglevel"]}
{"id": "C58", "title": "A hex dump shows the data (refutable)", "statement": "hexdump prints one row per 16 bytes with its offset, the bytes in hex and their printable characters. For no data at all the code prints an uninitialised buffer.", "quantifier": "all byte strings", "why_tests_cant": "over all lengths, undefined behaviour", "anchors": ["log.c:hexdump"]}
{"id": "C59", "title": "The chunk benchmark chunks one continuous stream (refutable)", "statement": "csn-bench chunker ends when ten seconds have passed and has then computed the ids of exactly the finished chunks of the concatenated random buffers; the buffer loop ends for every buffer. A failed allocation of the buffer is not noticed.", "quantifier": "all buffer sizes divisible by four, parameters and clock readings", "why_tests_cant": "over all clock readings; ids are not checked by the program", "anchors": ["csn-bench.c:bench_chunker"]}
{"id": "C60", "title": "csn-bench measures time to the millisecond", "statement": "The reported time differs from the elapsed time by less than a millisecond and is at least nine seconds, so rates are never divided by zero; bench_hash fails only if the kernel driver or the buffer is not available, and otherwise measures three block sizes.", "quantifier": "all clock readings", "why_tests_cant": "sign and rounding of the nanosecond difference", "anchors": ["csn-bench.c:time_delta_ms", "csn-bench.c:bench_hash"]}
{"id": "C61", "title": "The random generator never gets stuck", "statement": "xorshift32 is a permutation of the 32 bit words and its state never becomes zero.", "quantifier": "all states, any number of steps", "why_tests_cant": "over all 2^32 states", "anchors": ["test/xorshift32.c:xorshift32"]}
{"id": "C62", "title": "csn-bench rejects unknown benchmarks (refutable)", "statement": "An unknown benchmark name is an error. The code prints the usage and exits with status 0.", "quantifier": "all command lines", "why_tests_cant": "exit status of a mistyped command", "anchors": ["csn-bench.c:main", "csn-bench.c:usage"]}
{"id": "C63", "title": "patchdd always ends (refutable)", "statement": "However slowly the devices answer, three settled system calls per byte of the source and one fsync are enough for patchdd to end with an exit status; no smaller number is. A device that answers a write with zero bytes makes it abort.", "quantifier": "all files, command lines and answers of the operating system, short transfers and interruptions included", "why_tests_cant": "over all schedules of short, interrupted and failing transfers", "anchors": ["patchdd.c:main", "utils.c:preadall", "utils.c:pwriteall"]}
{"id": "C64", "title": "csn-tool always ends (refutable)", "statement": "csn-tool ends with an exit status after at most M + 2*M*(1 + length of standard input) settled system calls, M being the size of the largest file. Only an output that accepts zero bytes makes it abort.", "quantifier": "all files, standard input and answers of the operating system", "why_tests_cant": "over all schedules of short, interrupted and failing transfers", "anchors": ["csn-tool.c:do_crypt", "csn-tool.c:encrypt_one", "utils.c:slurp_file", "utils.c:writeall"]}
{"id": "C65", "title": "A run asks servers only so often", "statement": "Whatever the servers answer and however the run ends, at most ten transfers are started per chunk of the index and HTTP store, and the delays add up to at most 52.6 seconds each; both bounds are reached.", "quantifier": "all command lines, files, servers and failures", "why_tests_cant": "over all sequences of server answers; the delays add up to minutes", "anchors": ["store-http.c:retried_curl_easy_perform", "store.c:store_chain_get_chunk", "main.c:append_store_from_arg"]}
{"id": "C66", "title": "csn-tool gives everything back", "statement": "Whatever fails, csn-tool's encrypt and decrypt end with no descriptor, heap block, cipher context or buffer left, use nothing that was given back, give nothing back twice, and have at most one file open at a time.", "quantifier": "all key sources, lists of chunks and answers of the operating system", "why_tests_cant": "over all failures at every place; leaks and double frees on error paths do not show", "anchors": ["csn-tool.c:do_crypt", "csn-tool.c:encrypt_one", "utils.c:slurp_file", "encrypt.c:encrypt_parse_keyspec", "encrypt.c:encrypt_close"]}
{"id": "C67", "title": "csn-tool leaves no copy of the key (refutable)", "statement": "When csn-tool ends no memory it gave back holds key material. The code wipes the derived keys, the cipher state and the text of a key file, but leaves the raw key in a stack buffer, and frees a key file it could not read to the end unwiped.", "quantifier": "all keys, lists of chunks and failures", "why_tests_cant": "the contents of dead memory are invisible to a test", "anchors": ["csn-tool.c:do_crypt", "encrypt.c:encrypt_parse_keyspec", "encrypt.c:encrypt_restart", "encrypt.c:hchacha20", "encrypt.c:encrypt_close", "utils.c:slurp_file"]}
{"id": "C68", "title": "An HTTP store gives back what it takes (refutable)", "statement": "An HTTP store that is made, used and freed, or cannot be made, leaves nothing behind and frees no block that holds the key. The code gives everything back for a store with at most one encryption parameter; the blocks it frees hold at most a beginning of the store's argument, so a key written in the argument itself is left in two of them. A parameter that fails after the first, or any later failure, leaves the cipher context and frees the key unwiped; a second encryption parameter loses the first context.", "quantifier": "all parameters, requests and failures", "why_tests_cant": "over all failures at every place of the setup", "anchors": ["store-http.c:store_http_new", "store-http.c:store_handle_params", "store-http.c:store_http_get_chunk", "store-http.c:store_http_free", "encrypt.c:encrypt_init"]}
{"id": "C69", "title": "A local store gives back what it takes (refutable)", "statement": "A local store that is made, used and freed, or cannot be made, leaves nothing behind. The code never closes the descriptor, leaves the index of a store whose scan fails, and may free the index of a special file twice; nothing else is left, and at most two descriptors are open at a time.", "quantifier": "all stores, numbers of requests and failures", "why_tests_cant": "over all failures, rescans included", "anchors": ["store-local.c:store_local_new", "store-local.c:store_scan", "store-local.c:store_sideload_index", "store-local.c:store_local_get_chunk", "store-local.c:store_local_free"]}
{"id": "C70", "title": "What a run leaves to the operating system (refutable)", "statement": "In a run of csn or casync nothing is used after it was given back and nothing is given back twice, whatever fails; a successful run ends with exactly the descriptors of the index, the target and the local stores, the target with its index, and the cipher contexts that were replaced; at most three descriptors more than there are local stores are open. A special file with a side-loaded index is the only exception.", "quantifier": "all lists of stores and chunks, all failures in all orders", "why_tests_cant": "over all failures in all orders", "anchors": ["main.c:csn", "main.c:casync", "main.c:entry_cb", "store.c:store_chain_new", "store.c:store_chain_append", "store.c:store_chain_free", "target.c:target_new", "target.c:target_as_store"]}
{"id": "C71", "title": "The kernel hash gives its sockets back", "statement": "After any number of hashes, failing or not, sha_kcapi_deinit leaves no socket; it may be called again; at most two sockets are open at a time.", "quantifier": "all failures and numbers of hashes", "why_tests_cant": "over all failures", "anchors": ["sha.c:sha_kcapi_init", "sha.c:sha_kcapi_deinit", "sha.c:sha_once"]}
{"id": "C72", "title": "The chain counts the chunks of every store (refutable)", "statement": "When the chain is freed the number logged for a store is the number of chunks it delivered (modulo 2^32). The array of counters is enlarged without initialising it, which csn never needs; casync needs it when three stores are given in the form --store=X, and then logs an undefined number.", "quantifier": "all command lines and all histories of the run", "why_tests_cant": "reads of uninitialised memory often yield zero", "anchors": ["store.c:store_chain_append", "store.c:store_chain_new", "store.c:store_chain_get_chunk", "store.c:store_chain_free", "main.c:casync", "main.c:csn"]}
{"id": "C73", "title": "The log does not show keys (refutable)", "statement": "No message contains an encryption key. The line about a store shows its number of chunks and the first 127 bytes of the argument it was made from. With a key given by encrypt=key:HEX after a URL of at most 50 bytes this is the whole key, at the default level; an HTTP store that cannot be made is reported with its whole argument.", "quantifier": "all arguments, keys, counts and terminals", "why_tests_cant": "a test with one URL sees one line", "anchors": ["store.c:store_chain_free", "store-http.c:store_http_new", "main.c:append_store_from_arg", "store.h:store_get_name"]}
{"id": "C74", "title": "The numbers of a run add up", "statement": "When all entries of a well-formed index without empty chunks were dealt with, the number of skipped chunks is the length of a prefix that the target held, and the stores together delivered exactly one chunk for every later entry that does not repeat its predecessor, whatever failed on the way.", "quantifier": "all indices, targets, stores, servers and failures", "why_tests_cant": "over all orders of hits, misses and failing stores", "anchors": ["main.c:entry_cb", "main.c:main", "store.c:store_chain_get_chunk", "store.c:store_chain_free", "target.c:target_check_chunk"]}
{"id": "C75", "title": "Interrupted runs get on", "statement": "However often a synchronisation is stopped and started again, all runs together hand at most n + s chunks to the target and send each store at most n + s requests, n being the number of chunks and s the number of runs that did not succeed; the bytes written exceed the image by at most s buffers. Command lines, stores, servers and other files may differ from run to run. Chunks at the front of the target that were in place stay in place, and once one of the runs has succeeded all chunks are in place from then on, however the later runs end.", "quantifier": "all sequences of runs towards one image, each with any stores and stopped at any point", "why_tests_cant": "over all points at which a run may stop and all numbers of restarts", "anchors": ["main.c:entry_cb", "target.c:target_check_chunk", "target.c:target_write", "caibx.c:caibx_iterate_entries"]}
{"id": "C76", "title": "Running again after success does nothing", "statement": "A run on a target that a successful run left (or that holds all chunks for another reason) changes no file, sends no request to any store or server, and reports success if its stores could be set up.", "quantifier": "all indices with usual chunk sizes, stores, servers and schedules without read errors", "why_tests_cant": "over all indices and schedules", "anchors": ["main.c:entry_cb", "main.c:main", "target.c:target_check_chunk"]}
{"id": "C77", "title": "casync extract does what csn does (refutable)", "statement": "casync extract with --store and --seed options behaves in every respect as csn with the same stores in the same order; --seed-output has no effect. The code ignores CSN_KCAPI_DRIVER in casync, which the manual announces for both, and reserves fewer slots than stores when options are written --store=X, so that a failing allocation stops casync where csn goes on.", "quantifier": "all orders of options and words, all worlds", "why_tests_cant": "over all command lines and failures", "anchors": ["main.c:casync", "main.c:csn", "main.c:append_store_from_arg", "doc/csn.1.scd"]}
{"id": "C78", "title": "A run that cannot start leaves everything as it is", "statement": "When the index or the target or a local store cannot be opened, or the index is not an index, no file is changed, no request is sent, and the run ends with status 1 (or stops while reading).", "quantifier": "all command lines, files and failures", "why_tests_cant": "over all ways of failing, in every order of stores", "anchors": ["main.c:csn", "main.c:casync", "main.c:main", "main.c:append_store_from_arg", "store-local.c:store_local_new", "caibx.c:caibx_load_header"]}
{"id": "C79", "title": "The command lines casync understands (refutable)", "statement": "The arguments casync accepts are those of a grammar: words, and options naming stores, written --store=X or --store X, possibly abbreviated. An extract command acts as csn on the last two arguments and the stores named; in the documented form these are the index and the target. Options after the words are accepted too, but then index and target are taken from the wrong place and the run fails.", "quantifier": "all argument vectors", "why_tests_cant": "over all orders, spellings and abbreviations", "anchors": ["main.c:casync", "main.c:csn", "doc/csn.1.scd"]}
{"id": "C80", "title": "csn reads what csn-tool encrypts", "statement": "The files of a casync store, named on standard input to csn-tool crypt, are encrypted to the names at which csn looks for them; when the directory is hosted and csn is given the same key, every chunk is available to it, and the synchronisation succeeds as it would with the plain store.", "quantifier": "all chunks below 4 GiB, keys, key sources, stores and file systems", "why_tests_cant": "over all keys, ids and contents, across two programs", "anchors": ["csn-tool.c:do_crypt", "csn-tool.c:encrypt_one", "store-http.c:store_http_get_chunk", "store-http.c:store_http_new", "encrypt.c:encrypt_parse_keyspec", "encrypt.c:encrypt_init"]}
{"id": "C81", "title": "Only missing chunks are downloaded", "statement": "Every store is asked only for chunks of the index, at most once per entry and in their order. A chunk that a local store holds - as a piece that casync's chunking cuts from the file, or according to an index that describes the file - is never requested from a store named after it; so the requests to a server are at most as many as there are entries whose chunks the older image does not hold.", "quantifier": "all indices, images, stores, servers and schedules without read errors or failing allocations", "why_tests_cant": "over all images, chunkings and orders of stores", "anchors": ["main.c:entry_cb", "store.c:store_chain_get_chunk", "store-local.c:store_local_get_chunk", "store-local.c:store_local_new", "store-local.c:store_sideload_index", "store-local.c:store_scan"]}
{"id": "C82", "title": "An edit costs only the chunks around it", "statement": "When the index describes an image that differs from a local store's image by replacing a region between two chunk boundaries (inserting and deleting included), a later store is asked at most once per chunk of the new region, so at most once per least chunk size of its bytes, however much data follows and wherever it has moved. This holds whether the old image is scanned or comes with its own index.", "quantifier": "all images, edits between boundaries, chunk sizes, hash functions, stores and schedules without read errors or failing allocations", "why_tests_cant": "over all images and edits, through chunker, index, stores and main loop", "anchors": ["main.c:entry_cb", "store.c:store_chain_get_chunk", "store-local.c:store_local_get_chunk", "store-local.c:store_scan", "store-local.c:store_sideload_index", "chunker.c:chunker_scan"]}
{"id": "C83", "title": "The result depends on the index only", "statement": "Two successful runs with the same index, whatever their stores, servers, keys, earlier target contents and environments, leave targets that agree over the whole image, or exhibit two different pieces of data with the same hash.", "quantifier": "all pairs of environments, command lines and worlds with the same index and hash function", "why_tests_cant": "relates two arbitrary executions", "anchors": ["main.c:main", "main.c:entry_cb", "target.c:target_write", "caibx.c:caibx_iterate_entries"]}
{"id": "C84", "title": "Exit statuses (refutable)", "statement": "csn, casync, patchdd and csn-tool end with status 0 or 1; with too few arguments or under another name they end with 1 and touch nothing. An unknown csn-tool command should be an error; the code prints the usage and reports success.", "quantifier": "all command lines, environments and worlds", "why_tests_cant": "over all ways of failing", "anchors": ["main.c:main", "main.c:csn", "main.c:casync", "patchdd.c:main", "csn-tool.c:main", "csn-tool.c:do_crypt"]}
{"id": "C85", "title": "Memory follows the sizes of the indices", "statement": "Between any two entries of a run, the memory that grows (index arrays and decode buffers) is at most 48 bytes per entry of the index, plus 48 bytes per chunk a local store can have and a fifth more (or per entry of the index it comes with), plus eleven times the largest response for each HTTP store. It does not depend on how many entries were processed or how large the chunks are.", "quantifier": "all command lines, indices, stores, servers with bounded responses, fault schedules and numbers of entries", "why_tests_cant": "memory in the worst case over all inputs and points of a run", "anchors": ["index.c:index_insert", "index.c:index_init", "store-local.c:store_scan", "store-local.c:store_sideload_index", "target.c:target_add_chunk", "target.c:target_as_store", "store-http.c:decode_buffer_absorb", "store-http.c:store_http_get_chunk"]}
{"id": "C86", "title": "The stores need only have the image between them", "statement": "If every chunk of the image can be obtained from some store on the command line - a scanned file, a file with an index that describes it, or a server, each possibly lacking the other chunks - then csn succeeds, or a store answered with different data of the same hash. Setting up the stores and the run take a bounded number of transfers.", "quantifier": "all command lines, images, distributions of chunks over stores, servers with transient failures, and schedules without errors that are long enough", "why_tests_cant": "over all distributions of chunks over stores and all fault schedules", "anchors": ["main.c:main", "main.c:csn", "main.c:append_store_from_arg", "store.c:store_chain_get_chunk", "store-local.c:store_local_new", "store-local.c:store_local_get_chunk", "store-http.c:store_http_get_chunk", "store-http.c:retried_curl_easy_perform"]}
{"id": "C87", "title": "How transfers are cut does not matter", "statement": "Two runs from the same files whose read, pread and pwrite calls are cut into pieces and interrupted differently, but without errors, end with the same status, leave the same file contents, send the same requests to the same stores and servers in the same order and write the same chunks; in particular scanning a file finds the same chunks whatever read returns. For every starting point there is one outcome that all sufficiently long schedules lead to.", "quantifier": "all environments, command lines, worlds and pairs of schedules without errors; the index is not the target and has no offsets within 4 GiB of 2^63", "why_tests_cant": "relates two arbitrary executions over all ways of cutting transfers", "anchors": ["main.c:main", "utils.c:preadall", "utils.c:pwriteall", "utils.c:readall", "chunker.c:chunker_scan", "chunker.c:chunker_scan_fd", "store-local.c:store_local_get_chunk"]}
{"id": "C88", "title": "The bytes after the image (refutable)", "statement": "After a successful run the target holds the image followed by whatever it held beyond the image's size before, or two different pieces of data with the same hash are exhibited. A restored regular file should equal the image; the code does not truncate it, so it keeps its old tail.", "quantifier": "all environments, command lines, images and worlds", "why_tests_cant": "over all earlier target contents", "anchors": ["main.c:main", "target.c:target_new", "target.c:target_write"]}
{"id": "C89", "title": "Unusable servers are given up", "statement": "While every transfer fails to connect, ends without a response code or with an error code other than 404 and 410, a run starts at most 110 transfers and sleeps at most 578.6 s for each server on its command line, however many chunks the image has; the other stores are used as before.", "quantifier": "all servers of this kind, command lines, indices, stores and fault schedules", "why_tests_cant": "time in the worst case over images of any number of chunks", "anchors": ["store-http.c:store_http_get_chunk", "store-http.c:increase_error_counter", "store-http.c:retried_curl_easy_perform", "store.c:store_chain_get_chunk", "main.c:entry_cb"]}
{"id": "C90", "title": "Updates from any image to any other", "statement": "Given the index casync makes for an image, an older image that is scanned and a server after it that has at least the chunks missing from the older image, csn succeeds, leaves exactly the new image at the start of the target and asks the server only for chunks that are not chunks of the older image; otherwise the server sent false data or two strings with the same hash are known.", "quantifier": "all pairs of images, chunk sizes, servers, target contents, error-free schedules with enough transfers", "why_tests_cant": "over all pairs of images; the tests update one image to one other", "anchors": ["main.c:main", "main.c:csn", "store-local.c:store_local_new", "store-local.c:store_local_get_chunk", "store-http.c:store_http_get_chunk", "store.c:store_chain_get_chunk"]}
{"id": "C91", "title": "The test images mean what they say", "statement": "The end-to-end tests build their images from strings that are supposed to be exactly one chunk each. Every such string, of any permitted size and first byte, is one chunk for the default sizes, also in front of anything else; the claims of the generator about windows hold; its indices are the indices casync would make; and the update test holds for all lists of such chunks.", "quantifier": "all sizes from 16 KiB to 256 KiB, all first bytes, all lists of such chunks, anything behind them", "why_tests_cant": "the tests use a handful of sizes and take the generator for granted", "anchors": ["chunker.c:chunker_scan", "chunker.c:chunker_shall_break", "chunker.c:chunker_init", "store-local.c:store_local_new", "main.c:main"]}
{"id": "C92", "title": "Encrypted versions of a chunk hide their difference (refutable)", "statement": "Files encrypted by csn-tool should show nothing but their size to a reader without the key. Two files encrypted with one key under the same chunk id (two compressed versions of one chunk) show where they differ, and who has one in the clear can read the other; the sizes are those of the compressed chunks; a change of the encrypted file changes the compressed chunk at the same places.", "quantifier": "all keys, ids, pairs of files below 4 GiB and changes", "why_tests_cant": "relates pairs of encryptions over all keys and contents", "anchors": ["encrypt.c:encrypt_restart", "encrypt.c:encrypt_do", "csn-tool.c:encrypt_one"]}
{"id": "C93", "title": "Every byte has a source", "statement": "Whatever becomes of a run, every byte of the target is the old one or belongs to data that was obtained for the entry at whose place it is: delivered by a server of the command line under the chunk's URL and unpacked from it, a part of a local store's file, or the old target's content at an entry with this id. So a run cannot succeed if a chunk is nowhere to be had, in particular not if all servers have a corrupted copy of it.", "quantifier": "all servers, ways of cutting up and retrying transfers, command lines, indices, stores and fault schedules", "why_tests_cant": "over all servers and transfers; the test corrupts the first of three chunks on one server", "anchors": ["main.c:entry_cb", "store.c:store_chain_get_chunk", "store-http.c:store_http_get_chunk", "store-http.c:store_http_data_cb", "store-local.c:store_local_get_chunk", "target.c:target_get_chunk", "target.c:target_check_chunk"]}
{"id": "C94", "title": "Resuming needs only the rest, and a damaged store still helps", "statement": "If the target already begins with some chunks of the image, the stores need only have the others. A local file whose index no longer describes it (bit rot, another version) still provides every chunk that its index lists and a scan of the file finds; what is missing there may come from any other store. Then csn succeeds and the target holds the new image, unless a store sent false data of the same hash or two strings with the same hash are known.", "quantifier": "all images, damages of the local file, lengths of the part already written, distributions of the other chunks, command lines, servers with transient failures, error-free schedules that are long enough", "why_tests_cant": "over all damages and all points at which the earlier run stopped; the tests flip four bytes of one image and stop after two chunks of another", "anchors": ["main.c:entry_cb", "main.c:main", "store-local.c:store_local_get_chunk", "store-local.c:store_scan", "store-local.c:store_sideload_index", "store.c:store_chain_get_chunk", "target.c:target_check_chunk", "store-http.c:store_http_get_chunk"]}
{"id": "C95", "title": "The progress display is one line that keeps moving (refutable)", "statement": "A terminal that is given everything csn or patchdd prints as progress shows one line: spinner, bar and percentage of the last step, with nothing left of earlier steps. The line is ended exactly when 100 percent is shown, which a successful interactive run does. The spinner should look different in consecutive steps; the code's list of characters repeats one, so it stands still in every fifth step.", "quantifier": "all runs, stopped at any step; all percentages and spinner states", "why_tests_cant": "over all sequences of steps and all points at which a run stops", "anchors": ["ui.c:show_progress", "main.c:entry_cb", "patchdd.c:main"]}
{"id": "C96", "title": "What a successful run asks for and writes", "statement": "A successful run finds some number of entries at the beginning of the target (as many as there are, if reads and hashing do not fail), and does nothing else than this, in order: each remaining chunk is requested, unless it is the same as the one before, and then written to its place. The data written is what the target holds in the end. So on an empty target requests and writes are those listed in the index, and for the index of an image they are the image's chunks.", "quantifier": "all indices with non-empty chunks, images, old contents of the target, stores, servers and fault schedules of successful runs", "why_tests_cant": "the sequence of all requests and writes over all runs; the tests count the requests for two images", "anchors": ["main.c:entry_cb", "store.c:store_chain_get_chunk", "target.c:target_check_chunk", "target.c:target_write", "caibx.c:caibx_iterate_entries"]}
{"id": "C97", "title": "With the target as the first store only new chunks are requested elsewhere", "statement": "If the target is given as the first store, the stores after it are asked for exactly those chunks that occur for the first time among the entries still to be written, in the order of the index: everything that occurs earlier in the image, whether found in the target or written in this run, is read back from the target. With one store besides the target each request goes to it once, so an image written to an empty target requests each of its chunks there exactly once.", "quantifier": "all images, indices with non-empty chunks, old contents of the target, stores and servers, successful runs without I/O errors or failing allocations", "why_tests_cant": "over all images and repetitions in them; the test has one image of a few chunks in which two repeat", "anchors": ["main.c:entry_cb", "store.c:store_chain_get_chunk", "target.c:target_get_chunk", "target.c:target_check_chunk", "target.c:target_write", "target.c:target_add_chunk", "index.c:index_query"]}
{"id": "C98", "title": "Only the last component of the program's name matters", "statement": "How csn works depends on the last component of the path under which it was called and not on the directories before it: as csn it takes index, target and stores from the places that the manual names, under any name other than csn and casync it refuses to work and touches nothing. patchdd and csn-tool work the same under every name.", "quantifier": "all paths, command lines and worlds", "why_tests_cant": "over all paths; the tests call the program by one path", "anchors": ["main.c:main", "main.c:csn", "main.c:casync", "patchdd.c:main", "csn-tool.c:main"]}
{"id": "C99", "title": "However a run ends, it has asked for and written a beginning of what is to be done", "statement": "Whether a run succeeds, fails, aborts or stops at any input or output operation: there is a number of entries at the front of the index that the target holds already, and what the run has asked the stores for and written is a beginning of the sequence that is to be done for the other entries, namely for each entry in order a request, unless it repeats its predecessor, and data of the entry's size to the entry's place. The data is written going forward without gaps, starting no later than at the end of the old target and never going past the end of the image.", "quantifier": "all environments, well-formed indices, command lines, worlds and ways in which operations fail or the run stops", "why_tests_cant": "over all points at which a run can stop; the tests look at the outcome of complete runs", "anchors": ["main.c:entry_cb", "main.c:main", "store.c:store_chain_get_chunk", "target.c:target_write", "caibx.c:caibx_iterate_entries"]}
{"id": "C100", "title": "What csn and patchdd say about a run is right (refutable)", "statement": "The seconds csn and patchdd report are off by less than one second, also when those for initialisation and synchronisation are added up, and csn's messages about them are complete. The bytes patchdd reports as skipped are exactly those at the fronts of 1 MiB blocks which the destination had already, all bytes of the source exactly if the destination began with it. The percentage it prints is right to 0.51 hundredths and at most 100.00, in spite of the double arithmetic, for every source of up to 2^63 bytes. For an empty source no number is printed.", "quantifier": "all clock readings in order within 2^32 seconds, all files, command lines and ways of reading and writing", "why_tests_cant": "over all sizes and numbers including those that doubles cannot represent; the tests do not look at these lines", "anchors": ["utils.c:time_monotonic", "main.c:main", "patchdd.c:main", "patchdd.c:memcmp_offset"]}
{"id": "C101", "title": "However often a run is interrupted, the target is a beginning of the image followed by its old contents", "statement": "However a run ends, what is in the target is what was there before, with the data that the run noted as written laid over it in order, of the last piece possibly only a beginning. So there is one position before which the target holds the image and from which on it holds what it held before, or else two different strings with the same hash have occurred. The same is true for any number of runs one after another, each ending in whatever way, and a beginning of the image that has been reached is never lost again.", "quantifier": "all images without empty chunks, old contents of the target, sequences of runs in different environments, and points at which each of them stops", "why_tests_cant": "over all points at which each of any number of runs can stop, including in the middle of a write; the tests only look at complete runs", "anchors": ["main.c:entry_cb", "main.c:main", "target.c:target_write", "target.c:target_check_chunk", "caibx.c:caibx_iterate_entries"]}
{"id": "C102", "title": "Interrupted runs together do little more than one that is not interrupted", "statement": "If the target holds a number of entries at its beginning when a run starts, then, however the run ends, it holds at least as many afterwards, and the run has requested and written at most one entry more than it completed. So any number of runs one after another, each of which may be interrupted anywhere or fail for want of a chunk, together make no more requests, and no more writes of chunks, than there are entries in the index plus runs.", "quantifier": "all indices with non-empty chunks that fit the buffer, old contents of the target, stores and servers, all sequences of runs without failing reads and writes, and all points at which each of them stops", "why_tests_cant": "over all sequences of interruptions; the tests do not interrupt a run", "anchors": ["main.c:entry_cb", "main.c:main", "target.c:target_check_chunk", "target.c:target_write", "store.c:store_chain_get_chunk"]}
{"id": "C103", "title": "However often patchdd is interrupted, it writes every byte at most once", "statement": "However a run of patchdd ends, there is one position before which the destination holds the source and from which on it holds what it held before. What the run writes goes forward, never over the same place twice, starting no earlier than the first byte in which source and destination differ and never going beyond that position. So any number of runs one after another with the same source, each of which may fail or be interrupted anywhere, leave the destination as a beginning of the source followed by its old contents and together write no more bytes than that beginning has, not counting those that were right from the start.", "quantifier": "all files, command lines, sequences of runs in different environments, and points at which each of them fails or stops", "why_tests_cant": "over all points at which each of any number of runs can stop; no test runs patchdd", "anchors": ["patchdd.c:main", "patchdd.c:memcmp_offset"]}
{"id": "C104", "title": "Chunks may be as big as 256 KiB and no bigger", "statement": "An image whose chunks have at most 256 KiB each, which is what casync makes with its default sizes, is synchronised. A run over an index that lists a bigger chunk never succeeds, whatever the stores and the target contain; it ends in a defined way and writes nothing to the place of that chunk or behind it.", "quantifier": "all images, well-formed indices, environments, command lines, worlds and ways in which operations fail or the run stops", "why_tests_cant": "over all sizes and positions of the chunk that is too big; the tests have no chunk of more than 256 KiB", "anchors": ["main.c:entry_cb", "store.c:store_chain_get_chunk", "target.c:target_write"]}
{"id": "C105", "title": "An image that csn fetched arrives where patchdd copies it", "statement": "If csn has succeeded and its target is then copied to some destination with patchdd, in any number of attempts of which all but the last may fail or be interrupted anywhere, then after the last, successful one the destination begins with the image that the index describes and holds its old contents behind the size of csn's target, also if the power fails right afterwards, although csn itself does not flush anything. Otherwise two different strings with the same hash have occurred.", "quantifier": "all images, environments of either program, old contents, and sequences of interrupted attempts", "why_tests_cant": "over all combinations of runs of two programs; the tests run neither patchdd nor both", "anchors": ["main.c:main", "main.c:entry_cb", "patchdd.c:main"]}
{"id": "C106", "title": "Power failures do not damage more than what is being replaced", "statement": "Programs may be started, stop in any way and lose any transfers that were not flushed when the power fails, in any order and any number of times. With patchdd the destination then has its old size and each of its bytes is the old one or the source's; a run that succeeds afterwards leaves exactly the source followed by the old contents, and a further power failure does not change that. With csn each byte of the target is the old one, the image's, or a zero in a part by which the target has grown; nothing behind the end of the image has changed, and a run that succeeds afterwards leaves exactly the image followed by what the target held behind it at first. Otherwise two different strings with the same hash have occurred.", "quantifier": "all images, sources, old contents, environments, sequences of runs, points at which each of them stops, and sets of transfers lost in each power failure", "why_tests_cant": "over all sets of transfers that each of any number of power failures loses; the tests do not cut the power", "anchors": ["main.c:main", "main.c:entry_cb", "target.c:target_write", "patchdd.c:main"]}
{"id": "C107", "title": "The number of queries that is printed is that of the chunks delivered", "statement": "A run that succeeds prints how many queries its chain of stores received; a run that does not succeed prints no number. If no entry of the index is empty, the number is, up to the width of the counter, that of the chunks which the stores of the chain delivered together, and also that of the entries behind the beginning that the target already held which do not repeat their predecessor. The line shows this number in decimal and nothing else that varies. The counter has no influence on what the run does.", "quantifier": "all environments, command lines, worlds, indices without empty chunks, chains of stores, log levels that show the line", "why_tests_cant": "over all indices, stores and failures; the tests do not look at the log", "anchors": ["store.c:store_chain_get_chunk", "store.c:store_chain_free", "main.c:entry_cb", "main.c:main"]}
{"id": "C108", "title": "A store's transfers have the right options, whatever else happens", "statement": "Stores may be made, asked for chunks and freed in any order, and any call of the curl library may fail. Then no handle, error buffer or request context is used that does not exist (in particular, data never goes to the context of an earlier request or of another store), every transfer that is started goes to the URL which the layout of casync stores gives the chunk at the store that was asked, follows redirects, ends when less than 10 bytes a second arrive for 15 seconds, and describes errors in the store's own buffer; one request starts at most ten transfers. If no call fails there is exactly one transfer for each request to a store that exists, in the order of the requests.", "quantifier": "all sequences of making, asking and freeing stores, all answers of the curl library to every call", "why_tests_cant": "The tests use one store with a library whose calls succeed; a context that outlives its request, options lost after a failed call or shared between handles only show in other sequences, and often only as rare memory corruption.", "anchors": ["store-http.c:store_http_new", "store-http.c:set_url", "store-http.c:store_http_get_chunk", "store-http.c:retried_curl_easy_perform", "store-http.c:store_http_free"]}
{"id": "C109", "title": "csn-bench reports what it measured", "statement": "A round of csn-bench lasts until the first reading of the clock at which ten seconds have passed, counted in full seconds. The line it then prints shows the number of blocks handled up to that reading (one buffer of 1 MiB, or 100 blocks to hash, between two readings), the time off by less than a millisecond, and the rate in MiB per second rounded to two decimals: the arithmetic in double adds at most one part in a thousand million. The hash benchmark does this for blocks of 256, 64 and 16 KiB.", "quantifier": "all readings of the clock (in any order, less than 10^15 s apart), all hash functions, all worlds, all numbers of blocks below 2^63 bytes in total", "why_tests_cant": "Nothing in the test suite runs csn-bench; an error in the arithmetic of the rate or in the time shows only as a figure that looks plausible.", "anchors": ["csn-bench.c:time_delta_ms", "csn-bench.c:bench_hash", "csn-bench.c:bench_chunker"]}

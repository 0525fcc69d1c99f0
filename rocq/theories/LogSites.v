(** The places in /repo that log a message, generated from the source: every use of u_log, u_log_errno,
    u_assert, u_assert_se, u_notnull, checked and curl_checked_setopt (log.h:18-24, utils.h:20-44, 106-111,
    store-http.c:37-45) in the C files and chunk.h.  A use that extends over several lines is listed with
    its first and its last line, since it is up to the compiler which of them __LINE__ is; u_log_errno has
    two calls. *)
From Verif Require Import Base Log SpecLog.
Local Open Scope N_scope.

Definition ERR (f g : bytes) (l : N) (m : bytes) : site := mkSite f g l U_LOG_ERR m.
Definition WARN (f g : bytes) (l : N) (m : bytes) : site := mkSite f g l U_LOG_WARN m.
Definition INFO (f g : bytes) (l : N) (m : bytes) : site := mkSite f g l U_LOG_INFO m.
Definition DEBUG (f g : bytes) (l : N) (m : bytes) : site := mkSite f g l U_LOG_DEBUG m.

Definition sites_caibx_c : list site :=
  let f := bs "caibx.c" in [
    ERR f (bs "load_section_header") 27 (bs "assertion failed: %s");
    ERR f (bs "load_section_header") 28 (bs "assertion failed: %s");
    ERR f (bs "load_section_header") 29 (bs "assertion failed: %s");
    DEBUG f (bs "load_section_header") 32 (bs "checked statement failed");
    ERR f (bs "load_index_header") 42 (bs "assertion failed: %s");
    DEBUG f (bs "load_index_header") 45 (bs "checked statement failed");
    ERR f (bs "load_index_header") 48 (bs "unexpected magic: %lx");
    WARN f (bs "load_index_header") 53 (bs "unexpected index header length %lu");
    ERR f (bs "load_index_header") 55 (bs "index header length %luis too short");
    DEBUG f (bs "load_index_header") 60 (bs "checked statement failed");
    ERR f (bs "load_index_header") 65 (bs "unsupported feature set: 0x%016lx");
    ERR f (bs "load_index_header") 75 (bs "incompatible chunker params given in file");
    ERR f (bs "validate_table_header") 85 (bs "assertion failed: %s");
    DEBUG f (bs "validate_table_header") 89 (bs "checked statement failed");
    ERR f (bs "validate_table_header") 92 (bs "invalid table magic, expected %016lx, got %016lx");
    ERR f (bs "validate_table_header") 93 (bs "invalid table magic, expected %016lx, got %016lx");
    WARN f (bs "validate_table_header") 98 (bs "unexpected table size: %lu");
    ERR f (bs "validate_table_footer") 105 (bs "assertion failed: %s");
    ERR f (bs "validate_table_footer") 109 (bs "failed to seek to end of chunk table: %s");
    ERR f (bs "validate_table_footer") 109 (bs "%s");
    DEBUG f (bs "validate_table_footer") 114 (bs "checked statement failed");
    ERR f (bs "validate_table_footer") 118 (bs "chunk table footer has invalid zero fill: 0x%lx");
    ERR f (bs "validate_table_footer") 123 (bs "chunk table footer has invalid zero fill: 0x%lx");
    ERR f (bs "validate_table_footer") 128 (bs "invalid index offset in footer, expected 0x%x, got 0x%lx");
    ERR f (bs "validate_table_footer") 129 (bs "invalid index offset in footer, expected 0x%x, got 0x%lx");
    ERR f (bs "validate_table_footer") 136 (bs "invalid size in footer, expected %lu, got %lu");
    ERR f (bs "validate_table_footer") 137 (bs "invalid size in footer, expected %lu, got %lu");
    ERR f (bs "validate_table_footer") 142 (bs "invalid magic in footer, expected 0x%lx, got 0x%lx");
    ERR f (bs "validate_table_footer") 143 (bs "invalid magic in footer, expected 0x%lx, got 0x%lx");
    ERR f (bs "caibx_load_header") 152 (bs "assertion failed: %s");
    ERR f (bs "caibx_load_header") 153 (bs "assertion failed: %s");
    ERR f (bs "caibx_load_header") 154 (bs "assertion failed: %s");
    DEBUG f (bs "caibx_load_header") 157 (bs "checked statement failed");
    ERR f (bs "caibx_load_header") 160 (bs "input index is too short (%jd bytes)");
    ERR f (bs "caibx_load_header") 165 (bs "got a fractional number of table entries");
    DEBUG f (bs "caibx_load_header") 171 (bs "checked statement failed");
    DEBUG f (bs "caibx_load_header") 173 (bs "checked statement failed");
    DEBUG f (bs "caibx_load_header") 174 (bs "checked statement failed");
    DEBUG f (bs "caibx_load_header") 175 (bs "checked statement failed");
    DEBUG f (bs "caibx_load_header") 177 (bs "index has sizes %u / %u / %u and %zu entries");
    DEBUG f (bs "caibx_load_header") 179 (bs "index has sizes %u / %u / %u and %zu entries");
    ERR f (bs "caibx_iterate_entries") 187 (bs "assertion failed: %s");
    ERR f (bs "caibx_iterate_entries") 188 (bs "assertion failed: %s");
    ERR f (bs "caibx_iterate_entries") 189 (bs "assertion failed: %s");
    DEBUG f (bs "caibx_iterate_entries") 194 (bs "checked statement failed");
    ERR f (bs "caibx_iterate_entries") 200 (bs "reading entry %zu failed");
    WARN f (bs "caibx_iterate_entries") 213 (bs "chunk %s is too short: %lu < %u");
    WARN f (bs "caibx_iterate_entries") 214 (bs "chunk %s is too short: %lu < %u");
    WARN f (bs "caibx_iterate_entries") 217 (bs "chunk %s is too big : %lu > %u");
    WARN f (bs "caibx_iterate_entries") 218 (bs "chunk %s is too big : %lu > %u");
    WARN f (bs "caibx_iterate_entries") 228 (bs "skipping chunk %s")].

Definition sites_chunk_c : list site :=
  let f := bs "chunk.c" in [
    ERR f (bs "chunk_format_id") 12 (bs "assertion failed: %s")].

Definition sites_chunk_h : list site :=
  let f := bs "chunk.h" in [
    ERR f (bs "chunk_calculate_id") 16 (bs "assertion failed: %s")].

Definition sites_chunker_c : list site :=
  let f := bs "chunker.c" in [
    ERR f (bs "chunker_params_set") 82 (bs "non-monotonic chunk size parameters: %lu / %lu / %lu");
    ERR f (bs "chunker_params_set") 83 (bs "non-monotonic chunk size parameters: %lu / %lu / %lu");
    ERR f (bs "chunker_params_set") 90 (bs "unreasonably large chunk size parameters: %lu / %lu / %lu");
    ERR f (bs "chunker_params_set") 91 (bs "unreasonably large chunk size parameters: %lu / %lu / %lu");
    ERR f (bs "chunker_init") 113 (bs "assertion failed: %s");
    ERR f (bs "chunker_scan") 147 (bs "assertion failed: %s");
    ERR f (bs "chunker_scan") 148 (bs "assertion failed: %s");
    ERR f (bs "chunker_get_id") 209 (bs "assertion failed: %s");
    ERR f (bs "chunker_get_id") 210 (bs "assertion failed: %s");
    ERR f (bs "chunker_scan_fd") 218 (bs "assertion failed: %s");
    ERR f (bs "chunker_scan_fd") 219 (bs "assertion failed: %s");
    ERR f (bs "chunker_scan_fd") 225 (bs "initializing chunker failed");
    DEBUG f (bs "chunker_scan_fd") 232 (bs "checked statement failed");
    ERR f (bs "chunker_scan_fd") 243 (bs "error at offset %lu while chunking: %s");
    ERR f (bs "chunker_scan_fd") 243 (bs "%s")].

Definition sites_csn_bench_c : list site :=
  let f := bs "csn-bench.c" in [
    ERR f (bs "bench_hash") 26 (bs "kcapi init failed");
    INFO f (bs "bench_hash") 30 (bs "kcapi enabled with driver '%s'");
    ERR f (bs "bench_hash") 37 (bs "failed to allocate buffer");
    ERR f (bs "bench_hash") 54 (bs "assertion failed: %s");
    ERR f (bs "bench_hash") 62 (bs "assertion failed: %s");
    ERR f (bs "bench_chunker") 102 (bs "assertion failed: %s");
    ERR f (bs "bench_chunker") 124 (bs "assertion failed: %s")].

Definition sites_csn_tool_c : list site :=
  let f := bs "csn-tool.c" in [
    ERR f (bs "chunk_id_from_path") 22 (bs "chunk basename '%s' has wrong length, expected 70 or 74, got %zu");
    ERR f (bs "chunk_id_from_path") 27 (bs "chunk basename '%s' does not end with '.cacnk' or '.cacnk.enc'");
    ERR f (bs "encrypt_one") 44 (bs "failed to derive chunk id from path");
    ERR f (bs "encrypt_one") 53 (bs "input path too long");
    ERR f (bs "encrypt_one") 62 (bs "input path too long");
    ERR f (bs "encrypt_one") 70 (bs "unsupported input path format");
    ERR f (bs "encrypt_one") 80 (bs "encrypt_restart failed");
    ERR f (bs "encrypt_one") 87 (bs "failed to load source chunk");
    ERR f (bs "encrypt_one") 92 (bs "encrypting chunk failed");
    ERR f (bs "encrypt_one") 103 (bs "failed to create output file: %s");
    ERR f (bs "encrypt_one") 103 (bs "%s");
    ERR f (bs "encrypt_one") 109 (bs "failed to write to output file");
    ERR f (bs "do_crypt") 136 (bs "failed to parse keyspec");
    ERR f (bs "do_crypt") 142 (bs "encrypt_init failed")].

Definition sites_encrypt_c : list site :=
  let f := bs "encrypt.c" in [
    ERR f (bs "encrypt_init") 91 (bs "failed to create EVP_CIPHER_CTX");
    ERR f (bs "encrypt_restart") 112 (bs "EVP_CIPHER_CTX_reset failed");
    ERR f (bs "encrypt_restart") 117 (bs "EVP_CipherInit failed");
    ERR f (bs "encrypt_parse_keyspec") 157 (bs "could not retrieve environment variable '%s'");
    ERR f (bs "encrypt_parse_keyspec") 170 (bs "unknown keyspec used in '%s'");
    ERR f (bs "encrypt_parse_keyspec") 175 (bs "encryption key must be exactly 64 hex characters, but is %zu long");
    ERR f (bs "encrypt_parse_keyspec") 180 (bs "decoding encryption key failed")].

Definition sites_index_c : list site :=
  let f := bs "index.c" in [
    ERR f (bs "index_init") 9 (bs "assertion failed: %s");
    ERR f (bs "index_init") 10 (bs "assertion failed: %s");
    ERR f (bs "index_init") 13 (bs "%s is NULL");
    ERR f (bs "index_cleanup") 24 (bs "assertion failed: %s");
    ERR f (bs "index_insert") 31 (bs "assertion failed: %s");
    ERR f (bs "index_insert") 32 (bs "assertion failed: %s");
    ERR f (bs "index_insert") 33 (bs "assertion failed: %s");
    ERR f (bs "index_insert") 35 (bs "assertion failed: %s");
    DEBUG f (bs "index_insert") 41 (bs "index %p exceeded designated space of %zu entries");
    DEBUG f (bs "index_insert") 42 (bs "index %p exceeded designated space of %zu entries");
    ERR f (bs "index_insert") 47 (bs "increasing size of entries array of index %p to %zu entries failed: %s");
    ERR f (bs "index_insert") 47 (bs "%s");
    ERR f (bs "index_insert") 48 (bs "increasing size of entries array of index %p to %zu entries failed: %s");
    ERR f (bs "index_insert") 48 (bs "%s");
    ERR f (bs "index_sort") 79 (bs "assertion failed: %s");
    ERR f (bs "index_query") 89 (bs "assertion failed: %s");
    ERR f (bs "index_query") 90 (bs "assertion failed: %s")].

Definition sites_log_c : list site :=
  let f := bs "log.c" in [
    WARN f (bs "u_log_init") 33 (bs "unknown loglevel '%s'")].

Definition sites_main_c : list site :=
  let f := bs "main.c" in [
    ERR f (bs "entry_cb") 41 (bs "chunk length (%u) at offset %lu exceeds buffer size (%zu)");
    ERR f (bs "entry_cb") 42 (bs "chunk length (%u) at offset %lu exceeds buffer size (%zu)");
    ERR f (bs "entry_cb") 60 (bs "result size %zd does not match expected length %u");
    ERR f (bs "entry_cb") 69 (bs "failed to store chunk to target");
    ERR f (bs "append_store_from_arg") 93 (bs "creating store from target failed");
    ERR f (bs "append_store_from_arg") 99 (bs "creating HTTP store from '%s' failed");
    ERR f (bs "append_store_from_arg") 111 (bs "creating local store from '%s' failed");
    ERR f (bs "append_store_from_arg") 117 (bs "appending store '%s' to store chain failed");
    ERR f (bs "csn") 135 (bs "kcapi init failed");
    DEBUG f (bs "csn") 139 (bs "kcapi enabled with driver '%s'");
    ERR f (bs "csn") 144 (bs "opening index '%s' failed: %s");
    ERR f (bs "csn") 144 (bs "%s");
    ERR f (bs "csn") 149 (bs "loading caibx header failed");
    ERR f (bs "csn") 156 (bs "creating target failed");
    ERR f (bs "csn") 162 (bs "creating storechain failed");
    ERR f (bs "casync") 212 (bs "opening index '%s' failed: %s");
    ERR f (bs "casync") 212 (bs "%s");
    ERR f (bs "casync") 217 (bs "loading caibx header failed");
    ERR f (bs "casync") 224 (bs "creating target failed");
    ERR f (bs "casync") 231 (bs "creating storechain failed");
    ERR f (bs "main") 290 (bs "unimplemented app variant '%s'");
    ERR f (bs "main") 295 (bs "initializing synchronization process failed");
    INFO f (bs "main") 300 (bs "init finished after %u seconds");
    INFO f (bs "main") 303 (bs "starting synchronization");
    ERR f (bs "main") 306 (bs "iterating entries failed");
    INFO f (bs "main") 311 (bs "synchronization finished after %u seconds");
    INFO f (bs "main") 313 (bs "skipped prefix of %zu chunks")].

Definition sites_patchdd_c : list site :=
  let f := bs "patchdd.c" in [
    ERR f (bs "main") 39 (bs "opening source '%s' failed: %s");
    ERR f (bs "main") 39 (bs "%s");
    ERR f (bs "main") 45 (bs "opening destination '%s' failed: %s");
    ERR f (bs "main") 45 (bs "%s");
    DEBUG f (bs "main") 50 (bs "checked statement failed");
    DEBUG f (bs "main") 51 (bs "checked statement failed");
    ERR f (bs "main") 54 (bs "target size (%llu) is smaller than source size (%llu)");
    ERR f (bs "main") 55 (bs "target size (%llu) is smaller than source size (%llu)");
    INFO f (bs "main") 60 (bs "target size (%llu) is larger than source size (%llu)");
    INFO f (bs "main") 61 (bs "target size (%llu) is larger than source size (%llu)");
    ERR f (bs "main") 96 (bs "fsync on target failed: %s");
    ERR f (bs "main") 96 (bs "%s")].

Definition sites_sha_c : list site :=
  let f := bs "sha.c" in [
    ERR f (bs "sha_kcapi_init") 30 (bs "creating AF_ALG socket failed: %s");
    ERR f (bs "sha_kcapi_init") 30 (bs "%s");
    ERR f (bs "sha_kcapi_init") 43 (bs "driver name too long");
    ERR f (bs "sha_kcapi_init") 52 (bs "binding to AF_ALG socket failed: %s");
    ERR f (bs "sha_kcapi_init") 52 (bs "%s");
    ERR f (bs "sha_kcapi_init") 59 (bs "accepting hash instance socket failed: %s");
    ERR f (bs "sha_kcapi_init") 59 (bs "%s");
    ERR f (bs "sha_once") 95 (bs "send to kcapi failed: %s");
    ERR f (bs "sha_once") 95 (bs "%s");
    ERR f (bs "sha_once") 110 (bs "recv from kcapi failed: %s");
    ERR f (bs "sha_once") 110 (bs "%s");
    ERR f (bs "sha_once") 113 (bs "received unexpected number of bytes: %zd");
    ERR f (bs "sha_once") 120 (bs "kcapi operation failed, disabling")].

Definition sites_store_http_c : list site :=
  let f := bs "store-http.c" in [
    ERR f (bs "decode_buffer_absorb") 71 (bs "incrementing decode buffer size %zu by %zu overflows");
    ERR f (bs "decode_buffer_absorb") 72 (bs "incrementing decode buffer size %zu by %zu overflows");
    ERR f (bs "decode_buffer_absorb") 78 (bs "increasing decode buffer to %zu bytes failed");
    DEBUG f (bs "decode_buffer_absorb") 81 (bs "increased decode buffer to %zu bytes");
    ERR f (bs "decode_buffer_absorb") 92 (bs "decryption failed");
    WARN f (bs "handle_data") 115 (bs "data does not have zstd magic number");
    ERR f (bs "handle_data") 120 (bs "assertion failed: %s");
    ERR f (bs "handle_data") 137 (bs "zstd decompression failed with error: %s");
    DEBUG f (bs "handle_data") 141 (bs "decompression consumed %zu out of %zu available bytes and produced %zu");
    DEBUG f (bs "handle_data") 142 (bs "decompression consumed %zu out of %zu available bytes and produced %zu");
    ERR f (bs "get_response_code") 155 (bs "getting response code failed: %s");
    ERR f (bs "store_http_data_cb") 164 (bs "assertion failed: %s");
    DEBUG f (bs "store_http_data_cb") 171 (bs "got response code %ld, failing request");
    ERR f (bs "set_url") 215 (bs "assertion failed: %s");
    ERR f (bs "set_url") 223 (bs "setting up curl option %d failed: %s");
    WARN f (bs "retried_curl_easy_perform") 248 (bs "connection failed (%s%s%s), retrying %d more times");
    WARN f (bs "retried_curl_easy_perform") 251 (bs "connection failed (%s%s%s), retrying %d more times");
    WARN f (bs "increase_error_counter") 263 (bs "increasing error counter to %d");
    ERR f (bs "increase_error_counter") 266 (bs "error counter exceeded %d, killing store");
    ERR f (bs "store_http_get_chunk") 282 (bs "setting request URL failed");
    ERR f (bs "store_http_get_chunk") 289 (bs "failed to re-initialize encryption");
    ERR f (bs "store_http_get_chunk") 301 (bs "setting up curl option %d failed: %s");
    DEBUG f (bs "store_http_get_chunk") 303 (bs "trying to fetch chunk from '%s'");
    WARN f (bs "store_http_get_chunk") 309 (bs "transient transfer failure, increasing error counter");
    ERR f (bs "store_http_get_chunk") 319 (bs "curl_easy_perform failed: %s");
    ERR f (bs "store_http_get_chunk") 326 (bs "getting response code failed");
    DEBUG f (bs "store_http_get_chunk") 331 (bs "got %ld from server");
    WARN f (bs "store_http_get_chunk") 336 (bs "got unexpected HTTP response code %ld, increasing error counter");
    WARN f (bs "store_http_get_chunk") 347 (bs "request for '%s' was successful, but response data was invalid");
    WARN f (bs "store_http_get_chunk") 348 (bs "request for '%s' was successful, but response data was invalid");
    WARN f (bs "store_http_get_chunk") 354 (bs "decode buffer still contains %zu bytes at end of request");
    WARN f (bs "store_http_get_chunk") 355 (bs "decode buffer still contains %zu bytes at end of request");
    WARN f (bs "store_http_get_chunk") 370 (bs "chunk id mismatch (expected %s, got %s)");
    WARN f (bs "store_http_get_chunk") 371 (bs "chunk id mismatch (expected %s, got %s)");
    ERR f (bs "store_handle_params") 410 (bs "parsing encryption config failed");
    ERR f (bs "store_handle_params") 415 (bs "failed to initialize encryption context");
    ERR f (bs "store_handle_params") 421 (bs "unhandled store parameters: %s");
    ERR f (bs "store_http_new") 438 (bs "assertion failed: %s");
    ERR f (bs "store_http_new") 441 (bs "initializing curl failed");
    ERR f (bs "store_http_new") 447 (bs "%s is NULL");
    ERR f (bs "store_http_new") 450 (bs "%s is NULL");
    ERR f (bs "store_http_new") 456 (bs "failed to parse store parameters");
    ERR f (bs "store_http_new") 471 (bs "%s is NULL");
    ERR f (bs "store_http_new") 478 (bs "%s is NULL");
    ERR f (bs "store_http_new") 480 (bs "setting up curl option %d failed: %s");
    ERR f (bs "store_http_new") 481 (bs "setting up curl option %d failed: %s");
    ERR f (bs "store_http_new") 483 (bs "setting up curl option %d failed: %s");
    ERR f (bs "store_http_new") 484 (bs "setting up curl option %d failed: %s");
    ERR f (bs "store_http_new") 486 (bs "setting up curl option %d failed: %s");
    ERR f (bs "store_http_new") 487 (bs "setting up curl option %d failed: %s");
    ERR f (bs "store_http_new") 489 (bs "setting up curl option %d failed: %s");
    ERR f (bs "store_http_new") 490 (bs "setting up curl option %d failed: %s");
    ERR f (bs "store_http_new") 492 (bs "setting up curl option %d failed: %s");
    ERR f (bs "store_http_new") 493 (bs "setting up curl option %d failed: %s");
    ERR f (bs "store_http_new") 496 (bs "%s is NULL")].

Definition sites_store_local_c : list site :=
  let f := bs "store-local.c" in [
    ERR f (bs "store_insert_index") 40 (bs "inserting chunk at offset %lu failed");
    ERR f (bs "store_sideload_index") 56 (bs "opening index for sideloading failed: %s");
    ERR f (bs "store_sideload_index") 56 (bs "%s");
    ERR f (bs "store_sideload_index") 63 (bs "parsing caibx header failed");
    ERR f (bs "store_sideload_index") 70 (bs "chunker parameter mismatch between sideload index (%u / %u / %u)and chosen parameters (%u / %u / %u)");
    ERR f (bs "store_sideload_index") 73 (bs "chunker parameter mismatch between sideload index (%u / %u / %u)and chosen parameters (%u / %u / %u)");
    ERR f (bs "store_sideload_index") 79 (bs "initializing index failed");
    ERR f (bs "store_sideload_index") 89 (bs "sideload iteration aborted");
    DEBUG f (bs "store_scan") 107 (bs "checked statement failed");
    DEBUG f (bs "store_scan") 110 (bs "initializing index with an estimated %zu chunks");
    ERR f (bs "store_scan") 112 (bs "initializing index failed");
    ERR f (bs "store_local_get_chunk") 142 (bs "output buffer to small (%zu) to contain cunk of size %u");
    ERR f (bs "store_local_get_chunk") 143 (bs "output buffer to small (%zu) to contain cunk of size %u");
    ERR f (bs "store_local_get_chunk") 148 (bs "reading chunk failed");
    ERR f (bs "store_local_get_chunk") 165 (bs "chunk validation failure at offset %lu (chunk length %u)");
    ERR f (bs "store_local_get_chunk") 166 (bs "chunk validation failure at offset %lu (chunk length %u)");
    ERR f (bs "store_local_get_chunk") 169 (bs " expected chunk id: %s");
    ERR f (bs "store_local_get_chunk") 172 (bs " got chunk id: %s");
    ERR f (bs "store_local_get_chunk") 174 (bs "rescanning store '%s'");
    ERR f (bs "store_local_get_chunk") 178 (bs "rescanning store failed");
    ERR f (bs "store_local_new") 196 (bs "assertion failed: %s");
    ERR f (bs "store_local_new") 200 (bs "%s is NULL");
    ERR f (bs "store_local_new") 204 (bs "opening store at '%s' failed: %s");
    ERR f (bs "store_local_new") 204 (bs "%s");
    INFO f (bs "store_local_new") 215 (bs "trying to sideload index '%s' for store '%s'");
    INFO f (bs "store_local_new") 218 (bs "sideloading succeeded");
    WARN f (bs "store_local_new") 222 (bs "sideloading index failed, falling back to scanning");
    INFO f (bs "store_local_new") 225 (bs "scanning store '%s'");
    ERR f (bs "store_local_new") 227 (bs "scanning store '%s' failed");
    INFO f (bs "store_local_new") 230 (bs "scanning store finished")].

Definition sites_store_c : list site :=
  let f := bs "store.c" in [
    DEBUG f (bs "store_chain_get_chunk") 44 (bs "store '%s' has failed, deactivating it");
    DEBUG f (bs "store_chain_get_chunk") 45 (bs "store '%s' has failed, deactivating it");
    DEBUG f (bs "store_chain_get_chunk") 52 (bs "chunk %s found in store '%s'");
    DEBUG f (bs "store_chain_get_chunk") 53 (bs "chunk %s found in store '%s'");
    WARN f (bs "store_chain_get_chunk") 59 (bs "chunk %s not found in any store");
    INFO f (bs "store_chain_free") 68 (bs "%u queries received by %s");
    INFO f (bs "store_chain_free") 69 (bs "%u queries received by %s");
    INFO f (bs "store_chain_free") 71 (bs "    %u answered by store %s");
    INFO f (bs "store_chain_free") 73 (bs "    %u answered by store %s");
    ERR f (bs "store_chain_new") 89 (bs "%s is NULL");
    ERR f (bs "store_chain_new") 98 (bs "%s is NULL");
    ERR f (bs "store_chain_append") 121 (bs "%s is NULL")].

Definition sites_target_c : list site :=
  let f := bs "target.c" in [
    WARN f (bs "target_add_chunk") 24 (bs "inserting chunk into index failed");
    WARN f (bs "target_check_chunk") 33 (bs "reading chunk failed");
    ERR f (bs "target_get_chunk") 60 (bs "output buffer to small (%zu) to contain cunk of size %u");
    ERR f (bs "target_get_chunk") 61 (bs "output buffer to small (%zu) to contain cunk of size %u");
    ERR f (bs "target_get_chunk") 66 (bs "reading chunk failed");
    ERR f (bs "target_write") 75 (bs "assertion failed: %s");
    ERR f (bs "target_write") 76 (bs "assertion failed: %s");
    ERR f (bs "target_write") 81 (bs "writing %zu bytes to target failed: %s");
    ERR f (bs "target_write") 81 (bs "%s");
    ERR f (bs "target_new") 92 (bs "assertion failed: %s");
    ERR f (bs "target_new") 96 (bs "%s is NULL");
    ERR f (bs "target_new") 100 (bs "opening target '%s' failed: %s");
    ERR f (bs "target_new") 100 (bs "%s");
    DEBUG f (bs "target_as_store") 128 (bs "initializing index with an estimated %zu chunks");
    ERR f (bs "target_as_store") 130 (bs "initializing index failed")].

Definition sites_ui_c : list site :=
  let f := bs "ui.c" in [
    ERR f (bs "show_progress") 16 (bs "assertion failed: %s")].

Definition sites_utils_c : list site :=
  let f := bs "utils.c" in [
    ERR f (bs "blockdevice_size") 27 (bs "getting device block size failed: %s");
    ERR f (bs "blockdevice_size") 27 (bs "%s");
    ERR f (bs "blockdevice_size") 32 (bs "getting device block count failed: %s");
    ERR f (bs "blockdevice_size") 32 (bs "%s");
    ERR f (bs "blockdevice_size") 44 (bs "getting block device size failed: %s");
    ERR f (bs "blockdevice_size") 44 (bs "%s");
    ERR f (bs "readall") 67 (bs "read failed: %s");
    ERR f (bs "readall") 67 (bs "%s");
    ERR f (bs "readall") 70 (bs "short read, expected %zu, got %zu");
    ERR f (bs "preadall") 92 (bs "read failed: %s");
    ERR f (bs "preadall") 92 (bs "%s");
    ERR f (bs "preadall") 95 (bs "short read, expected %zu, got %zu");
    ERR f (bs "writeall") 118 (bs "write failed: %s");
    ERR f (bs "writeall") 118 (bs "%s");
    ERR f (bs "writeall") 122 (bs "assertion failed: %s");
    ERR f (bs "pwriteall") 142 (bs "write failed: %s");
    ERR f (bs "pwriteall") 142 (bs "%s");
    ERR f (bs "pwriteall") 146 (bs "assertion failed: %s");
    ERR f (bs "fd_size") 157 (bs "assertion failed: %s");
    ERR f (bs "fd_size") 158 (bs "assertion failed: %s");
    ERR f (bs "fd_size") 163 (bs "stat failed: %s");
    ERR f (bs "fd_size") 163 (bs "%s");
    ERR f (bs "fd_size") 172 (bs "unsupported file type: 0%o");
    ERR f (bs "slurp_file") 186 (bs "opening '%s' failed: %s");
    ERR f (bs "slurp_file") 186 (bs "%s");
    ERR f (bs "slurp_file") 192 (bs "getting file size of '%s' failed");
    ERR f (bs "slurp_file") 199 (bs "could not allocate %zu bytes: %s");
    ERR f (bs "slurp_file") 199 (bs "%s");
    ERR f (bs "slurp_file") 204 (bs "reading file '%s' failed");
    ERR f (bs "time_monotonic") 230 (bs "assertion failed: %s");
    ERR f (bs "parse_hex") 253 (bs "invalid hex nibble '%c'")].

Definition sites : list site :=
  sites_caibx_c ++ sites_chunk_c ++ sites_chunk_h ++ sites_chunker_c ++ sites_csn_bench_c ++ sites_csn_tool_c ++ sites_encrypt_c ++ sites_index_c ++ sites_log_c ++ sites_main_c ++ sites_patchdd_c ++ sites_sha_c ++ sites_store_http_c ++ sites_store_local_c ++ sites_store_c ++ sites_target_c ++ sites_ui_c ++ sites_utils_c.

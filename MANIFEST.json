{
 "claims": [
  {
   "property": "C01",
   "status": "proved",
   "theorems": [
    "C01_success_authentic"
   ],
   "note": ""
  },
  {
   "property": "C02",
   "status": "proved",
   "theorems": [
    "C02_success_image"
   ],
   "note": ""
  },
  {
   "property": "C03",
   "status": "proved",
   "theorems": [
    "C03_always_image",
    "C03_always_authentic"
   ],
   "note": ""
  },
  {
   "property": "C04",
   "status": "proved",
   "theorems": [
    "C04_resume"
   ],
   "note": ""
  },
  {
   "property": "C05",
   "status": "proved",
   "theorems": [
    "C05_no_failure",
    "C05_succeeds",
    "C05_end_to_end"
   ],
   "note": ""
  },
  {
   "property": "C06",
   "status": "proved",
   "theorems": [
    "C06_huge_entry_refuted",
    "C06_backward_entry_refuted"
   ],
   "note": "The code violates the unrestricted claim: see the _refuted theorem (witness evaluated in the model); the other theorems prove what does hold."
  },
  {
   "property": "C07",
   "status": "proved",
   "theorems": [
    "C07_writes_verified",
    "C07_no_overrun",
    "C07_repeated_id_refuted",
    "C07_empty_entry_refuted",
    "C07_overrun_refuted"
   ],
   "note": "The code violates the unrestricted claim: see the _refuted theorem (witness evaluated in the model); the other theorems prove what does hold."
  },
  {
   "property": "C08",
   "status": "proved",
   "theorems": [
    "C08_in_order",
    "C08_answer"
   ],
   "note": ""
  },
  {
   "property": "C09",
   "status": "proved",
   "theorems": [
    "C09_fetched_once"
   ],
   "note": ""
  },
  {
   "property": "C10",
   "status": "proved",
   "theorems": [
    "C10_asked_once"
   ],
   "note": ""
  },
  {
   "property": "C11",
   "status": "proved",
   "theorems": [
    "C11_target_serves"
   ],
   "note": ""
  },
  {
   "property": "C12",
   "status": "proved",
   "theorems": [
    "C12_only_target"
   ],
   "note": ""
  },
  {
   "property": "C13",
   "status": "proved",
   "theorems": [
    "C13_alias_refuted"
   ],
   "note": "The code violates the unrestricted claim: see the _refuted theorem (witness evaluated in the model); the other theorems prove what does hold."
  },
  {
   "property": "C14",
   "status": "proved",
   "theorems": [
    "C14_any_segmentation",
    "C14_any_reads",
    "C14_whole_file"
   ],
   "note": ""
  },
  {
   "property": "C15",
   "status": "proved",
   "theorems": [
    "C15_rolling_hash_is_window_hash",
    "C15_scan_finds_first_cut",
    "C15_table"
   ],
   "note": ""
  },
  {
   "property": "C16",
   "status": "proved",
   "theorems": [
    "C16_tiling",
    "C16_sizes"
   ],
   "note": ""
  },
  {
   "property": "C17",
   "status": "proved",
   "theorems": [
    "C17_resynchronisation"
   ],
   "note": ""
  },
  {
   "property": "C18",
   "status": "proved",
   "theorems": [
    "C18_boundary_is_sticky"
   ],
   "note": ""
  },
  {
   "property": "C19",
   "status": "proved",
   "theorems": [
    "C19_discriminator_refuted",
    "C19_discriminator_large_refuted",
    "C19_discriminator_ok",
    "C19_discriminator_undefined_above"
   ],
   "note": "The code violates the unrestricted claim: see the _refuted theorem (witness evaluated in the model); the other theorems prove what does hold."
  },
  {
   "property": "C20",
   "status": "proved",
   "theorems": [
    "C20_round_trip",
    "C20_any_schedule"
   ],
   "note": ""
  },
  {
   "property": "C21",
   "status": "proved",
   "theorems": [
    "C21_accepts_only_valid",
    "C21_accepts_every_valid",
    "C21_rejects_invalid",
    "C21_prefix_rejected",
    "C21_extension_rejected",
    "C21_prefix_refuted"
   ],
   "note": "The code violates the unrestricted claim: see the _refuted theorem (witness evaluated in the model); the other theorems prove what does hold."
  },
  {
   "property": "C22",
   "status": "proved",
   "theorems": [
    "C22_lookup_exact"
   ],
   "note": ""
  },
  {
   "property": "C23",
   "status": "proved",
   "theorems": [
    "C23_C25_store_life",
    "C23_authentic",
    "C23_any_kernel"
   ],
   "note": ""
  },
  {
   "property": "C24",
   "status": "proved",
   "theorems": [
    "C24_stale_falls_back",
    "C24_without_index",
    "C24_past_end_refuted",
    "C24_too_long_refuted",
    "C24_empty_entry_refuted"
   ],
   "note": "The code violates the unrestricted claim: see the _refuted theorem (witness evaluated in the model); the other theorems prove what does hold."
  },
  {
   "property": "C25",
   "status": "proved",
   "theorems": [
    "C23_C25_store_life",
    "C25_one_rescan"
   ],
   "note": ""
  },
  {
   "property": "C26",
   "status": "proved",
   "theorems": [
    "C26_bit_rot_refuted"
   ],
   "note": "The code violates the unrestricted claim: see the _refuted theorem (witness evaluated in the model); the other theorems prove what does hold."
  },
  {
   "property": "C27",
   "status": "proved",
   "theorems": [
    "C27_small_store_refuted",
    "C27_large_store"
   ],
   "note": "The code violates the unrestricted claim: see the _refuted theorem (witness evaluated in the model); the other theorems prove what does hold."
  },
  {
   "property": "C28",
   "status": "proved",
   "theorems": [
    "C28_store_life",
    "C28_any_kernel"
   ],
   "note": ""
  },
  {
   "property": "C29",
   "status": "proved",
   "theorems": [
    "C29_segmentation"
   ],
   "note": ""
  },
  {
   "property": "C30",
   "status": "proved",
   "theorems": [
    "C30_transparent",
    "C30_C32_delivered"
   ],
   "note": ""
  },
  {
   "property": "C31",
   "status": "proved",
   "theorems": [
    "C31_retries"
   ],
   "note": ""
  },
  {
   "property": "C32",
   "status": "proved",
   "theorems": [
    "C30_C32_delivered",
    "C32_retry_refuted"
   ],
   "note": "The code violates the unrestricted claim: see the _refuted theorem (witness evaluated in the model); the other theorems prove what does hold."
  },
  {
   "property": "C33",
   "status": "proved",
   "theorems": [
    "C33_given_up",
    "C33_counter",
    "C33_verdict"
   ],
   "note": ""
  },
  {
   "property": "C34",
   "status": "proved",
   "theorems": [
    "C34_url",
    "C34_new_store"
   ],
   "note": ""
  },
  {
   "property": "C35",
   "status": "proved",
   "theorems": [
    "C35_encrypt_is_xchacha20",
    "C35_encrypt_self_inverse",
    "C35_encrypt_streamable"
   ],
   "note": ""
  },
  {
   "property": "C36",
   "status": "proved",
   "theorems": [
    "C36_keyspec_sound",
    "C36_keyspec_literal_and_env",
    "C36_keyspec_file"
   ],
   "note": ""
  },
  {
   "property": "C37",
   "status": "proved",
   "theorems": [
    "C37_hex_roundtrip",
    "C37_parse_accepts_exactly_hex",
    "C37_parse_value",
    "C37_format_lower_case"
   ],
   "note": ""
  },
  {
   "property": "C38",
   "status": "proved",
   "theorems": [
    "C38_chomp_refuted",
    "C38_chomp_single_line",
    "C38_chomp_characterised"
   ],
   "note": "The code violates the unrestricted claim: see the _refuted theorem (witness evaluated in the model); the other theorems prove what does hold."
  },
  {
   "property": "C39",
   "status": "proved",
   "theorems": [
    "C39_roundtrip",
    "C39_keeps",
    "C39_outputs",
    "C39_crypts",
    "C39_lines",
    "C39_succeeds"
   ],
   "note": ""
  },
  {
   "property": "C40",
   "status": "proved",
   "theorems": [
    "C40_refuted",
    "C40_output_removed"
   ],
   "note": "The code violates the unrestricted claim: see the _refuted theorem (witness evaluated in the model); the other theorems prove what does hold."
  },
  {
   "property": "C41",
   "status": "proved",
   "theorems": [
    "C41_refuted",
    "C41_names"
   ],
   "note": "The code violates the unrestricted claim: see the _refuted theorem (witness evaluated in the model); the other theorems prove what does hold."
  },
  {
   "property": "C42",
   "status": "proved",
   "theorems": [
    "C42_sha_once_refuted",
    "C42_sha_once_correct",
    "C42_sha_once_any"
   ],
   "note": "The code violates the unrestricted claim: see the _refuted theorem (witness evaluated in the model); the other theorems prove what does hold."
  },
  {
   "property": "C43",
   "status": "proved",
   "theorems": [
    "C43_preadall",
    "C43_preadall_succeeds",
    "C43_pwriteall",
    "C43_pwriteall_succeeds",
    "C43_writeall",
    "C43_writeall_succeeds"
   ],
   "note": ""
  },
  {
   "property": "C44",
   "status": "proved",
   "theorems": [
    "C44_unp64le",
    "C44_unp32le",
    "C44_p32le_roundtrip",
    "C44_unp32le_roundtrip"
   ],
   "note": ""
  },
  {
   "property": "C45",
   "status": "proved",
   "theorems": [
    "C45_patched",
    "C45_refuses",
    "C45_succeeds"
   ],
   "note": ""
  },
  {
   "property": "C46",
   "status": "proved",
   "theorems": [
    "C46_any_stop",
    "C46_rerun"
   ],
   "note": ""
  },
  {
   "property": "C47",
   "status": "proved",
   "theorems": [
    "C47_never_flushed",
    "C47_survives_refuted"
   ],
   "note": "The code violates the unrestricted claim: see the _refuted theorem (witness evaluated in the model); the other theorems prove what does hold."
  },
  {
   "property": "C48",
   "status": "proved",
   "theorems": [
    "C48_help_refuted"
   ],
   "note": "The code violates the unrestricted claim: see the _refuted theorem (witness evaluated in the model); the other theorems prove what does hold."
  },
  {
   "property": "C49",
   "status": "proved",
   "theorems": [
    "C49_classified",
    "C49_unambiguous",
    "C49_stores_in_order"
   ],
   "note": ""
  },
  {
   "property": "C50",
   "status": "proved",
   "theorems": [
    "C50_display",
    "C50_patchdd_display",
    "C50_bar",
    "C50_bound_is_tight"
   ],
   "note": ""
  },
  {
   "property": "C51",
   "status": "proved",
   "theorems": [
    "C51_bounded",
    "C51_memory_refuted"
   ],
   "note": "The code violates the unrestricted claim: see the _refuted theorem (witness evaluated in the model); the other theorems prove what does hold."
  },
  {
   "property": "C52",
   "status": "proved",
   "theorems": [
    "C52_refuted",
    "C52_small"
   ],
   "note": "The code violates the unrestricted claim: see the _refuted theorem (witness evaluated in the model); the other theorems prove what does hold."
  },
  {
   "property": "C53",
   "status": "proved",
   "theorems": [
    "C53_no_undefined",
    "C53_double_free_refuted"
   ],
   "note": "The code violates the unrestricted claim: see the _refuted theorem (witness evaluated in the model); the other theorems prove what does hold."
  },
  {
   "property": "C54",
   "status": "proved",
   "theorems": [
    "C54_terminates",
    "C54_terminates_kernel",
    "C54_waiting"
   ],
   "note": ""
  },
  {
   "property": "C55",
   "status": "proved",
   "theorems": [
    "C55_no_abort",
    "C55_empty_index_refuted",
    "C55_empty_chunk_refuted",
    "C55_small_store_refuted",
    "C55_side_index_refuted",
    "C55_side_chunk_refuted"
   ],
   "note": "The code violates the unrestricted claim: see the _refuted theorem (witness evaluated in the model); the other theorems prove what does hold."
  },
  {
   "property": "C56",
   "status": "proved",
   "theorems": [
    "C56_complete",
    "C56_file",
    "C56_calls_defined",
    "C56_calls_complete",
    "C56_cut_refuted",
    "C56_long_format_refuted"
   ],
   "note": "The code violates the unrestricted claim: see the _refuted theorem (witness evaluated in the model); the other theorems prove what does hold."
  },
  {
   "property": "C57",
   "status": "proved",
   "theorems": [
    "C57_selected",
    "C57_unknown",
    "C57_hidden"
   ],
   "note": ""
  },
  {
   "property": "C58",
   "status": "proved",
   "theorems": [
    "C58_rows",
    "C58_numerals",
    "C58_empty_refuted"
   ],
   "note": "The code violates the unrestricted claim: see the _refuted theorem (witness evaluated in the model); the other theorems prove what does hold."
  },
  {
   "property": "C59",
   "status": "proved",
   "theorems": [
    "C59_chunks",
    "C59_actual",
    "C59_unallocated_refuted"
   ],
   "note": "The code violates the unrestricted claim: see the _refuted theorem (witness evaluated in the model); the other theorems prove what does hold."
  },
  {
   "property": "C60",
   "status": "proved",
   "theorems": [
    "C60_time",
    "C60_hash"
   ],
   "note": ""
  },
  {
   "property": "C61",
   "status": "proved",
   "theorems": [
    "C61_permutation",
    "C61_never_zero"
   ],
   "note": ""
  },
  {
   "property": "C62",
   "status": "proved",
   "theorems": [
    "C62_known",
    "C62_which",
    "C62_unknown_refuted"
   ],
   "note": "The code violates the unrestricted claim: see the _refuted theorem (witness evaluated in the model); the other theorems prove what does hold."
  },
  {
   "property": "C63",
   "status": "proved",
   "theorems": [
    "C63_patchdd_ends",
    "C63_stuck_refuted"
   ],
   "note": "The code violates the unrestricted claim: see the _refuted theorem (witness evaluated in the model); the other theorems prove what does hold."
  },
  {
   "property": "C64",
   "status": "proved",
   "theorems": [
    "C64_tool_ends",
    "C64_stuck_refuted"
   ],
   "note": "The code violates the unrestricted claim: see the _refuted theorem (witness evaluated in the model); the other theorems prove what does hold."
  },
  {
   "property": "C65",
   "status": "proved",
   "theorems": [
    "C65_transfers"
   ],
   "note": ""
  },
  {
   "property": "C66",
   "status": "proved",
   "theorems": [
    "C66_tool_releases"
   ],
   "note": ""
  },
  {
   "property": "C67",
   "status": "proved",
   "theorems": [
    "C67_tool_stack",
    "C67_tool_heap",
    "C67_stack_refuted",
    "C67_read_refuted"
   ],
   "note": "The code violates the unrestricted claim: see the _refuted theorem (witness evaluated in the model); the other theorems prove what does hold."
  },
  {
   "property": "C68",
   "status": "proved",
   "theorems": [
    "C68_http_leftovers",
    "C68_http_heap",
    "C68_url_refuted",
    "C68_failure_refuted",
    "C68_key_refuted",
    "C68_twice_refuted"
   ],
   "note": "The code violates the unrestricted claim: see the _refuted theorem (witness evaluated in the model); the other theorems prove what does hold."
  },
  {
   "property": "C69",
   "status": "proved",
   "theorems": [
    "C69_local_leftovers",
    "C69_descriptor_refuted",
    "C69_scan_refuted",
    "C69_special_refuted"
   ],
   "note": "The code violates the unrestricted claim: see the _refuted theorem (witness evaluated in the model); the other theorems prove what does hold."
  },
  {
   "property": "C70",
   "status": "proved",
   "theorems": [
    "C70_run_leftovers",
    "C70_special_refuted",
    "C70_chain_new"
   ],
   "note": "The code violates the unrestricted claim: see the _refuted theorem (witness evaluated in the model); the other theorems prove what does hold."
  },
  {
   "property": "C71",
   "status": "proved",
   "theorems": [
    "C71_kcapi_releases"
   ],
   "note": ""
  },
  {
   "property": "C72",
   "status": "proved",
   "theorems": [
    "C72_hits",
    "C72_casync_refuted"
   ],
   "note": "The code violates the unrestricted claim: see the _refuted theorem (witness evaluated in the model); the other theorems prove what does hold."
  },
  {
   "property": "C73",
   "status": "proved",
   "theorems": [
    "C73_lines",
    "C73_key_used",
    "C73_key_shown",
    "C73_key_refuted",
    "C73_failure_shown"
   ],
   "note": "The code violates the unrestricted claim: see the _refuted theorem (witness evaluated in the model); the other theorems prove what does hold."
  },
  {
   "property": "C74",
   "status": "proved",
   "theorems": [
    "C74_summary"
   ],
   "note": ""
  },
  {
   "property": "C75",
   "status": "proved",
   "theorems": [
    "C75_total_work",
    "C75_kept",
    "C75_done"
   ],
   "note": ""
  },
  {
   "property": "C76",
   "status": "proved",
   "theorems": [
    "C76_again",
    "C76_complete_target"
   ],
   "note": ""
  },
  {
   "property": "C77",
   "status": "proved",
   "theorems": [
    "C77_same",
    "C77_driver_ignored",
    "C77_driver_refuted",
    "C77_slots_refuted"
   ],
   "note": "The code violates the unrestricted claim: see the _refuted theorem (witness evaluated in the model); the other theorems prove what does hold."
  },
  {
   "property": "C78",
   "status": "proved",
   "theorems": [
    "C78_nothing_done"
   ],
   "note": ""
  },
  {
   "property": "C79",
   "status": "proved",
   "theorems": [
    "C79_grammar",
    "C79_extract",
    "C79_documented",
    "C79_late_refuted"
   ],
   "note": "The code violates the unrestricted claim: see the _refuted theorem (witness evaluated in the model); the other theorems prove what does hold."
  },
  {
   "property": "C80",
   "status": "proved",
   "theorems": [
    "C80_encrypts",
    "C80_store",
    "C80_end_to_end"
   ],
   "note": ""
  },
  {
   "property": "C81",
   "status": "proved",
   "theorems": [
    "C81_missing",
    "C81_up_to",
    "C81_few"
   ],
   "note": ""
  },
  {
   "property": "C82",
   "status": "proved",
   "theorems": [
    "C82_edit",
    "C82_edit_index"
   ],
   "note": ""
  },
  {
   "property": "C83",
   "status": "proved",
   "theorems": [
    "C83_same"
   ],
   "note": ""
  },
  {
   "property": "C84",
   "status": "proved",
   "theorems": [
    "C84_main",
    "C84_patchdd",
    "C84_tool",
    "C84_usage",
    "C84_tool_usage",
    "C84_unknown_refuted"
   ],
   "note": "The code violates the unrestricted claim: see the _refuted theorem (witness evaluated in the model); the other theorems prove what does hold."
  },
  {
   "property": "C85",
   "status": "proved",
   "theorems": [
    "C85_memory"
   ],
   "note": ""
  },
  {
   "property": "C86",
   "status": "proved",
   "theorems": [
    "C86_no_failure",
    "C86_succeeds",
    "C86_end_to_end"
   ],
   "note": ""
  },
  {
   "property": "C87",
   "status": "proved",
   "theorems": [
    "C87_schedule",
    "C87_outcome"
   ],
   "note": ""
  },
  {
   "property": "C88",
   "status": "proved",
   "theorems": [
    "C88_exact",
    "C88_refuted"
   ],
   "note": "The code violates the unrestricted claim: see the _refuted theorem (witness evaluated in the model); the other theorems prove what does hold."
  },
  {
   "property": "C89",
   "status": "proved",
   "theorems": [
    "C89_given_up"
   ],
   "note": ""
  },
  {
   "property": "C90",
   "status": "proved",
   "theorems": [
    "C90_update"
   ],
   "note": ""
  },
  {
   "property": "C91",
   "status": "proved",
   "theorems": [
    "C91_chunks",
    "C91_sizes",
    "C91_windows",
    "C91_discriminator",
    "C91_index",
    "C91_update"
   ],
   "note": ""
  },
  {
   "property": "C92",
   "status": "proved",
   "theorems": [
    "C92_difference",
    "C92_known",
    "C92_refuted",
    "C92_sizes",
    "C92_malleable"
   ],
   "note": "The code violates the unrestricted claim: see the _refuted theorem (witness evaluated in the model); the other theorems prove what does hold."
  },
  {
   "property": "C93",
   "status": "proved",
   "theorems": [
    "C93_sources",
    "C93_success",
    "C93_unavailable",
    "C93_only",
    "C93_corrupted"
   ],
   "note": ""
  },
  {
   "property": "C94",
   "status": "proved",
   "theorems": [
    "C94_offered",
    "C94_repair"
   ],
   "note": ""
  },
  {
   "property": "C95",
   "status": "proved",
   "theorems": [
    "C95_screen",
    "C95_patchdd",
    "C95_width",
    "C95_spinner",
    "C95_refuted"
   ],
   "note": "The code violates the unrestricted claim: see the _refuted theorem (witness evaluated in the model); the other theorems prove what does hold."
  },
  {
   "property": "C96",
   "status": "proved",
   "theorems": [
    "C96_diary",
    "C96_fresh",
    "C96_image"
   ],
   "note": ""
  },
  {
   "property": "C97",
   "status": "proved",
   "theorems": [
    "C97_new",
    "C97_image",
    "C97_once"
   ],
   "note": ""
  },
  {
   "property": "C98",
   "status": "proved",
   "theorems": [
    "C98_component",
    "C98_called",
    "C98_csn",
    "C98_other",
    "C98_tools"
   ],
   "note": ""
  },
  {
   "property": "C99",
   "status": "proved",
   "theorems": [
    "C99_outline",
    "C99_fresh",
    "C99_gapless"
   ],
   "note": ""
  },
  {
   "property": "C100",
   "status": "proved",
   "theorems": [
    "C100_csn",
    "C100_patchdd",
    "C100_same",
    "C100_empty_refuted"
   ],
   "note": "The code violates the unrestricted claim: see the _refuted theorem (witness evaluated in the model); the other theorems prove what does hold."
  },
  {
   "property": "C101",
   "status": "proved",
   "theorems": [
    "C101_replayed",
    "C101_frontier",
    "C101_attempts",
    "C101_kept"
   ],
   "note": ""
  },
  {
   "property": "C102",
   "status": "proved",
   "theorems": [
    "C102_progress",
    "C102_total"
   ],
   "note": ""
  },
  {
   "property": "C103",
   "status": "proved",
   "theorems": [
    "C103_forward",
    "C103_total"
   ],
   "note": ""
  },
  {
   "property": "C104",
   "status": "proved",
   "theorems": [
    "C104_fits",
    "C104_cut",
    "C104_stops"
   ],
   "note": ""
  },
  {
   "property": "C105",
   "status": "proved",
   "theorems": [
    "C105_transferred"
   ],
   "note": ""
  },
  {
   "property": "C106",
   "status": "proved",
   "theorems": [
    "C106_patch_mixed",
    "C106_patch_done",
    "C106_sync_blended",
    "C106_sync_done"
   ],
   "note": ""
  },
  {
   "property": "C107",
   "status": "proved",
   "theorems": [
    "C107_same",
    "C107_counted",
    "C107_printed",
    "C107_line"
   ],
   "note": ""
  },
  {
   "property": "C108",
   "status": "proved",
   "theorems": [
    "C108_transfers",
    "C108_all"
   ],
   "note": ""
  },
  {
   "property": "C109",
   "status": "proved",
   "theorems": [
    "C109_line",
    "C109_chunker",
    "C109_hash"
   ],
   "note": ""
  }
 ]
}
{
 "claims": [
  {
   "property": "C01",
   "status": "proved",
   "theorems": [
    "c01_base58_round_trip"
   ],
   "note": ""
  },
  {
   "property": "C02",
   "status": "proved",
   "theorems": [
    "c02_base58_canonical",
    "c02_base58_order",
    "c02_base58_injective"
   ],
   "note": ""
  },
  {
   "property": "C03",
   "status": "proved",
   "theorems": [
    "c03_base58_decode_rejects",
    "c03_base58_decode_failure_is_zero",
    "c03_base58_decode_value",
    "c03_base58_decode_not_injective_refuted",
    "c03_base58_decode_overflow_refuted"
   ],
   "note": "the statement includes the wrap; the two _refuted theorems show decoding is not injective and overflow is silent"
  },
  {
   "property": "C04",
   "status": "proved",
   "theorems": [
    "c04_int64_round_trip",
    "c04_int32_round_trip",
    "c04_int16_round_trip",
    "c04_bytes8_round_trip",
    "c04_bytes4_round_trip",
    "c04_bytes2_round_trip",
    "c04_int64_big_endian",
    "c04_int32_big_endian",
    "c04_int16_big_endian"
   ],
   "note": ""
  },
  {
   "property": "C05",
   "status": "proved",
   "theorems": [
    "c05_short_slices",
    "c05_long_slices"
   ],
   "note": ""
  },
  {
   "property": "C06",
   "status": "proved",
   "theorems": [
    "c06_int_array_round_trip",
    "c06_int_array_decode"
   ],
   "note": ""
  },
  {
   "property": "C07",
   "status": "proved",
   "theorems": [
    "c07_crc8_is_polynomial_remainder",
    "c07_crc8_incremental",
    "c07_crc8_residue"
   ],
   "note": ""
  },
  {
   "property": "C08",
   "status": "proved",
   "theorems": [
    "c08_crc8_detects_bursts",
    "c08_crc8_detects_odd_errors",
    "c08_crc8_detects_two_bits",
    "c08_crc8_misses_distance_127_refuted"
   ],
   "note": ""
  },
  {
   "property": "C09",
   "status": "proved",
   "theorems": [
    "c09_uuid_version_variant",
    "c09_uuid_string_shape"
   ],
   "note": ""
  },
  {
   "property": "C10",
   "status": "proved",
   "theorems": [
    "c10_uuid_parse_string",
    "c10_uuid_parse_language",
    "c10_uuid_parse_result",
    "c10_uuid_parse_value"
   ],
   "note": ""
  },
  {
   "property": "C11",
   "status": "proved",
   "theorems": [
    "c11_uuid_unique",
    "c11_uuid_wraps_refuted"
   ],
   "note": "any number of goroutines, hash an arbitrary oracle per call; c11_uuid_wraps_refuted shows why the count is bounded"
  },
  {
   "property": "C12",
   "status": "partial",
   "theorems": [
    "c12_uuid_variant_partial",
    "c12_uuid_variant_refuted",
    "c12_uuid_variant_early_partial"
   ],
   "note": "REFUTED as stated (c12_uuid_variant_refuted): bytes 0xA0..0xBF are reported as 0; proved exactly where it is right"
  },
  {
   "property": "C13",
   "status": "partial",
   "theorems": [
    "c13_uuid_equals_partial",
    "c13_uuid_equals_refuted"
   ],
   "note": "REFUTED as stated (c13_uuid_equals_refuted): pointer comparison"
  },
  {
   "property": "C14",
   "status": "proved",
   "theorems": [
    "c14_aes_round_trip",
    "c14_aes_round_trip_one_string",
    "c14_aes_is_standard_cbc"
   ],
   "note": "Round trip for every plaintext slice, iv and key; ciphertext shown to be standard AES-256-CBC/PKCS#7 under SHA-256(key), MD5(iv). AES, MD5, SHA-256 are implemented from the standards."
  },
  {
   "property": "C15",
   "status": "proved",
   "theorems": [
    "c15_aes_decrypt_any_input",
    "c15_aes_no_authentication"
   ],
   "note": "Exact result and exact panic set of DecrypterCbc; no authentication."
  },
  {
   "property": "C16",
   "status": "partial",
   "theorems": [
    "c16_aes_encrypt_preserves_src_refuted",
    "c16_aes_encrypt_no_room_partial",
    "c16_aes_encrypt_room_overwrites_partial"
   ],
   "note": "REFUTED: with spare capacity for the padding, EncrypterCbc overwrites the caller's plaintext (c16_..._refuted). Proved: exactly when it does, and that nothing else changes."
  },
  {
   "property": "C17",
   "status": "proved",
   "theorems": [
    "c17_limitmap_refines"
   ],
   "note": ""
  },
  {
   "property": "C18",
   "status": "partial",
   "theorems": [
    "c18_limitmap_capacity_refuted",
    "c18_limitmap_capacity_partial",
    "c18_limitmap_capacity_tight"
   ],
   "note": "REFUTED as stated (c18_limitmap_capacity_refuted): capacity+1 entries; the exact bound max(1,capacity+1) is proved and shown reached for every capacity"
  },
  {
   "property": "C19",
   "status": "proved",
   "theorems": [
    "c19_limithash_refines",
    "c19_limithash_constructor"
   ],
   "note": ""
  },
  {
   "property": "C20",
   "status": "partial",
   "theorems": [
    "c20_limithash_capacity_refuted",
    "c20_limithash_capacity_partial",
    "c20_limithash_capacity_tight"
   ],
   "note": "REFUTED as stated (c20_limithash_capacity_refuted); the exact bound is proved and shown reached for every capacity and segment count; the claim holds when capacity >= segments"
  },
  {
   "property": "C21",
   "status": "partial",
   "theorems": [
    "c21_limithash_integer_keys",
    "c21_limithash_string_keys_refuted"
   ],
   "note": "proved for every integer key type and for float64 by bit pattern; REFUTED for strings with a concrete FNV-1a collision; float32 keys are not modelled"
  },
  {
   "property": "C22",
   "status": "partial",
   "theorems": [
    "c22_limithash_nil_refuted",
    "c22_limithash_non_nil_partial"
   ],
   "note": "REFUTED as stated (c22_limithash_nil_refuted); proved for histories without nil values"
  },
  {
   "property": "C23",
   "status": "proved",
   "theorems": [
    "c23_linked_refines"
   ],
   "note": ""
  },
  {
   "property": "C24",
   "status": "proved",
   "theorems": [
    "c24_linked_limit"
   ],
   "note": ""
  },
  {
   "property": "C25",
   "status": "proved",
   "theorems": [
    "c25_linked_iteration",
    "c25_linked_iteration_deleting"
   ],
   "note": ""
  },
  {
   "property": "C26",
   "status": "partial",
   "theorems": [
    "c26_linked_iterator_stale_refuted",
    "c26_linked_iterator_stops_early_refuted",
    "c26_linked_iterator_after_clear_refuted",
    "c26_linked_iterator_pending_partial"
   ],
   "note": "REFUTED as stated in three ways; proved that a pending entry that stays in the map and is not stored again is returned correctly"
  },
  {
   "property": "C27",
   "status": "partial",
   "theorems": [
    "c27_load_or_store_keeps_refuted",
    "c27_load_or_store_partial"
   ],
   "note": "REFUTED as stated (c27_load_or_store_keeps_refuted); the returned pair is right, the store is not"
  },
  {
   "property": "C28",
   "status": "proved",
   "theorems": [
    "c28_map_answers",
    "c28_map_range"
   ],
   "note": ""
  },
  {
   "property": "C29",
   "status": "proved",
   "theorems": [
    "c29_mapl_len",
    "c29_mapl_len_quiescent"
   ],
   "note": ""
  },
  {
   "property": "C30",
   "status": "proved",
   "theorems": [
    "c30_treemap_answers",
    "c30_treemap_ascend",
    "c30_treemap_descend",
    "c30_treemap_new"
   ],
   "note": ""
  },
  {
   "property": "C31",
   "status": "proved",
   "theorems": [
    "c31_crc64_is_a_hash",
    "c31_nodes",
    "c31_lookup_live",
    "c31_get_owner",
    "c31_getstr_owner",
    "c31_owner_unique",
    "c31_one_replica_no_collision"
   ],
   "note": ""
  },
  {
   "property": "C32",
   "status": "proved",
   "theorems": [
    "c32_add_moves_to_new",
    "c32_del_moves_only_its_own",
    "c32_history_independent",
    "c32_add_del_restores"
   ],
   "note": ""
  },
  {
   "property": "C33",
   "status": "partial",
   "theorems": [
    "c33_empty_ring_lookup_refuted",
    "c33_lookup_no_panic_partial"
   ],
   "note": "REFUTED as stated (c33_empty_ring_lookup_refuted); proved exactly when a lookup panics, and that it does not on a ring with a node and no collision"
  },
  {
   "property": "C34",
   "status": "partial",
   "theorems": [
    "c34_partner_refuted",
    "c34_points_kept_partial"
   ],
   "note": "REFUTED for every node with two replicas (c34_partner_refuted, using the linearity of CRC64); proved when no two nodes ever added share a point"
  },
  {
   "property": "C35",
   "status": "proved",
   "theorems": [
    "c35_next_nodes",
    "c35_next_nodes_in_ring_order",
    "c35_does_not_wrap"
   ],
   "note": ""
  },
  {
   "property": "C36",
   "status": "proved",
   "theorems": [
    "c36_lru_refines",
    "c36_lru_bound",
    "c36_lru_most_recent"
   ],
   "note": ""
  },
  {
   "property": "C37",
   "status": "proved",
   "theorems": [
    "c37_no_false_negative",
    "c37_sizes"
   ],
   "note": ""
  },
  {
   "property": "C38",
   "status": "proved",
   "theorems": [
    "c38_contains_exact",
    "c38_forgets",
    "c38_memory"
   ],
   "note": ""
  },
  {
   "property": "C39",
   "status": "partial",
   "theorems": [
    "c39_concurrent_add_refuted",
    "c39_disjoint_words_partial"
   ],
   "note": "REFUTED as stated (c39_concurrent_add_refuted: lost update of a word); proved for goroutines touching different words with no rotation due"
  },
  {
   "property": "C40",
   "status": "proved",
   "theorems": [
    "c40_exclusion",
    "c40_same_key_one_holder",
    "c40_no_panic",
    "c40_outcome",
    "c40_acquisitions_alternate"
   ],
   "note": ""
  },
  {
   "property": "C41",
   "status": "proved",
   "theorems": [
    "c41_writer_alone",
    "c41_no_panic",
    "c41_outcome"
   ],
   "note": ""
  },
  {
   "property": "C42",
   "status": "proved",
   "theorems": [
    "c42_at_most_limit",
    "c42_lock_admits",
    "c42_lock_count",
    "c42_cc_quiet",
    "c42_timeout_changes_nothing",
    "c42_cc_can_be_negative"
   ],
   "note": ""
  },
  {
   "property": "C43",
   "status": "proved",
   "theorems": [
    "c43_delivers",
    "c43_no_foreign_value",
    "c43_never_stuck",
    "c43_no_leak"
   ],
   "note": ""
  },
  {
   "property": "C44",
   "status": "partial",
   "theorems": [
    "c44_registered_waiter_stranded_refuted",
    "c44_sole_waiter_woken_partial"
   ],
   "note": "REFUTED as stated: c44_registered_waiter_stranded_refuted (an earlier waiter's deferred Del unregisters a later waiter, who then sleeps for ever). The partial theorem proves waking when no other wait on the index is in flight, for any number of closers."
  },
  {
   "property": "C45",
   "status": "partial",
   "theorems": [
    "c45_every_waiter_gets_value_refuted",
    "c45_received_at_most_once_partial"
   ],
   "note": "REFUTED as stated: c45_every_waiter_gets_value_refuted (one of two waiters returns the zero value with nil error). The partial theorem proves that a put value is received at most once."
  },
  {
   "property": "C46",
   "status": "proved",
   "theorems": [
    "c46_closer_returns",
    "c46_no_deadlock",
    "c46_wait_results",
    "c46_received_at_most_once",
    "c46_delivers"
   ],
   "note": ""
  },
  {
   "property": "C47",
   "status": "partial",
   "theorems": [
    "c47_reused_id_value_dropped_refuted",
    "c47_fresh_id_waits_partial"
   ],
   "note": "REFUTED as stated for every filter size and hash: c47_reused_id_value_dropped_refuted (the value put for a reused id is dropped and its waiter sleeps for ever). The partial theorem: for an id not wrongly known to the filter the closer keeps waiting for its 30 rounds."
  },
  {
   "property": "C48",
   "status": "proved",
   "theorems": [
    "c48_linearizable",
    "c48_regions",
    "c48_content",
    "c48_outside",
    "c48_final_content",
    "c48_unfit_append"
   ],
   "note": "any number of goroutines mixing Append, AppendSync, WriteAt and WriteAtSync; the copies and msyncs run byte by byte and interleave"
  },
  {
   "property": "C49",
   "status": "proved",
   "theorems": [
    "c49_content",
    "c49_later_append_behind",
    "c49_beyond_end",
    "c49_bad_offset_panics"
   ],
   "note": ""
  },
  {
   "property": "C50",
   "status": "proved",
   "theorems": [
    "c50_msync_range",
    "c50_msync_panics_iff",
    "c50_durable",
    "c50_solaris_refuted",
    "c50_empty_append_sync_refuted"
   ],
   "note": "c50_durable for Unix and Windows; the _refuted theorems record the panic for an empty region at a page-aligned end, and that the Solaris build loses synced data"
  },
  {
   "property": "C51",
   "status": "proved",
   "theorems": [
    "c51_writesync_offset",
    "c51_appends",
    "c51_later_behind"
   ],
   "note": "any number of goroutines, steps are single accesses to the shared variables; no I/O errors"
  },
  {
   "property": "C52",
   "status": "partial",
   "theorems": [
    "c52_write_reaches_file_refuted",
    "c52_write_reaches_file_partial",
    "c52_next_call_partial"
   ],
   "note": "REFUTED: c52_write_reaches_file_refuted. Partial: every returned call is in the file or in the queue exactly once, and the next call made alone empties the queue"
  },
  {
   "property": "C53",
   "status": "partial",
   "theorems": [
    "c53_survives_error_refuted",
    "c53_error_reported_refuted",
    "c53_alone_partial",
    "c53_alone_returns_partial"
   ],
   "note": "REFUTED: c53_survives_error_refuted (blocked for ever), c53_error_reported_refuted (WriteSync returns nil though the flush failed). Partial: a goroutine alone survives any errors"
  },
  {
   "property": "C54",
   "status": "proved",
   "theorems": [
    "c54_int32_bytes",
    "c54_values",
    "c54_concatenation",
    "c54_nil"
   ],
   "note": ""
  },
  {
   "property": "C55",
   "status": "partial",
   "theorems": [
    "c55_reads_partial",
    "c55_reads_refuted",
    "c55_read_all_never_ends_refuted"
   ],
   "note": "REFUTED: a Read that reaches the end does not consume what it returns and io.EOF is never returned, so reading to the end never ends (c55_read_all_never_ends_refuted). Proved: reads that stop short of the end deliver the bytes in order, once."
  },
  {
   "property": "C56",
   "status": "proved",
   "theorems": [
    "c56_exclusive",
    "c56_starts_empty",
    "c56_double_free_refuted"
   ],
   "note": "For programs that free each buffer at most once and do not use it afterwards; c56_double_free_refuted shows the double Free of the statement."
  },
  {
   "property": "C57",
   "status": "partial",
   "theorems": [
    "c57_one_class_refuted",
    "c57_wrong_class_refuted",
    "c57_small_lengths_refuted",
    "c57_reuse_refuted",
    "c57_no_classes_refuted",
    "c57_exclusive_partial",
    "c57_get_partial"
   ],
   "note": "REFUTED: all lengths go to class 0 (or 60). Proved: buffers handed out are empty and exclusive."
  },
  {
   "property": "C58",
   "status": "proved",
   "theorems": [
    "c58_at_most_once"
   ],
   "note": ""
  },
  {
   "property": "C59",
   "status": "partial",
   "theorems": [
    "c59_all_run_refuted",
    "c59_go_returns_refuted",
    "c59_no_permanent_refuted",
    "c59_close_drops_refuted",
    "c59_ends_partial",
    "c59_all_run_partial",
    "c59_none_left_partial"
   ],
   "note": "REFUTED in general: lost wake-up between the tnum check and Unlock, NewPool(0,n) dead-lock, Close drops functions. Proved: with only Go and minlimit >= 1 every run ends after at most 22 steps per function, and at its end each accepted function was started or is still queued with no dispatcher running; if NumUnExecu is 0 then all were started."
  },
  {
   "property": "C60",
   "status": "partial",
   "theorems": [
    "c60_max_refuted",
    "c60_sum_partial"
   ],
   "note": "REFUTED: 3 functions run at once in NewPool(1,2). Proved: minlimit + maxlimit is a bound (and is reached)."
  },
  {
   "property": "C61",
   "status": "proved",
   "theorems": [
    "c61_round_trip",
    "c61_injective",
    "c61_unknown_fields_are_skipped",
    "c61_truncation_is_reported",
    "c61_nil_users_cannot_be_read",
    "c61_reading_terminates"
   ],
   "note": "Round trip for every KeyBean within the protocol limits and every iteration order, with trailing bytes; documents with unknown fields of every wire type up to 64 levels deep, repeated and reordered fields; strict prefixes and nil users are rejected; reading never needs more rounds than bytes. The thrift library is modelled from its published code (type 13, UUID, left out)."
  },
  {
   "property": "C62",
   "status": "partial",
   "theorems": [
    "c62_nothing_survives_a_restart",
    "c62_persists_refuted",
    "c62_persists_partial",
    "c62_history_persists_partial",
    "c62_closing_the_writer_suffices_partial"
   ],
   "note": "REFUTED: with util.Zlib as it is nothing put is there after Load, for every content and every conforming compressor (c62_nothing_survives_a_restart). Proved: with compression that can be undone a restart changes nothing, and closing the writer suffices."
  },
  {
   "property": "C63",
   "status": "proved",
   "theorems": [
    "c63_history",
    "c63_sections_are_independent",
    "c63_lists"
   ],
   "note": ""
  },
  {
   "property": "C64",
   "status": "partial",
   "theorems": [
    "c64_crash_atomic_refuted",
    "c64_crash_loses_everything_refuted",
    "c64_crash_states_partial",
    "c64_crash_load_partial"
   ],
   "note": "REFUTED: a crash after Truncate leaves neither. Proved: a crash leaves the old file or a prefix of the new one, and a prefix the decompressor accepts loads as the new store or an empty one."
  },
  {
   "property": "C65",
   "status": "proved",
   "theorems": [
    "c65_contract_is_met",
    "c65_zlib_round_trip",
    "c65_gzip_round_trip",
    "c65_truncated_is_reported",
    "c65_zlib_injective"
   ],
   "note": "For every codec that meets the contract of compress/zlib and compress/gzip (Compress_Model.conforming); stored_conforming shows one that does, and C137 derives it for the modelled readers from the format of the writers."
  },
  {
   "property": "C66",
   "status": "partial",
   "theorems": [
    "c66_zliblevel_never_decompresses",
    "c66_zliblevel_round_trip_refuted",
    "c66_zliblevel_partial"
   ],
   "note": "REFUTED: compress.UnZlib rejects every output of ZlibLevel. Proved: util.UnZlib returns the input."
  },
  {
   "property": "C67",
   "status": "partial",
   "theorems": [
    "c67_util_gzip_round_trip",
    "c67_util_zlib_never_round_trips",
    "c67_util_zlib_round_trip_refuted",
    "c67_truncation_reported_refuted",
    "c67_truncated_partial",
    "c67_util_unzlib_reads_closed_streams"
   ],
   "note": "REFUTED: util.UnZlib(util.Zlib x) is never x for non-empty x; read errors are dropped. Proved: the gzip round trip, and exactly what comes back from a cut stream."
  },
  {
   "property": "C68",
   "status": "partial",
   "theorems": [
    "c68_resize_never_enlarges_refuted",
    "c68_resize_never_enlarges_partial"
   ],
   "note": "REFUTED: modes 1 and 5 with one side 0 use the other for both, so 10x100 asked for 0x50 becomes 50x50. Proved for all other modes, and for these with both sides non-zero."
  },
  {
   "property": "C69",
   "status": "partial",
   "theorems": [
    "c69_mode0_fits_refuted",
    "c69_mode0_fits_partial"
   ],
   "note": "REFUTED: 1000x100 asked for 50x40 becomes 400x40. Proved when one side of the box is not smaller than the image or the smaller side of the box is the one that binds."
  },
  {
   "property": "C70",
   "status": "proved",
   "theorems": [
    "c70_limit",
    "c70_proportion"
   ],
   "note": ""
  },
  {
   "property": "C71",
   "status": "partial",
   "theorems": [
    "c71_clamp",
    "c71_crop_inside",
    "c71_by_anchor_refuted",
    "c71_by_anchor_partial",
    "c71_by_side_partial"
   ],
   "note": "REFUTED for images whose bounds do not start at (0, 0). Proved for all others; clamp and cropImage in full."
  },
  {
   "property": "C72",
   "status": "proved",
   "theorems": [
    "c72_sniff",
    "c72_short",
    "c72_icon",
    "c72_icon_order",
    "c72_quality",
    "c72_encoders",
    "c72_encoder_values"
   ],
   "note": ""
  },
  {
   "property": "C73",
   "status": "proved",
   "theorems": [
    "c73_open_first",
    "c73_once",
    "c73_loop_ended",
    "c73_shut_silent",
    "c73_late_calls_fail",
    "c73_ends"
   ],
   "note": ""
  },
  {
   "property": "C74",
   "status": "partial",
   "theorems": [
    "c74_refused",
    "c74_files_partial",
    "c74_bytes_partial",
    "c74_no_ca",
    "c74_tls_or_not",
    "c74_both_refuted",
    "c74_https_partial",
    "c74_https_refuted"
   ],
   "note": "REFUTED: CertBytes are ignored beside CertFiles; HTTPS: in capitals is verified. Proved for files alone, bytes alone, neither, ws:, other schemes, and https: in small letters."
  },
  {
   "property": "C75",
   "status": "partial",
   "theorems": [
    "c75_every_signal_refuted",
    "c75_first_only_partial",
    "c75_first_handled_partial"
   ],
   "note": "REFUTED: only the first signal is handled. Proved: at most once, with the first one; and it is handled once the goroutine runs."
  },
  {
   "property": "C76",
   "status": "proved",
   "theorems": [
    "c76_one_lock_linearizable",
    "c76_never_stuck",
    "c76_limitmap_linearizable",
    "c76_lru_linearizable",
    "c76_treemap_linearizable",
    "c76_linked_linearizable",
    "c76_limithash_linearizable"
   ],
   "note": ""
  },
  {
   "property": "C77",
   "status": "partial",
   "theorems": [
    "c77_get_linearizable_refuted",
    "c77_get_linearizable_partial",
    "c77_get_sees_over_limit_refuted",
    "c77_get_phantom_refuted",
    "c77_get_single_partial"
   ],
   "note": "REFUTED as stated (limit+1 keys visible; a phantom entry with limit 0; two Gets that no order explains). Proved: each single Get is before-or-after consistent for limit >= 1; linearizable with all Gets while at most limit different keys are stored"
  },
  {
   "property": "C78",
   "status": "proved",
   "theorems": [
    "c78_concat",
    "c78_md5str",
    "c78_sha1str",
    "c78_randuint_range",
    "c78_randuint_fair",
    "c78_is_file_exist"
   ],
   "note": ""
  },
  {
   "property": "C79",
   "status": "proved",
   "theorems": [
    "c79_uuid_base58",
    "c79_uuid_first_half"
   ],
   "note": ""
  },
  {
   "property": "C80",
   "status": "partial",
   "theorems": [
    "c80_slice_not_kept_refuted",
    "c80_writesync_partial"
   ],
   "note": "REFUTED: c80_slice_not_kept_refuted. Partial: true for WriteSync"
  },
  {
   "property": "C81",
   "status": "partial",
   "theorems": [
    "c81_turned_off_refuted",
    "c81_close_refuted",
    "c81_send_refuted",
    "c81_panic_partial"
   ],
   "note": "REFUTED after TurnOff(true) and around Close. Proved: no crash when only Go is used."
  },
  {
   "property": "C82",
   "status": "proved",
   "theorems": [
    "c82_bytes_stable",
    "c82_stale_refuted"
   ],
   "note": "The statement is proved for programs that keep to the rules of Buffer_Spec; c82_stale_refuted shows what happens after Reset."
  },
  {
   "property": "C83",
   "status": "partial",
   "theorems": [
    "c83_by_slice_refuted",
    "c83_by_slice_partial"
   ],
   "note": "REFUTED: c83_by_slice_refuted. Proved: the bytes of the slice itself are kept by writes, and the buffer shows them followed by what was written."
  },
  {
   "property": "C84",
   "status": "proved",
   "theorems": [
    "c84_put_clears",
    "c84_put_answers",
    "c84_copied_refuted"
   ],
   "note": "c84_copied_refuted shows the case of a copied pointer."
  },
  {
   "property": "C85",
   "status": "proved",
   "theorems": [
    "c85_rand_strict_range",
    "c85_rand_strict_fair",
    "c85_rand_strict_all_values"
   ],
   "note": ""
  },
  {
   "property": "C86",
   "status": "proved",
   "theorems": [
    "c86_fnv32_one_byte",
    "c86_fnv64_one_byte"
   ],
   "note": ""
  },
  {
   "property": "C87",
   "status": "partial",
   "theorems": [
    "c87_put_after_load_panics_refuted",
    "c87_no_panic_partial",
    "c87_load_is_ready_partial"
   ],
   "note": "REFUTED: a file holding the byte 0 makes Put panic after Load. Proved: no history panics once the four maps exist, and they exist after loading an empty, undecodable or own file."
  },
  {
   "property": "C88",
   "status": "partial",
   "theorems": [
    "c88_equals_refuted",
    "c88_equals_partial"
   ],
   "note": "REFUTED: {a: \"\"} equals {b: \"x\"} but not the other way round. Proved: equality of contents if the left side has no nil users and no empty values."
  },
  {
   "property": "C89",
   "status": "proved",
   "theorems": [
    "c89_keeps_ratio",
    "c89_never_vanishes"
   ],
   "note": ""
  },
  {
   "property": "C90",
   "status": "proved",
   "theorems": [
    "c90_scale_lower_fits"
   ],
   "note": ""
  },
  {
   "property": "C91",
   "status": "partial",
   "theorems": [
    "c91_scale_upper_covers_refuted",
    "c91_scale_upper_nearly_covers_partial",
    "c91_scale_upper_covers_partial"
   ],
   "note": "REFUTED: 1x93 to cover 1x93 gives 1x92. Proved: at most one row is missing, and none if the ratios differ."
  },
  {
   "property": "C92",
   "status": "partial",
   "theorems": [
    "c92_max_pixel_refuted",
    "c92_max_pixel_partial"
   ],
   "note": "REFUTED: 1000x1 with limit 10 gives 100x1. Proved if the limit is at least eight times the ratio of the sides."
  },
  {
   "property": "C93",
   "status": "proved",
   "theorems": [
    "c93_gif_fits",
    "c93_canvas_holds"
   ],
   "note": ""
  },
  {
   "property": "C94",
   "status": "partial",
   "theorems": [
    "c94_gif_reaches_refuted",
    "c94_gif_vanishes_refuted",
    "c94_gif_nearly_reaches_partial"
   ],
   "note": "REFUTED: 22x22 to width 15 gives 14x14; 49x49 to 1x1 gives 0x0. Proved: one side comes within one pixel."
  },
  {
   "property": "C95",
   "status": "partial",
   "theorems": [
    "c95_webp_refuted",
    "c95_avif_refuted",
    "c95_avif_never",
    "c95_webp_partial"
   ],
   "note": "REFUTED: a WAV file is sniffed as webp, and no AVIF file is recognised. Proved: every WebP file is recognised."
  },
  {
   "property": "C96",
   "status": "partial",
   "theorems": [
    "c96_messages_once",
    "c96_messages_all",
    "c96_in_order_refuted",
    "c96_not_after_close_refuted",
    "c96_in_order_partial"
   ],
   "note": "REFUTED: order can change, and OnMessage can run after OnClose. Proved: at most once, exactly once when all has ended; in order if handed over one at a time."
  },
  {
   "property": "C97",
   "status": "proved",
   "theorems": [
    "c97_frames_whole"
   ],
   "note": ""
  },
  {
   "property": "C98",
   "status": "partial",
   "theorems": [
    "c98_error_given_refuted",
    "c98_error_kept_refuted",
    "c98_error_given_partial"
   ],
   "note": "REFUTED: OnError(nil) after an own Close; Error() loses the network error. Proved: OnError gets the network error if nobody closes."
  },
  {
   "property": "C99",
   "status": "proved",
   "theorems": [
    "c99_request",
    "c99_result",
    "c99_invalid",
    "c99_plain"
   ],
   "note": ""
  },
  {
   "property": "C100",
   "status": "partial",
   "theorems": [
    "c100_headers",
    "c100_cookie",
    "c100_order_partial",
    "c100_order_refuted"
   ],
   "note": "REFUTED: names that differ in capitals only. Proved: independent of the order of the map if there are none; each header sent was given; cookie."
  },
  {
   "property": "C101",
   "status": "partial",
   "theorems": [
    "c101_len_atomic_refuted",
    "c101_clear_atomic_refuted",
    "c101_clear_partial",
    "c101_len_partial"
   ],
   "note": "REFUTED: Len and Clear work segment by segment. Proved instead: once no Put is pending, every call made after a Clear returned finds the map empty; while only reads are pending, Len is the number of entries; the other methods are linearizable across segments (C76)."
  },
  {
   "property": "C102",
   "status": "partial",
   "theorems": [
    "c102_negative_start_refuted",
    "c102_open_partial"
   ],
   "note": "REFUTED: a negative start is accepted and the first Append that fits panics. Proved: starts that are not negative are accepted iff inside the file, and the first Append is made there."
  },
  {
   "property": "C103",
   "status": "proved",
   "theorems": [
    "c103_rsa_round_trip",
    "c103_too_long",
    "c103_decrypt_exactly",
    "c103_key_files"
   ],
   "note": ""
  },
  {
   "property": "C104",
   "status": "partial",
   "theorems": [
    "c104_errors_reported_refuted",
    "c104_errors_reported_partial"
   ],
   "note": "REFUTED: a text without an RSA key gives nil and a nil error. Proved for texts with an RSA key."
  },
  {
   "property": "C105",
   "status": "proved",
   "theorems": [
    "c105_default_keys"
   ],
   "note": "Includes the primality of the two numbers of 512 bits, by certificates for a test of Lenstra (Prime_Check.v, Prime_Proofs.v, Prime_P.v, Prime_Q.v). Rests on the axioms of the standard library about its primitive integers, used by Bignums to check the certificates."
  },
  {
   "property": "C106",
   "status": "partial",
   "theorems": [
    "c106_read_back",
    "c106_new_partial",
    "c106_new_refuted",
    "c106_closed"
   ],
   "note": "REFUTED for New over a file not opened for appending once WriteAt is used. Proved for Open with every call, and for New without WriteAt."
  },
  {
   "property": "C107",
   "status": "partial",
   "theorems": [
    "c107_write_at_refuted",
    "c107_write_at_partial"
   ],
   "note": "REFUTED: on files from Open every WriteAt fails. Proved for open files not opened for appending."
  },
  {
   "property": "C108",
   "status": "partial",
   "theorems": [
    "c108_read_refuted",
    "c108_read_at_partial"
   ],
   "note": "REFUTED: Read is at the end always. Proved: ReadAt gives every part of the file."
  },
  {
   "property": "C109",
   "status": "proved",
   "theorems": [
    "c109_round_trip",
    "c109_too_large"
   ],
   "note": ""
  },
  {
   "property": "C110",
   "status": "proved",
   "theorems": [
    "c110_decode_exactly",
    "c110_one_meaning"
   ],
   "note": ""
  },
  {
   "property": "C111",
   "status": "partial",
   "theorems": [
    "c111_errors_refuted",
    "c111_errors_partial"
   ],
   "note": "REFUTED: malformed input gives nil, as the encoding of no bytes does. Proved: an answer that is not nil is right."
  },
  {
   "property": "C112",
   "status": "proved",
   "theorems": [
    "c112_crc32_is_standard",
    "c112_crc64_is_standard",
    "c112_incremental",
    "c112_residue",
    "c112_consistenthash_uses_crc64"
   ],
   "note": ""
  },
  {
   "property": "C113",
   "status": "proved",
   "theorems": [
    "c113_crc32_detects_bursts",
    "c113_crc32_detects_two_bits",
    "c113_crc32_detects_three_bits",
    "c113_crc32_misses_distance_refuted",
    "c113_crc32_misses_odd_refuted"
   ],
   "note": ""
  },
  {
   "property": "C114",
   "status": "proved",
   "theorems": [
    "c114_crc64_detects_bursts",
    "c114_crc64_detects_odd_errors",
    "c114_crc64_detects_two_bits",
    "c114_crc64_misses_distance_refuted"
   ],
   "note": ""
  },
  {
   "property": "C115",
   "status": "proved",
   "theorems": [
    "c115_crc32_suffix",
    "c115_crc64_suffix"
   ],
   "note": ""
  },
  {
   "property": "C116",
   "status": "proved",
   "theorems": [
    "c116_orientation",
    "c116_undone",
    "c116_two_calls_are_one"
   ],
   "note": ""
  },
  {
   "property": "C117",
   "status": "partial",
   "theorems": [
    "c117_degrees_modulo_360_partial",
    "c117_degrees_modulo_360_refuted"
   ],
   "note": "REFUTED for ints above 2^53 in size (2^54 + 26 is taken for 88 modulo 360); proved for all below."
  },
  {
   "property": "C118",
   "status": "proved",
   "theorems": [
    "c118_gray_is_nearest_luma",
    "c118_gray_twice_is_gray_once",
    "c118_brighter_stays_brighter"
   ],
   "note": ""
  },
  {
   "property": "C119",
   "status": "partial",
   "theorems": [
    "c119_invert_twice",
    "c119_colours_and_places_commute",
    "c119_gray_of_negative_refuted",
    "c119_gray_of_negative_partial"
   ],
   "note": "The clause about gray and negative is REFUTED (off by one); it holds within one step, the other clauses are proved."
  },
  {
   "property": "C120",
   "status": "proved",
   "theorems": [
    "c120_one_by_one",
    "c120_no_options",
    "c120_filters"
   ],
   "note": ""
  },
  {
   "property": "C121",
   "status": "partial",
   "theorems": [
    "c121_missing_crop_refuted",
    "c121_quality_and_colors_refuted",
    "c121_unknown_format_refuted",
    "c121_applied_partial"
   ],
   "note": "REFUTED: crops outside of the image, unknown formats, Quality and Colors are ignored without an error; proved for results with a pixel in a format that keeps pixels."
  },
  {
   "property": "C122",
   "status": "partial",
   "theorems": [
    "c122_size",
    "c122_lower_fits",
    "c122_upper_nearly_covers",
    "c122_thumbnail",
    "c122_fits_request_refuted"
   ],
   "note": "The clause about the requested size is REFUTED for odd quarter turns; the other clauses are proved, those about boxes for Rotate a multiple of 180."
  },
  {
   "property": "C123",
   "status": "proved",
   "theorems": [
    "c123_close_persists",
    "c123_closed_stays",
    "c123_unmap_keeps",
    "c123_bytes_and_size",
    "c123_same_writes"
   ],
   "note": ""
  },
  {
   "property": "C124",
   "status": "partial",
   "theorems": [
    "c124_error_after_close_refuted",
    "c124_nothing_happens_partial",
    "c124_slice_is_nil_partial"
   ],
   "note": "REFUTED: writes after Close panic (c124_error_after_close_refuted); that nothing happens is proved."
  },
  {
   "property": "C125",
   "status": "partial",
   "theorems": [
    "c125_closes_file_refuted",
    "c125_closes_file_partial"
   ],
   "note": "REFUTED after Close and when munmap fails; the exact condition is proved."
  },
  {
   "property": "C126",
   "status": "partial",
   "theorems": [
    "c126_no_leak_refuted",
    "c126_no_leak_partial"
   ],
   "note": "REFUTED: a start offset outside of the file leaks a mapping; it is proved to be the only way."
  },
  {
   "property": "C127",
   "status": "partial",
   "theorems": [
    "c127_append_during_close_refuted",
    "c127_bytes_after_close_refuted",
    "c127_release_last_partial",
    "c127_released_once"
   ],
   "note": "REFUTED for Append and for slices from Bytes; proved if giving the mapping back is the last call."
  },
  {
   "property": "C128",
   "status": "proved",
   "theorems": [
    "c128_calendar",
    "c128_shows",
    "c128_since_1992"
   ],
   "note": ""
  },
  {
   "property": "C129",
   "status": "partial",
   "theorems": [
    "c129_order_refuted",
    "c129_order_partial"
   ],
   "note": "REFUTED for 1986-05-04 02:30:00 and others skipped by summer time; proved from 1992 on."
  },
  {
   "property": "C130",
   "status": "partial",
   "theorems": [
    "c130_format_refuted",
    "c130_format_partial",
    "c130_numbers_decide",
    "c130_otherwise_error"
   ],
   "note": "REFUTED: blanks, one-digit hours and fractions are accepted; the exact language is proved."
  },
  {
   "property": "C131",
   "status": "partial",
   "theorems": [
    "c131_no_panic_refuted",
    "c131_no_panic_partial"
   ],
   "note": "REFUTED without a time zone database; proved to be the only way."
  },
  {
   "property": "C132",
   "status": "partial",
   "theorems": [
    "c132_md5_tells_apart_refuted",
    "c132_sha1_tells_apart_refuted",
    "c132_password_and_iv_refuted",
    "c132_md5_collision_partial",
    "c132_sha1_collision_partial"
   ],
   "note": "REFUTED: for every continuation x, the published MD5 and SHA-1 collisions followed by x collide; one password stands for another in the store. Proved: a collision comes with a collision of the compression function."
  },
  {
   "property": "C133",
   "status": "proved",
   "theorems": [
    "c133_md5_extension",
    "c133_sha1_extension"
   ],
   "note": ""
  },
  {
   "property": "C134",
   "status": "proved",
   "theorems": [
    "c134_blake2b_total",
    "c134_blake2b_collision"
   ],
   "note": ""
  },
  {
   "property": "C135",
   "status": "proved",
   "theorems": [
    "c135_unzlib_exact",
    "c135_otherwise_error",
    "c135_one_meaning",
    "c135_util_unzlib"
   ],
   "note": "compress/flate and compress/zlib readers modelled from their source; sound and complete for relations written after the RFCs."
  },
  {
   "property": "C136",
   "status": "proved",
   "theorems": [
    "c136_ungzip_exact",
    "c136_otherwise_error",
    "c136_one_meaning",
    "c136_concatenation",
    "c136_util_ungzip"
   ],
   "note": "compress/gzip reader modelled from its source; sound and complete for relations written after the RFCs."
  },
  {
   "property": "C137",
   "status": "partial",
   "theorems": [
    "c137_zlib_cut_is_reported",
    "c137_gzip_cut_is_reported_refuted",
    "c137_gzip_cut_partial",
    "c137_zlib_contract",
    "c137_gzip_contract",
    "c137_helpers",
    "c137_writers_exist"
   ],
   "note": "REFUTED for files of several members: cut between two of them they are files again. Proved: every cut of a zlib stream and of a file of one member (what Gzip makes) is reported; what is delivered is always a beginning; the contract of C65-C67 follows from the format of the writers."
  },
  {
   "property": "C138",
   "status": "proved",
   "theorems": [
    "c138_at_most_1032",
    "c138_no_limit"
   ],
   "note": "Both the bound and a family of streams that reaches it."
  },
  {
   "property": "C139",
   "status": "proved",
   "theorems": [
    "c139_altered_data",
    "c139_small_damage_is_reported"
   ],
   "note": "The last part uses C113 (CRC-32 detects bursts)."
  },
  {
   "property": "C140",
   "status": "proved",
   "theorems": [
    "c140_at_most_once",
    "c140_limit_and_panics"
   ],
   "note": ""
  },
  {
   "property": "C141",
   "status": "partial",
   "theorems": [
    "c141_nested_go_returns_refuted",
    "c141_few_calls_partial"
   ],
   "note": "REFUTED for every FuncLimit: the only worker waits in Go for room in the queue, the dispatcher waits for the worker. Proved: with minlimit >= 1 and at most FuncLimit calls of Go altogether (those of clients and of started functions) every call returns and each function was started or is still queued with no dispatcher running (the lost wake-up of C59)."
  },
  {
   "property": "C142",
   "status": "partial",
   "theorems": [
    "c142_sizes",
    "c142_usable_partial",
    "c142_usable_refuted",
    "c142_no_items_refuted"
   ],
   "note": "REFUTED for rates near 1 (c142_usable_refuted: NewBloomFilter(1, 0.9) allocates no bits and loses everything) and for no expected items (c142_no_items_refuted: it panics). Proved: the sizes (c142_sizes), and that every rate of at most 1/2 gives a filter that keeps what is added (c142_usable_partial)."
  },
  {
   "property": "C143",
   "status": "partial",
   "theorems": [
    "c143_rate",
    "c143_asked_rate_refuted",
    "c143_full_refuted",
    "c143_quarter_partial",
    "c143_half_partial",
    "c143_always_partial"
   ],
   "note": "REFUTED twice: all items of the last two generations are searched for, so NewBloomFilter(100, 0.02) has more than seven times the rate at 199 items (c143_asked_rate_refuted); rounding the number of hash functions down gives NewBloomFilter(1000, 0.26) more than 0.28 at 1000 items (c143_full_refuted). Proved: bounds of the rate from below and above that differ by less than a factor (1 + K/(M s))^K, for every history of different items (c143_rate); that the rate asked for is kept up to a quarter of the expected items for rates from 2^-70 to 1/2 (c143_quarter_partial), up to half of them if these are at least 100 (c143_half_partial); and that at any time the fifth power of the rate is at most five times the square of the rate asked for (c143_always_partial)."
  },
  {
   "property": "C144",
   "status": "proved",
   "theorems": [
    "c144_decodes",
    "c144_round_trips"
   ],
   "note": "s2.Decode of klauspost/compress is implemented from its published Go code; the encoder behind compress.Snappy is not modelled, what it writes is by hypothesis snappy."
  },
  {
   "property": "C145",
   "status": "partial",
   "theorems": [
    "c145_reports_refuted",
    "c145_reports_partial",
    "c145_one_meaning_partial"
   ],
   "note": "REFUTED: copies with an offset of 0, errors in snappy, repeat the last offset (c145_reports_refuted). Proved: exactly S2 is accepted, with one meaning, that of snappy if the block is snappy."
  },
  {
   "property": "C146",
   "status": "partial",
   "theorems": [
    "c146_memory_refuted",
    "c146_memory_partial"
   ],
   "note": "REFUTED: five bytes can make both allocate any size up to 4 GiB and then fail (c146_memory_refuted). Proved: less than 4 GiB, exactly the length of the result when there is one, and bounds of 64/3 and 3368551 for the ratio then."
  },
  {
   "property": "C147",
   "status": "partial",
   "theorems": [
    "c147_one_colour_partial",
    "c147_one_colour_scaled_up_partial",
    "c147_one_colour_scaled_down_partial"
   ],
   "note": "Proved for every filter, for ScaleUpper and ScaleLower, for pictures and results with sides up to a million; missing: larger sides, thumbnails of pictures with sides above 1000 with one side left open. Contracts: math.Exp right within a relative error of 2^-40 (filter 7), math.Sin and math.Cos within 2^-45 between -16 and 16 (filters 8 to 14, ScaleUpper, ScaleLower)."
  },
  {
   "property": "C148",
   "status": "partial",
   "theorems": [
    "c148_one_alpha_partial",
    "c148_one_alpha_scaled_up_partial",
    "c148_one_alpha_scaled_down_partial"
   ],
   "note": "Proved for every filter, for ScaleUpper and ScaleLower, with sides up to a million; missing and contracts as for C147."
  },
  {
   "property": "C149",
   "status": "partial",
   "theorems": [
    "c149_no_new_colours_refuted",
    "c149_no_new_colours_partial"
   ],
   "note": "REFUTED for MitchellNetravali (the default for unknown numbers) and CatmullRom: 100, 100, 200, 200 becomes 97, 150, 203; proved for the filters whose kernel is nowhere negative."
  },
  {
   "property": "C150",
   "status": "proved",
   "theorems": [
    "c150_transparent_resized",
    "c150_transparent_scaled_up",
    "c150_transparent_scaled_down",
    "c150_transparent_blurred"
   ],
   "note": ""
  },
  {
   "property": "C151",
   "status": "proved",
   "theorems": [
    "c151_box_means"
   ],
   "note": ""
  },
  {
   "property": "C152",
   "status": "partial",
   "theorems": [
    "c152_blur_erases_refuted",
    "c152_blur_one_colour_partial",
    "c152_blur_one_alpha_partial",
    "c152_blur_no_new_colours_partial",
    "c152_blur_size"
   ],
   "note": "REFUTED for values whose square is 0 in float64: every pixel becomes transparent black; proved from 1/100000 to 100000. The size is kept always."
  },
  {
   "property": "C153",
   "status": "proved",
   "theorems": [
    "c153_nearest_picks"
   ],
   "note": ""
  },
  {
   "property": "C154",
   "status": "proved",
   "theorems": [
    "c154_same_size",
    "c154_thumbnail_middle"
   ],
   "note": ""
  },
  {
   "property": "C155",
   "status": "proved",
   "theorems": [
    "c155_no_new_colours",
    "c155_no_more_alpha",
    "c155_one_colour"
   ],
   "note": "For every math.Sincos whatsoever. Sides up to a million, degrees below 2^53 in absolute value."
  },
  {
   "property": "C156",
   "status": "proved",
   "theorems": [
    "c156_turned_about_the_middle",
    "c156_inside",
    "c156_outside"
   ],
   "note": "math.Sin and math.Cos within trig_ok (the sine within 2^-45 of the angle, the cosine within 2^-45). All angles, multiples of 90 included. Sides up to a million, degrees below 2^53 in absolute value."
  },
  {
   "property": "C157",
   "status": "proved",
   "theorems": [
    "c157_size",
    "c157_nothing_cut_off"
   ],
   "note": "As C156."
  },
  {
   "property": "C158",
   "status": "proved",
   "theorems": [
    "c158_hidden_colours"
   ],
   "note": "For every math.Sincos whatsoever. Sides up to a million, degrees below 2^53 in absolute value."
  },
  {
   "property": "C159",
   "status": "partial",
   "theorems": [
    "c159_uuid64_refuted",
    "c159_uuid64_must_repeat_refuted",
    "c159_uuid64_partial",
    "c159_uuid64_likely"
   ],
   "note": "REFUTED: c159_uuid64_refuted, c159_uuid64_must_repeat_refuted. What holds: the chance of a repetition (c159_uuid64_partial), from both sides (c159_uuid64_likely), counted over all values of maphash, taken to be uniform and independent."
  },
  {
   "property": "C160",
   "status": "partial",
   "theorems": [
    "c160_uuid32_refuted",
    "c160_uuid32_partial",
    "c160_uuid32_likely_refuted"
   ],
   "note": "REFUTED: c160_uuid32_refuted, c160_uuid32_likely_refuted. What holds: the chance of a repetition (c160_uuid32_partial), counted over all values of maphash, taken to be uniform and independent."
  },
  {
   "property": "C161",
   "status": "partial",
   "theorems": [
    "c161_round_trip_partial",
    "c161_no_other",
    "c161_round_trip_refuted"
   ],
   "note": "REFUTED: c161_round_trip_refuted (strings that are no UTF-8, numbers that cannot be written, nesting deeper than 10000). What holds: c161_round_trip_partial; c161_no_other shows that no other value comes back. encoding/json is implemented in the model; strconv is a contract."
  },
  {
   "property": "C162",
   "status": "partial",
   "theorems": [
    "c162_reads_json",
    "c162_only_json_partial",
    "c162_only_json_refuted"
   ],
   "note": "REFUTED: c162_only_json_refuted (bytes that are no UTF-8). What holds: every JSON text is read (c162_reads_json), and only texts that are JSON but for such bytes and single surrogates (c162_only_json_partial)."
  },
  {
   "property": "C163",
   "status": "proved",
   "theorems": [
    "c163_harmless"
   ],
   "note": "strconv is a contract: a number is written in the form of RFC 8259."
  },
  {
   "property": "C164",
   "status": "proved",
   "theorems": [
    "c164_read_again"
   ],
   "note": "strconv is a contract: numbers are written as JSON, read back, and what is read is finite."
  },
  {
   "property": "C165",
   "status": "partial",
   "theorems": [
    "c165_read_file_partial",
    "c165_finishes",
    "c165_each_byte_partial",
    "c165_size",
    "c165_killed_only",
    "c165_read_file_refuted"
   ],
   "note": "REFUTED: c165_read_file_refuted. What holds: c165_read_file_partial, c165_finishes (nobody changes the file), c165_each_byte_partial (nobody shortens it), c165_size, c165_killed_only. x/exp/mmap and mmap(2) from their published behaviour."
  },
  {
   "property": "C166",
   "status": "partial",
   "theorems": [
    "c166_same_bytes",
    "c166_strings_stay_partial",
    "c166_strings_stay_refuted"
   ],
   "note": "REFUTED: c166_strings_stay_refuted. What holds: c166_same_bytes, c166_strings_stay_partial."
  },
  {
   "property": "C167",
   "status": "partial",
   "theorems": [
    "c167_nan_leaks_refuted",
    "c167_len_is_range",
    "c167_other_keys_partial",
    "c167_deleted_partial"
   ],
   "note": "REFUTED: c167_nan_leaks_refuted. What holds: c167_other_keys_partial, c167_deleted_partial, c167_len_is_range. One goroutine; value types that are no interfaces."
  },
  {
   "property": "C168",
   "status": "partial",
   "theorems": [
    "c168_nan_takes_the_greatest_refuted",
    "c168_nan_answers_for_all_refuted",
    "c168_ordered_keys_partial",
    "c168_absent_keys_partial"
   ],
   "note": "REFUTED: c168_nan_takes_the_greatest_refuted, c168_nan_answers_for_all_refuted. What holds: c168_ordered_keys_partial, c168_absent_keys_partial (trees of one node; C30 has trees of any size by contract). google/btree v1.1.3 from its published source."
  },
  {
   "property": "C169",
   "status": "partial",
   "theorems": [
    "c169_no_limit_refuted",
    "c169_one_key_left_refuted",
    "c169_put_get_partial",
    "c169_room_partial"
   ],
   "note": "REFUTED: c169_no_limit_refuted, c169_one_key_left_refuted. What holds: c169_put_get_partial, c169_room_partial, and without NaN C17. container/list from its published behaviour."
  },
  {
   "property": "C170",
   "status": "partial",
   "theorems": [
    "c170_panic_leaves_entry_refuted",
    "c170_later_put_panics_refuted",
    "c170_no_panic_partial",
    "c170_gets_stay_partial",
    "c170_len_partial"
   ],
   "note": "REFUTED: c170_panic_leaves_entry_refuted, c170_later_put_panics_refuted. What holds: c170_no_panic_partial, c170_gets_stay_partial, c170_len_partial. sync.Map and container/list from their published behaviour."
  }
 ]
}
{
 "claims": [
  {
   "property": "C01",
   "status": "proved",
   "theorems": [
    "C01_header_roundtrip"
   ],
   "note": ""
  },
  {
   "property": "C02",
   "status": "proved",
   "theorems": [
    "C02_size_of_written_header",
    "C02_size_of_parsed_header",
    "C02_size_unbounded_refuted"
   ],
   "note": "For serialised headers below 2^31 bytes; for larger ones the int return type truncates the size (refuted)."
  },
  {
   "property": "C03",
   "status": "proved",
   "theorems": [
    "C03_header_streaming"
   ],
   "note": ""
  },
  {
   "property": "C04",
   "status": "proved",
   "theorems": [
    "C04_parse_accepts_only_within_limit",
    "C04_parse_rejects_at_count",
    "C04_encrypt",
    "C04_decrypt"
   ],
   "note": "Decryption: C04 header theorems; encryption: C04_encrypt."
  },
  {
   "property": "C05",
   "status": "proved",
   "theorems": [
    "C05_accepts_exactly_wellformed"
   ],
   "note": ""
  },
  {
   "property": "C06",
   "status": "proved",
   "theorems": [
    "C06_enc_ctx_roundtrip"
   ],
   "note": ""
  },
  {
   "property": "C07",
   "status": "proved",
   "theorems": [
    "C07_enc_ctx_canonical_injective"
   ],
   "note": ""
  },
  {
   "property": "C08",
   "status": "proved",
   "theorems": [
    "C08_enc_ctx_deserialize_strict"
   ],
   "note": ""
  },
  {
   "property": "C09",
   "status": "proved",
   "theorems": [
    "C09_enc_ctx_clone"
   ],
   "note": ""
  },
  {
   "property": "C10",
   "status": "proved",
   "theorems": [
    "C10_frame_roundtrip",
    "C10_frame_limits"
   ],
   "note": ""
  },
  {
   "property": "C11",
   "status": "proved",
   "theorems": [
    "C11_frame_streaming"
   ],
   "note": ""
  },
  {
   "property": "C12",
   "status": "partial",
   "theorems": [
    "C12_short_size_lower_bound_partial",
    "C12_short_size_lower_bound_refuted"
   ],
   "note": "False for final frames of which fewer than four bytes have arrived; proved otherwise."
  },
  {
   "property": "C13",
   "status": "proved",
   "theorems": [
    "C13_roundtrip_any_buffering"
   ],
   "note": "Assuming decryption inverts encryption, signatures verify, and the EDKs are representable (see C56)."
  },
  {
   "property": "C14",
   "status": "proved",
   "theorems": [
    "C14_ciphertext_independent_of_buffering"
   ],
   "note": ""
  },
  {
   "property": "C15",
   "status": "proved",
   "theorems": [
    "C15_plaintext_independent_of_buffering"
   ],
   "note": ""
  },
  {
   "property": "C16",
   "status": "proved",
   "theorems": [
    "C16_tampering_never_alters_plaintext"
   ],
   "note": "AEAD idealised: accepted tags were produced by the encrypting session. The decrypted header must name a suite of the same message format (key separation between formats is outside the idealisation)."
  },
  {
   "property": "C17",
   "status": "proved",
   "theorems": [
    "C17_header_authenticated_first"
   ],
   "note": "Decrypt histories; log order shows the header tag check before any frame."
  },
  {
   "property": "C18",
   "status": "proved",
   "theorems": [
    "C18_no_output_survives_error"
   ],
   "note": ""
  },
  {
   "property": "C19",
   "status": "proved",
   "theorems": [
    "C19_errors_are_sticky"
   ],
   "note": ""
  },
  {
   "property": "C20",
   "status": "proved",
   "theorems": [
    "C20_no_abort",
    "C20_assert_only_for_invalid_policy",
    "C20_debug_assert_refuted"
   ],
   "note": "abort() is never reached. In debug builds one assert can be reached with an invalid policy (refuted companion claim)."
  },
  {
   "property": "C21",
   "status": "proved",
   "theorems": [
    "C21_done_means_declared_size"
   ],
   "note": ""
  },
  {
   "property": "C22",
   "status": "partial",
   "theorems": [
    "C22_bound_while_streaming_refuted",
    "C22_late_size_too_small_refuted"
   ],
   "note": "Refuted: the documented enforcement while streaming does not exist; C21 is what holds."
  },
  {
   "property": "C23",
   "status": "proved",
   "theorems": [
    "C23_policy_encrypt"
   ],
   "note": ""
  },
  {
   "property": "C24",
   "status": "proved",
   "theorems": [
    "C24_policy_decrypt"
   ],
   "note": ""
  },
  {
   "property": "C25",
   "status": "proved",
   "theorems": [
    "C25_nonces_unique"
   ],
   "note": ""
  },
  {
   "property": "C26",
   "status": "proved",
   "theorems": [
    "C26_signature_covers_message_encrypt",
    "C26_signature_covers_message_decrypt"
   ],
   "note": ""
  },
  {
   "property": "C27",
   "status": "proved",
   "theorems": [
    "C27_unsigned_mode",
    "C27_any_cmm_refuted"
   ],
   "note": "The condition on the CMM is needed (refuted without it)."
  },
  {
   "property": "C28",
   "status": "partial",
   "theorems": [
    "C28_process_full_all_or_nothing_partial",
    "C28_buffer_always_cleared_refuted"
   ],
   "note": "Proved except when set_message_size refuses, where the buffer is left untouched (refuted)."
  },
  {
   "property": "C29",
   "status": "proved",
   "theorems": [
    "C29_terminates_within_buffers"
   ],
   "note": ""
  },
  {
   "property": "C30",
   "status": "proved",
   "theorems": [
    "C30_estimates_say_what_is_missing",
    "C30_progress",
    "C30_null_input_refuted",
    "C30_undeclared_size_refuted"
   ],
   "note": "For calls with a proper input pointer and less than SIZE_MAX bytes, and not for unframed messages of undeclared size; both exceptions are refuted companions."
  },
  {
   "property": "C31",
   "status": "partial",
   "theorems": [
    "C31_reset",
    "C31_frame_size_kept_refuted"
   ],
   "note": "Reset gives a fresh session with the configuration kept; but decryption overwrites the frame size that reset keeps (refuted)."
  },
  {
   "property": "C32",
   "status": "proved",
   "theorems": [
    "C32_cache_consistent",
    "C32_removed_not_found",
    "C32_invalidated_is_removed",
    "C32_lookup_returns_the_id"
   ],
   "note": "Histories that respect the handle contract; capacity is at least 2 (the constructor raises smaller ones)."
  },
  {
   "property": "C33",
   "status": "proved",
   "theorems": [
    "C33_entry_lifetime",
    "C33_caching_cmm_is_lawful",
    "C33_caching_cmm_returns_handles"
   ],
   "note": "Destroying the cache itself is not an operation of the model. A release that cannot lock the mutex leaks its handle."
  },
  {
   "property": "C34",
   "status": "partial",
   "theorems": [
    "C34_lookup_expiry_partial",
    "C34_lookup_refuted",
    "C34_cmm_serves_fresh",
    "C34_hints_shorten_partial",
    "C34_hint_lost_refuted"
   ],
   "note": "The caching CMM part is proved. A plain lookup can return an expired entry when more than eight have expired (refuted), and a failed push to the expiry queue makes an entry lose its expiry time (refuted)."
  },
  {
   "property": "C35",
   "status": "proved",
   "theorems": [
    "C35_evicts_least_recently_used"
   ],
   "note": ""
  },
  {
   "property": "C36",
   "status": "partial",
   "theorems": [
    "C36_usage_limits",
    "C36_too_large_bypasses_cache",
    "C36_concurrent_refuted",
    "C36_lock_failure_refuted"
   ],
   "note": "Proved for any interleaving when locking never fails and (K+1) times the byte limit stays below 2^64, K the number of calls in progress at once; refuted otherwise: with two concurrent calls at the default limits the byte counter wraps."
  },
  {
   "property": "C37",
   "status": "proved",
   "theorems": [
    "C37_encrypt_id_identifies_request",
    "C37_decrypt_id_identifies_request",
    "C37_encrypt_and_decrypt_ids_differ",
    "C37_same_request_same_id",
    "C57_encrypt_transparent",
    "C57_decrypt_transparent"
   ],
   "note": "SHA-512 assumed to have 64-byte output and no collision on the strings actually hashed."
  },
  {
   "property": "C38",
   "status": "partial",
   "theorems": [
    "C38_every_suite_is_cacheable",
    "C38_no_kdf_not_cached_refuted"
   ],
   "note": "Refuted: md_name of the suites without key derivation is the string \"NULL\"."
  },
  {
   "property": "C39",
   "status": "partial",
   "theorems": [
    "C39_multi_encrypt_complete",
    "C39_multi_encrypt_failure_partial",
    "C39_unchanged_on_failure_refuted"
   ],
   "note": "Completeness proved; on failure nothing changes provided that the caller EDK list can grow (refuted when growing fails in the middle of the transfer). A failed growth of the trace is ignored by the code."
  },
  {
   "property": "C40",
   "status": "partial",
   "theorems": [
    "C40_multi_decrypt_tries_all",
    "C40_failures_do_not_stop_refuted"
   ],
   "note": "The search is characterised completely; a member that fails but leaves a data key of the wrong length ends it (refuted companion)."
  },
  {
   "property": "C41",
   "status": "partial",
   "theorems": [
    "C41_interface_encrypt",
    "C41_interface_decrypt",
    "C41_data_key_unchanged_refuted"
   ],
   "note": "Lengths, buffers and refusals proved for any keyring; the bytes of an existing data key can be changed in place (refuted)."
  },
  {
   "property": "C42",
   "status": "proved",
   "theorems": [
    "C42_default_cmm_generate",
    "C42_suite_choice_unique",
    "C42_configured_suite",
    "C42_default_cmm_decrypt"
   ],
   "note": ""
  },
  {
   "property": "C43",
   "status": "partial",
   "theorems": [
    "C43_raw_aes_unwraps_what_it_wrapped",
    "C43_raw_aes_search",
    "C43_failure_changes_nothing",
    "C43_empty_namespace_refuted"
   ],
   "note": "For keyrings whose namespace is not empty (refuted for an empty one, which the constructor accepts)."
  },
  {
   "property": "C44",
   "status": "proved",
   "theorems": [
    "C44_bound_to_context",
    "C44_wrapping_seals_only_that",
    "C44_wrapped_key_is_data_key"
   ],
   "note": "AES-GCM idealised for the wrapping key."
  },
  {
   "property": "C45",
   "status": "partial",
   "theorems": [
    "C45_raw_rsa_unwraps_what_it_wrapped",
    "C45_raw_rsa_search",
    "C45_failure_changes_nothing",
    "C45_missing_half",
    "C45_empty_name_refuted"
   ],
   "note": "For keyrings whose namespace and name are not empty (refuted otherwise)."
  },
  {
   "property": "C46",
   "status": "proved",
   "theorems": [
    "C46_asks_only_permitted",
    "C46_answer_is_checked",
    "C46_search_is_complete",
    "C46_built_filter"
   ],
   "note": ""
  },
  {
   "property": "C47",
   "status": "partial",
   "theorems": [
    "C47_success_is_complete",
    "C47_builder",
    "C47_failure_changes_nothing_partial",
    "C47_unchanged_on_failure_refuted",
    "C47_success_gives_a_data_key_refuted",
    "C47_trace_names_every_key",
    "C47_always_defined",
    "C47_keyring_appends"
   ],
   "note": "On failure nothing changes provided that the caller EDK list can grow (refuted when growing fails in the middle of the transfer). An empty data key from GenerateDataKey is not noticed (refuted). Zeroing of memory is not modelled."
  },
  {
   "property": "C48",
   "status": "proved",
   "theorems": [
    "C48_match_iff",
    "C48_match_is_an_equivalence",
    "C48_match_never_crosses",
    "C48_only_mrk_resource_ids_refuted"
   ],
   "note": "The code takes several slashes as one, contrary to the AWS specification (refuted companion)."
  },
  {
   "property": "C49",
   "status": "proved",
   "theorems": [
    "C49_asks_only_eligible",
    "C49_answer_is_checked",
    "C49_search_is_complete",
    "C49_idle_with_a_data_key",
    "C49_built",
    "C49_discovery_built",
    "C49_always_defined_refuted",
    "C49_region_refuted"
   ],
   "note": "With an unknown suite, which a session never passes, decryption dereferences NULL (refuted companion)."
  },
  {
   "property": "C50",
   "status": "proved",
   "theorems": [
    "C50_built_iff",
    "C50_built_has_no_duplicates",
    "C50_order_is_irrelevant",
    "C50_built_iff_for_all_bytes_refuted"
   ],
   "note": "For identifiers without the byte 255, at which the code stops reading (refuted with it). The other reasons to refuse are part of the statement."
  },
  {
   "property": "C51",
   "status": "partial",
   "theorems": [
    "C51_copy_edks",
    "C51_copy_trace",
    "C51_transfer",
    "C51_transfer_failure_refuted"
   ],
   "note": "A transfer that fails can leave elements in both lists (refuted)."
  },
  {
   "property": "C52",
   "status": "proved",
   "theorems": [
    "C52_stored_form",
    "C52_can_be_stored",
    "C52_round_trip",
    "C52_never_another_key",
    "C52_bound_to_suite",
    "C52_accepts_exactly_images",
    "C52_no_truncation_no_extension",
    "C52_checks_the_pair_refuted"
   ],
   "note": "Assuming the encodings of OpenSSL invert each other. That the private key belongs to the public key is not checked (refuted companion)."
  },
  {
   "property": "C53",
   "status": "partial",
   "theorems": [
    "C53_derivation_inputs",
    "C53_inputs_separate",
    "C53_plain_suites_use_data_key",
    "C53_commitment_names_suite_refuted"
   ],
   "note": "Separation holds for messages, data keys and purposes, and for suites in content keys; commitments do not name the suite (refuted)."
  },
  {
   "property": "C54",
   "status": "proved",
   "theorems": [
    "C54_frame_aad_injective"
   ],
   "note": ""
  },
  {
   "property": "C55",
   "status": "proved",
   "theorems": [
    "C55_never_used_after_destruction",
    "C55_count_is_number_of_references",
    "C55_destroyed_iff_no_reference",
    "C55_destroyed_by_last_release",
    "C55_quiescent",
    "C55_no_leak",
    "C55_release_terminates",
    "C55_failed_add_leaks_refuted",
    "C55_no_leak_with_cycles_refuted"
   ],
   "note": "Sequentially consistent interleavings. A failed add_child and a cyclic multi-keyring leak (refuted companions)."
  },
  {
   "property": "C56",
   "status": "partial",
   "theorems": [
    "C56_oversized_edks_refused_refuted"
   ],
   "note": "Refuted: lengths are truncated to 16 bits and encryption reports success."
  },
  {
   "property": "C57",
   "status": "partial",
   "theorems": [
    "C57_encrypt_transparent",
    "C57_decrypt_transparent",
    "C57_failures_are_upstream",
    "C57_one_source",
    "C57_failing_cache",
    "C57_fallback_refuted"
   ],
   "note": "Provenance proved. When reloading a cached signing key fails, the request passed on to the upstream CMM carries the cached public key and the default CMM refuses it (refuted)."
  },
  {
   "property": "C58",
   "status": "partial",
   "theorems": [
    "C58_success_is_checked",
    "C58_failure_changes_nothing_partial",
    "C58_always_defined",
    "C58_keyring_appends"
   ],
   "note": "On failure nothing changes provided that the caller EDK list can grow."
  },
  {
   "property": "C59",
   "status": "proved",
   "theorems": [
    "C59_kms_round_trip",
    "C59_mrk_round_trip"
   ],
   "note": "Assuming KMS decrypts what it encrypted under the same context and names the key used."
  },
  {
   "property": "C60",
   "status": "proved",
   "theorems": [
    "C60_exact_length_and_valid",
    "C60_no_overflow",
    "C60_repeats_only_on_a_miss",
    "C60_terminates_refuted"
   ],
   "note": "The loop has no bound (refuted companion); the statement is about every run that ends."
  },
  {
   "property": "C61",
   "status": "proved",
   "theorems": [
    "C61_public_key_round_trip",
    "C61_cached_text_round_trip",
    "C61_verifies_with_the_given_key",
    "C61_generated_key",
    "C61_curve_of_suite"
   ],
   "note": "Assuming the encodings of OpenSSL invert each other."
  },
  {
   "property": "C62",
   "status": "proved",
   "theorems": [
    "C62_following_the_estimates_ends"
   ],
   "note": ""
  },
  {
   "property": "C63",
   "status": "proved",
   "theorems": [
    "C63_encrypt_materials",
    "C63_decrypt_materials"
   ],
   "note": ""
  },
  {
   "property": "C64",
   "status": "proved",
   "theorems": [
    "C64_request",
    "C64_size_bounds_message"
   ],
   "note": ""
  },
  {
   "property": "C65",
   "status": "partial",
   "theorems": [
    "C65_decrypt_report",
    "C65_encrypt_report",
    "C65_context_before_start",
    "C65_shown_context_authentic_refuted"
   ],
   "note": "Provenance proved. That a reported context is authentic is refuted: it is reported before the header tag is checked and stays visible after the check fails."
  },
  {
   "property": "C66",
   "status": "proved",
   "theorems": [
    "C66_suite_table"
   ],
   "note": ""
  },
  {
   "property": "C67",
   "status": "partial",
   "theorems": [
    "C67_encryption_never_fails",
    "C67_encryption_finishes",
    "C67_one_call_encrypts",
    "C67_longest_block_refuted"
   ],
   "note": "Proved below the limits. That the declared limit of a single block can be reached is refuted: 2^36 - 32 bytes are refused."
  },
  {
   "property": "C68",
   "status": "proved",
   "theorems": [
    "C68_output_is_rfc5869",
    "C68_no_partial_output",
    "C68_succeeds_iff_permitted",
    "C68_content_key",
    "C68_commitment",
    "C68_meets_assumptions"
   ],
   "note": ""
  },
  {
   "property": "C69",
   "status": "partial",
   "theorems": [
    "C69_failed_build_leaves_nothing",
    "C69_returned_keyring",
    "C69_parts_outlive_keyring",
    "C69_success_leaks_refuted",
    "C69_multi_iff",
    "C69_discovery_iff",
    "C69_discovery_keyrings"
   ],
   "note": "Failure paths and contents proved. The last part is refuted: after success the builder never releases its own references, so the generator and the children are never destroyed."
  },
  {
   "property": "C70",
   "status": "proved",
   "theorems": [
    "C70_roundtrip_any_buffering",
    "C70_one_call_roundtrip",
    "C70_raw_keyrings",
    "C70_multi_keyrings"
   ],
   "note": ""
  },
  {
   "property": "C71",
   "status": "proved",
   "theorems": [
    "C71_leaves_for_a_reason",
    "C71_lookup_finds",
    "C71_put_stores",
    "C71_clear_empties",
    "C71_encrypt_entry_is_used",
    "C71_decrypt_entry_is_used",
    "C71_second_encryption",
    "C71_second_decryption",
    "C71_many_encryptions",
    "C71_many_decryptions"
   ],
   "note": ""
  },
  {
   "property": "C72",
   "status": "proved",
   "theorems": [
    "C72_limit_bytes",
    "C72_limit_messages",
    "C72_time_limit",
    "C72_creation",
    "C72_configured_ranges",
    "C72_sequential_limits"
   ],
   "note": ""
  },
  {
   "property": "C73",
   "status": "partial",
   "theorems": [
    "C73_session_life_partial",
    "C73_caching_cmm_life_partial",
    "C73_failed_constructors",
    "C73_transfer_double_free_refuted",
    "C73_parse_edks_leak_refuted",
    "C73_rsa_keyring_leak_refuted",
    "C73_add_child_leak_refuted",
    "C73_sign_finish_leak_refuted",
    "C73_partition_id_leak_refuted",
    "C73_kms_list_refuted"
   ],
   "note": "Proved for all failures except those at seven sites; at each of the seven the claim is refuted with a witness (one double free, one read of an uninitialised flag, five leaks). The local cache is the subject of C79; C++ containers inside the KMS keyrings are not modelled."
  },
  {
   "property": "C74",
   "status": "partial",
   "theorems": [
    "C74_erased_elsewhere_partial",
    "C74_keys_held",
    "C74_raw_aes_refuted",
    "C74_raw_rsa_refuted",
    "C74_kms_refuted",
    "C74_decrypt_local_refuted"
   ],
   "note": "Proved except at four places, where it is refuted. Copies inside OpenSSL, the AWS SDK for C++, in registers and on the stack of callees are not tracked."
  },
  {
   "property": "C75",
   "status": "partial",
   "theorems": [
    "C75_right_region",
    "C75_no_exception_partial",
    "C75_refusing_supplier_refuted",
    "C75_kept_after_success_partial",
    "C75_region_stays",
    "C75_kept_unused_refuted",
    "C75_one_client_partial",
    "C75_one_client_refuted",
    "C75_given_client",
    "C75_one_key",
    "C75_kms_decrypt_agrees",
    "C75_kms_encrypt_agrees",
    "C75_mrk_decrypt_agrees",
    "C75_mrk_encrypt_agrees",
    "C75_builder_agrees"
   ],
   "note": "The part about regions is proved in full. Refuted: a builder for a single key reports success before any use (an unused client is kept, and a supplier that refuses the region leads to the call of an empty function); concurrent threads may each make a client for a region."
  },
  {
   "property": "C76",
   "status": "proved",
   "theorems": [
    "C76_roundtrip_through_caches",
    "C76_raw_keyrings_any_order",
    "C76_multi_keyrings_any_order"
   ],
   "note": "No hash collisions among the requests of one execution (as in C57); that rebuilt signature keys are the same keys is a hypothesis here (C52 and C61 prove it of the code that serialises them)."
  },
  {
   "property": "C77",
   "status": "proved",
   "theorems": [
    "C77_trees_recover",
    "C77_trees_write",
    "C77_trees_work",
    "C77_trees_defined",
    "C77_roundtrip_any_buffering"
   ],
   "note": "KMS is an oracle: what it is asked to unwrap it unwraps rightly or not at all, and it answers one reader (TreeSpec.truthful, serves)."
  },
  {
   "property": "C78",
   "status": "partial",
   "theorems": [
    "C78_encrypt_trace",
    "C78_failed_encryption",
    "C78_decrypt_trace_partial",
    "C78_empty_answer_refuted"
   ],
   "note": "Wrapping is proved in full. Unwrapping is partial: a KMS that decrypts to an empty plaintext makes the keyring record a decryption without a data key (refuted), so KMS is taken not to do that."
  },
  {
   "property": "C79",
   "status": "partial",
   "theorems": [
    "C79_local_life_partial",
    "C79_erased_elsewhere_partial",
    "C79_keys_held",
    "C79_hash_leak_refuted",
    "C79_hash_double_free_refuted",
    "C79_release_leak_refuted",
    "C79_clear_refuted"
   ],
   "note": "Partial: failures at the sites of C73 and at three new ones (second hash context, hashing of EDKs, locking of the mutex) are excluded; the claim is false there (refuted). Single-threaded clients."
  },
  {
   "property": "C80",
   "status": "partial",
   "theorems": [
    "C80_seal_body",
    "C80_open_body",
    "C80_body_round_trip",
    "C80_sign_header_partial",
    "C80_verify_header_partial",
    "C80_header_round_trip",
    "C80_wrap",
    "C80_unwrap",
    "C80_genrandom",
    "C80_oracles",
    "C80_oracle_facts",
    "C80_refines_encrypt_body",
    "C80_refines_decrypt_body",
    "C80_refines_sign_header",
    "C80_refines_verify_header",
    "C80_refines_wrap",
    "C80_refines_unwrap",
    "C80_long_header_refuted",
    "C80_sign_header_any_length",
    "C80_verify_header_any_length",
    "C80_frame_type_refuted",
    "C80_long_text_refuted",
    "C80_long_ciphertext_refuted"
   ],
   "note": "Partial for headers: their length is passed as an int, so the claim is false for headers of 2^32 bytes and more (refuted); what happens for headers of any length is proved (any_length). An unknown frame type is taken for success (refuted); the other theorems are about the three types the library uses. C80_wrap and C80_unwrap are for texts and additional data below 2^31 bytes; a text or ciphertext of 2^32+1 bytes ends in an assertion (refuted)."
  },
  {
   "property": "C81",
   "status": "partial",
   "theorems": [
    "C81_rsa_wrap_partial",
    "C81_rsa_unwrap_partial",
    "C81_rsa_round_trip",
    "C81_long_pem_refuted",
    "C81_derive_partial",
    "C81_derive_is_rfc5869",
    "C81_versions_agree",
    "C81_long_salt_refuted",
    "C81_rsa_wrap_any_length",
    "C81_rsa_unwrap_any_length",
    "C81_derive_any_length",
    "C81_refines_rsa_encrypt",
    "C81_refines_rsa_decrypt",
    "C81_refines_hkdf"
   ],
   "note": "Partial for PEM strings, salts, input keys and infos of 2^31 bytes and more: lengths are passed as ints, so the claim is false from 2^32 bytes on (refuted); what happens for any length is proved (any_length)."
  },
  {
   "property": "C82",
   "status": "proved",
   "theorems": [
    "C82_real_algorithms",
    "C82_reads_known_messages",
    "C82_reads_known_files",
    "C82_reads_known_signed_messages",
    "C82_refuses_wrong_commitment",
    "C82_writes_known_messages"
   ],
   "note": "The statements about messages are about a fixed list of test messages; ECDSA remains an oracle."
  },
  {
   "property": "C83",
   "status": "partial",
   "theorems": [
    "C83_hkdf_wipes",
    "C83_encrypt_wipes",
    "C83_private_key_wipes",
    "C83_private_key_read_wipes",
    "C83_decrypt_leaves_the_key",
    "C83_decrypt_wipes_refuted"
   ],
   "note": "False for derive_data_key of session_decrypt.c, which leaves the data key in its local array (refuted; it does so on every success). Copies made by the compiler are outside the model."
  },
  {
   "property": "C84",
   "status": "proved",
   "theorems": [
    "C84_derives_known_keys",
    "C84_seals_known_frames",
    "C84_verifies_known_headers",
    "C84_hkdf_known_answers",
    "C84_wraps_known_keys",
    "C84_skips_wrong_keys"
   ],
   "note": "A fixed list of test vectors; six of the ten headers and four of the eight HKDF vectors, to keep the rechecking of the proofs short."
  },
  {
   "property": "C85",
   "status": "proved",
   "theorems": [
    "C85_known_encryption_ids",
    "C85_known_decryption_ids",
    "C85_partition_id_length",
    "C85_known_headers",
    "C85_known_bad_headers",
    "C85_known_contexts",
    "C85_known_provider_info"
   ],
   "note": "A fixed list of test vectors, for all trailing bytes, prefixes and orders of pairs."
  }
 ]
}
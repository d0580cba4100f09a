{
 "claims": [
  {
   "property": "C01",
   "status": "proved",
   "theorems": [
    "C01_set_methods",
    "C01_set_cipher_suites",
    "C01_set_connection_id",
    "C01_set_user_context",
    "C01_bind_ead",
    "C01_bind_keys",
    "C01_bind_crypto",
    "C01_bind_credentials"
   ],
   "note": "Exact acceptance condition, frame and stored values for each configuration call."
  },
  {
   "property": "C02",
   "status": "proved",
   "theorems": [
    "C02_init",
    "C02_deinit",
    "C02_refused_until_init"
   ],
   "note": "Init yields the blank context; deinit wipes it; afterwards every configuration, message, key update and OSCORE call fails until re-initialised."
  },
  {
   "property": "C03",
   "status": "proved",
   "theorems": [
    "C03_message_order"
   ],
   "note": "A message call outside its required state or with bad arguments returns an error and leaves the whole world (context and event trace) unchanged."
  },
  {
   "property": "C04",
   "status": "proved",
   "theorems": [
    "C04_failed_call_aborts",
    "C04_failed_session_stays_dead"
   ],
   "note": "For every reachable world, environment and later history."
  },
  {
   "property": "C05",
   "status": "proved",
   "theorems": [
    "C05_only_complete_handshakes"
   ],
   "note": "Invariant over all histories since initialisation."
  },
  {
   "property": "C06",
   "status": "partial",
   "theorems": [
    "C06_handles_destroyed_partial",
    "C06_handles_refuted"
   ],
   "note": "Proved for every call and path except message_1_compose failing its allocation, where the code leaks the handle (C06_handles_refuted)."
  },
  {
   "property": "C07",
   "status": "proved",
   "theorems": [
    "C07_buffers_released",
    "C07_never_frees_dead_block"
   ],
   "note": "Live-block count per buffer is unchanged by every call on every path; no block is released twice."
  },
  {
   "property": "C08",
   "status": "proved",
   "theorems": [
    "C08_int_written",
    "C08_bstr_written",
    "C08_tstr_written",
    "C08_suites_written",
    "C08_cid_written",
    "C08_id_cred_written",
    "C08_ead_written",
    "C08_info_written",
    "C08_sig_structure_written",
    "C08_enc_structure_written",
    "C08_int_read",
    "C08_bstr_read",
    "C08_tstr_read",
    "C08_suites_read",
    "C08_cid_read",
    "C08_id_cred_read",
    "C08_ead_read",
    "C08_ead_read_no_value",
    "C08_sequences_injective",
    "C08_items_prefix_free"
   ],
   "note": "Every encoder equals the RFC 8949 encoding, every decoder reads it back consuming exactly those bytes, encodings are injective and prefix-free."
  },
  {
   "property": "C09",
   "status": "proved",
   "theorems": [
    "C09_message_1_arrives"
   ],
   "note": "For any two configured contexts and correct crypto answers."
  },
  {
   "property": "C10",
   "status": "partial",
   "theorems": [
    "C10_truncated_refuted",
    "C10_trailing_refuted",
    "C10_message_1_partial"
   ],
   "note": "The property is false and the refutations are theorems (truncated and trailing messages accepted). The _partial theorem gives the prefix an accepted message must have; the rest of the message is unconstrained."
  },
  {
   "property": "C11",
   "status": "partial",
   "theorems": [
    "C11_oversized_allocation_refuted",
    "C11_out_of_bounds_refuted",
    "C11_message_2_partial",
    "C11_message_3_4_partial"
   ],
   "note": "False as stated: a short message makes the length subtraction wrap, the code asks for a buffer of almost 2^64 bytes, and if the allocator grants it message_2 is read out of bounds (two refutations). Proved: with a heap that refuses half the address space, every message_2 too short for G_Y and every message_3/4 too short for the tag is rejected without a fault and the session dies."
  },
  {
   "property": "C12",
   "status": "partial",
   "theorems": [
    "C12_message_3_refuted",
    "C12_message_3_overrun",
    "C12_length_partial",
    "C12_no_other_overrun_partial"
   ],
   "note": "False for message_3: one byte may be written past the buffer (refutation, and C12_message_3_overrun says exactly when). Proved for the rest: a returned message fits the buffer, its reported length is its length, a failing call reports none, and no other write outside an object happens while composing."
  },
  {
   "property": "C13",
   "status": "partial",
   "theorems": [
    "C13_message_1_read_refuted",
    "C13_message_1_null_refuted",
    "C13_message_2_write_refuted",
    "C13_message_2_read_refuted",
    "C13_message_3_refuted",
    "C13_stack_refuted",
    "C13_few_tokens_refuted",
    "C13_only_these_partial",
    "C13_heap_safe"
   ],
   "note": "False: seven refutations with concrete received bytes (read past the end and through NULL in message_1, overrun of the key identifier array and of EAD values in messages 2 and 3, zero-size arrays in stack builds, token array with a limit of 1). Proved: for all bytes, histories and contract-abiding callbacks these are the only faults (C13_only_these_partial), and none in message_4, well-opened message_1, configuration and exports on heap builds (C13_heap_safe)."
  },
  {
   "property": "C14",
   "status": "proved",
   "theorems": [
    "C14_keystream_cancels",
    "C14_plaintext_2_recovered"
   ],
   "note": "Keystream cancels; in every honest exchange both sides derive the same keystream and plaintext."
  },
  {
   "property": "C15",
   "status": "proved",
   "theorems": [
    "C15_th1_compose",
    "C15_th1_process",
    "C15_th2_th3_compose",
    "C15_th2_th3_process",
    "C15_th4_compose",
    "C15_th4_process"
   ],
   "note": "TH_1 to TH_4 for both roles: the stored value is the hash callback's answer on the RFC input (TH_3 additionally needs the hash callback to fill its buffer, because the code does not check that length)."
  },
  {
   "property": "C16",
   "status": "proved",
   "theorems": [
    "C16_message_2_compose",
    "C16_message_2_process",
    "C16_message_3_compose",
    "C16_message_3_process",
    "C16_message_4_compose",
    "C16_message_4_process",
    "C16_exporter"
   ],
   "note": "Every derived key, IV, MAC and PRK of messages 2 to 4 and the exporter, for both roles, all methods."
  },
  {
   "property": "C17",
   "status": "proved",
   "theorems": [
    "C17_same_secrets",
    "C17_same_exports"
   ],
   "note": "In every honest exchange, and for exports in any later histories of both sides."
  },
  {
   "property": "C18",
   "status": "proved",
   "theorems": [
    "C18_oscore_mirror",
    "C18_oscore_values"
   ],
   "note": "Mirror property and the exact RFC values."
  },
  {
   "property": "C19",
   "status": "proved",
   "theorems": [
    "C19_responder_authenticated"
   ],
   "note": "For every received byte string and all callback behaviours; static DH and signature methods."
  },
  {
   "property": "C20",
   "status": "proved",
   "theorems": [
    "C20_initiator_authenticated"
   ],
   "note": "For every received byte string and all callback behaviours; static DH and signature methods."
  },
  {
   "property": "C21",
   "status": "proved",
   "theorems": [
    "C21_accepted",
    "C21_mismatch_reported",
    "C21_method_refused"
   ],
   "note": "Acceptance, mismatch report and method refusal. Arrays of up to three suites (what the decoder accepts) and at most the configured limit."
  },
  {
   "property": "C22",
   "status": "partial",
   "theorems": [
    "C22_not_last_rejected",
    "C22_any_suite_refuted",
    "C22_last_suite_partial"
   ],
   "note": "The property is false: only the last configured suite is accepted (universal theorem and a refutation). The _partial theorem proves acceptance of the last suite."
  },
  {
   "property": "C23",
   "status": "proved",
   "theorems": [
    "C23_label_refused",
    "C23_label_accepted"
   ],
   "note": "Other labels are refused with nothing changed and no callback invoked; public labels are accepted whenever no callback fails."
  },
  {
   "property": "C24",
   "status": "partial",
   "theorems": [
    "C24_frame",
    "C24_repeatable",
    "C24_independent_partial",
    "C24_failing_callback_refuted"
   ],
   "note": "False when an expand callback fails: a failing export overwrites the PRK but keeps its state, so a later export returns another secret (C24_failing_callback_refuted). Frame and repeatability are proved in full; independence from earlier exports is proved when no expand callback fails."
  },
  {
   "property": "C25",
   "status": "proved",
   "theorems": [
    "C25_key_updates",
    "C25_updated_peers_agree"
   ],
   "note": "Exact formula over any number of key updates; peers agree."
  },
  {
   "property": "C26",
   "status": "proved",
   "theorems": [
    "C26_oscore_needs_permission",
    "C26_one_session_each",
    "C26_failed_attempt_ends_session"
   ],
   "note": "Permission automaton over all histories."
  },
  {
   "property": "C27",
   "status": "proved",
   "theorems": [
    "C27_error_round_trip",
    "C27_error_composed"
   ],
   "note": "Round trip for every code and valid information, and composing succeeds whenever the buffer holds the message."
  },
  {
   "property": "C28",
   "status": "partial",
   "theorems": [
    "C28_error_process_refuted",
    "C28_error_process_partial"
   ],
   "note": "False: three suites sent with the code of a text make the code follow a pointer made of received bytes (C28_error_process_refuted). The partial theorem shows that this is the only unsafe case."
  },
  {
   "property": "C29",
   "status": "partial",
   "theorems": [
    "C29_message_1_partial",
    "C29_message_1_refuted",
    "C29_message_2",
    "C29_message_3",
    "C29_message_4"
   ],
   "note": "Proved in full for messages 2, 3 and 4 between honest peers; false for message 1 items without a value, which arrive with an empty value (C29_message_1_refuted); C29_message_1_partial covers all other items."
  },
  {
   "property": "C30",
   "status": "partial",
   "theorems": [
    "C30_surplus_refuted",
    "C30_not_ead_refuted",
    "C30_no_callback_refuted",
    "C30_message_1_partial",
    "C30_message_4_partial"
   ],
   "note": "False: a fourth EAD item, bytes that are no EAD item, and any EAD without a callback are ignored (three refutations). Proved: up to three items of messages 1 and 4 all reach the callback, and more than configured are refused. Messages 2 and 3 are covered by C19/C20."
  },
  {
   "property": "C31",
   "status": "partial",
   "theorems": [
    "C31_flow",
    "C31_connection_id_partial",
    "C31_connection_id_refuted",
    "C31_recalculate"
   ],
   "note": "False for negative integer identifiers (C31_connection_id_refuted); proved for the flow byte, non-negative integers and byte strings, and the size recalculation."
  },
  {
   "property": "C32",
   "status": "proved",
   "theorems": [
    "C32_equal_iff_same",
    "C32_reflexive",
    "C32_symmetric",
    "C32_transitive"
   ],
   "note": ""
  },
  {
   "property": "C33",
   "status": "partial",
   "theorems": [
    "C33_int_estimate_partial",
    "C33_int_exact_partial",
    "C33_bstr_estimate_partial",
    "C33_tstr_estimate_partial",
    "C33_array_estimate_partial",
    "C33_map_estimate_partial",
    "C33_estimates_refuted"
   ],
   "note": "False beyond 16-bit values and lengths (C33_estimates_refuted); the exact range in which each estimate suffices is proved."
  },
  {
   "property": "C34",
   "status": "partial",
   "theorems": [
    "C34_signatures_refuted",
    "C34_erased_partial"
   ],
   "note": "False with signatures on both sides (refutation). Proved: where the peer authenticates with a static Diffie-Hellman key, the key is gone after message_2 (initiator) or message_3 (responder) and does not return in the session."
  },
  {
   "property": "C35",
   "status": "partial",
   "theorems": [
    "C35_initiator_composes_refuted",
    "C35_responder_processes_refuted",
    "C35_message_4_partial"
   ],
   "note": "False in both directions (two refutations): neither function checks the role. Proved: message_4 only follows a completed handshake, and at most one is sent or received per session."
  },
  {
   "property": "C36",
   "status": "partial",
   "theorems": [
    "C36_export_blocks_message_4",
    "C36_message_4_refuted",
    "C36_message_4_partial"
   ],
   "note": "False: an export that succeeds makes every later message 4 call fail (C36_export_blocks_message_4, C36_message_4_refuted). Proved only for configuration calls and queries."
  },
  {
   "property": "C37",
   "status": "partial",
   "theorems": [
    "C37_export_refuted",
    "C37_aborted_partial"
   ],
   "note": "False for edhoc_export_prk_exporter (C37_export_refuted). Proved for key update and OSCORE export."
  },
  {
   "property": "C38",
   "status": "proved",
   "theorems": [
    "C38_mac_2_made",
    "C38_mac_2_checked",
    "C38_mac_3_made",
    "C38_mac_3_checked"
   ],
   "note": "Length of the MAC made and checked, for both messages and both roles, tied to the bytes on the wire."
  },
  {
   "property": "C39",
   "status": "partial",
   "theorems": [
    "C39_message_1_bytes_partial",
    "C39_message_1_bytes_refuted"
   ],
   "note": "False when an EAD_1 item has no value: the code always writes one (C39_message_1_bytes_refuted); proved in all other cases."
  },
  {
   "property": "C40",
   "status": "partial",
   "theorems": [
    "C40_identifier_2_partial",
    "C40_identifier_3_partial",
    "C40_identifier_refuted"
   ],
   "note": "False for integer key identifiers outside -24..23, which the code truncates on the wire (C40_identifier_refuted); proved for every identifier that has a compact or map form, including x5chain and x5t."
  },
  {
   "property": "C41",
   "status": "proved",
   "theorems": [
    "C41_error_code_tracks_last_message_call",
    "C41_suites_only_after_mismatch",
    "C41_suites_in_buffers"
   ],
   "note": "Error code after any quiet continuation; suites only after a message_1 mismatch and within the buffers."
  },
  {
   "property": "C42",
   "status": "partial",
   "theorems": [
    "C42_trailing_bytes_refuted",
    "C42_trailing_bytes_ignored",
    "C42_byte_string_partial"
   ],
   "note": "False: trailing bytes are accepted and have no effect (refutation and universal theorem). Proved: an accepted message begins with a byte string."
  },
  {
   "property": "C43",
   "status": "partial",
   "theorems": [
    "C43_key_update",
    "C43_oscore",
    "C43_export_partial",
    "C43_export_refuted"
   ],
   "note": "Proved for key update and OSCORE export. False for the application exporter when an expand callback fails (C43_export_refuted); the partial theorem shows that this is the only case."
  },
  {
   "property": "C44",
   "status": "proved",
   "theorems": [
    "C44_asked_once"
   ],
   "note": "All calls, all paths."
  },
  {
   "property": "C45",
   "status": "proved",
   "theorems": [
    "C45_authenticated_before_export"
   ],
   "note": ""
  },
  {
   "property": "C46",
   "status": "partial",
   "theorems": [
    "C46_length_limit",
    "C46_any_length_refuted",
    "C46_any_length_partial"
   ],
   "note": "False: with 32-byte hashes no secret of 256 bytes or more can be exported (C46_length_limit, C46_any_length_refuted). Shorter lengths work."
  },
  {
   "property": "C47",
   "status": "proved",
   "theorems": [
    "C47_success",
    "C47_codes",
    "C47_incomplete"
   ],
   "note": "All three parts, for every call, state and library behaviour."
  },
  {
   "property": "C48",
   "status": "proved",
   "theorems": [
    "C48_nothing_open"
   ],
   "note": "Invariant over all histories."
  },
  {
   "property": "C49",
   "status": "proved",
   "theorems": [
    "C49_store",
    "C49_import_fresh",
    "C49_import_failed",
    "C49_destroy",
    "C49_import_only",
    "C49_import_accepted"
   ],
   "note": "Exact contents by induction over histories; acceptance of imports is exact."
  },
  {
   "property": "C50",
   "status": "proved",
   "theorems": [
    "C50_parameters",
    "C50_extract",
    "C50_expand",
    "C50_encrypt",
    "C50_decrypt",
    "C50_hash",
    "C50_agreement_x",
    "C50_sign_x",
    "C50_verify_x",
    "C50_agreement_w",
    "C50_sign_w",
    "C50_verify_w",
    "C50_pair_w"
   ],
   "note": "One theorem per operation and curve family, over all histories. For suites 0 and 4 the key may have been imported for verification instead of agreement or the other way round; that is C52."
  },
  {
   "property": "C51",
   "status": "proved",
   "theorems": [
    "C51_extract",
    "C51_expand",
    "C51_encrypt",
    "C51_decrypt",
    "C51_hash",
    "C51_agreement_x",
    "C51_sign_x",
    "C51_verify_x",
    "C51_agreement_w",
    "C51_sign_w",
    "C51_verify_w"
   ],
   "note": "One theorem per operation. C51_agreement_w takes the primality of the two field primes as a premise, a known fact about two numbers that is not about the code."
  },
  {
   "property": "C52",
   "status": "partial",
   "theorems": [
    "C52_purpose_partial",
    "C52_purpose_refuted"
   ],
   "note": "False for suites 0 and 4: verification keys serve as agreement keys and the other way round (C52_purpose_refuted). Proved for all other operations and for suites 2 and 24."
  },
  {
   "property": "C53",
   "status": "partial",
   "theorems": [
    "C53_no_fault_partial",
    "C53_null_handle_refuted",
    "C53_public_key_refuted",
    "C53_outputs_fit"
   ],
   "note": "False: a NULL handle is dereferenced on import and a public-key buffer larger than two coordinates is filled from beyond the array (two refutations). Proved for all other calls, and outputs always fit."
  },
  {
   "property": "C54",
   "status": "partial",
   "theorems": [
    "C54_zero_secret_refuted"
   ],
   "note": "False: suites 0 and 4 return the all-zero secret with success (refutation). The P-256 and P-384 suites are covered by C50_agreement_w."
  },
  {
   "property": "C55",
   "status": "proved",
   "theorems": [
    "C55_shared_secret",
    "C55_sealed_opens",
    "C55_signed_verifies"
   ],
   "note": "For any two histories on two devices whose libraries implement the same primitives."
  },
  {
   "property": "C56",
   "status": "partial",
   "theorems": [
    "C56_fresh",
    "C56_two_pairs",
    "C56_import_only",
    "C56_import_accepted",
    "C56_import_failed",
    "C56_erased",
    "C56_store",
    "C56_destroy_pair",
    "C56_destroy_key",
    "C56_destroy_unknown_partial",
    "C56_destroy_unknown_refuted"
   ],
   "note": "Everything but the last clause is proved; the last is proved for identifiers outside the two slot handles and false for those (refutation: destroying a slot handle that is not open succeeds)."
  },
  {
   "property": "C57",
   "status": "proved",
   "theorems": [
    "C57_pair",
    "C57_pair_available",
    "C57_encapsulate",
    "C57_encapsulate_available",
    "C57_decapsulate",
    "C57_decapsulate_available",
    "C57_sign",
    "C57_sign_available",
    "C57_verify",
    "C57_verify_available",
    "C57_hash",
    "C57_hash_available",
    "C57_extract",
    "C57_extract_available",
    "C57_expand",
    "C57_expand_available",
    "C57_encrypt",
    "C57_encrypt_available",
    "C57_decrypt",
    "C57_decrypt_available"
   ],
   "note": "For key-derivation inputs below 2^61 bytes, where the bit lengths fit size_t."
  },
  {
   "property": "C58",
   "status": "proved",
   "theorems": [
    "C58_returns",
    "C58_incomplete",
    "C58_success",
    "C58_outputs_fit"
   ],
   "note": ""
  },
  {
   "property": "C59",
   "status": "proved",
   "theorems": [
    "C59_same_secret",
    "C59_available",
    "C59_sealed_opens"
   ],
   "note": "Under the correctness of ML-KEM and AES-CCM stated as premises."
  },
  {
   "property": "C60",
   "status": "partial",
   "theorems": [
    "C60_purpose_partial",
    "C60_purpose_refuted"
   ],
   "note": "False: keys imported for agreement, signature, verification, extraction and expansion are interchangeable (refutation). Proved for encryption and decryption keys."
  },
  {
   "property": "C61",
   "status": "partial",
   "theorems": [
    "C61_granted_partial",
    "C61_release_refuted"
   ],
   "note": "Proved for allocations and all callbacks but the release of keys, whose result the library never looks at (C61_release_refuted)."
  },
  {
   "property": "C62",
   "status": "proved",
   "theorems": [
    "C62_context",
    "C62_asked",
    "C62_handed"
   ],
   "note": "For calls that return; a call that oversteps an array is undefined behaviour in the model and the subject of C13 and C40. Buffers of compose calls are the subject of C12."
  },
  {
   "property": "C63",
   "status": "partial",
   "theorems": [
    "C63_completion_partial",
    "C63_wide_algorithm_refuted"
   ],
   "note": "Proved for credentials and EAD whose hash algorithm numbers and labels have at most 16 bits, cipher suites with lengths up to 4096 and an IV no longer than the key, identifiers and credentials up to 32 KiB and buffers of 64 KiB. False for algorithm numbers beyond 16 bits, for which the library reserves one byte too few (refutation)."
  },
  {
   "property": "C64",
   "status": "proved",
   "theorems": [
    "C64_service"
   ],
   "note": "For configurations within the limits of C63, 64 KiB buffers, and the lengths of C46; message 4 needs a cipher suite with a non-empty tag."
  },
  {
   "property": "C65",
   "status": "proved",
   "theorems": [
    "C65_initiator_contract",
    "C65_responder_contract",
    "C65_signatures",
    "C65_exchange",
    "C65_same_secrets",
    "C65_same_exports",
    "C65_oscore"
   ],
   "note": "One context per history of the suite; the device may serve other calls in between that destroy neither the long-term keys nor the keys the library holds. The post-quantum suite is not covered: its key encapsulation does not fit the contract."
  },
  {
   "property": "C66",
   "status": "proved",
   "theorems": [
    "C66_signature",
    "C66_mac"
   ],
   "note": "Unforgeability and collision freedom are premises on what happened. With signatures, agreement on C_R needs that no two MACs collided. With a MAC, credential identifiers must be single CBOR items (only the kind \"any\" may break this). CRED_R followed by EAD_2 agrees as a byte string."
  },
  {
   "property": "C67",
   "status": "proved",
   "theorems": [
    "C67_encryption",
    "C67_signature",
    "C67_mac"
   ],
   "note": "Unforgeability and collision freedom are premises on what happened. Agreement on EAD items is for labels of 32 bits."
  },
  {
   "property": "C68",
   "status": "proved",
   "theorems": [
    "C68_confirmation"
   ],
   "note": "Unforgeability and collision freedom are premises on what happened."
  },
  {
   "property": "C69",
   "status": "proved",
   "theorems": [
    "C69_initiator",
    "C69_responder"
   ],
   "note": "Unforgeability and freedom from collisions (of hashes, and of derived keys for the same label and context) are premises on what happened. Agreement of exports needs that both ends mean the same suite by a suite value, and callbacks that compute the same primitives in the later session. For the responder agreement on PRK_4e3m rests on correct primitives, since message 3 is encrypted before it is derived."
  },
  {
   "property": "C70",
   "status": "proved",
   "theorems": [
    "C70_message_2",
    "C70_message_3",
    "C70_message_4"
   ],
   "note": "Fresh ephemeral keys (no public key generated in two of the accepting sessions), unforgeability and collision freedom are premises on what happened."
  },
  {
   "property": "C71",
   "status": "proved",
   "theorems": [
    "C71_message_once",
    "C71_counts"
   ],
   "note": "Histories start in any reachable state. The counts are of calls made to the callbacks, whatever they answer."
  },
  {
   "property": "C72",
   "status": "proved",
   "theorems": [
    "C72_infos",
    "C72_separate",
    "C72_label",
    "C72_once",
    "C72_prk_out_refuted"
   ],
   "note": "C72_prk_out_refuted shows why PRK_out is not in the list: an export whose derivation of PRK_out failed derives it again (see C24 and C43). Distinctness of infos is for encodings below 2^64 bytes."
  },
  {
   "property": "C73",
   "status": "proved",
   "theorems": [
    "C73_kept",
    "C73_alone"
   ],
   "note": "Arrays are compared whole, also beyond the length in use."
  },
  {
   "property": "C74",
   "status": "proved",
   "theorems": [
    "C74_apart",
    "C74_transfer",
    "C74_oblivious"
   ],
   "note": "Calls are interleaved whole; they do not overlap in time. That a call touches no context but its own is a fact of the model (the library has no mutable static variables, and the model passes one context); what is proved is that sharing callbacks and the heap with other sessions adds nothing to what some callbacks could do to the context alone."
  },
  {
   "property": "C75",
   "status": "partial",
   "theorems": [
    "C75_room",
    "C75_no_room_partial",
    "C75_no_room_refuted",
    "C75_oscore"
   ],
   "note": "False for message 3 with a buffer one byte too small, which the code overruns (C75_no_room_refuted, see C12); everything else is proved. A buffer of size zero is an invalid argument."
  },
  {
   "property": "C76",
   "status": "proved",
   "theorems": [
    "C76_order",
    "C76_session",
    "C76_permutation"
   ],
   "note": "Calls about the same setting keep their order: the last accepted one counts."
  },
  {
   "property": "C77",
   "status": "proved",
   "theorems": [
    "C77_last_counts"
   ],
   "note": "The configuration precedes the first message; afterwards anything may be called, including further configuration."
  },
  {
   "property": "C78",
   "status": "partial",
   "theorems": [
    "C78_methods",
    "C78_suites_partial",
    "C78_suites_refuted"
   ],
   "note": "Proved for the methods, and for suites as long as the chosen one stays in its place (the query of suites excepted). False otherwise: the library keeps an index into the table the application replaces (C78_suites_refuted)."
  },
  {
   "property": "C79",
   "status": "proved",
   "theorems": [
    "C79_call",
    "C79_public",
    "C79_history",
    "C79_session",
    "C79_stranger"
   ],
   "note": "The table of Work.v bounds each kind separately, C79_public the public-key operations together. The demonstration sessions reach the bounds on public-key operations, imports and buffers of messages 1 to 3 and all bounds of the exports. A call that ends in undefined behaviour (excluded by C13 for the states it covers) has no bound. C79_stranger bounds the work up to the question about credentials."
  },
  {
   "property": "C80",
   "status": "partial",
   "theorems": [
    "C80_short_refuted",
    "C80_buffers_partial",
    "C80_until_asked_partial",
    "C80_together_partial",
    "C80_first_message"
   ],
   "note": "False for messages shorter than the ephemeral key (message 2): the length is subtracted without a comparison and a two-byte message asks for almost 2^64 bytes (C80_short_refuted; see also C11). Proved for every message whose byte string is at least as long as the part subtracted. A first message makes the library ask for no buffer (C80_first_message)."
  }
 ]
}
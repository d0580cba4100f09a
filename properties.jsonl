{"id": "C01", "title": "Configuration calls validate and frame", "statement": "edhoc_set_methods, edhoc_set_cipher_suites, edhoc_set_connection_id and the edhoc_bind_*/edhoc_set_user_context calls succeed exactly on an initialised context with arguments in the documented ranges. A rejected call leaves the whole context unchanged; an accepted call changes only the setting it names and stores exactly the caller's values.", "quantifier": "every context state, every argument tuple (method lists, suite lists, connection identifiers, callback tables)", "why_tests_cant": "The rejected/accepted boundary ranges over all list lengths, integers and byte strings, and the frame condition ranges over every other field of every context.", "anchors": ["library/edhoc.c:edhoc_set_methods", "library/edhoc.c:edhoc_set_cipher_suites", "library/edhoc.c:edhoc_set_connection_id", "library/edhoc.c:edhoc_bind_crypto", "library/edhoc.c:edhoc_bind_ead"]}
{"id": "C02", "title": "Init and deinit give a blank context", "statement": "edhoc_context_init always yields the blank START context; edhoc_context_deinit succeeds exactly on an initialised context and afterwards no byte of key material, transcript, identifiers or peer data is left in it and every configuration call is refused until it is initialised again.", "quantifier": "every context state reachable by any history of calls", "why_tests_cant": "Must hold whatever a previous session left behind.", "anchors": ["library/edhoc.c:edhoc_context_init", "library/edhoc.c:edhoc_context_deinit"]}
{"id": "C03", "title": "Message order is enforced", "statement": "Each message call (compose/process of messages 1-4) does any work only in the one protocol state the documentation names for it; in every other state it returns BAD_STATE, invokes no callback, allocates nothing and leaves the context unchanged.", "quantifier": "every context state, every argument, every callback behaviour", "why_tests_cant": "The set of (status, transcript state, key state) triples and histories leading to them is unbounded.", "anchors": ["library/edhoc_message_1.c:edhoc_message_1_compose", "library/edhoc_message_2.c:edhoc_message_2_process", "library/edhoc_message_3.c:edhoc_message_3_process", "library/edhoc_message_4.c:edhoc_message_4_compose"]}
{"id": "C04", "title": "A failed message call kills the session", "statement": "Whenever a message call that passed its guards returns an error - for whatever reason: malformed input, callback failure, allocation failure - the session is left in the aborted state with error code 'unspecified', 'wrong selected cipher suite' or 'unknown credential', and no later message call on that context can succeed, however many calls of any API function follow, until it is initialised again.", "quantifier": "every failure point of every message call, every callback behaviour, every continuation of API calls", "why_tests_cant": "Failure points times continuations cannot be enumerated.", "anchors": ["library/edhoc_message_1.c", "library/edhoc_message_2.c", "library/edhoc_message_3.c", "library/edhoc_message_4.c"]}
{"id": "C05", "title": "Only complete handshakes complete", "statement": "In any history of API calls since initialisation, a context is in the completed (or persisted) state only if message 1, message 2 and message 3 were successfully composed/processed exactly once each, in that order, in one consistent role.", "quantifier": "every finite history of API calls with every callback behaviour", "why_tests_cant": "Histories are unbounded.", "anchors": ["library/edhoc_message_1.c", "library/edhoc_message_2.c", "library/edhoc_message_3.c", "include/edhoc_context.h:edhoc_state_machine"]}
{"id": "C06", "title": "Every imported key is destroyed", "statement": "Every key handle the library obtains through keys.import_key during an API call is passed to keys.destroy_key before that call returns, on success and on every error path.", "quantifier": "every API call, every context, every behaviour of the callbacks and of the allocator", "why_tests_cant": "Requires all combinations of failing callbacks at every step.", "anchors": ["library/edhoc_message_1.c:edhoc_message_1_compose", "library/edhoc_message_2.c:comp_prk_2e", "library/edhoc_exporter.c", "include/edhoc_crypto.h:edhoc_keys"]}
{"id": "C07", "title": "Every working buffer is released", "statement": "With the heap or custom memory backend every block an API call obtains from the allocator is given back exactly once before the call returns, on success and on every error path, including when the allocator itself fails at any point.", "quantifier": "every API call, every context, every behaviour of callbacks and allocator", "why_tests_cant": "Requires all combinations of allocation failures and callback failures.", "anchors": ["backends/memory/include/edhoc_backend_memory.h:EDHOC_MEM_ALLOC", "backends/memory/include/edhoc_backend_memory.h:EDHOC_MEM_FREE", "library/edhoc_message_2.c", "library/edhoc_message_3.c"]}
{"id": "C08", "title": "CBOR items decode to what was encoded", "statement": "Every integer, byte string, text string, array and map the library writes is decoded by the library to the same value, consumes exactly the bytes written, and two different item sequences never share an encoding.", "quantifier": "all 32-bit integers, all byte strings below 2^64 bytes, all following data", "why_tests_cant": "Infinite input space; boundaries at 24, 2^8, 2^16, 2^32.", "anchors": ["backends/cbor/src/backend_cbor_int_type_encode.c", "backends/cbor/src/backend_cbor_bstr_type_encode.c", "backends/cbor/src/backend_cbor_message_1_encode.c"]}
{"id": "C09", "title": "message_1 carries exactly the initiator's parameters", "statement": "When an honest message_1 is processed successfully, the responder's context holds exactly the initiator's method, cipher suite list, ephemeral public key and connection identifier, and both contexts hold the same hash of message_1.", "quantifier": "all methods, suite lists, keys, connection identifiers, EAD lists and callback behaviours", "why_tests_cant": "Round trip over all configurations.", "anchors": ["library/edhoc_message_1.c:edhoc_message_1_compose", "library/edhoc_message_1.c:edhoc_message_1_process"]}
{"id": "C10", "title": "Malformed message_1 is rejected", "statement": "edhoc_message_1_process returns an error for every byte string that is not the CBOR encoding of a message_1.", "quantifier": "all byte strings", "why_tests_cant": "The set of malformed inputs is infinite.", "anchors": ["library/edhoc_message_1.c:edhoc_message_1_process", "backends/cbor/src/backend_cbor_message_1_decode.c"]}
{"id": "C11", "title": "Truncated messages 2, 3 and 4 are rejected cleanly", "statement": "A message_2 whose byte string is shorter than G_Y, and a message_3/4 whose ciphertext is shorter than the AEAD tag, is rejected with an error and no out-of-bounds access or oversized allocation.", "quantifier": "all byte strings, all cipher suites", "why_tests_cant": "Needs every length below the threshold for every suite.", "anchors": ["library/edhoc_message_2.c:comp_ciphertext_2_len", "library/edhoc_message_3.c:edhoc_message_3_process", "library/edhoc_message_4.c:edhoc_message_4_process"]}
{"id": "C12", "title": "Compose functions stay inside the caller's buffer", "statement": "A compose call never writes past the message size the caller passed, and on success reports exactly the number of bytes written.", "quantifier": "every message, every buffer size, every configuration", "why_tests_cant": "The critical sizes depend on all variable-length fields.", "anchors": ["library/edhoc_message_1.c:edhoc_message_1_compose", "library/edhoc_message_2.c:prepare_message_2", "library/edhoc_message_3.c:gen_msg_3", "library/edhoc_message_4.c:gen_msg_4"]}
{"id": "C13", "title": "No undefined behaviour on network input", "statement": "For every received byte string, with callbacks that respect their contracts and cipher suites within the configured limits, message processing never reads or writes outside an object.", "quantifier": "all received byte strings, all contract-abiding callbacks", "why_tests_cant": "Adversarial inputs are unbounded.", "anchors": ["library/edhoc_message_1.c:edhoc_message_1_process", "library/edhoc_message_2.c:parse_plaintext_2", "library/edhoc_message_3.c:parse_plaintext_3"]}
{"id": "C14", "title": "CIPHERTEXT_2 decrypts to PLAINTEXT_2", "statement": "Applying the keystream twice restores the plaintext, and with the same PRK_2e, TH_2 and length both sides derive the same keystream, so the initiator recovers exactly the bytes the responder encrypted.", "quantifier": "all plaintexts and keystreams of equal length", "why_tests_cant": "All byte strings of all lengths.", "anchors": ["library/edhoc_message_2.c:xor_arrays", "library/edhoc_message_2.c:comp_keystream"]}
{"id": "C15", "title": "Transcript hashes follow RFC 9528", "statement": "Whenever a call that computes TH_2, TH_3 or TH_4 succeeds, the stored value is the hash callback's answer on exactly the RFC 9528 input: TH_2=H(G_Y,H(message_1)), TH_3=H(TH_2,PLAINTEXT_2,CRED_R), TH_4=H(TH_3,PLAINTEXT_3,CRED_I) with RFC CBOR encoding.", "quantifier": "all contexts, keys, plaintexts, credentials, callbacks", "why_tests_cant": "Byte-exact for all inputs.", "anchors": ["library/edhoc_message_2.c:comp_th_2", "library/edhoc_message_2.c:comp_th_3", "library/edhoc_message_3.c:comp_th_4"]}
{"id": "C16", "title": "Key schedule follows RFC 9528", "statement": "PRK_2e, SALT_3e2m, PRK_3e2m, SALT_4e3m, PRK_4e3m, K_3/IV_3, K_4/IV_4, MAC_2/MAC_3 and PRK_out are obtained from the extract/expand callbacks with exactly the RFC 9528 key, salt and info (label, context, length), choosing the static-DH branch exactly for the methods the RFC names.", "quantifier": "all methods, both roles, all contexts, all callback behaviours", "why_tests_cant": "All combinations of method, role and variable-length inputs.", "anchors": ["library/edhoc_message_2.c:comp_prk_2e", "library/edhoc_message_2.c:comp_prk_3e2m", "library/edhoc_message_3.c:comp_prk_4e3m", "library/edhoc_exporter.c:compute_prk_out"]}
{"id": "C17", "title": "Honest peers agree on the session", "statement": "If an initiator and a responder with a correct crypto library exchange messages 1-3 unmodified and every call succeeds, both hold the same TH_4 and PRK_4e3m, and any later export of an application secret by either side with the same label, context and length gives the same bytes.", "quantifier": "all four methods, all suites, all credentials, all EAD, all keys", "why_tests_cant": "Two-party executions over all configurations.", "anchors": ["library/edhoc_message_1.c", "library/edhoc_message_2.c", "library/edhoc_message_3.c", "library/edhoc_exporter.c"]}
{"id": "C18", "title": "OSCORE sessions mirror each other", "statement": "After an honest handshake the two OSCORE exports yield the same master secret and master salt, and the sender identifier of one side is the recipient identifier of the other.", "quantifier": "all connection identifiers (integer and byte string), all secret/salt lengths", "why_tests_cant": "All identifier encodings on both sides.", "anchors": ["library/edhoc_exporter.c:edhoc_export_oscore_session"]}
{"id": "C19", "title": "Initiator accepts only an authenticated responder", "statement": "edhoc_message_2_process returns success only if the credentials.verify callback accepted the peer credential named in the decrypted plaintext and either the signature callback accepted Signature_2 over the RFC 9528 structure (ID_CRED_R, TH_2 || CRED_R || EAD_2, MAC_2) or, for static DH, the received MAC_2 equals the locally computed one byte for byte.", "quantifier": "all received messages, all methods, all callback behaviours", "why_tests_cant": "Universal over adversarial messages.", "anchors": ["library/edhoc_message_2.c:edhoc_message_2_process", "library/edhoc_common.c:edhoc_verify_sign_or_mac"]}
{"id": "C20", "title": "Responder accepts only an authenticated initiator", "statement": "edhoc_message_3_process returns success - and the context becomes completed with OSCORE export allowed - only if AEAD decryption of CIPHERTEXT_3 under K_3/IV_3/TH_3 succeeded, the credentials.verify callback accepted the peer credential and Signature_or_MAC_3 was verified.", "quantifier": "all received messages, all methods, all callback behaviours", "why_tests_cant": "Universal over adversarial messages.", "anchors": ["library/edhoc_message_3.c:edhoc_message_3_process", "library/edhoc_common.c:edhoc_verify_sign_or_mac"]}
{"id": "C21", "title": "Method and cipher-suite negotiation", "statement": "A responder accepts message_1 only if the method is one it was configured with and the initiator's selected suite equals a suite the responder supports; on a suite mismatch the error code becomes 'wrong selected cipher suite' and the peer's suite list is what edhoc_error_get_cipher_suites reports.", "quantifier": "all method and suite lists on both sides", "why_tests_cant": "All pairs of lists.", "anchors": ["library/edhoc_message_1.c:edhoc_message_1_process", "library/edhoc.c:edhoc_error_get_cipher_suites"]}
{"id": "C22", "title": "Any supported suite is accepted", "statement": "A responder that supports the initiator's selected cipher suite, and none of the suites the initiator prefers over it, continues the handshake with that suite.", "quantifier": "all pairs of supported-suite lists", "why_tests_cant": "All pairs of lists.", "anchors": ["library/edhoc_message_1.c:edhoc_message_1_process"]}
{"id": "C23", "title": "Exporter label policy", "statement": "The application exporter yields a secret only for the OSCORE labels and the private-use range 32768..65535; any other label is refused without touching keys or state.", "quantifier": "all labels, lengths, states", "why_tests_cant": "All 2^64 labels.", "anchors": ["library/edhoc_exporter.c:edhoc_export_prk_exporter"]}
{"id": "C24", "title": "Exports are repeatable and non-interfering", "statement": "Exporting a secret any number of times, with any labels, does not change what a later export with the same label and length returns, nor the transcript, identifiers or status of the session.", "quantifier": "all sequences of exports", "why_tests_cant": "Unbounded sequences.", "anchors": ["library/edhoc_exporter.c:edhoc_export_prk_exporter"]}
{"id": "C25", "title": "Key update is synchronised and replaces the session key", "statement": "After edhoc_export_key_update with the same entropy on both sides of an honest session the two sides still export equal secrets; the new PRK_out is Expand(old PRK_out, NEW_PRK_OUT label, entropy).", "quantifier": "all entropy strings, any number of updates", "why_tests_cant": "All byte strings and all update counts.", "anchors": ["library/edhoc_exporter.c:edhoc_export_key_update"]}
{"id": "C26", "title": "One OSCORE session per handshake or key update", "statement": "edhoc_export_oscore_session succeeds at most once after a completed handshake and at most once after each successful key update; a failed attempt also uses up the permission.", "quantifier": "all histories of API calls", "why_tests_cant": "Unbounded histories.", "anchors": ["library/edhoc_exporter.c:edhoc_export_oscore_session", "library/edhoc_exporter.c:edhoc_export_key_update"]}
{"id": "C27", "title": "Error messages round-trip", "statement": "An error message composed with a code and valid information is processed by the peer to the same code and the same text or suite list.", "quantifier": "all codes, all texts, all suite lists of one to three suites", "why_tests_cant": "All text lengths and lists.", "anchors": ["library/edhoc_message_error.c:edhoc_message_error_compose", "library/edhoc_message_error.c:edhoc_message_error_process"]}
{"id": "C28", "title": "Error-message processing is memory safe", "statement": "edhoc_message_error_process, for every received byte string, reads only the received bytes and writes only within the caller's information buffer.", "quantifier": "all byte strings and info buffers", "why_tests_cant": "Adversarial inputs are unbounded.", "anchors": ["library/edhoc_message_error.c:edhoc_message_error_process", "backends/cbor/include/backend_cbor_edhoc_types.h:message_error_ERR_INFO_r"]}
{"id": "C29", "title": "EAD items arrive as sent", "statement": "The EAD tokens handed to the peer's ead.process callback for a message are exactly those produced by ead.compose for it: same number, order, labels, values, and the same absence of a value.", "quantifier": "all token lists within the configured maximum, messages 1-4", "why_tests_cant": "All token lists.", "anchors": ["library/edhoc_message_1.c:edhoc_message_1_compose", "library/edhoc_message_1.c:edhoc_message_1_process", "library/edhoc_message_2.c:prepare_plaintext_2", "library/edhoc_message_4.c:prepare_plaintext_4"]}
{"id": "C30", "title": "No EAD item is silently dropped", "statement": "A message whose EAD field carries more items than the receiver can hold, or bytes that are not an EAD item, is rejected rather than processed with the surplus ignored.", "quantifier": "all received messages", "why_tests_cant": "Unbounded inputs.", "anchors": ["backends/cbor/src/backend_cbor_message_1_decode.c:decode_EAD_1", "library/edhoc_message_1.c:edhoc_message_1_process"]}
{"id": "C31", "title": "Helper framing round-trips", "statement": "What edhoc_prepend_flow / edhoc_prepend_connection_id put in front of a message is recovered by edhoc_extract_flow_info / edhoc_extract_connection_id: same identifier, same message position.", "quantifier": "all connection identifiers the API accepts, all buffers", "why_tests_cant": "All identifiers and buffers.", "anchors": ["helpers/src/edhoc_helpers.c:edhoc_prepend_connection_id", "helpers/src/edhoc_helpers.c:edhoc_extract_connection_id"]}
{"id": "C32", "title": "Connection identifier comparison is an equivalence", "statement": "edhoc_connection_id_equal is reflexive, symmetric, transitive on valid identifiers, and true exactly when both denote the same identifier.", "quantifier": "all pairs/triples of identifiers", "why_tests_cant": "All byte strings.", "anchors": ["helpers/src/edhoc_helpers.c:edhoc_connection_id_equal"]}
{"id": "C33", "title": "Size estimates are sufficient", "statement": "The overhead functions (edhoc_cbor_int_mem_req, _bstr_oh, _tstr_oh, _array_oh, _map_oh) never under-estimate the CBOR encoding, so work buffers computed from them always suffice.", "quantifier": "all 32-bit integers, all lengths", "why_tests_cant": "Boundaries over 2^32/2^64 values.", "anchors": ["library/edhoc_common.c:edhoc_cbor_int_mem_req", "library/edhoc_common.c:edhoc_cbor_bstr_oh", "library/edhoc_common.c:edhoc_cbor_array_oh"]}
{"id": "C34", "title": "Ephemeral private key does not outlive the handshake", "statement": "Once a handshake has completed, the ephemeral Diffie-Hellman private key is no longer stored in the context.", "quantifier": "all methods, both roles, all histories", "why_tests_cant": "All histories.", "anchors": ["library/edhoc_message_2.c:comp_grx", "library/edhoc_message_3.c:comp_giy", "library/edhoc_message_3.c:edhoc_message_3_process"]}
{"id": "C35", "title": "Roles are respected in message 4", "statement": "Only a responder can compose message_4 and only an initiator can process it.", "quantifier": "all histories", "why_tests_cant": "All histories.", "anchors": ["library/edhoc_message_4.c:edhoc_message_4_compose", "library/edhoc_message_4.c:edhoc_message_4_process"]}
{"id": "C36", "title": "Exporting does not block message 4", "statement": "A completed session can still compose or process message_4 after application secrets or OSCORE parameters were exported from it.", "quantifier": "all histories", "why_tests_cant": "All histories.", "anchors": ["library/edhoc_exporter.c:edhoc_export_prk_exporter", "library/edhoc_message_4.c:edhoc_message_4_compose"]}
{"id": "C37", "title": "No key export from an aborted session", "statement": "No export call succeeds on a context in the aborted state.", "quantifier": "all histories", "why_tests_cant": "All histories.", "anchors": ["library/edhoc_exporter.c:edhoc_export_prk_exporter"]}
{"id": "C38", "title": "MAC length follows method and role", "statement": "MAC_2 / MAC_3 have the hash length when the authenticating party signs and the suite's MAC length when it uses static DH, for each of the four methods and both roles, identically at prover and verifier.", "quantifier": "all methods, roles, suites", "why_tests_cant": "Must agree between two executions for all suites.", "anchors": ["library/edhoc_common.c:edhoc_comp_mac_length", "library/edhoc_common.c:edhoc_comp_sign_or_mac_length"]}
{"id": "C39", "title": "message_1 bytes are the RFC encoding", "statement": "A successfully composed message_1 is exactly METHOD, SUITES_I (single integer when one suite, array otherwise, selected suite last), G_X, C_I, EAD_1 in RFC 9528 CBOR.", "quantifier": "all configurations", "why_tests_cant": "Byte-exact for all configurations.", "anchors": ["library/edhoc_message_1.c:edhoc_message_1_compose"]}
{"id": "C40", "title": "Credential identifiers survive the wire", "statement": "The credential identifier (kid as integer or byte string, x5chain, x5t) that the peer's fetch callback supplied is the one handed to credentials.verify, and both sides authenticate the same ID_CRED_x map and CRED_x.", "quantifier": "all identifiers within configured limits", "why_tests_cant": "All identifiers.", "anchors": ["library/edhoc_common.c:edhoc_comp_mac_context", "library/edhoc_message_2.c:parse_plaintext_2", "library/edhoc_message_3.c:parse_plaintext_3"]}
{"id": "C41", "title": "Error-code bookkeeping", "statement": "edhoc_error_get_code reports 'success' exactly when the last message call that got past its guards succeeded, and the suites are reported only after a cipher-suite mismatch, within the caller's buffers.", "quantifier": "all histories and buffer sizes", "why_tests_cant": "All histories.", "anchors": ["library/edhoc.c:edhoc_error_get_code", "library/edhoc.c:edhoc_error_get_cipher_suites"]}
{"id": "C42", "title": "Messages 2, 3 and 4 have no second reading", "statement": "edhoc_message_2_process, edhoc_message_3_process and edhoc_message_4_process accept a message only if it is exactly one CBOR byte string, with nothing after it.", "quantifier": "all byte strings", "why_tests_cant": "All byte strings.", "anchors": ["library/edhoc_message_2.c:edhoc_message_2_process", "library/edhoc_message_3.c:edhoc_message_3_process", "library/edhoc_message_4.c:edhoc_message_4_process"]}
{"id": "C43", "title": "A failed export or key update leaves the session keys alone", "statement": "When edhoc_export_prk_exporter, edhoc_export_key_update or edhoc_export_oscore_session returns an error, the key material of the session is what it was before the call, or the session is aborted.", "quantifier": "all states, arguments and callback failures", "why_tests_cant": "Every failure point of every callback.", "anchors": ["library/edhoc_exporter.c:edhoc_export_prk_exporter", "library/edhoc_exporter.c:edhoc_export_key_update", "library/edhoc_exporter.c:edhoc_export_oscore_session"]}
{"id": "C44", "title": "The application is asked once", "statement": "A message call invokes each of the callbacks credentials.fetch, credentials.verify, ead.compose and ead.process at most once and only in the direction it belongs to (fetch and compose when composing, verify and process when processing); configuration, export and key update calls invoke none of them.", "quantifier": "all calls, states, received messages, callback behaviours", "why_tests_cant": "All paths, including every failure path.", "anchors": ["library/edhoc_message_2.c:edhoc_message_2_compose", "library/edhoc_message_2.c:edhoc_message_2_process", "library/edhoc_message_3.c:edhoc_message_3_compose", "library/edhoc_message_3.c:edhoc_message_3_process"]}
{"id": "C45", "title": "No export before the peer is authenticated", "statement": "edhoc_export_prk_exporter yields a secret only if, since edhoc_context_init, the message call that authenticates the peer succeeded: message_2_process for an initiator, message_3_process for a responder, each after its predecessors.", "quantifier": "all histories of API calls, arguments and callback behaviours", "why_tests_cant": "All histories, including calls out of order and after failures.", "anchors": ["library/edhoc_exporter.c:edhoc_export_prk_exporter", "library/edhoc_message_2.c:edhoc_message_2_process", "library/edhoc_message_3.c:edhoc_message_3_process"]}
{"id": "C46", "title": "Secrets of any length can be exported", "statement": "A completed session exports a secret of any requested length of at least one byte when no callback or allocation fails.", "quantifier": "all lengths, labels and completed sessions", "why_tests_cant": "All lengths.", "anchors": ["library/edhoc_exporter.c:edhoc_export_prk_exporter", "library/edhoc_exporter.c:prk_exporter"]}
{"id": "C47", "title": "The ready-made suites report success truthfully", "statement": "A key or crypto function of the ready-made cipher suites 0, 2, 4 and 24 returns success only if every call it made into PSA, mbed TLS and compact25519 succeeded; a missing argument is refused as invalid before anything is done; no other code than success, invalid argument and crypto failure is returned.", "quantifier": "all calls, key stores and library behaviours", "why_tests_cant": "Every library call may fail at every point.", "anchors": ["helpers/src/edhoc_cipher_suite_0.c", "helpers/src/edhoc_cipher_suite_2.c", "helpers/src/edhoc_cipher_suite_4.c", "helpers/src/edhoc_cipher_suite_24.c"]}
{"id": "C48", "title": "The ready-made suites leave nothing open", "statement": "After any history of calls of a ready-made suite, with any failures inside, no key derivation operation and no public-key context is left open.", "quantifier": "all histories of calls and library failures", "why_tests_cant": "Every failure point of every call in every history.", "anchors": ["helpers/src/edhoc_cipher_suite_0.c:edhoc_cipher_suite_0_extract", "helpers/src/edhoc_cipher_suite_2.c:edhoc_cipher_suite_2_extract", "helpers/src/edhoc_cipher_suite_4.c:edhoc_cipher_suite_4_extract", "helpers/src/edhoc_cipher_suite_24.c:edhoc_cipher_suite_24_extract", "helpers/src/edhoc_cipher_suite_2.c:edhoc_cipher_suite_2_key_agreement"]}
{"id": "C49", "title": "The key store holds exactly the live handles", "statement": "Through a ready-made suite, the key store holds exactly the keys that were imported and not destroyed; a new handle is never one in use; a failed import stores nothing; destroying a key removes that key and no other and clears the handle; keys of exactly the right form for their purpose can be imported.", "quantifier": "all histories of calls", "why_tests_cant": "All interleavings of imports and destructions.", "anchors": ["helpers/src/edhoc_cipher_suite_0.c:edhoc_cipher_suite_0_key_import", "helpers/src/edhoc_cipher_suite_2.c:edhoc_cipher_suite_2_key_import", "helpers/src/edhoc_cipher_suite_4.c:edhoc_cipher_suite_4_key_import", "helpers/src/edhoc_cipher_suite_24.c:edhoc_cipher_suite_24_key_import", "helpers/src/edhoc_cipher_suite_0.c:edhoc_cipher_suite_0_key_destroy", "helpers/src/edhoc_cipher_suite_2.c:edhoc_cipher_suite_2_key_destroy", "helpers/src/edhoc_cipher_suite_4.c:edhoc_cipher_suite_4_key_destroy", "helpers/src/edhoc_cipher_suite_24.c:edhoc_cipher_suite_24_key_destroy"]}
{"id": "C50", "title": "A ready-made suite computes its functions with the imported key", "statement": "When an operation of a ready-made suite succeeds, its output is the suite's function (HKDF, AEAD with the suite's tag length, hash, X25519, ECDH, Ed25519, ECDSA) of the arguments and of the very bytes imported under that handle for that purpose; an ECDH peer is a point of the curve; a signature verifies only if it is valid over the hash of the input; a public key written is the x-coordinate of the private key's point.", "quantifier": "all histories, keys, arguments and library behaviours", "why_tests_cant": "Relates an operation to an import arbitrarily far in the past.", "anchors": ["helpers/src/edhoc_cipher_suite_0.c", "helpers/src/edhoc_cipher_suite_2.c", "helpers/src/edhoc_cipher_suite_4.c", "helpers/src/edhoc_cipher_suite_24.c"]}
{"id": "C51", "title": "The ready-made suites are available", "statement": "If the libraries refuse nothing, every operation of a ready-made suite with a live handle of its purpose and buffers of the documented sizes succeeds; in particular every point of the curve is accepted as peer, given by its x-coordinate alone.", "quantifier": "all histories, keys and arguments; all curve points", "why_tests_cant": "For every x-coordinate on the curve a square root must be found.", "anchors": ["helpers/src/edhoc_cipher_suite_0.c", "helpers/src/edhoc_cipher_suite_2.c", "helpers/src/edhoc_cipher_suite_4.c", "helpers/src/edhoc_cipher_suite_24.c"]}
{"id": "C52", "title": "Keys work only for their purpose", "statement": "An operation of a ready-made suite succeeds only with a handle that was imported for that operation.", "quantifier": "all histories of calls", "why_tests_cant": "All histories, all pairs of purposes.", "anchors": ["helpers/src/edhoc_cipher_suite_0.c", "helpers/src/edhoc_cipher_suite_2.c", "helpers/src/edhoc_cipher_suite_4.c", "helpers/src/edhoc_cipher_suite_24.c"]}
{"id": "C53", "title": "The ready-made suites respect memory", "statement": "No call of a ready-made suite faults, and what it writes fits the buffers given.", "quantifier": "all calls with any sizes, key stores and library behaviours", "why_tests_cant": "All sizes.", "anchors": ["helpers/src/edhoc_cipher_suite_2.c:edhoc_cipher_suite_2_make_key_pair", "helpers/src/edhoc_cipher_suite_24.c:edhoc_cipher_suite_24_make_key_pair", "helpers/src/edhoc_cipher_suite_0.c:edhoc_cipher_suite_0_key_import"]}
{"id": "C54", "title": "No all-zero shared secret", "statement": "Key agreement of a ready-made suite does not succeed with the all-zero secret that a peer forces by sending a point of small order.", "quantifier": "all keys and peers", "why_tests_cant": "All received points.", "anchors": ["helpers/src/edhoc_cipher_suite_0.c:edhoc_cipher_suite_0_key_agreement", "helpers/src/edhoc_cipher_suite_4.c:edhoc_cipher_suite_4_key_agreement"]}
{"id": "C55", "title": "Two devices with the same ready-made suite understand each other", "statement": "Key agreement on two devices with each other's public key gives the same secret; what one encrypts the other decrypts; what one signs the other verifies.", "quantifier": "all pairs of histories of calls on the two devices", "why_tests_cant": "Relates two executions with different histories, key stores and randomness.", "anchors": ["helpers/src/edhoc_cipher_suite_0.c", "helpers/src/edhoc_cipher_suite_2.c", "helpers/src/edhoc_cipher_suite_4.c", "helpers/src/edhoc_cipher_suite_24.c"]}
{"id": "C56", "title": "Handles of the post-quantum suite", "statement": "A handle handed out is not in use; a handle for a key pair is granted exactly while fewer than two are open; a refused import changes nothing; after a pair's handle is destroyed no trace of the pair is left; destroying a handle that is not in use is refused.", "quantifier": "all histories of calls", "why_tests_cant": "Handles come from two pools, and any number of imports and destructions in any order may precede.", "anchors": ["helpers/src/edhoc_exp_pqc_cipher_suite_1.c:edhoc_exp_pqc_cipher_suite_1_get_keys", "helpers/src/edhoc_kdf_kmac256_xkcp.c:edhoc_kdf_kmac256"]}
{"id": "C57", "title": "The post-quantum suite uses the key behind the handle", "statement": "Each operation of the post-quantum suite that succeeds returns the named primitive (ML-KEM-512, ML-DSA-44, KMAC256, SHAKE256, AES-CCM) of its arguments and of the pair made last, or the key imported, under that handle; verification succeeds only for a valid signature. With such a key, documented sizes and libraries that refuse nothing, it does succeed.", "quantifier": "all histories of calls, all keys and arguments", "why_tests_cant": "Relates an operation to a call arbitrarily far in the past.", "anchors": ["helpers/src/edhoc_exp_pqc_cipher_suite_1.c:edhoc_exp_pqc_cipher_suite_1_get_keys", "helpers/src/edhoc_kdf_kmac256_xkcp.c:edhoc_kdf_kmac256"]}
{"id": "C58", "title": "The post-quantum suite returns defined codes and respects buffers", "statement": "Every call of the post-quantum suite returns, with success or one of three error codes; a missing argument is refused without effect; success means every library call succeeded; outputs fit the buffers.", "quantifier": "all calls, states and library behaviours", "why_tests_cant": "All sizes and all failure points.", "anchors": ["helpers/src/edhoc_exp_pqc_cipher_suite_1.c:edhoc_exp_pqc_cipher_suite_1_get_keys", "helpers/src/edhoc_kdf_kmac256_xkcp.c:edhoc_kdf_kmac256"]}
{"id": "C59", "title": "Encapsulation reaches the holder of the pair", "statement": "What a device encapsulates to a public key, the device that made the pair decapsulates to the same secret as long as the pair's handle is open; what one encrypts the other decrypts.", "quantifier": "all pairs of histories of calls on the two devices", "why_tests_cant": "Relates two executions with different histories, key stores and randomness.", "anchors": ["helpers/src/edhoc_exp_pqc_cipher_suite_1.c:edhoc_exp_pqc_cipher_suite_1_get_keys", "helpers/src/edhoc_kdf_kmac256_xkcp.c:edhoc_kdf_kmac256"]}
{"id": "C60", "title": "Keys of the post-quantum suite work only for their purpose", "statement": "An operation of the post-quantum suite succeeds only with a handle that was imported for that operation.", "quantifier": "all histories of calls", "why_tests_cant": "All histories, all pairs of purposes.", "anchors": ["helpers/src/edhoc_exp_pqc_cipher_suite_1.c:edhoc_exp_pqc_cipher_suite_1_get_keys", "helpers/src/edhoc_kdf_kmac256_xkcp.c:edhoc_kdf_kmac256"]}
{"id": "C61", "title": "A success report means nothing was refused", "statement": "Whenever a call of the library returns success, every memory allocation during the call was granted and every callback it made reported success, including the release of keys.", "quantifier": "all calls, states and behaviours of callbacks and allocator", "why_tests_cant": "Any subset of dozens of callback invocations may fail, depending on the history.", "anchors": ["library/edhoc_message_1.c", "library/edhoc_message_2.c", "library/edhoc_message_3.c", "library/edhoc_message_4.c", "library/edhoc_exporter.c", "library/edhoc_common.c"]}
{"id": "C62", "title": "What is stored and handed out fits its array", "statement": "After any sequence of calls that starts with initialisation, the methods, suites, connection identifiers and peer's suites stored in the context fit the arrays declared for them; a credential identifier handed to the application for verification fits its arrays; exported keys, OSCORE material and lists of suites fit the buffers whose sizes the caller passed.", "quantifier": "all histories of calls, all received messages, all callbacks", "why_tests_cant": "Sizes come from the peer and from any earlier call.", "anchors": ["include/edhoc_context.h", "include/edhoc_credentials.h", "library/edhoc.c:edhoc_set_methods", "library/edhoc.c:edhoc_set_cipher_suites", "library/edhoc.c:edhoc_set_connection_id", "library/edhoc_message_1.c:edhoc_message_1_process", "library/edhoc_message_2.c:edhoc_message_2_process", "library/edhoc_exporter.c:edhoc_export_oscore_session"]}
{"id": "C63", "title": "Willing parties complete the handshake", "statement": "Two parties with compatible configurations, whose applications and memory allocators grant every request, whose crypto libraries compute the same correct primitives and who know each other's credentials complete the three-message exchange: with large enough buffers all six calls return success, and both parties then hold the same transcript hash and the same master key.", "quantifier": "all pairs of compatible configurations and credentials, all four methods, all correct crypto libraries, all EAD the applications send", "why_tests_cant": "All combinations of method, cipher suite, credential kind, identifier lengths, EAD and key material on two independent sides.", "anchors": ["library/edhoc_message_1.c", "library/edhoc_message_2.c", "library/edhoc_message_3.c", "library/edhoc_common.c"]}
{"id": "C64", "title": "An established session serves its applications", "statement": "After the handshake of two willing parties (configured as in C63, with 16-bit labels and algorithm numbers) there is one family of keys, indexed by the entropies fed to key update so far, the label and the length, such that any sequence of requests on either side - key exports, key updates, OSCORE exports with an update between any two - is granted in full and returns exactly the keys of that family and the two connection identifiers in opposite roles. This holds with and without message 4, which the initiator accepts. Lengths are those C46 says the library can export.", "quantifier": "all pairs of compatible configurations, all sequences of requests on each side", "why_tests_cant": "The two sides may make any number of requests in any order; agreement is between two independent histories.", "anchors": ["library/edhoc_exporter.c", "library/edhoc_message_4.c", "library/edhoc_common.c"]}
{"id": "C65", "title": "The handshake works over the ready-made suites", "statement": "When the key and crypto callbacks of a party are those of a ready-made suite, every answer the library gets during a handshake and in the session after it is the named primitive of the key the library imported under that handle or of the party's long-term key, and no imported key takes the handle of a long-term key. Two such parties that complete a handshake hold the same transcript hash and master key, and later export the same keys and mirrored OSCORE contexts after the same key updates.", "quantifier": "all four classic suites, all configurations, messages and later sequences of calls, all correct crypto libraries, any other use of the suite on the device that leaves these keys alone", "why_tests_cant": "Relates the library's use of handles and buffer sizes over a whole session to the key store behind the suite, on two devices.", "anchors": ["helpers/src/edhoc_cipher_suite_0.c", "helpers/src/edhoc_cipher_suite_2.c", "helpers/src/edhoc_cipher_suite_4.c", "helpers/src/edhoc_cipher_suite_24.c", "library/edhoc_message_1.c", "library/edhoc_message_2.c", "library/edhoc_message_3.c", "library/edhoc_message_4.c", "library/edhoc_exporter.c", "library/edhoc_common.c"]}
{"id": "C66", "title": "An accepted message 2 comes from the responder it names", "statement": "Whatever an attacker does on the network: when an initiator accepts a message 2 and no signature or MAC was forged and no hash collision found, some session of the holder of the verified key composed message 2 in answer to exactly the message 1 that the initiator sent. That session took over the proposed method, suites and identifier (no downgrade), made the ephemeral key the initiator uses, and presented the credential and EAD items that were accepted.", "quantifier": "all messages an attacker may deliver, all sets of honest sessions, all callbacks and configurations", "why_tests_cant": "The attacker may replay, splice and alter messages of any number of concurrent sessions.", "anchors": ["library/edhoc_message_1.c", "library/edhoc_message_2.c", "library/edhoc_message_3.c", "library/edhoc_message_4.c", "library/edhoc_common.c:edhoc_comp_mac", "library/edhoc_common.c:edhoc_comp_sign_or_mac"]}
{"id": "C67", "title": "An accepted message 3 comes from the initiator it names", "statement": "Whatever an attacker does on the network: when a responder accepts a message 3 and no ciphertext, signature or MAC was forged and no hash collision found, some honest initiator started with exactly the message 1 that the responder accepted, took over its ephemeral key, connection identifier and credential identifier, and composed message 3 in this session; the credential identifier and EAD items of message 3 are the ones it sent, and when it proved possession of its key the accepted credential is the one it presented.", "quantifier": "all messages an attacker may deliver, all sets of honest sessions, all callbacks and configurations", "why_tests_cant": "The attacker may replay, splice and alter messages of any number of concurrent sessions.", "anchors": ["library/edhoc_message_1.c", "library/edhoc_message_2.c", "library/edhoc_message_3.c", "library/edhoc_message_4.c", "library/edhoc_common.c:edhoc_comp_mac", "library/edhoc_common.c:edhoc_comp_sign_or_mac"]}
{"id": "C68", "title": "An accepted message 4 confirms the session", "statement": "Whatever an attacker does on the network: when an initiator accepts a message 4 and no ciphertext was forged and no hash collision found, some honest responder accepted this initiator's message 1 and a message 3 naming the credential it sent, agrees with it on everything exchanged before, and composed message 4; the EAD items of message 4 are the ones that responder sent.", "quantifier": "all messages an attacker may deliver, all sets of honest sessions, all callbacks and configurations", "why_tests_cant": "The attacker may replay, splice and alter messages of any number of concurrent sessions.", "anchors": ["library/edhoc_message_1.c", "library/edhoc_message_2.c", "library/edhoc_message_3.c", "library/edhoc_message_4.c", "library/edhoc_common.c:edhoc_comp_mac", "library/edhoc_common.c:edhoc_comp_sign_or_mac"]}
{"id": "C69", "title": "The ends of a confirmed session hold the same keys", "statement": "Whatever an attacker does on the network: when an initiator accepts a message 4, no ciphertext was forged, and no hash or key derivation collided, it and some honest responder of the same session hold the same TH_4 and PRK_4e3m; after the same key updates their exports of the same label and length are equal and their OSCORE contexts mirror each other. When a responder accepts a message 3, it and some honest initiator of the same session hold the same TH_3 and PRK_3e2m, and, if the credential it accepted is the one that initiator used, the same TH_4, PRK_4e3m and later exports as well.", "quantifier": "all messages an attacker may deliver, all sets of honest sessions, all callbacks and configurations, all later histories of the two ends", "why_tests_cant": "The attacker may replay, splice and alter messages of any number of concurrent sessions; agreement is between two independent histories.", "anchors": ["library/edhoc_message_1.c", "library/edhoc_message_2.c", "library/edhoc_message_3.c", "library/edhoc_message_4.c", "library/edhoc_common.c:edhoc_comp_mac", "library/edhoc_common.c:edhoc_comp_sign_or_mac", "library/edhoc_exporter.c"]}
{"id": "C70", "title": "No session is accepted twice", "statement": "Whatever an attacker does on the network, under the assumptions of C66-C68: initiators that generated different ephemeral keys and each accepted a message 2 did so with as many distinct sessions of the holders of the verified keys, one each and in agreement with it; the same for responders that accepted a message 3 and distinct sessions of honest initiators, and for initiators that accepted a message 4 and distinct sessions of honest responders that completed. Replaying recorded messages never makes two parties accept one session of a peer.", "quantifier": "all messages an attacker may deliver, all numbers of accepting parties and sets of honest sessions, all callbacks and configurations", "why_tests_cant": "Replay resistance counts sessions: it ranges over any number of concurrent runs and every reuse of recorded messages.", "anchors": ["library/edhoc_message_1.c", "library/edhoc_message_2.c", "library/edhoc_message_3.c", "library/edhoc_message_4.c", "library/edhoc_common.c:edhoc_comp_mac", "library/edhoc_common.c:edhoc_comp_sign_or_mac"]}
{"id": "C71", "title": "One attempt per message and session", "statement": "Once a call composing or processing one of the four messages has done anything at all, whatever it answered, every later call for that message on the context is refused without effect until the context is deinitialised and initialised again. Whatever calls are made on a context until it is initialised again, in any order and with any outcome, they generate at most one ephemeral key pair, make at most one signature, verify at most one signature, use the AEAD at most twice, fetch at most one credential, authenticate at most one peer credential and make at most four calls about external authorization data.", "quantifier": "all histories of API calls, arguments and callback answers", "why_tests_cant": "An attacker's number of guesses per session is a bound over every history of calls, including calls repeated after errors.", "anchors": ["library/edhoc_message_1.c", "library/edhoc_message_2.c", "library/edhoc_message_3.c", "library/edhoc_message_4.c", "library/edhoc_exporter.c", "include/edhoc_context.h:edhoc_state_machine"]}
{"id": "C72", "title": "Every handshake key is derived once", "statement": "Whatever calls are made on a context until it is initialised again, and whatever the callbacks answer, each of KEYSTREAM_2, SALT_3e2m, MAC_2, K_3, IV_3, SALT_4e3m, MAC_3, K_4 and IV_4 is derived at most once, so no keystream and no AEAD key and nonce is obtained twice in a session. Every derivation the library ever asks for uses the RFC 9528 info of some label, context and length, and infos that differ in any of the three are different inputs, so keys with different purposes never come from the same derivation. (PRK_out may be derived again when an export failed.)", "quantifier": "all histories of API calls, arguments and callback answers; all labels, contexts and lengths", "why_tests_cant": "Key separation and the absence of key and nonce reuse are statements over every history, including failing and repeated calls.", "anchors": ["library/edhoc_message_2.c:comp_keystream", "library/edhoc_message_3.c:comp_key_iv_aad_3", "library/edhoc_message_4.c:compute_key_iv_aad_4", "library/edhoc_common.c:edhoc_comp_mac", "library/edhoc_exporter.c"]}
{"id": "C73", "title": "The settings of a context are what the application set", "statement": "No message call, export, key update or error query changes the methods, cipher suites, connection identifier, callbacks or user context the application set, whatever its outcome. In any history the settings in force, and what the setting calls answered, are those of these calls (with initialisation and deinitialisation) made alone and in the same order.", "quantifier": "all histories of API calls, arguments and callback answers", "why_tests_cant": "Interference between negotiation, received data and configuration may need any order of calls and any received message.", "anchors": ["library/edhoc.c", "library/edhoc_message_1.c", "library/edhoc_message_2.c", "library/edhoc_message_3.c", "library/edhoc_message_4.c", "library/edhoc_exporter.c", "include/edhoc_context.h:edhoc_context"]}
{"id": "C74", "title": "Sessions on different contexts do not disturb each other", "statement": "In a process that uses any number of contexts with shared callbacks, however the calls on them are interleaved, every context gets the results, reaches the state and makes the callback invocations that its own calls alone give when the callbacks answer it the same. So every guarantee about one context holds for each of them, and with callbacks that answer regardless of the past a context behaves exactly as if it were the only one.", "quantifier": "all schedules of API calls over any number of contexts, all callbacks whose answers may depend on everything asked before by any context", "why_tests_cant": "The number of interleavings of several sessions is unbounded, and tests run one or two sessions in a fixed order.", "anchors": ["library/edhoc.c", "library/edhoc_common.c", "library/edhoc_message_1.c", "library/edhoc_message_2.c", "library/edhoc_message_3.c", "library/edhoc_message_4.c", "library/edhoc_exporter.c", "include/edhoc_context.h:edhoc_context"]}
{"id": "C75", "title": "The size of the output buffer decides only whether the answer fits", "statement": "When composing a message succeeds, then from the same state with any other buffer that holds the message the call gives the same message, the same state and the same callback invocations; with a non-empty buffer too small for it the call reports the encoding error and returns no message. The buffers for the OSCORE sender and recipient identifiers matter in the same way.", "quantifier": "all states, buffer sizes and callback answers, the four messages and the OSCORE export", "why_tests_cant": "A dependency of the protocol on the buffer size may show at one size out of many, and at different sizes for every message length.", "anchors": ["library/edhoc_message_1.c:edhoc_message_1_compose", "library/edhoc_message_2.c:edhoc_message_2_compose", "library/edhoc_message_3.c:gen_msg_3", "library/edhoc_message_4.c:edhoc_message_4_compose", "library/edhoc_exporter.c:edhoc_export_oscore_session"]}
{"id": "C76", "title": "A context may be configured in any order", "statement": "The calls that set methods, cipher suites, connection identifier, user context and the four groups of callbacks may be made in any order: two sequences that have the same calls in the same order for each of these settings give every call the same answer, rejected calls included, leave the context the same, invoke no callback, and every history that follows is the same.", "quantifier": "all sequences of configuration calls with any arguments, all states, all later histories", "why_tests_cant": "There are over forty thousand orders of eight calls, before repetitions and rejected calls.", "anchors": ["library/edhoc.c:edhoc_set_methods", "library/edhoc.c:edhoc_set_cipher_suites", "library/edhoc.c:edhoc_set_connection_id", "library/edhoc.c:edhoc_set_user_context", "library/edhoc.c:edhoc_bind_ead", "library/edhoc.c:edhoc_bind_keys", "library/edhoc.c:edhoc_bind_crypto", "library/edhoc.c:edhoc_bind_credentials"]}
{"id": "C77", "title": "Only the last accepted configuration counts", "statement": "However a freshly initialised context is configured, with settings made repeatedly, replaced by shorter ones, or rejected, in any order: if the last accepted call about each setting is the same, every later history of calls gives the same results and the same callback invocations. Nothing of a replaced method or suite list is ever used.", "quantifier": "all pairs of configuration sequences, all later histories and callback answers", "why_tests_cant": "Left-overs of an earlier configuration show only for particular pairs of lists and indices, and in any later call.", "anchors": ["library/edhoc.c:edhoc_set_methods", "library/edhoc.c:edhoc_set_cipher_suites", "library/edhoc_message_1.c", "library/edhoc_message_2.c", "library/edhoc_message_3.c", "library/edhoc_message_4.c", "library/edhoc_exporter.c", "library/edhoc.c:edhoc_error_get_cipher_suites"]}
{"id": "C78", "title": "A handshake under way keeps its method and cipher suite", "statement": "Once the first message has been composed or processed, setting methods or cipher suites again on the context changes nothing for the session under way: every later call has the same result and makes the same callback invocations as without it.", "quantifier": "all states after the first message, all lists of methods and suites, all later histories", "why_tests_cant": "It takes a setting call at any point of any history, with any list, to find one that disturbs a session.", "anchors": ["library/edhoc.c:edhoc_set_methods", "library/edhoc.c:edhoc_set_cipher_suites", "library/edhoc_message_2.c", "library/edhoc_message_3.c", "library/edhoc_message_4.c", "library/edhoc_exporter.c", "include/edhoc_context.h:chosen_csuite_idx"]}
{"id": "C79", "title": "The work of a call and of a session is bounded", "statement": "Every call, whatever its arguments, the bytes received and the state of the context, makes at most a fixed number of invocations of each callback and of requests for working memory; of key pairs, key agreements, signatures and verifications together it makes at most three; processing a first message asks only for one hash and the application's handler of authorization data. Until the context is initialised again, and however many messages arrive, it makes at most three key agreements, three key extractions and four hashes.", "quantifier": "all calls with all arguments and received bytes, all contexts, all answers of the callbacks, all histories", "why_tests_cant": "A test measures the work for one message; an attacker looks for the message that causes more.", "anchors": ["library/edhoc_message_1.c", "library/edhoc_message_2.c", "library/edhoc_message_3.c", "library/edhoc_message_4.c", "library/edhoc_exporter.c", "library/edhoc_common.c"]}
{"id": "C80", "title": "A received message claims no more memory than its own length", "statement": "The working buffers for the ciphertext, the key stream and the plaintext of a received message are never larger than the message. Until the application has been asked about the peer's credentials, that is while the peer may be anybody, no working buffer of any kind is larger than the message or than what the own settings (cipher suite and transcript hash) account for.", "quantifier": "all calls that process messages 2, 3 and 4 with all received bytes, all contexts, all answers of the callbacks", "why_tests_cant": "A test tries some lengths; an attacker looks for the one length field whose arithmetic goes wrong.", "anchors": ["library/edhoc_message_2.c: comp_ciphertext_2_len, edhoc_message_2_process", "library/edhoc_message_3.c: edhoc_message_3_process", "library/edhoc_message_4.c: edhoc_message_4_process"]}

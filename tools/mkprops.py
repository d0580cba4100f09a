#!/usr/bin/env python3
"""Writes /verif/properties.jsonl (source of the property list)."""
import json
P = []
def p(title, statement, quantifier, why, anchors):
    P.append(dict(id="C%02d" % (len(P)+1), title=title, statement=statement,
                  quantifier=quantifier, why_tests_cant=why, anchors=anchors))

p("Configuration calls validate and frame",
  "edhoc_set_methods, edhoc_set_cipher_suites, edhoc_set_connection_id and the edhoc_bind_*/edhoc_set_user_context calls succeed exactly on an initialised context with arguments in the documented ranges. A rejected call leaves the whole context unchanged; an accepted call changes only the setting it names and stores exactly the caller's values.",
  "every context state, every argument tuple (method lists, suite lists, connection identifiers, callback tables)",
  "The rejected/accepted boundary ranges over all list lengths, integers and byte strings, and the frame condition ranges over every other field of every context.",
  ["library/edhoc.c:edhoc_set_methods", "library/edhoc.c:edhoc_set_cipher_suites", "library/edhoc.c:edhoc_set_connection_id", "library/edhoc.c:edhoc_bind_crypto", "library/edhoc.c:edhoc_bind_ead"])
p("Init and deinit give a blank context",
  "edhoc_context_init always yields the blank START context; edhoc_context_deinit succeeds exactly on an initialised context and afterwards no byte of key material, transcript, identifiers or peer data is left in it and every configuration call is refused until it is initialised again.",
  "every context state reachable by any history of calls",
  "Must hold whatever a previous session left behind.",
  ["library/edhoc.c:edhoc_context_init", "library/edhoc.c:edhoc_context_deinit"])
p("Message order is enforced",
  "Each message call (compose/process of messages 1-4) does any work only in the one protocol state the documentation names for it; in every other state it returns BAD_STATE, invokes no callback, allocates nothing and leaves the context unchanged.",
  "every context state, every argument, every callback behaviour",
  "The set of (status, transcript state, key state) triples and histories leading to them is unbounded.",
  ["library/edhoc_message_1.c:edhoc_message_1_compose", "library/edhoc_message_2.c:edhoc_message_2_process", "library/edhoc_message_3.c:edhoc_message_3_process", "library/edhoc_message_4.c:edhoc_message_4_compose"])
p("A failed message call kills the session",
  "Whenever a message call that passed its guards returns an error - for whatever reason: malformed input, callback failure, allocation failure - the session is left in the aborted state with error code 'unspecified', 'wrong selected cipher suite' or 'unknown credential', and no later message call on that context can succeed, however many calls of any API function follow, until it is initialised again.",
  "every failure point of every message call, every callback behaviour, every continuation of API calls",
  "Failure points times continuations cannot be enumerated.",
  ["library/edhoc_message_1.c", "library/edhoc_message_2.c", "library/edhoc_message_3.c", "library/edhoc_message_4.c"])
p("Only complete handshakes complete",
  "In any history of API calls since initialisation, a context is in the completed (or persisted) state only if message 1, message 2 and message 3 were successfully composed/processed exactly once each, in that order, in one consistent role.",
  "every finite history of API calls with every callback behaviour",
  "Histories are unbounded.",
  ["library/edhoc_message_1.c", "library/edhoc_message_2.c", "library/edhoc_message_3.c", "include/edhoc_context.h:edhoc_state_machine"])
p("Every imported key is destroyed",
  "Every key handle the library obtains through keys.import_key during an API call is passed to keys.destroy_key before that call returns, on success and on every error path.",
  "every API call, every context, every behaviour of the callbacks and of the allocator",
  "Requires all combinations of failing callbacks at every step.",
  ["library/edhoc_message_1.c:edhoc_message_1_compose", "library/edhoc_message_2.c:comp_prk_2e", "library/edhoc_exporter.c", "include/edhoc_crypto.h:edhoc_keys"])
p("Every working buffer is released",
  "With the heap or custom memory backend every block an API call obtains from the allocator is given back exactly once before the call returns, on success and on every error path, including when the allocator itself fails at any point.",
  "every API call, every context, every behaviour of callbacks and allocator",
  "Requires all combinations of allocation failures and callback failures.",
  ["backends/memory/include/edhoc_backend_memory.h:EDHOC_MEM_ALLOC", "backends/memory/include/edhoc_backend_memory.h:EDHOC_MEM_FREE", "library/edhoc_message_2.c", "library/edhoc_message_3.c"])
p("CBOR items decode to what was encoded",
  "Every integer, byte string, text string, array and map the library writes is decoded by the library to the same value, consumes exactly the bytes written, and two different item sequences never share an encoding.",
  "all 32-bit integers, all byte strings below 2^64 bytes, all following data",
  "Infinite input space; boundaries at 24, 2^8, 2^16, 2^32.",
  ["backends/cbor/src/backend_cbor_int_type_encode.c", "backends/cbor/src/backend_cbor_bstr_type_encode.c", "backends/cbor/src/backend_cbor_message_1_encode.c"])
p("message_1 carries exactly the initiator's parameters",
  "When an honest message_1 is processed successfully, the responder's context holds exactly the initiator's method, cipher suite list, ephemeral public key and connection identifier, and both contexts hold the same hash of message_1.",
  "all methods, suite lists, keys, connection identifiers, EAD lists and callback behaviours",
  "Round trip over all configurations.",
  ["library/edhoc_message_1.c:edhoc_message_1_compose", "library/edhoc_message_1.c:edhoc_message_1_process"])
p("Malformed message_1 is rejected",
  "edhoc_message_1_process returns an error for every byte string that is not the CBOR encoding of a message_1.",
  "all byte strings",
  "The set of malformed inputs is infinite.",
  ["library/edhoc_message_1.c:edhoc_message_1_process", "backends/cbor/src/backend_cbor_message_1_decode.c"])
p("Truncated messages 2, 3 and 4 are rejected cleanly",
  "A message_2 whose byte string is shorter than G_Y, and a message_3/4 whose ciphertext is shorter than the AEAD tag, is rejected with an error and no out-of-bounds access or oversized allocation.",
  "all byte strings, all cipher suites",
  "Needs every length below the threshold for every suite.",
  ["library/edhoc_message_2.c:comp_ciphertext_2_len", "library/edhoc_message_3.c:edhoc_message_3_process", "library/edhoc_message_4.c:edhoc_message_4_process"])
p("Compose functions stay inside the caller's buffer",
  "A compose call never writes past the message size the caller passed, and on success reports exactly the number of bytes written.",
  "every message, every buffer size, every configuration",
  "The critical sizes depend on all variable-length fields.",
  ["library/edhoc_message_1.c:edhoc_message_1_compose", "library/edhoc_message_2.c:prepare_message_2", "library/edhoc_message_3.c:gen_msg_3", "library/edhoc_message_4.c:gen_msg_4"])
p("No undefined behaviour on network input",
  "For every received byte string, with callbacks that respect their contracts and cipher suites within the configured limits, message processing never reads or writes outside an object.",
  "all received byte strings, all contract-abiding callbacks",
  "Adversarial inputs are unbounded.",
  ["library/edhoc_message_1.c:edhoc_message_1_process", "library/edhoc_message_2.c:parse_plaintext_2", "library/edhoc_message_3.c:parse_plaintext_3"])
p("CIPHERTEXT_2 decrypts to PLAINTEXT_2",
  "Applying the keystream twice restores the plaintext, and with the same PRK_2e, TH_2 and length both sides derive the same keystream, so the initiator recovers exactly the bytes the responder encrypted.",
  "all plaintexts and keystreams of equal length",
  "All byte strings of all lengths.",
  ["library/edhoc_message_2.c:xor_arrays", "library/edhoc_message_2.c:comp_keystream"])
p("Transcript hashes follow RFC 9528",
  "Whenever a call that computes TH_2, TH_3 or TH_4 succeeds, the stored value is the hash callback's answer on exactly the RFC 9528 input: TH_2=H(G_Y,H(message_1)), TH_3=H(TH_2,PLAINTEXT_2,CRED_R), TH_4=H(TH_3,PLAINTEXT_3,CRED_I) with RFC CBOR encoding.",
  "all contexts, keys, plaintexts, credentials, callbacks",
  "Byte-exact for all inputs.",
  ["library/edhoc_message_2.c:comp_th_2", "library/edhoc_message_2.c:comp_th_3", "library/edhoc_message_3.c:comp_th_4"])
p("Key schedule follows RFC 9528",
  "PRK_2e, SALT_3e2m, PRK_3e2m, SALT_4e3m, PRK_4e3m, K_3/IV_3, K_4/IV_4, MAC_2/MAC_3 and PRK_out are obtained from the extract/expand callbacks with exactly the RFC 9528 key, salt and info (label, context, length), choosing the static-DH branch exactly for the methods the RFC names.",
  "all methods, both roles, all contexts, all callback behaviours",
  "All combinations of method, role and variable-length inputs.",
  ["library/edhoc_message_2.c:comp_prk_2e", "library/edhoc_message_2.c:comp_prk_3e2m", "library/edhoc_message_3.c:comp_prk_4e3m", "library/edhoc_exporter.c:compute_prk_out"])
p("Honest peers agree on the session",
  "If an initiator and a responder with a correct crypto library exchange messages 1-3 unmodified and every call succeeds, both hold the same TH_4 and PRK_4e3m, and any later export of an application secret by either side with the same label, context and length gives the same bytes.",
  "all four methods, all suites, all credentials, all EAD, all keys",
  "Two-party executions over all configurations.",
  ["library/edhoc_message_1.c", "library/edhoc_message_2.c", "library/edhoc_message_3.c", "library/edhoc_exporter.c"])
p("OSCORE sessions mirror each other",
  "After an honest handshake the two OSCORE exports yield the same master secret and master salt, and the sender identifier of one side is the recipient identifier of the other.",
  "all connection identifiers (integer and byte string), all secret/salt lengths",
  "All identifier encodings on both sides.",
  ["library/edhoc_exporter.c:edhoc_export_oscore_session"])
p("Initiator accepts only an authenticated responder",
  "edhoc_message_2_process returns success only if the credentials.verify callback accepted the peer credential named in the decrypted plaintext and either the signature callback accepted Signature_2 over the RFC 9528 structure (ID_CRED_R, TH_2 || CRED_R || EAD_2, MAC_2) or, for static DH, the received MAC_2 equals the locally computed one byte for byte.",
  "all received messages, all methods, all callback behaviours",
  "Universal over adversarial messages.",
  ["library/edhoc_message_2.c:edhoc_message_2_process", "library/edhoc_common.c:edhoc_verify_sign_or_mac"])
p("Responder accepts only an authenticated initiator",
  "edhoc_message_3_process returns success - and the context becomes completed with OSCORE export allowed - only if AEAD decryption of CIPHERTEXT_3 under K_3/IV_3/TH_3 succeeded, the credentials.verify callback accepted the peer credential and Signature_or_MAC_3 was verified.",
  "all received messages, all methods, all callback behaviours",
  "Universal over adversarial messages.",
  ["library/edhoc_message_3.c:edhoc_message_3_process", "library/edhoc_common.c:edhoc_verify_sign_or_mac"])
p("Method and cipher-suite negotiation",
  "A responder accepts message_1 only if the method is one it was configured with and the initiator's selected suite equals a suite the responder supports; on a suite mismatch the error code becomes 'wrong selected cipher suite' and the peer's suite list is what edhoc_error_get_cipher_suites reports.",
  "all method and suite lists on both sides",
  "All pairs of lists.",
  ["library/edhoc_message_1.c:edhoc_message_1_process", "library/edhoc.c:edhoc_error_get_cipher_suites"])
p("Any supported suite is accepted",
  "A responder that supports the initiator's selected cipher suite, and none of the suites the initiator prefers over it, continues the handshake with that suite.",
  "all pairs of supported-suite lists",
  "All pairs of lists.",
  ["library/edhoc_message_1.c:edhoc_message_1_process"])
p("Exporter label policy",
  "The application exporter yields a secret only for the OSCORE labels and the private-use range 32768..65535; any other label is refused without touching keys or state.",
  "all labels, lengths, states",
  "All 2^64 labels.",
  ["library/edhoc_exporter.c:edhoc_export_prk_exporter"])
p("Exports are repeatable and non-interfering",
  "Exporting a secret any number of times, with any labels, does not change what a later export with the same label and length returns, nor the transcript, identifiers or status of the session.",
  "all sequences of exports",
  "Unbounded sequences.",
  ["library/edhoc_exporter.c:edhoc_export_prk_exporter"])
p("Key update is synchronised and replaces the session key",
  "After edhoc_export_key_update with the same entropy on both sides of an honest session the two sides still export equal secrets; the new PRK_out is Expand(old PRK_out, NEW_PRK_OUT label, entropy).",
  "all entropy strings, any number of updates",
  "All byte strings and all update counts.",
  ["library/edhoc_exporter.c:edhoc_export_key_update"])
p("One OSCORE session per handshake or key update",
  "edhoc_export_oscore_session succeeds at most once after a completed handshake and at most once after each successful key update; a failed attempt also uses up the permission.",
  "all histories of API calls",
  "Unbounded histories.",
  ["library/edhoc_exporter.c:edhoc_export_oscore_session", "library/edhoc_exporter.c:edhoc_export_key_update"])
p("Error messages round-trip",
  "An error message composed with a code and valid information is processed by the peer to the same code and the same text or suite list.",
  "all codes, all texts, all suite lists of one to three suites",
  "All text lengths and lists.",
  ["library/edhoc_message_error.c:edhoc_message_error_compose", "library/edhoc_message_error.c:edhoc_message_error_process"])
p("Error-message processing is memory safe",
  "edhoc_message_error_process, for every received byte string, reads only the received bytes and writes only within the caller's information buffer.",
  "all byte strings and info buffers",
  "Adversarial inputs are unbounded.",
  ["library/edhoc_message_error.c:edhoc_message_error_process", "backends/cbor/include/backend_cbor_edhoc_types.h:message_error_ERR_INFO_r"])
p("EAD items arrive as sent",
  "The EAD tokens handed to the peer's ead.process callback for a message are exactly those produced by ead.compose for it: same number, order, labels, values, and the same absence of a value.",
  "all token lists within the configured maximum, messages 1-4",
  "All token lists.",
  ["library/edhoc_message_1.c:edhoc_message_1_compose", "library/edhoc_message_1.c:edhoc_message_1_process", "library/edhoc_message_2.c:prepare_plaintext_2", "library/edhoc_message_4.c:prepare_plaintext_4"])
p("No EAD item is silently dropped",
  "A message whose EAD field carries more items than the receiver can hold, or bytes that are not an EAD item, is rejected rather than processed with the surplus ignored.",
  "all received messages",
  "Unbounded inputs.",
  ["backends/cbor/src/backend_cbor_message_1_decode.c:decode_EAD_1", "library/edhoc_message_1.c:edhoc_message_1_process"])
p("Helper framing round-trips",
  "What edhoc_prepend_flow / edhoc_prepend_connection_id put in front of a message is recovered by edhoc_extract_flow_info / edhoc_extract_connection_id: same identifier, same message position.",
  "all connection identifiers the API accepts, all buffers",
  "All identifiers and buffers.",
  ["helpers/src/edhoc_helpers.c:edhoc_prepend_connection_id", "helpers/src/edhoc_helpers.c:edhoc_extract_connection_id"])
p("Connection identifier comparison is an equivalence",
  "edhoc_connection_id_equal is reflexive, symmetric, transitive on valid identifiers, and true exactly when both denote the same identifier.",
  "all pairs/triples of identifiers",
  "All byte strings.",
  ["helpers/src/edhoc_helpers.c:edhoc_connection_id_equal"])
p("Size estimates are sufficient",
  "The overhead functions (edhoc_cbor_int_mem_req, _bstr_oh, _tstr_oh, _array_oh, _map_oh) never under-estimate the CBOR encoding, so work buffers computed from them always suffice.",
  "all 32-bit integers, all lengths",
  "Boundaries over 2^32/2^64 values.",
  ["library/edhoc_common.c:edhoc_cbor_int_mem_req", "library/edhoc_common.c:edhoc_cbor_bstr_oh", "library/edhoc_common.c:edhoc_cbor_array_oh"])
p("Ephemeral private key does not outlive the handshake",
  "Once a handshake has completed, the ephemeral Diffie-Hellman private key is no longer stored in the context.",
  "all methods, both roles, all histories",
  "All histories.",
  ["library/edhoc_message_2.c:comp_grx", "library/edhoc_message_3.c:comp_giy", "library/edhoc_message_3.c:edhoc_message_3_process"])
p("Roles are respected in message 4",
  "Only a responder can compose message_4 and only an initiator can process it.",
  "all histories",
  "All histories.",
  ["library/edhoc_message_4.c:edhoc_message_4_compose", "library/edhoc_message_4.c:edhoc_message_4_process"])
p("Exporting does not block message 4",
  "A completed session can still compose or process message_4 after application secrets or OSCORE parameters were exported from it.",
  "all histories",
  "All histories.",
  ["library/edhoc_exporter.c:edhoc_export_prk_exporter", "library/edhoc_message_4.c:edhoc_message_4_compose"])
p("No key export from an aborted session",
  "No export call succeeds on a context in the aborted state.",
  "all histories",
  "All histories.",
  ["library/edhoc_exporter.c:edhoc_export_prk_exporter"])
p("MAC length follows method and role",
  "MAC_2 / MAC_3 have the hash length when the authenticating party signs and the suite's MAC length when it uses static DH, for each of the four methods and both roles, identically at prover and verifier.",
  "all methods, roles, suites",
  "Must agree between two executions for all suites.",
  ["library/edhoc_common.c:edhoc_comp_mac_length", "library/edhoc_common.c:edhoc_comp_sign_or_mac_length"])
p("message_1 bytes are the RFC encoding",
  "A successfully composed message_1 is exactly METHOD, SUITES_I (single integer when one suite, array otherwise, selected suite last), G_X, C_I, EAD_1 in RFC 9528 CBOR.",
  "all configurations",
  "Byte-exact for all configurations.",
  ["library/edhoc_message_1.c:edhoc_message_1_compose"])
p("Credential identifiers survive the wire",
  "The credential identifier (kid as integer or byte string, x5chain, x5t) that the peer's fetch callback supplied is the one handed to credentials.verify, and both sides authenticate the same ID_CRED_x map and CRED_x.",
  "all identifiers within configured limits",
  "All identifiers.",
  ["library/edhoc_common.c:edhoc_comp_mac_context", "library/edhoc_message_2.c:parse_plaintext_2", "library/edhoc_message_3.c:parse_plaintext_3"])
p("Error-code bookkeeping",
  "edhoc_error_get_code reports 'success' exactly when the last message call that got past its guards succeeded, and the suites are reported only after a cipher-suite mismatch, within the caller's buffers.",
  "all histories and buffer sizes",
  "All histories.",
  ["library/edhoc.c:edhoc_error_get_code", "library/edhoc.c:edhoc_error_get_cipher_suites"])
p("Messages 2, 3 and 4 have no second reading",
  "edhoc_message_2_process, edhoc_message_3_process and edhoc_message_4_process accept a message only if it is exactly one CBOR byte string, with nothing after it.",
  "all byte strings",
  "All byte strings.",
  ["library/edhoc_message_2.c:edhoc_message_2_process", "library/edhoc_message_3.c:edhoc_message_3_process", "library/edhoc_message_4.c:edhoc_message_4_process"])
p("A failed export or key update leaves the session keys alone",
  "When edhoc_export_prk_exporter, edhoc_export_key_update or edhoc_export_oscore_session returns an error, the key material of the session is what it was before the call, or the session is aborted.",
  "all states, arguments and callback failures",
  "Every failure point of every callback.",
  ["library/edhoc_exporter.c:edhoc_export_prk_exporter", "library/edhoc_exporter.c:edhoc_export_key_update", "library/edhoc_exporter.c:edhoc_export_oscore_session"])
p("The application is asked once",
  "A message call invokes each of the callbacks credentials.fetch, credentials.verify, ead.compose and ead.process at most once and only in the direction it belongs to (fetch and compose when composing, verify and process when processing); configuration, export and key update calls invoke none of them.",
  "all calls, states, received messages, callback behaviours",
  "All paths, including every failure path.",
  ["library/edhoc_message_2.c:edhoc_message_2_compose", "library/edhoc_message_2.c:edhoc_message_2_process", "library/edhoc_message_3.c:edhoc_message_3_compose", "library/edhoc_message_3.c:edhoc_message_3_process"])
p("No export before the peer is authenticated",
  "edhoc_export_prk_exporter yields a secret only if, since edhoc_context_init, the message call that authenticates the peer succeeded: message_2_process for an initiator, message_3_process for a responder, each after its predecessors.",
  "all histories of API calls, arguments and callback behaviours",
  "All histories, including calls out of order and after failures.",
  ["library/edhoc_exporter.c:edhoc_export_prk_exporter", "library/edhoc_message_2.c:edhoc_message_2_process", "library/edhoc_message_3.c:edhoc_message_3_process"])
p("Secrets of any length can be exported",
  "A completed session exports a secret of any requested length of at least one byte when no callback or allocation fails.",
  "all lengths, labels and completed sessions",
  "All lengths.",
  ["library/edhoc_exporter.c:edhoc_export_prk_exporter", "library/edhoc_exporter.c:prk_exporter"])
H0 = ["helpers/src/edhoc_cipher_suite_0.c", "helpers/src/edhoc_cipher_suite_2.c", "helpers/src/edhoc_cipher_suite_4.c", "helpers/src/edhoc_cipher_suite_24.c"]
def hs(x): return [f + ":" + f[12:-2] + "_" + x for f in H0]
p("The ready-made suites report success truthfully",
  "A key or crypto function of the ready-made cipher suites 0, 2, 4 and 24 returns success only if every call it made into PSA, mbed TLS and compact25519 succeeded; a missing argument is refused as invalid before anything is done; no other code than success, invalid argument and crypto failure is returned.",
  "all calls, key stores and library behaviours",
  "Every library call may fail at every point.",
  H0)
p("The ready-made suites leave nothing open",
  "After any history of calls of a ready-made suite, with any failures inside, no key derivation operation and no public-key context is left open.",
  "all histories of calls and library failures",
  "Every failure point of every call in every history.",
  hs("extract") + ["helpers/src/edhoc_cipher_suite_2.c:edhoc_cipher_suite_2_key_agreement"])
p("The key store holds exactly the live handles",
  "Through a ready-made suite, the key store holds exactly the keys that were imported and not destroyed; a new handle is never one in use; a failed import stores nothing; destroying a key removes that key and no other and clears the handle; keys of exactly the right form for their purpose can be imported.",
  "all histories of calls",
  "All interleavings of imports and destructions.",
  hs("key_import") + hs("key_destroy"))
p("A ready-made suite computes its functions with the imported key",
  "When an operation of a ready-made suite succeeds, its output is the suite's function (HKDF, AEAD with the suite's tag length, hash, X25519, ECDH, Ed25519, ECDSA) of the arguments and of the very bytes imported under that handle for that purpose; an ECDH peer is a point of the curve; a signature verifies only if it is valid over the hash of the input; a public key written is the x-coordinate of the private key's point.",
  "all histories, keys, arguments and library behaviours",
  "Relates an operation to an import arbitrarily far in the past.",
  H0)
p("The ready-made suites are available",
  "If the libraries refuse nothing, every operation of a ready-made suite with a live handle of its purpose and buffers of the documented sizes succeeds; in particular every point of the curve is accepted as peer, given by its x-coordinate alone.",
  "all histories, keys and arguments; all curve points",
  "For every x-coordinate on the curve a square root must be found.",
  H0)
p("Keys work only for their purpose",
  "An operation of a ready-made suite succeeds only with a handle that was imported for that operation.",
  "all histories of calls",
  "All histories, all pairs of purposes.",
  H0)
p("The ready-made suites respect memory",
  "No call of a ready-made suite faults, and what it writes fits the buffers given.",
  "all calls with any sizes, key stores and library behaviours",
  "All sizes.",
  ["helpers/src/edhoc_cipher_suite_2.c:edhoc_cipher_suite_2_make_key_pair", "helpers/src/edhoc_cipher_suite_24.c:edhoc_cipher_suite_24_make_key_pair", "helpers/src/edhoc_cipher_suite_0.c:edhoc_cipher_suite_0_key_import"])
p("No all-zero shared secret",
  "Key agreement of a ready-made suite does not succeed with the all-zero secret that a peer forces by sending a point of small order.",
  "all keys and peers",
  "All received points.",
  ["helpers/src/edhoc_cipher_suite_0.c:edhoc_cipher_suite_0_key_agreement", "helpers/src/edhoc_cipher_suite_4.c:edhoc_cipher_suite_4_key_agreement"])
p("Two devices with the same ready-made suite understand each other",
  "Key agreement on two devices with each other's public key gives the same secret; what one encrypts the other decrypts; what one signs the other verifies.",
  "all pairs of histories of calls on the two devices",
  "Relates two executions with different histories, key stores and randomness.",
  H0)
HQ = ["helpers/src/edhoc_exp_pqc_cipher_suite_1.c:edhoc_exp_pqc_cipher_suite_1_get_keys", "helpers/src/edhoc_kdf_kmac256_xkcp.c:edhoc_kdf_kmac256"]
p("Handles of the post-quantum suite",
  "A handle handed out is not in use; a handle for a key pair is granted exactly while fewer than two are open; a refused import changes nothing; after a pair's handle is destroyed no trace of the pair is left; destroying a handle that is not in use is refused.",
  "all histories of calls",
  "Handles come from two pools, and any number of imports and destructions in any order may precede.",
  HQ)
p("The post-quantum suite uses the key behind the handle",
  "Each operation of the post-quantum suite that succeeds returns the named primitive (ML-KEM-512, ML-DSA-44, KMAC256, SHAKE256, AES-CCM) of its arguments and of the pair made last, or the key imported, under that handle; verification succeeds only for a valid signature. With such a key, documented sizes and libraries that refuse nothing, it does succeed.",
  "all histories of calls, all keys and arguments",
  "Relates an operation to a call arbitrarily far in the past.",
  HQ)
p("The post-quantum suite returns defined codes and respects buffers",
  "Every call of the post-quantum suite returns, with success or one of three error codes; a missing argument is refused without effect; success means every library call succeeded; outputs fit the buffers.",
  "all calls, states and library behaviours",
  "All sizes and all failure points.",
  HQ)
p("Encapsulation reaches the holder of the pair",
  "What a device encapsulates to a public key, the device that made the pair decapsulates to the same secret as long as the pair's handle is open; what one encrypts the other decrypts.",
  "all pairs of histories of calls on the two devices",
  "Relates two executions with different histories, key stores and randomness.",
  HQ)
p("Keys of the post-quantum suite work only for their purpose",
  "An operation of the post-quantum suite succeeds only with a handle that was imported for that operation.",
  "all histories of calls",
  "All histories, all pairs of purposes.",
  HQ)
p("A success report means nothing was refused",
  "Whenever a call of the library returns success, every memory allocation during the call was granted and every callback it made reported success, including the release of keys.",
  "all calls, states and behaviours of callbacks and allocator",
  "Any subset of dozens of callback invocations may fail, depending on the history.",
  ["library/edhoc_message_1.c", "library/edhoc_message_2.c", "library/edhoc_message_3.c", "library/edhoc_message_4.c", "library/edhoc_exporter.c", "library/edhoc_common.c"])
p("What is stored and handed out fits its array",
  "After any sequence of calls that starts with initialisation, the methods, suites, connection identifiers and peer's suites stored in the context fit the arrays declared for them; a credential identifier handed to the application for verification fits its arrays; exported keys, OSCORE material and lists of suites fit the buffers whose sizes the caller passed.",
  "all histories of calls, all received messages, all callbacks",
  "Sizes come from the peer and from any earlier call.",
  ["include/edhoc_context.h", "include/edhoc_credentials.h", "library/edhoc.c:edhoc_set_methods", "library/edhoc.c:edhoc_set_cipher_suites", "library/edhoc.c:edhoc_set_connection_id", "library/edhoc_message_1.c:edhoc_message_1_process", "library/edhoc_message_2.c:edhoc_message_2_process", "library/edhoc_exporter.c:edhoc_export_oscore_session"])
p("Willing parties complete the handshake",
  "Two parties with compatible configurations, whose applications and memory allocators grant every request, whose crypto libraries compute the same correct primitives and who know each other's credentials complete the three-message exchange: with large enough buffers all six calls return success, and both parties then hold the same transcript hash and the same master key.",
  "all pairs of compatible configurations and credentials, all four methods, all correct crypto libraries, all EAD the applications send",
  "All combinations of method, cipher suite, credential kind, identifier lengths, EAD and key material on two independent sides.",
  ["library/edhoc_message_1.c", "library/edhoc_message_2.c", "library/edhoc_message_3.c", "library/edhoc_common.c"])
p("An established session serves its applications",
  "After the handshake of two willing parties (configured as in C63, with 16-bit labels and algorithm numbers) there is one family of keys, indexed by the entropies fed to key update so far, the label and the length, such that any sequence of requests on either side - key exports, key updates, OSCORE exports with an update between any two - is granted in full and returns exactly the keys of that family and the two connection identifiers in opposite roles. This holds with and without message 4, which the initiator accepts. Lengths are those C46 says the library can export.",
  "all pairs of compatible configurations, all sequences of requests on each side",
  "The two sides may make any number of requests in any order; agreement is between two independent histories.",
  ["library/edhoc_exporter.c", "library/edhoc_message_4.c", "library/edhoc_common.c"])
p("The handshake works over the ready-made suites",
  "When the key and crypto callbacks of a party are those of a ready-made suite, every answer the library gets during a handshake and in the session after it is the named primitive of the key the library imported under that handle or of the party's long-term key, and no imported key takes the handle of a long-term key. Two such parties that complete a handshake hold the same transcript hash and master key, and later export the same keys and mirrored OSCORE contexts after the same key updates.",
  "all four classic suites, all configurations, messages and later sequences of calls, all correct crypto libraries, any other use of the suite on the device that leaves these keys alone",
  "Relates the library's use of handles and buffer sizes over a whole session to the key store behind the suite, on two devices.",
  H0 + ["library/edhoc_message_1.c", "library/edhoc_message_2.c", "library/edhoc_message_3.c", "library/edhoc_message_4.c", "library/edhoc_exporter.c", "library/edhoc_common.c"])
AK = ["library/edhoc_message_1.c", "library/edhoc_message_2.c", "library/edhoc_message_3.c", "library/edhoc_message_4.c", "library/edhoc_common.c:edhoc_comp_mac", "library/edhoc_common.c:edhoc_comp_sign_or_mac"]
p("An accepted message 2 comes from the responder it names",
  "Whatever an attacker does on the network: when an initiator accepts a message 2 and no signature or MAC was forged and no hash collision found, some session of the holder of the verified key composed message 2 in answer to exactly the message 1 that the initiator sent. That session took over the proposed method, suites and identifier (no downgrade), made the ephemeral key the initiator uses, and presented the credential and EAD items that were accepted.",
  "all messages an attacker may deliver, all sets of honest sessions, all callbacks and configurations",
  "The attacker may replay, splice and alter messages of any number of concurrent sessions.",
  AK)
p("An accepted message 3 comes from the initiator it names",
  "Whatever an attacker does on the network: when a responder accepts a message 3 and no ciphertext, signature or MAC was forged and no hash collision found, some honest initiator started with exactly the message 1 that the responder accepted, took over its ephemeral key, connection identifier and credential identifier, and composed message 3 in this session; the credential identifier and EAD items of message 3 are the ones it sent, and when it proved possession of its key the accepted credential is the one it presented.",
  "all messages an attacker may deliver, all sets of honest sessions, all callbacks and configurations",
  "The attacker may replay, splice and alter messages of any number of concurrent sessions.",
  AK)
p("An accepted message 4 confirms the session",
  "Whatever an attacker does on the network: when an initiator accepts a message 4 and no ciphertext was forged and no hash collision found, some honest responder accepted this initiator's message 1 and a message 3 naming the credential it sent, agrees with it on everything exchanged before, and composed message 4; the EAD items of message 4 are the ones that responder sent.",
  "all messages an attacker may deliver, all sets of honest sessions, all callbacks and configurations",
  "The attacker may replay, splice and alter messages of any number of concurrent sessions.",
  AK)
p("The ends of a confirmed session hold the same keys",
  "Whatever an attacker does on the network: when an initiator accepts a message 4, no ciphertext was forged, and no hash or key derivation collided, it and some honest responder of the same session hold the same TH_4 and PRK_4e3m; after the same key updates their exports of the same label and length are equal and their OSCORE contexts mirror each other. When a responder accepts a message 3, it and some honest initiator of the same session hold the same TH_3 and PRK_3e2m, and, if the credential it accepted is the one that initiator used, the same TH_4, PRK_4e3m and later exports as well.",
  "all messages an attacker may deliver, all sets of honest sessions, all callbacks and configurations, all later histories of the two ends",
  "The attacker may replay, splice and alter messages of any number of concurrent sessions; agreement is between two independent histories.",
  AK + ["library/edhoc_exporter.c"])
p("No session is accepted twice",
  "Whatever an attacker does on the network, under the assumptions of C66-C68: initiators that generated different ephemeral keys and each accepted a message 2 did so with as many distinct sessions of the holders of the verified keys, one each and in agreement with it; the same for responders that accepted a message 3 and distinct sessions of honest initiators, and for initiators that accepted a message 4 and distinct sessions of honest responders that completed. Replaying recorded messages never makes two parties accept one session of a peer.",
  "all messages an attacker may deliver, all numbers of accepting parties and sets of honest sessions, all callbacks and configurations",
  "Replay resistance counts sessions: it ranges over any number of concurrent runs and every reuse of recorded messages.",
  AK)
p("One attempt per message and session",
  "Once a call composing or processing one of the four messages has done anything at all, whatever it answered, every later call for that message on the context is refused without effect until the context is deinitialised and initialised again. Whatever calls are made on a context until it is initialised again, in any order and with any outcome, they generate at most one ephemeral key pair, make at most one signature, verify at most one signature, use the AEAD at most twice, fetch at most one credential, authenticate at most one peer credential and make at most four calls about external authorization data.",
  "all histories of API calls, arguments and callback answers",
  "An attacker's number of guesses per session is a bound over every history of calls, including calls repeated after errors.",
  ["library/edhoc_message_1.c", "library/edhoc_message_2.c", "library/edhoc_message_3.c", "library/edhoc_message_4.c", "library/edhoc_exporter.c", "include/edhoc_context.h:edhoc_state_machine"])
p("Every handshake key is derived once",
  "Whatever calls are made on a context until it is initialised again, and whatever the callbacks answer, each of KEYSTREAM_2, SALT_3e2m, MAC_2, K_3, IV_3, SALT_4e3m, MAC_3, K_4 and IV_4 is derived at most once, so no keystream and no AEAD key and nonce is obtained twice in a session. Every derivation the library ever asks for uses the RFC 9528 info of some label, context and length, and infos that differ in any of the three are different inputs, so keys with different purposes never come from the same derivation. (PRK_out may be derived again when an export failed.)",
  "all histories of API calls, arguments and callback answers; all labels, contexts and lengths",
  "Key separation and the absence of key and nonce reuse are statements over every history, including failing and repeated calls.",
  ["library/edhoc_message_2.c:comp_keystream", "library/edhoc_message_3.c:comp_key_iv_aad_3", "library/edhoc_message_4.c:compute_key_iv_aad_4", "library/edhoc_common.c:edhoc_comp_mac", "library/edhoc_exporter.c"])
p("The settings of a context are what the application set",
  "No message call, export, key update or error query changes the methods, cipher suites, connection identifier, callbacks or user context the application set, whatever its outcome. In any history the settings in force, and what the setting calls answered, are those of these calls (with initialisation and deinitialisation) made alone and in the same order.",
  "all histories of API calls, arguments and callback answers",
  "Interference between negotiation, received data and configuration may need any order of calls and any received message.",
  ["library/edhoc.c", "library/edhoc_message_1.c", "library/edhoc_message_2.c", "library/edhoc_message_3.c", "library/edhoc_message_4.c", "library/edhoc_exporter.c", "include/edhoc_context.h:edhoc_context"])
p("Sessions on different contexts do not disturb each other",
  "In a process that uses any number of contexts with shared callbacks, however the calls on them are interleaved, every context gets the results, reaches the state and makes the callback invocations that its own calls alone give when the callbacks answer it the same. So every guarantee about one context holds for each of them, and with callbacks that answer regardless of the past a context behaves exactly as if it were the only one.",
  "all schedules of API calls over any number of contexts, all callbacks whose answers may depend on everything asked before by any context",
  "The number of interleavings of several sessions is unbounded, and tests run one or two sessions in a fixed order.",
  ["library/edhoc.c", "library/edhoc_common.c", "library/edhoc_message_1.c", "library/edhoc_message_2.c", "library/edhoc_message_3.c", "library/edhoc_message_4.c", "library/edhoc_exporter.c", "include/edhoc_context.h:edhoc_context"])
p("The size of the output buffer decides only whether the answer fits",
  "When composing a message succeeds, then from the same state with any other buffer that holds the message the call gives the same message, the same state and the same callback invocations; with a non-empty buffer too small for it the call reports the encoding error and returns no message. The buffers for the OSCORE sender and recipient identifiers matter in the same way.",
  "all states, buffer sizes and callback answers, the four messages and the OSCORE export",
  "A dependency of the protocol on the buffer size may show at one size out of many, and at different sizes for every message length.",
  ["library/edhoc_message_1.c:edhoc_message_1_compose", "library/edhoc_message_2.c:edhoc_message_2_compose", "library/edhoc_message_3.c:gen_msg_3", "library/edhoc_message_4.c:edhoc_message_4_compose", "library/edhoc_exporter.c:edhoc_export_oscore_session"])
p("A context may be configured in any order",
  "The calls that set methods, cipher suites, connection identifier, user context and the four groups of callbacks may be made in any order: two sequences that have the same calls in the same order for each of these settings give every call the same answer, rejected calls included, leave the context the same, invoke no callback, and every history that follows is the same.",
  "all sequences of configuration calls with any arguments, all states, all later histories",
  "There are over forty thousand orders of eight calls, before repetitions and rejected calls.",
  ["library/edhoc.c:edhoc_set_methods", "library/edhoc.c:edhoc_set_cipher_suites", "library/edhoc.c:edhoc_set_connection_id", "library/edhoc.c:edhoc_set_user_context", "library/edhoc.c:edhoc_bind_ead", "library/edhoc.c:edhoc_bind_keys", "library/edhoc.c:edhoc_bind_crypto", "library/edhoc.c:edhoc_bind_credentials"])
p("Only the last accepted configuration counts",
  "However a freshly initialised context is configured, with settings made repeatedly, replaced by shorter ones, or rejected, in any order: if the last accepted call about each setting is the same, every later history of calls gives the same results and the same callback invocations. Nothing of a replaced method or suite list is ever used.",
  "all pairs of configuration sequences, all later histories and callback answers",
  "Left-overs of an earlier configuration show only for particular pairs of lists and indices, and in any later call.",
  ["library/edhoc.c:edhoc_set_methods", "library/edhoc.c:edhoc_set_cipher_suites", "library/edhoc_message_1.c", "library/edhoc_message_2.c", "library/edhoc_message_3.c", "library/edhoc_message_4.c", "library/edhoc_exporter.c", "library/edhoc.c:edhoc_error_get_cipher_suites"])
p("A handshake under way keeps its method and cipher suite",
  "Once the first message has been composed or processed, setting methods or cipher suites again on the context changes nothing for the session under way: every later call has the same result and makes the same callback invocations as without it.",
  "all states after the first message, all lists of methods and suites, all later histories",
  "It takes a setting call at any point of any history, with any list, to find one that disturbs a session.",
  ["library/edhoc.c:edhoc_set_methods", "library/edhoc.c:edhoc_set_cipher_suites", "library/edhoc_message_2.c", "library/edhoc_message_3.c", "library/edhoc_message_4.c", "library/edhoc_exporter.c", "include/edhoc_context.h:chosen_csuite_idx"])
p("The work of a call and of a session is bounded",
  "Every call, whatever its arguments, the bytes received and the state of the context, makes at most a fixed number of invocations of each callback and of requests for working memory; of key pairs, key agreements, signatures and verifications together it makes at most three; processing a first message asks only for one hash and the application's handler of authorization data. Until the context is initialised again, and however many messages arrive, it makes at most three key agreements, three key extractions and four hashes.",
  "all calls with all arguments and received bytes, all contexts, all answers of the callbacks, all histories",
  "A test measures the work for one message; an attacker looks for the message that causes more.",
  ["library/edhoc_message_1.c", "library/edhoc_message_2.c", "library/edhoc_message_3.c", "library/edhoc_message_4.c", "library/edhoc_exporter.c", "library/edhoc_common.c"])
p("A received message claims no more memory than its own length",
  "The working buffers for the ciphertext, the key stream and the plaintext of a received message are never larger than the message. Until the application has been asked about the peer's credentials, that is while the peer may be anybody, no working buffer of any kind is larger than the message or than what the own settings (cipher suite and transcript hash) account for.",
  "all calls that process messages 2, 3 and 4 with all received bytes, all contexts, all answers of the callbacks",
  "A test tries some lengths; an attacker looks for the one length field whose arithmetic goes wrong.",
  ["library/edhoc_message_2.c: comp_ciphertext_2_len, edhoc_message_2_process", "library/edhoc_message_3.c: edhoc_message_3_process", "library/edhoc_message_4.c: edhoc_message_4_process"])
with open("/verif/properties.jsonl", "w") as f:
    for x in P: f.write(json.dumps(x) + "\n")
print(len(P))

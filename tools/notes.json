{
 "C01": [
  "proved",
  "Exact acceptance condition, frame and stored values for each configuration call."
 ],
 "C02": [
  "proved",
  "Init yields the blank context; deinit wipes it; afterwards every configuration, message, key update and OSCORE call fails until re-initialised."
 ],
 "C03": [
  "proved",
  "A message call outside its required state or with bad arguments returns an error and leaves the whole world (context and event trace) unchanged."
 ],
 "C04": [
  "proved",
  "For every reachable world, environment and later history."
 ],
 "C05": [
  "proved",
  "Invariant over all histories since initialisation."
 ],
 "C06": [
  "partial",
  "Proved for every call and path except message_1_compose failing its allocation, where the code leaks the handle (C06_handles_refuted)."
 ],
 "C07": [
  "proved",
  "Live-block count per buffer is unchanged by every call on every path; no block is released twice."
 ],
 "C26": [
  "proved",
  "Permission automaton over all histories."
 ],
 "C41": [
  "proved",
  "Error code after any quiet continuation; suites only after a message_1 mismatch and within the buffers."
 ],
 "C08": [
  "proved",
  "Every encoder equals the RFC 8949 encoding, every decoder reads it back consuming exactly those bytes, encodings are injective and prefix-free."
 ],
 "C27": [
  "proved",
  "Round trip for every code and valid information, and composing succeeds whenever the buffer holds the message."
 ],
 "C28": [
  "partial",
  "False: three suites sent with the code of a text make the code follow a pointer made of received bytes (C28_error_process_refuted). The partial theorem shows that this is the only unsafe case."
 ],
 "C31": [
  "partial",
  "False for negative integer identifiers (C31_connection_id_refuted); proved for the flow byte, non-negative integers and byte strings, and the size recalculation."
 ],
 "C32": [
  "proved",
  ""
 ],
 "C33": [
  "partial",
  "False beyond 16-bit values and lengths (C33_estimates_refuted); the exact range in which each estimate suffices is proved."
 ],
 "C09": [
  "proved",
  "For any two configured contexts and correct crypto answers."
 ],
 "C14": [
  "proved",
  "Keystream cancels; in every honest exchange both sides derive the same keystream and plaintext."
 ],
 "C17": [
  "proved",
  "In every honest exchange, and for exports in any later histories of both sides."
 ],
 "C18": [
  "proved",
  "Mirror property and the exact RFC values."
 ],
 "C25": [
  "proved",
  "Exact formula over any number of key updates; peers agree."
 ],
 "C15": [
  "proved",
  "TH_1 to TH_4 for both roles: the stored value is the hash callback's answer on the RFC input (TH_3 additionally needs the hash callback to fill its buffer, because the code does not check that length)."
 ],
 "C16": [
  "proved",
  "Every derived key, IV, MAC and PRK of messages 2 to 4 and the exporter, for both roles, all methods."
 ],
 "C19": [
  "proved",
  "For every received byte string and all callback behaviours; static DH and signature methods."
 ],
 "C20": [
  "proved",
  "For every received byte string and all callback behaviours; static DH and signature methods."
 ],
 "C29": [
  "partial",
  "Proved in full for messages 2, 3 and 4 between honest peers; false for message 1 items without a value, which arrive with an empty value (C29_message_1_refuted); C29_message_1_partial covers all other items."
 ],
 "C38": [
  "proved",
  "Length of the MAC made and checked, for both messages and both roles, tied to the bytes on the wire."
 ],
 "C39": [
  "partial",
  "False when an EAD_1 item has no value: the code always writes one (C39_message_1_bytes_refuted); proved in all other cases."
 ],
 "C40": [
  "partial",
  "False for integer key identifiers outside -24..23, which the code truncates on the wire (C40_identifier_refuted); proved for every identifier that has a compact or map form, including x5chain and x5t."
 ],
 "C44": [
  "proved",
  "All calls, all paths."
 ],
 "C42": [
  "partial",
  "False: trailing bytes are accepted and have no effect (refutation and universal theorem). Proved: an accepted message begins with a byte string."
 ],
 "C43": [
  "partial",
  "Proved for key update and OSCORE export. False for the application exporter when an expand callback fails (C43_export_refuted); the partial theorem shows that this is the only case."
 ],
 "C23": [
  "proved",
  "Other labels are refused with nothing changed and no callback invoked; public labels are accepted whenever no callback fails."
 ],
 "C24": [
  "partial",
  "False when an expand callback fails: a failing export overwrites the PRK but keeps its state, so a later export returns another secret (C24_failing_callback_refuted). Frame and repeatability are proved in full; independence from earlier exports is proved when no expand callback fails."
 ],
 "C36": [
  "partial",
  "False: an export that succeeds makes every later message 4 call fail (C36_export_blocks_message_4, C36_message_4_refuted). Proved only for configuration calls and queries."
 ],
 "C37": [
  "partial",
  "False for edhoc_export_prk_exporter (C37_export_refuted). Proved for key update and OSCORE export."
 ],
 "C45": [
  "proved",
  ""
 ],
 "C46": [
  "partial",
  "False: with 32-byte hashes no secret of 256 bytes or more can be exported (C46_length_limit, C46_any_length_refuted). Shorter lengths work."
 ],
 "C10": [
  "partial",
  "The property is false and the refutations are theorems (truncated and trailing messages accepted). The _partial theorem gives the prefix an accepted message must have; the rest of the message is unconstrained."
 ],
 "C21": [
  "proved",
  "Acceptance, mismatch report and method refusal. Arrays of up to three suites (what the decoder accepts) and at most the configured limit."
 ],
 "C22": [
  "partial",
  "The property is false: only the last configured suite is accepted (universal theorem and a refutation). The _partial theorem proves acceptance of the last suite."
 ],
 "C11": [
  "partial",
  "False as stated: a short message makes the length subtraction wrap, the code asks for a buffer of almost 2^64 bytes, and if the allocator grants it message_2 is read out of bounds (two refutations). Proved: with a heap that refuses half the address space, every message_2 too short for G_Y and every message_3/4 too short for the tag is rejected without a fault and the session dies."
 ],
 "C12": [
  "partial",
  "False for message_3: one byte may be written past the buffer (refutation, and C12_message_3_overrun says exactly when). Proved for the rest: a returned message fits the buffer, its reported length is its length, a failing call reports none, and no other write outside an object happens while composing."
 ],
 "C13": [
  "partial",
  "False: seven refutations with concrete received bytes (read past the end and through NULL in message_1, overrun of the key identifier array and of EAD values in messages 2 and 3, zero-size arrays in stack builds, token array with a limit of 1). Proved: for all bytes, histories and contract-abiding callbacks these are the only faults (C13_only_these_partial), and none in message_4, well-opened message_1, configuration and exports on heap builds (C13_heap_safe)."
 ],
 "C30": [
  "partial",
  "False: a fourth EAD item, bytes that are no EAD item, and any EAD without a callback are ignored (three refutations). Proved: up to three items of messages 1 and 4 all reach the callback, and more than configured are refused. Messages 2 and 3 are covered by C19/C20."
 ],
 "C34": [
  "partial",
  "False with signatures on both sides (refutation). Proved: where the peer authenticates with a static Diffie-Hellman key, the key is gone after message_2 (initiator) or message_3 (responder) and does not return in the session."
 ],
 "C35": [
  "partial",
  "False in both directions (two refutations): neither function checks the role. Proved: message_4 only follows a completed handshake, and at most one is sent or received per session."
 ],
 "C47": [
  "proved",
  "All three parts, for every call, state and library behaviour."
 ],
 "C48": [
  "proved",
  "Invariant over all histories."
 ],
 "C49": [
  "proved",
  "Exact contents by induction over histories; acceptance of imports is exact."
 ],
 "C50": [
  "proved",
  "One theorem per operation and curve family, over all histories. For suites 0 and 4 the key may have been imported for verification instead of agreement or the other way round; that is C52."
 ],
 "C51": [
  "proved",
  "One theorem per operation. C51_agreement_w takes the primality of the two field primes as a premise, a known fact about two numbers that is not about the code."
 ],
 "C52": [
  "partial",
  "False for suites 0 and 4: verification keys serve as agreement keys and the other way round (C52_purpose_refuted). Proved for all other operations and for suites 2 and 24."
 ],
 "C53": [
  "partial",
  "False: a NULL handle is dereferenced on import and a public-key buffer larger than two coordinates is filled from beyond the array (two refutations). Proved for all other calls, and outputs always fit."
 ],
 "C54": [
  "partial",
  "False: suites 0 and 4 return the all-zero secret with success (refutation). The P-256 and P-384 suites are covered by C50_agreement_w."
 ],
 "C55": [
  "proved",
  "For any two histories on two devices whose libraries implement the same primitives."
 ],
 "C56": [
  "partial",
  "Everything but the last clause is proved; the last is proved for identifiers outside the two slot handles and false for those (refutation: destroying a slot handle that is not open succeeds)."
 ],
 "C57": [
  "proved",
  "For key-derivation inputs below 2^61 bytes, where the bit lengths fit size_t."
 ],
 "C58": [
  "proved",
  ""
 ],
 "C59": [
  "proved",
  "Under the correctness of ML-KEM and AES-CCM stated as premises."
 ],
 "C60": [
  "partial",
  "False: keys imported for agreement, signature, verification, extraction and expansion are interchangeable (refutation). Proved for encryption and decryption keys."
 ],
 "C61": [
  "partial",
  "Proved for allocations and all callbacks but the release of keys, whose result the library never looks at (C61_release_refuted)."
 ],
 "C62": [
  "proved",
  "For calls that return; a call that oversteps an array is undefined behaviour in the model and the subject of C13 and C40. Buffers of compose calls are the subject of C12."
 ],
 "C63": [
  "partial",
  "Proved for credentials and EAD whose hash algorithm numbers and labels have at most 16 bits, cipher suites with lengths up to 4096 and an IV no longer than the key, identifiers and credentials up to 32 KiB and buffers of 64 KiB. False for algorithm numbers beyond 16 bits, for which the library reserves one byte too few (refutation)."
 ],
 "C64": [
  "proved",
  "For configurations within the limits of C63, 64 KiB buffers, and the lengths of C46; message 4 needs a cipher suite with a non-empty tag."
 ],
 "C65": [
  "proved",
  "One context per history of the suite; the device may serve other calls in between that destroy neither the long-term keys nor the keys the library holds. The post-quantum suite is not covered: its key encapsulation does not fit the contract."
 ],
 "C66": [
  "proved",
  "Unforgeability and collision freedom are premises on what happened. With signatures, agreement on C_R needs that no two MACs collided. With a MAC, credential identifiers must be single CBOR items (only the kind \"any\" may break this). CRED_R followed by EAD_2 agrees as a byte string."
 ],
 "C67": [
  "proved",
  "Unforgeability and collision freedom are premises on what happened. Agreement on EAD items is for labels of 32 bits."
 ],
 "C68": [
  "proved",
  "Unforgeability and collision freedom are premises on what happened."
 ],
 "C69": [
  "proved",
  "Unforgeability and freedom from collisions (of hashes, and of derived keys for the same label and context) are premises on what happened. Agreement of exports needs that both ends mean the same suite by a suite value, and callbacks that compute the same primitives in the later session. For the responder agreement on PRK_4e3m rests on correct primitives, since message 3 is encrypted before it is derived."
 ],
 "C70": [
  "proved",
  "Fresh ephemeral keys (no public key generated in two of the accepting sessions), unforgeability and collision freedom are premises on what happened."
 ],
 "C71": [
  "proved",
  "Histories start in any reachable state. The counts are of calls made to the callbacks, whatever they answer."
 ],
 "C72": [
  "proved",
  "C72_prk_out_refuted shows why PRK_out is not in the list: an export whose derivation of PRK_out failed derives it again (see C24 and C43). Distinctness of infos is for encodings below 2^64 bytes."
 ],
 "C73": [
  "proved",
  "Arrays are compared whole, also beyond the length in use."
 ],
 "C74": [
  "proved",
  "Calls are interleaved whole; they do not overlap in time. That a call touches no context but its own is a fact of the model (the library has no mutable static variables, and the model passes one context); what is proved is that sharing callbacks and the heap with other sessions adds nothing to what some callbacks could do to the context alone."
 ],
 "C75": [
  "partial",
  "False for message 3 with a buffer one byte too small, which the code overruns (C75_no_room_refuted, see C12); everything else is proved. A buffer of size zero is an invalid argument."
 ],
 "C76": [
  "proved",
  "Calls about the same setting keep their order: the last accepted one counts."
 ],
 "C77": [
  "proved",
  "The configuration precedes the first message; afterwards anything may be called, including further configuration."
 ],
 "C78": [
  "partial",
  "Proved for the methods, and for suites as long as the chosen one stays in its place (the query of suites excepted). False otherwise: the library keeps an index into the table the application replaces (C78_suites_refuted)."
 ],
 "C79": [
  "proved",
  "The table of Work.v bounds each kind separately, C79_public the public-key operations together. The demonstration sessions reach the bounds on public-key operations, imports and buffers of messages 1 to 3 and all bounds of the exports. A call that ends in undefined behaviour (excluded by C13 for the states it covers) has no bound. C79_stranger bounds the work up to the question about credentials."
 ],
 "C80": [
  "partial",
  "False for messages shorter than the ephemeral key (message 2): the length is subtracted without a comparison and a two-byte message asks for almost 2^64 bytes (C80_short_refuted; see also C11). Proved for every message whose byte string is at least as long as the part subtracted. A first message makes the library ask for no buffer (C80_first_message)."
 ]
}
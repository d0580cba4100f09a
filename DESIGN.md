# Design

A Rocq (Coq 8.16.1) model of libedhoc (`/repo`, pinned commit) and theorems about it.
Build in `rocq/`: `coq_makefile -f _CoqProject -o Makefile && make -j4` (about five minutes; checking the compiled files with `coqchk` takes about half an hour).
`properties.jsonl` has the English properties, `MANIFEST.json` the theorems for each, and
`seeded/LOG.jsonl` the wrong programs the theorems were tested against.

## 1. What is modelled, and how

* **Bytes and sizes.** A byte string is a `list Z`; sizes are `Z`. `size_t` subtraction that can
  wrap is written `mod 2^64`; casts to `uint32_t`/`uint8_t`/`int8_t` are explicit.
* **Monad.** A C function is a Gallina function `world -> res A`. `Ret a w` is a normal return;
  `Ub r` is undefined behaviour of kind `r` (out-of-bounds read or write, NULL dereference, zero
  or oversized variable-length array, wrong union member, double free, callback breaking its
  contract). No theorem about results holds because of UB: UB is a different outcome.
* **World.** The `struct edhoc_context` plus a trace of events: every callback invocation (with
  arguments, return code, outputs), every allocation and release.
* **Callbacks** (`keys`, `crypto`, `cred`, `ead`, the allocator) are arbitrary functions of the
  whole history and their arguments (`Class env` in `Monad.v`). Theorems quantify over them. A
  theorem that needs a correct crypto library says so by a hypothesis: `obeys` (successful calls
  return what the primitives give; calls may still fail at any time) or `abides` (outputs fit the
  buffers).
* **Build configuration** (`CONFIG_LIBEDHOC_*`, memory backend, `ZCBOR_CANONICAL`) is a record
  every theorem quantifies over.
* **Control flow.** Every early return, every `EDHOC_MEM_FREE` and `destroy_key` on each error
  path is written out as in the C code, so leaks and double frees are visible.
* **Ready-made suites.** They run over a model of the libraries below them (`Psa.v`): a key store
  with the PSA usage, algorithm and type checks, one key derivation operation, mbed TLS public-key
  contexts, and primitives as arbitrary functions. Every library call may fail at any time.

Model files (definitions only, each citing the lines of `/repo` it models):

| file | models |
|---|---|
| `Bytes.v` | byte strings, big-endian integers |
| `Cbor.v` | zcbor 0.8.1 primitive decoders and encoders (a dependency; see section 4) |
| `CborGen.v` | `backends/cbor/src/*`, the generated encoders and decoders |
| `Values.v`, `Ctx.v` | `include/*.h`: constants, types, `struct edhoc_context` |
| `Monad.v` | callbacks, events, `backends/memory` |
| `Api.v` | `library/edhoc.c` |
| `Common.v` | `library/edhoc_common.c` |
| `Msg1.v` to `Msg4.v` | `library/edhoc_message_{1,2,3,4}.c` |
| `Exporter.v` | `library/edhoc_exporter.c` |
| `MsgError.v` | `library/edhoc_message_error.c` |
| `Helpers.v` | `helpers/src/edhoc_helpers.c` |
| `History.v` | client programs: any sequence of API calls |
| `Psa.v` | the libraries below the suites (dependencies; see section 4) |
| `SuiteX.v` | `helpers/src/edhoc_cipher_suite_{0,4}.c` |
| `SuiteW.v` | `helpers/src/edhoc_cipher_suite_{2,24}.c` |
| `SuitePqc.v` | `helpers/src/edhoc_exp_pqc_cipher_suite_1.c`, `edhoc_kdf_kmac256_xkcp.c` |
| `SuiteCalls.v`, `PqcCalls.v` | the suites' function tables and histories of calls |

Specification files (no code of `/repo`, no proofs): `Spec.v`, `Rfc.v` (RFC 8949 and RFC 9528
structures), `Wire.v` (well-formed CBOR), `Uses.v` (what a trace says was computed), `Conform.v`
(RFC 9528 formulas), `Sessions.v` (honest handshakes), `Received.v`, `Policy.v`, `Safety.v`,
`SuiteSpec.v`, `PqcSpec.v`, `Replies.v`, `Bounds.v`, `Ready.v`, `Serve.v`, `SuiteTable.v`,
`Linked.v`, `Active.v`, `Keys.v`, `InUse.v`, `Replay.v`, `Attempts.v`,
`Settings.v`, `Interleave.v`.

Property theorems: `PropSession.v`, `PropCodec.v`, `PropConform.v`, `PropAgree.v`,
`PropExport.v`, `PropNeg.v`, `PropMem.v`, `PropSuite.v`, `PropPqc.v`, `PropReply.v`, `PropReady.v`,
`PropServe.v`, `PropLinked.v`, `PropActive.v`, `PropKeys.v`, `PropReplay.v`,
`PropAttempts.v`, `PropLabels.v`, `PropSettings.v`, `PropApart.v`, `PropRoom.v`, `PropOrder.v`, `PropStale.v`, `PropMid.v`, `PropWork.v`, `PropBurden.v`, and the further `Prop*.v`.
Each is one `exact`, has `Print Assumptions` beneath, and an `Example` beside it with a concrete
case that meets its hypotheses. `Demo*.v` hold the concrete environments of these examples. All other files are
proofs.

## 2. Plan per property

`wp` means a weakest-precondition lemma for each C function, proved by symbolic execution over
every branch. "Refuted" means the code as it is violates the English property: the theorem is
then `..._refuted : exists ..., ...` with a concrete witness, next to the strongest true
statement (`_partial`).

| id | modelled how | proof |
|---|---|---|
| C01 | `Api.v` calls as functions on the context; `iff` for success, frame by explicit record | case analysis |
| C02 | `init`/`deinit` on every context | case analysis |
| C03 | guards of the 8 message calls | wp: guard false ⇒ same world |
| C04 | each message call; then any list of API calls | wp + induction over histories (aborted is absorbing) |
| C05 | histories of API calls as an inductive transition system | invariant by induction over the history |
| C06 | import/destroy events in the trace | wp: balance of every call; leak in msg1 compose refuted, rest proved |
| C07 | alloc/free events in the trace | wp: balance per buffer |
| C08 | CBOR encoders/decoders | arithmetic on heads, list induction; injectivity |
| C09 | msg1 compose then msg1 process | wp of both + codec round trip |
| C10 | msg1 process on arbitrary bytes | refuted (decode result ignored), partial: what is still rejected |
| C11 | msg 2/3/4 process on arbitrary bytes | refuted (wrap-around), partial |
| C12 | compose calls with caller buffer size | wp; message 3 refuted (`size + 1`), exact overrun condition |
| C13 | UB outcome of every call in every history | refuted by seven witnesses; partial: only these faults can happen |
| C14 | keystream/xor | list induction + wp |
| C15, C16, C38 | transcript hashes, key schedule, MACs vs. independent RFC spec | wp of successful runs |
| C17, C18, C25 | two worlds, two environments | composition of wp lemmas, DH symmetry |
| C19, C20 | process of messages 2, 3 | wp: success ⇒ verification events in the trace |
| C21, C22 | negotiation in msg1 process | wp; C22 refuted, partial |
| C23, C24, C26, C36, C37, C43, C45, C46 | exporter | wp + induction over histories; C24, C36, C37, C43, C46 refuted, partial |
| C27, C28 | error message compose/process | codec round trip; C28 refuted (union confusion), partial |
| C29, C30 | EAD through compose/process | codec; refuted cases, rest proved |
| C31, C32 | helpers | case analysis; negative one-byte integers refuted |
| C33 | size estimates vs. real encoded length | arithmetic; refuted from 65536 on, proved below |
| C34, C35 | context after completion | refuted (methods with signatures / role unchecked), partial |
| C39 | msg1 compose bytes vs. RFC spec | wp; refuted for items without value |
| C40 | identifiers through the plaintexts | codec round trip; truncated integers refuted |
| C41 | error code field over histories | invariant |
| C42 | msg 2/3/4 process on `m ++ junk` | wp; refuted, universal theorem that junk is ignored |
| C44 | callbacks consulted per call | counting invariant over every path |
| C47 | each call of suites 0, 2, 4, 24 with arbitrary library answers | wp: success ⇔ the library calls succeeded |
| C48 | open operations and contexts after every call | invariant over histories |
| C49 | key store over call histories | induction; exact contents |
| C50 | result of each operation vs. primitive on the imported key | wp + induction over histories |
| C51 | calls that must succeed when libraries are willing | wp; point decompression by Fermat's little theorem |
| C52 | operations with keys of another purpose | wp; refuted for suites 0/4, partial |
| C53 | UB outcome of every suite call, sizes of outputs | wp; refuted (NULL handle, large buffer), partial |
| C54 | all-zero shared secret | refuted |
| C55 | two devices, two histories | composition of C50 and C51 |
| C56 | PQC key slots over histories | induction; last clause refuted, partial |
| C57 | PQC operations vs. primitives | wp + induction over histories |
| C58 | PQC return codes, sizes | wp |
| C59 | encapsulation between two devices | composition |
| C60 | PQC keys of another purpose | wp; refuted, partial |
| C61 | replies to every request of a successful call | wp; release of keys refuted, partial |
| C62 | sizes stored in the context, asked about and handed back | invariant over histories; wp |
| C63 | two willing parties, six calls | wp without failing branches, composed over two environments; wide algorithms refuted, partial |
| C64 | sequences of exports, updates and OSCORE exports after C63, message 4 | induction over the requests; composition with C63 |
| C65 | sessions whose callbacks are the suite functions | judgement on what each library function asks of the callbacks; key store invariant; composition with C17, C18 |
| C66, C67, C68 | one party's calls on messages from anyone, honest sessions, ideal signatures, MACs, AEAD and hashes as premises | unique parsing of CBOR and of the signed, hashed and MACed inputs; separation of TH_2, TH_3 and TH_4; composition with the key schedule |
| C69 | the same sessions, with every later history of the two ends | the AEAD key of the accepted message ties the PRK through the derivation; then agreement of exports as in C17 and C25 |
| C70 | any number of accepting sessions with fresh ephemeral keys | C66-C68 for each; two that chose one peer session would share its ephemeral key |
| C71 | histories of calls on one context; events counted by kind (`Attempts.v`) | the status only moves forward; each call makes at most its own callback calls (`Counts.v`, `Quiet.v`); a potential on the status bounds the sum |
| C72 | key derivations by label in histories of calls | per function, which labels it derives (`Labels.v`); the potential of C71; the encoding of infos is injective |
| C73 | the fields the configuration calls write (`Settings.v`) | every other call keeps them (framing of `Calls.v`); configuration calls depend on them alone; induction on the history |
| C74 | schedules of whole calls over many contexts, one shared callback history (`Interleave.v`) | simulation of every function between the whole and the own history; the callbacks of the single run are read off the final log |
| C75 | the compose calls and the OSCORE export with two buffer sizes from one state | the two runs in step: the size is compared with the finished message only |
| C76 | sequences of configuration calls compared per setting (`Order.v`) | each call is a verdict that depends on the initialisation only, and an update; updates of different settings commute; induction on the sequence |
| C77 | histories after two configurations with the same last accepted calls (`Order.v`) | a relation between contexts that differ behind the lengths in use, kept by every function |
| C78 | histories with and without a setting call after the first message | the relation of C77 with arbitrary methods and suites, apart from the entry in use; a witness for its change |
| C79 | the events of a call, counted by kind, against a table (`Work.v`; `Early.v` up to the question about credentials) | a budget logic: every primitive spends its kind, every path of a call stays within the budget; sessions by the ranks of C71 |
| C80 | the sizes in the requests for working buffers (`Burden.v`) | two event logics over the processing functions: one for the buffers of received data, one for all buffers until the question about credentials, with the suite and the hash length as invariant; a witness for short messages |

No property was left out of the model as inexpressible. Timing, power and other side channels,
and data races are outside the model: the library has no threads of its own and no mutable static
variables; the model is of whole calls, one at a time (C74 interleaves them over many contexts).

## 3. Findings

The code as it is violates these; each has a theorem with a concrete witness.

1. `edhoc_message_1_process` tests the decoder's result with `&&` instead of `||`: truncated or
   trailing bytes are accepted (C10). With a truncated `G_X` or `C_I` it reads past the message;
   with a length that is not in shortest form it reads through NULL (C13).
2. Processing messages 2, 3 and 4 subtracts lengths that can wrap; the library then asks its
   allocator for almost 2^64 bytes (C11, C13).
3. `gen_msg_3` writes one byte past a buffer one byte too short (C12, C75).
4. A key identifier longer than the configured maximum in a received ID_CRED overruns its array;
   so does an EAD value in messages 2/3, and three tokens with a limit of 1 (C13).
5. Compose message 1 leaks the imported ephemeral key handle when its allocation fails (C06).
6. A message-1 EAD item without a value is sent with an empty value (C29, C39); EAD without a
   callback, a fourth item and trailing bytes are ignored (C30); trailing bytes after messages 2,
   3 and 4 too (C42).
7. A responder accepts only the last suite it was configured with (C22).
8. The ephemeral private key stays in the context with signature methods (C34).
9. Neither message-4 call checks the role (C35). Any export blocks message 4 (C36).
10. An application secret can be exported from an aborted session (C37). A failing export
    overwrites the PRK (C24, C43). Secrets of 256 bytes or more cannot be exported (C46).
11. `edhoc_message_error_process` follows a pointer made of received bytes when the error code
    does not match the kind of information (C28).
12. Helper framing loses negative integer connection identifiers (C31). Size estimates are too
    small beyond 16-bit values (C33). Integer key identifiers outside -24..23 are truncated (C40).
13. Suites 0 and 4 accept the all-zero X25519 secret (C54), let verification keys serve as
    agreement keys (C52) and dereference a NULL handle on import; suites 2 and 24 read past an
    array for public-key buffers above two coordinates (C53).
14. The post-quantum suite destroys a free slot with success (C56), and keys of five purposes are
    interchangeable (C60).
15. No call looks at the result of `destroy_key`: success is reported with a key left behind (C61).
16. `edhoc_cbor_int_mem_req` answers 4 for integers that take 5 bytes, so a certificate hash with an
    algorithm outside 16 bits (COSE's private-use range) cannot be sent (C63).
17. Setting cipher suites during a handshake changes the suite of the session under way (C78).

Observed while modelling, and visible in the model: `comp_th_3` does not check the returned hash
length; the order in which x5chain and x5t are tried differs between the two decoders; a failing
`make_key_pair` of suites 2 and 24 leaves the private key in the caller's buffer; suites 0 and 4
leave the handle untouched when importing for `MAKE_KEY_PAIR`; encapsulation ignores its key.

## 4. Trusted base

* **Coq 8.16.1's kernel** (and its virtual machine, used by `vm_compute` in examples,
  refutations and a few finite computations).
* **`Print Assumptions`** stands under every property theorem and prints "Closed under the global
  context" for each: no axiom is used, neither the standard library's nor another's. Only Coq's
  standard library is imported. No functor, module type or `Axiom` of our own, and no `Variable` or `Hypothesis` outside a section.
* **The model is the code.** The correspondence between `/repo` and the model files is by reading;
  every definition cites its lines. Simplifications are stated in the comments. The general ones:
  - the caller's `ctx` and buffers are valid, distinct objects unless NULL is modelled explicitly;
  - `size_t` is 64 bits; a byte is 0..255 (a hypothesis where it matters);
  - stack memory is unbounded (stack builds of the memory backend only check VLA sizes);
  - logging has no effect.
* **Dependencies outside `/repo`**, whose behaviour is assumed in definitions:
  - zcbor 0.8.1 primitives (`Cbor.v`);
  - the PSA Crypto key store, derivation operation and AEAD contract, mbed TLS `pk`/`mpi`/`ecp`
    functions, compact25519, liboqs and XKCP interfaces (`Psa.v`). The primitives themselves are arbitrary
    functions; algebraic facts about them are hypotheses (`SuiteSpec.v`, `PqcSpec.v`).
* **Premises that are facts, not code**: see the notes in `MANIFEST.json`.

Not modelled: `backends/log`, Zephyr and CMake glue, `tests`, `sample`, CDDL sources (their generated
code is modelled), the bodies of the dependencies named above.

## 5. Testing the theorems

`tools/seed.py` applies an edit to a copy of the model, rebuilds everything that depends on it and
reports which theorems no longer prove. `seeded/LOG.jsonl` has one line per wrong program, with
the claim it should break, the theorems that failed and those tightened as a consequence.

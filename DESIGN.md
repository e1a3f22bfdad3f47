# Formal model of libnostr-c: design

Properties: `properties.jsonl`.  Claims and their status: `MANIFEST.json`.
Mutation log: `seeded/LOG.jsonl`.  Coq sources: `rocq/theories`.

## Conventions

* Bytes and characters are `N` (0..255 where it matters), C strings are
  `list N` without the terminating NUL; a NUL-free hypothesis is stated where
  the code depends on it.  Machine words are `N`/`Z` with an explicit
  `mod 2^k` wherever wrap-around can be reached.
* Fallible functions return a result type with three outcomes: a value, an
  API error code, or `Undef` (undefined behaviour: out-of-bounds access,
  use after free, double free, self-deadlock...).  Memory-safety theorems say
  `Undef` is unreachable; refutations exhibit a call that reaches it.
* Cryptography and libraries outside /repo (SHA-256, Schnorr, ECDH, AEAD,
  scrypt, PBKDF2, RNG, clock, base64 from OpenSSL, cJSON, libwebsockets) are
  parameters (Section variables that become explicit arguments of every
  theorem); each assumption about them is a visible hypothesis of the theorem.
* Files: `X.v` = model of a source file (definitions only, each with a
  `src/file.c:lines` comment), `XSpec.v` = the small independent
  specification, `XProofs.v` = lemmas, `XProps.v` = the property theorems with
  non-vacuity examples and `Print Assumptions`.
* A property that is false of the faithful model is kept in its full form in
  `properties.jsonl`; we prove `..._refuted` (with a computed witness) and the
  strongest true part as `..._partial`.

## Per-property plan

| id | model | proof |
|----|-------|-------|
| C01 | polymod, hrp expansion, create/verify checksum, convert_bits, charset, three encoder/decoder pairs over explicit buffers | linearity of polymod over xor, regrouping lemma by induction |
| C02 | same | linearity + exhaustive syndrome table (finite, by vm_compute) lifted to all strings |
| C03 | same | refuted for the public-key decoder; proved for the two others |
| C04 | same, with `uint8_t data[84]` as a checked buffer | refuted (length 90, and `note1kfrvu`); proved for the other lengths |
| C05 | same | inverse of regrouping, zero padding bits check |
| C06 | nip21.c build_tlv/parse_tlv, bech32 of TLV, URI | round-trip by induction on relays |
| C07 | parse_tlv with checked accesses | induction on remaining bytes |
| C08 | build_tlv | refuted (relay does not fit / longer than 255); partial when everything fits |
| C09 | calc_padded_len vs. NIP-44 formula | refuted; exact set of agreement characterised |
| C10 | pad/unpad | arithmetic bounds + list lemmas |
| C11 | encrypt/decrypt framing over AEAD/HMAC/base64 oracles | refuted above 61440; partial below |
| C12 | nip04_decrypt as a sequence of heap operations driven by library outcomes | refuted by an outcome sequence; partial |
| C13 | hex encode/decode | induction |
| C14 | key_from_hex with the `%2hhx` scanner | refuted (whitespace, sign); round trip proved |
| C15 | constant_time_memcmp | induction on or-accumulation |
| C16 | serialize_for_id (own serialiser, and the cJSON printer for the shapes used) | unambiguous-parse argument by induction |
| C17 | sign/verify over signature and hash oracles | case analysis; hypothesis: sign/verify correctness |
| C18 | tag arena with byte-addressed memory and a relocating allocator | invariant by induction over op list |
| C19 | serialiser writing into a bounded buffer | refuted; partial bound |
| C20 | to_json/from_json at the JSON-tree level | round trip |
| C21 | from_json on arbitrary JSON trees | refuted; partial |
| C22 | ncryptsec encode/decode | round trip with AEAD oracle hypothesis |
| C23 | all exits of decrypt, validate | case analysis |
| C24 | zero_bits, calculate_difficulty | induction over bytes, 2^k bounds |
| C25 | mine_event loop with clock/hash oracles | loop invariant |
| C26 | small-step semantics of N workers + joiner | invariant over all interleavings |
| C27 | mnemonic generate/validate with a SHA-256 oracle; word list as data | bit-regrouping round trip; sortedness/distinctness computed |
| C28 | derive_path with strtoul model | refuted for malformed; fold theorem |
| C29 | config state machine | invariant by induction over calls |
| C30 | lock as explicit state | refuted (callback re-entry); partial |
| C31 | check_permission state machine with 64-bit wrap | refuted; partial without overflow |
| C32 | session table step function | invariant by induction |
| C33 | creation rate limiter | invariant by induction |
| C34 | permission array allocation | refuted; partial with constant configuration |
| C35 | check_permission | case analysis |
| C36 | parse_delegation_conditions, check_conditions | refuted for repeated/malformed; partial for canonical strings |
| C37 | delegation hash input, tag round trip | injectivity of concatenation |
| C38 | connection URI parser | refuted (lenient hex); round trip for canonical URIs |
| C39 | nip47_json_escape with checked buffer | induction |
| C40 | snprintf chains with size_t subtraction | refuted; partial |
| C41 | nip05 parse/build_url | induction, exact characterisation |
| C42 | parse_response | refuted by document |
| C43 | nip10 add/get | list lemmas |
| C44 | nip17/nip59 unwrap over oracles | proved for NIP-17, refuted for NIP-59 |
| C45 | timestamp randomisation | proved for NIP-17, refuted for NIP-59 |
| C46 | nip18/nip25 create/parse | round trip |
| C47 | list operations | refinement to abstract list |
| C48 | private content writer/parser | round trip by induction, bounds |
| C49 | relay list | invariant + round trip |
| C50 | filter matching vs. declarative NIP-01 spec | refuted (256-value window, since/until 0); partial |
| C51 | filter clone/free over a heap of owned strings | refinement |
| C52 | compare_replaceable | order theory, permutation invariance of the winner |
| C53 | kind classification | case analysis over Z |
| C54 | expiration parse | refuted corner cases; partial |
| C55 | deletion | soundness proved; completeness refuted for long identifiers |
| C56 | receive loop | run(a ++ b) = run(a); run(rest ++ b) |
| C57 | receive buffer | invariant |
| C58 | subscription list | refinement to association list |
| C59 | connection lifecycle automaton with freed/live objects | refuted traces; partial discipline |
| C60 | zap_verify | soundness part proved; refuted binding of the embedded request |
| C61 | invoice amount | refuted; partial |
| C62 | decode_bech32 with hrp[32] | refuted; partial |
| C63 | Arena.v | refuted by a history whose pointer array starts at offset 10; exact condition for alignment by induction on the history |
| C64 | Nip49.v, HChaCha20 as 32-bit word arithmetic | equality with an independently written RFC definition |
| C65 | Nip13.v | refuted: verification reads the stored id; the part given a checked id |
| C66 | Nip13.v, small steps | refuted by an interleaving with two unsynchronised accesses; the other accesses by an invariant over all schedules |
| C67 | HdKey.v | case analysis on normalisation; refuted for texts needing NFKD |
| C68 | HdKey.v over HMAC and curve parameters | equality with the BIP-32 definition, induction over the path; refuted for invalid children |
| C69 | ConfigThreadsProps.v, small steps with the lock | invariant over all interleavings |
| C70 | Session.v | case analysis; refuted for null and destroyed sessions |
| C71 | SessionThreadsProps.v, small steps | invariant over interleavings; refuted use after destroy |
| C72 | Nip47.v | readers inverting the writers, induction over strings; refuted for unescaped members |
| C73 | Nip47.v over the crypto parameters | case analysis; refuted for notifications |
| C74 | Nip47.v | tokenizer induction; refuted for long lists |
| C75 | Nip47.v, heap | ownership through every path; refuted where fields repeat |
| C76 | Nip05.v | induction over members; refuted for odd members |
| C77 | Nip05.v | index bounds; refuted without terminator |
| C78 | Nip10.v | list lemmas; refuted for positional tags |
| C79 | GiftWrap.v | composition of round trips; refuted above length limits |
| C80 | GiftWrap.v | refuted: the inner id is not recomputed; what it is the id of, by unfolding the calls |
| C81 | Nip18.v | scanner invariant; refuted corner cases |
| C82 | Nip51.v | round trip by induction over entries |
| C83 | RelayProto.v | refuted by a newer version; independence of times from the exact statement of C55 |
| C84 | RelayProto.v | equivalence with a declarative validity; refuted corner |
| C85 | RelayProto.v | write footprint by case analysis |
| C86 | RelayProto.v | list lemmas |
| C87 | RelayProto.v | induction over characters, UTF-8 automaton equals the definition |
| C88 | RelayFilter.v | induction over members; refuted for unknown shapes |
| C89 | RelayFilter.v | equivalence with a declarative validity |
| C90 | RelayMem.v, heap | ownership invariant, induction over lists, any allocation may fail |
| C91 | RelayRecv.v; DeliveryProps.v | refuted for every check; behind an honest relay as a corollary of C140 |
| C92 | RelayRecv.v | refuted by a blocking prefix; the messages before it and blanks by induction over the stream |
| C93 | RelayRecv.v | bounds of the snprintf chain; refuted truncation |
| C94 | RelayLife.v | invariant over event traces; refuted |
| C95 | RelayRace.v | refuted by an interleaving |
| C96 | Zap.v | tag list equality; refuted |
| C97 | Zap.v | equivalence with bech32 validity; refuted |
| C98 | Zap.v, heap | ownership through every path; refuted |
| C99 | Zap.v | completeness by composition; refuted |
| C100 | RelayMsg.v | equivalence with NIP-01 message shapes; refuted corners |
| C101 | RelayMsg.v | the produced tree; refuted corners |
| C102 | RelayMsg.v | write footprint |
| C103 | RelayMsg.v, heap | ownership; refuted for failures |
| C104 | Nip46.v | round trip through the envelope; refuted corners |
| C105 | Nip46.v | composition with the client's reader; refuted corners |
| C106 | Nip46.v | composition with sign/verify |
| C107 | EventMem.v, heap | ownership invariant by induction over calls |
| C108 | EventMem.v, heap | induction over the document |
| C109 | EventOom.v, CjsonMem.v | tree building under failing allocation; refuted |
| C110 | EventOom.v | reduction to C17; refuted |
| C111 | EventOom.v | tree building; refuted |
| C112 | Nip11.v | tree building, lookup lemmas; refuted for huge numbers and failing allocation |
| C113 | Nip11.v | write footprint, heap ownership |
| C114 | Nip11Mem.v | refinement to a list with an ownership invariant; refuted for literals and aliases |
| C115 | Nip47Result.v | case analysis on the document; substring lemma without cJSON; refuted for negative, fractional and nested balances |
| C116 | Nip47Result.v | case analysis; refuted for missing members |
| C117 | Nip47Result.v | ownership through every path |
| C118 | Init.v | invariant over all call sequences; refuted for calls that test the pointer |
| C119 | Init.v | invariant over all interleavings of any number of threads; refuted by a two-thread execution |
| C120 | KeyPair.v | invariant over call sequences; exact validation via C15, export via C14; refuted for imports into a pair in use |
| C121 | KeyPair.v | induction on the length; histories accepted by an independent automaton |
| C122 | Wipe.v | a data-flow analysis proved sound for all programs by induction on executions; refuted by explicit executions |
| C123 | Wipe.v | as C122 |
| C124 | Features.v | the list as a fold over a table of switches; invariant over interleavings; refuted |
| C125 | Features.v | cases over the codes; bytes of the buffer; refuted |
| C126 | ListMem.v | ownership invariant of the heap (permutation of live blocks); induction over the tags, the text, the program |
| C127 | ListMem.v | from C126; refuted by three runs |
| C128 | RelayListMem.v | ownership invariant of the heap; simulation of the array of Nip65.v; induction over entries, tags, the program |
| C129 | RelayListMem.v | from C128; refuted by three runs |
| C130 | RelaySend.v, RelayRecv.v, RelayMsg.v over JsonSpec.v | heap triples for publishing; the text is put together in the RFC 8259 relation and read through the library contract, then C100; refuted by an id of 65 characters, by filters with a tail, and by a failing allocation |
| C131 | RelayMsg.v, RelayRecv.v over JsonSpec.v | mutual induction over the RFC 8259 relation (texts are balanced), then C56 for the cutting and induction over the messages against the heard relation |
| C132 | Event.v | induction over strings, tags and fields against a relational NIP-01 text, with uniqueness of that text; refuted by a control character |
| C133 | Nip51.v over JsonSpec.v | induction over the RFC 8259 relation for strings, tags and the array; refuted by a backspace, a quote in a fifth string and an over-long field |
| C134 | Nip47Cjson.v, Nip47.v over JsonSpec.v | case analysis on the request with induction over TLV records and invoices, composition of RFC 8259 texts; refuted by cut texts, a tail after the parameters, 2^53+1 msat, type 2^63 and unescaped arguments |
| C135 | Nip47Cjson.v over CjsonMem.v | induction over the array elements with an ownership invariant for all failure patterns; refuted by a dropped amount and a lost array |
| C136 | Config.v | one variable at a time against the table of CONFIG.md; refuted by the response timeout, an empty variable and a negative number |
| C137 | KeyPair.v, Ecdh.v | algebra of an abstract curve whose laws are hypotheses met by a curve of thirteen points; refuted in the build with libsecp256k1 for points of different parity |
| C138 | Nip04.v over KeyPair.v | induction over the text for the first marker, with contracts for AES and base64 met by instances, and by CBC mode over any block permutation (Cbc.v); refuted for texts above 4 GiB |
| C139 | Nip46Mem.v over EventMem.v, CjsonMem.v, EventOom.v | heap of owned blocks, composition of the ownership theorems of events and trees, refinement to Nip46.v when nothing fails; refuted for what success means short of memory |
| C140 | RelayRecv.v, RelaySend.v, RelayMsg.v, RelayFilter.v | composition of C130 and C131, induction over the published events |
| C141 | Nip26Mem.v | induction over the conditions and tags with an ownership invariant |
| C142 | GiftWrapMem.v | composition of the ownership contracts of events and JSON trees through the three layers |
| C143 | RelayMsg.v, Nip11.v, Config.v | from the exact characterisations of parser and document |
| C144 | RelayAccess.v | case analysis on buffer and length |
| C145 | RelayAccess.v | induction over ids, tags and lists |
| C146 | Nip47Mem.v | memory invariant through the loop over the query; refuted for a second lud16, which loses the first one, also when the address is then refused |
| C147 | Nip47Mem.v | induction over the words; refuted for what an error leaves behind: finished lists, a count without array, a dangling array |
| C148 | Nip21Mem.v | invariant over the TLV loop with one block per relay; simulation of the pure decoder; refuted for writing without a checksum block and for the error code |
| C149 | Nip18Mem.v | events as C107, induction over the references with an ordered sublist; refuted for quotes dropped with success and for the dangling pointer |
| C150 | Nip05Mem.v | induction over the strings of the array with one block each; simulation of the pure look-up; refuted for an empty list holding nothing |
| C151 | ZapMem.v | events as C107, one continuation per tag; refuted for the pointer left after an error |
| C152 | Nip10Mem.v | simulation of the pure search with one block; events as C107; refuted for is_reply without memory and for adding both tags or none |
| C153 | HdMem.v | simulation of HdKey.v with blocks; the answer or memory ran out, closed under sequencing |
| C154 | EventCut.v | exact text of every run of the buffered writer by induction on its writes; injectivity and C17; refuted by a forged event for every hash and signature scheme |
| C155 | ConfigHold.v, calls of several threads one after another | invariant over all histories of calls; refuted by two concrete histories |
| C156 | PrivateTripProps.v: sender, relay and recipient together (GiftWrap.v, RelaySend.v, RelayMsg.v, RelayFilter.v, RelayRecv.v) | composition of C79, C140 and the reading of texts of writable trees as C strings (mutual induction on texts) |
| C157 | SignTripProps.v: client, relay and signer together (Nip46.v, RelaySend.v, RelayMsg.v, RelayFilter.v, RelayRecv.v) | composition of C104, C105, C106 and C140 |
| C158 | WalletTripProps.v: client, relay and wallet together (Nip47.v, Nip47Cjson.v, RelaySend.v, RelayMsg.v, RelayFilter.v, RelayRecv.v) | composition of C134, C11 and C140 |
| C159 | ArenaShare.v, Arena.v | lookup and re-use proved by locating every value in the storage layout and showing that writes stay above it; refuted by an event whose storage moves while its own "d" value is being copied |
| C160 | Nip18.v, Nip10.v, RelaySend.v, RelayFilter.v, RelayRecv.v | composition: what the constructors put in the tags, signing, the delivery theorem for addressed events, and the parsers on any event with the same fields; refuted for keys in capitals |
| C161 | Nip65.v, Nip51.v, RelaySend.v, RelayFilter.v, RelayRecv.v, RelayProto.v | composition: list writer, signing, the delivery theorem for an author filter, the fold of the replacement rule picks the best by induction over the delivered events, list reader on any event with the same fields |
| C162 | GiftWrap.v, Nip44.v | relational: both runs are shown to compute the same outside from the draws, and lengths are propagated from the plaintext class through padding, base64 and JSON layout (contract even_layout, proved for a compact layout and for that of cJSON_Print) |
| C163 | Build.v | configuration as a function from options and machine to features; per-file tables of definitions and calls; the exact condition by a case analysis over the table entries, independent of the number of options; distinctness of definitions by a decision procedure over the (finite) table |
| C164 | Zap.v, Event.v, RelaySend.v, RelayFilter.v, RelayRecv.v | composition: request writer, signing, JSON round trip, acceptance of genuine receipts (C99), the delivery theorem; every step on any event with the same fields |
| C165 | RelayProto.v, RelayMsg.v, Event.v, StoreSpec.v | induction over the texts received, from the end; exactness of reading, of validation (C84) and of the two deletion tests (C55) |
| C166 | Nip13.v, Nip26.v, Event.v, RelaySend.v, RelayFilter.v, RelayRecv.v | composition: what mining leaves in the tags, signing keeps the id of an event with its key in place, delegation tags unaffected by the nonce tag, the delivery theorem; refuted for the other order by a hash that looks at the key |
| C167 | RelayProto.v, RelayMsg.v, Event.v, StoreSpec.v, ReplaceSpec.v, EventReadSpec.v | invariant of the store, by induction over the events accepted, with the order of versions (C52) and the equivalence of versions; events read from any C string are well formed, so the serialization is injective on them (C16); refuted for deletions applied only on arrival, by a request that comes first |
| C168 | Event.v, Nip26.v, RelayProto.v, RelayMsg.v, SignedSpec.v, EventReadSpec.v | injectivity of both signed texts (C16, C37), which differ in their first byte; every event read is well formed (C21); exactness of verification (C17, C84) |
| C169 | Nip47.v, Nip44.v, Event.v, SignedSpec.v | round trip of NIP-44 for the forger and the client; decryption implies a verified MAC (C11); composition with C168 for the checked case; refuted with a cipher whose MAC depends on both keys |
| C170 | Cbc.v, Nip04.v, CbcSpec.v | CBC mode and PKCS #7 padding modelled over any block permutation; induction over the blocks; algebra of exclusive or; C138_cbc: the mode keeps the contract that C138 assumes of the cipher |
| C171 | Nip44.v, GiftWrap.v, Event.v, WrittenSpec.v, SignedSpec.v | decryption implies a verified code (C11); the data determine nonce and ciphertext; padding is uniquely undone (C10); composition with C168 for the seal |
| C172 | Nip10.v, ThreadSpec.v | induction over the conversation, each answer written from what is read from its parent, over C43 and C78; refuted with a mention after a lone root tag and with a mention in the opening event |
| C173 | KeyPair.v, Hex.v, Bech32.v, Nip49.v, BackupSpec.v | induction over the chain of forms, over C01, C14, C22 and C120; the beginnings and lengths of the texts tell the forms apart; refuted with an nsec given to the reader of public keys (C03) |
| C174 | HdKey.v, HdWalkProps.v | tokens of a joined text are the tokens of its parts; induction over the tokens |
| C175 | BudgetThreads.v, BudgetThreadsProps.v, small steps | locking invariant over interleavings, then accounts over the effects of steps |
| C176 | Bip173Spec, Bip173Props | bech32 specified from BIP-173 (field arithmetic, polynomial division, base-32 numbers) and the checksum register, bit regrouping and texts proved equal to it by induction; references by reduction to the TLV reader |
| C177 | Nip49TextSpec.v, Nip49TextProps.v | the text of NIP-49 stated over the bech32 of Bip173Spec and HChaCha20 of Nip49Spec; writer and reader related to it through the uniqueness of the bech32 text; two refutations by toy ciphers |
| C178 | Nip44TextSpec, Nip44TextProps | the text of NIP-44 stated over named primitives and related to the model of writer and reader by case analysis of the payload; the lengths that agree characterised exactly; key agreement through the curve of EcdhSpec |
| C179 | ForeignDmSpec, ForeignDmProps | a private message stated as NIP-17, NIP-59 and NIP-44 have it; the exact delivery of C44 composed with the exact reading of C178 for both layers |
| C180 | ForeignDmSpec, SentDmProps | the same statement of a private message as C179, now of what send_dm returns; shapes of seal and wrap composed with the exact writing of C178 for both layers |

## Trusted base

* Coq 8.16.1 kernel, including its `vm_compute` (used for finite tables and for
  the concrete cases).
* Axioms: `Print Assumptions` at the end of each property file prints "Closed
  under the global context" for every theorem in `MANIFEST.json`.  No axiom, no
  parameter outside a section, no admitted proof.  (The seven
  `Coq.ssr.ssrunder` constants that a scan of loaded libraries lists come with
  the standard library's `ssreflect` plugin; no theorem depends on them.)
* The faithfulness of the hand translation from C to Gallina; every model
  definition cites the lines it models and says what is simplified.
* What the theorems assume of libraries is in their hypotheses, never global.

## Modelled / not modelled

What every model leaves out: the text of log and error messages, timing, signals,
`errno` beyond the checks of the code, padding bytes of structs, and everything a
compiler may do after undefined behaviour (that is `Undef`, and nothing is claimed
past it).

Cryptographic primitives, random numbers, the clock, base64 and JSON text
(parsing and printing of trees) are parameters.  Where a theorem needs something of
them (signing then verifying, encrypting then decrypting, printing then parsing) it
is a hypothesis, and a toy instance beside the theorem shows that it can be met.
For JSON, `JsonSpec` states RFC 8259 as a relation between trees and texts, and
`json_library` the contract asked of a reader and writer (integers of up to fifteen
digits, nesting of up to 1000); `JsonLib`/`JsonLibProofs` prove that a complete reader
with a compact and with a cJSON-style indented writer meet it.

Where allocation "succeeds" in a model's header, failing allocation is not covered
by that file; `EventMem`, `EventOom`, `RelayMem`, `RelayMsg`, `RelaySend`, `ListMem`,
`RelayListMem`, `Nip11`, `Nip11Mem`, `Nip46Mem`, `Nip26Mem`, `GiftWrapMem`, `Nip47Mem`, `Nip21Mem`, `Nip18Mem`, `Nip05Mem`, `ZapMem`, `Nip10Mem`, `HdMem`, `RelayAccess`,
`Nip47Result` and the heap parts of `Nip44`, `Nip47` and `Zap` let every
allocation fail.

Threads: `Nip13` (miner), `ConfigThreadsProps`, `SessionThreadsProps` and `RelayRace` are
interleavings of atomic steps (sequentially consistent); all else is sequential.

Build variants: the default build has all features on, with cJSON and noscrypt.
The own serializer, the builds without cJSON of `nip47.c`/`nip47_commands.c` and
of `event.c` are modelled where the theorems say "own".  The stubs compiled when a
feature is off (they return NOSTR_ERR_NOT_SUPPORTED) are not modelled.  libsecp256k1
variants of `key.c`, the mbedTLS variants of base64, and Windows code are not.

Functions whose lines no theory cites (a second occurrence under `#else` counts as
the same function):

| source | theories citing it | functions not modelled |
|---|---|---|
| `src/bech32.c` (12 of 12 functions) | Bech32, Nip21Mem | - |
| `src/config.c` (11 of 12 functions) | Config, ConfigHold, ConfigThreadsProps | `config_init_lock_callback` (23-29) |
| `src/event.c` (15 of 16 functions) | Arena, ArenaShare, Build, Event, EventCut, EventMem, EventOom, GiftWrap, Init, Nip13, Nip18, SignedSpec, Wipe | `event_sha256` (37-43) |
| `src/features.c` (7 of 7 functions) | Build, Features | - |
| `src/hd_key.c` (11 of 11 functions) | Build, HdKey, HdMem | - |
| `src/key.c` (26 of 26 functions) | Build, Ecdh, Features, GiftWrap, Hex, Init, KeyPair, Wipe | - |
| `src/nip05.c` (13 of 14 functions) | Nip05, Nip05Mem | `str_tolower` (16-20) |
| `src/nip10.c` (11 of 11 functions) | Nip10, Nip10Mem | - |
| `src/nip13.c` (10 of 10 functions) | Nip13, Nip13Arena | - |
| `src/nip17.c` (6 of 6 functions) | Build, GiftWrap, GiftWrapMem | - |
| `src/nip18.c` (8 of 8 functions) | Nip18, Nip18Mem | - |
| `src/nip21.c` (17 of 20 functions) | Nip21, Nip21Mem | `nostr_nprofile_free` (274-277), `nostr_nevent_free` (318-321), `nostr_naddr_free` (368-371) |
| `src/nip25.c` (7 of 7 functions) | Nip18, Nip18Mem | - |
| `src/nip26.c` (12 of 13 functions) | Build, Init, Nip26, Nip26Mem, SignedSpec, Wipe | `nip26_sha256` (33-40) |
| `src/nip44.c` (9 of 9 functions) | Base64, Cbc, Init, Nip04, Nip44, Nip46 | - |
| `src/nip46.c` (4 of 4 functions) | Build, Nip46, Nip46Mem | - |
| `src/nip47.c` (13 of 13 functions) | Build, Init, Nip47, Nip47Cjson, Nip47Mem, Nip47Result | - |
| `src/nip47_commands.c` (8 of 8 functions) | Nip47, Nip47Cjson, Nip47Result | - |
| `src/nip47_session.c` (9 of 10 functions) | BudgetThreads, Session, SessionThreadsProps | `generate_session_id` (49-61) |
| `src/nip49.c` (9 of 10 functions) | Nip49 | `derive_key_scrypt` (191-205) |
| `src/nip51.c` (34 of 35 functions) | Build, ListMem, Nip51 | `is_json_whitespace` (85-88) |
| `src/nip59.c` (6 of 6 functions) | Build, GiftWrap, GiftWrapMem | - |
| `src/nip65.c` (9 of 13 functions) | Nip65, RelayListMem | `cleanup_event` (14-18), `nostr_relay_list_count` (233-239), `nostr_relay_list_get_read_relays` (296-300), `nostr_relay_list_get_write_relays` (302-306) |
| `src/relay.c` (13 of 17 functions) | Build, RelayLife, RelayRace, RelayRecv, RelaySend | `init_queue_mutex` (113-124), `destroy_queue_mutex` (126-132), `lock_queue_mutex` (134-140), `unlock_queue_mutex` (142-148) |
| `src/relay_filter.c` (20 of 24 functions) | RelayAccess, RelayFilter, RelayMem | `nostr_filter_get_ids` (541-549), `nostr_filter_get_authors` (551-559), `nostr_filter_get_until` (577-581), `nostr_filter_get_limit` (583-587) |
| `src/relay_message.c` (15 of 15 functions) | RelayAccess, RelayMsg | - |
| `src/relay_nip11.c` (7 of 7 functions) | Nip11, Nip11Mem | - |
| `src/relay_protocol.c` (50 of 53 functions) | ArenaShare, Features, RelayAccess, RelayMem, RelayProto, ReplaceSpec | `nostr_event_get_id` (743-747), `nostr_event_get_pubkey` (749-753), `nostr_version` (1004-1007) |
| `src/utils.c` (4 of 5 functions) | Hex | `secure_wipe` (26-45) |
| `src/zap.c` (5 of 6 functions) | Zap, ZapMem | `is_valid_bech32_char` (13-17) |

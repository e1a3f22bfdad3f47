{"id": "C01", "title": "Bech32 key and id strings round-trip", "statement": "Encoding any 32-byte public key, private key or event id to bech32 and decoding the resulting string returns OK and exactly the original 32 bytes; the encoder output always fits the caller's buffer of the documented size and is never written past its end.", "quantifier": "every 32-byte value, each of the three encode/decode pairs (npub with any caller prefix short enough to stay within 90 characters, nsec, note)", "why_tests_cant": "2^256 payloads per function; a test can only try a handful, and the checksum/bit-regrouping interaction has to be right for each of them.", "anchors": ["src/bech32.c: nostr_key_to_bech32, nostr_key_from_bech32, nostr_privkey_to_bech32, nostr_privkey_from_bech32, nostr_event_id_to_bech32, nostr_event_id_from_bech32, bech32_convert_bits, bech32_create_checksum, bech32_verify_checksum"]}
{"id": "C02", "title": "Bech32 checksum detects transcription errors", "statement": "If a string is accepted by a bech32 decoder, then every string obtained from it by replacing one to four characters of the data part with other characters of the bech32 alphabet is rejected.", "quantifier": "all accepted strings, all choices of up to four positions and all replacement characters", "why_tests_cant": "There are about 10^11 corruptions of every single valid string and 2^256 valid strings.", "anchors": ["src/bech32.c: bech32_polymod, bech32_verify_checksum, nostr_privkey_from_bech32, nostr_event_id_from_bech32"]}
{"id": "C03", "title": "A bech32 string of one kind is never decoded as another", "statement": "The public-key decoder accepts only strings whose human-readable part is 'npub', the private-key decoder only 'nsec', the event-id decoder only 'note'; in particular a secret key string is never returned as a public key.", "quantifier": "all input strings", "why_tests_cant": "The set of inputs is infinite; a test with one wrong prefix says nothing about the decoders' behaviour on other prefixes.", "anchors": ["src/bech32.c: nostr_key_from_bech32, nostr_privkey_from_bech32, nostr_event_id_from_bech32"]}
{"id": "C04", "title": "Bech32 decoders never write outside their buffers", "statement": "For every NUL-terminated input string, of any length and content, the three bech32 decoders perform no out-of-bounds access and read no uninitialised memory: they either return an error or a 32-byte value.", "quantifier": "all NUL-terminated strings", "why_tests_cant": "Memory errors occur only at exact boundary lengths/prefix combinations and need not crash when they do occur.", "anchors": ["src/bech32.c: nostr_key_from_bech32, nostr_privkey_from_bech32, nostr_event_id_from_bech32"]}
{"id": "C05", "title": "Bech32 decoding is injective (one string per value)", "statement": "Two different strings accepted by the private-key (or event-id) decoder never decode to the same 32 bytes: the accepted string is exactly the one the encoder produces for those bytes.", "quantifier": "all pairs of accepted strings", "why_tests_cant": "Requires ruling out alternative padding bits, case variants and checksum variants for every value.", "anchors": ["src/bech32.c: nostr_privkey_from_bech32, nostr_event_id_from_bech32, bech32_convert_bits"]}
{"id": "C06", "title": "NIP-19/21 entities round-trip through their URI", "statement": "For every profile, event pointer, address or relay entity built from in-range fields (at most 16 relays, each accepted by the relay validator, identifier without NUL), encoding to a nostr: URI and parsing that URI gives back the same entity type and the same fields.", "quantifier": "all entities of the five TLV/bare URI kinds with in-range fields that fit the 4096-byte TLV buffer", "why_tests_cant": "The field space (lists of variable-length strings next to fixed binary fields) is unbounded and the failure modes are in interactions of lengths.", "anchors": ["src/nip21.c: build_tlv, parse_tlv, nostr_nprofile_encode, nostr_nprofile_decode, nostr_nevent_encode, nostr_nevent_decode, nostr_naddr_encode, nostr_naddr_decode, nostr_uri_encode, nostr_uri_parse"]}
{"id": "C07", "title": "The NIP-19 TLV reader is total and in-bounds", "statement": "On every byte sequence the TLV reader terminates, never reads past the sequence, never writes past the entity's fixed-size fields, skips unknown types, and yields at most 16 relays.", "quantifier": "all byte sequences of any length", "why_tests_cant": "Adversarial inputs with inconsistent length bytes are unbounded in number.", "anchors": ["src/nip21.c: parse_tlv"]}
{"id": "C08", "title": "Encoding an entity does not silently lose relays", "statement": "Whenever encoding an entity returns OK, every relay hint present in the entity is present in the encoded entity.", "quantifier": "all entities with up to 16 relays", "why_tests_cant": "Loss happens only for specific combinations of relay lengths that a test must guess.", "anchors": ["src/nip21.c: build_tlv"]}
{"id": "C09", "title": "NIP-44 padded length equals the published scheme", "statement": "For every plaintext length from 1 to 65535 the padded length used by encryption equals the one prescribed by NIP-44 (chunked next-power-of-two padding), so other implementations can decrypt the payload and the length leak is the published one.", "quantifier": "all plaintext lengths 1..65535", "why_tests_cant": "Test vectors sample a few lengths; agreement has to hold at each.", "anchors": ["src/nip44.c: calc_padded_len"]}
{"id": "C10", "title": "NIP-44 padding never truncates and unpads uniquely", "statement": "For every plaintext of an accepted length, padding yields a buffer at least as long as the plaintext plus the length prefix, within the maximum, and unpadding returns exactly the plaintext; unpadding rejects every buffer whose declared length is zero, exceeds the buffer, or is inconsistent with the buffer's size.", "quantifier": "all plaintexts up to the maximum size; all padded buffers", "why_tests_cant": "65535 lengths times all contents; plus all malformed buffers.", "anchors": ["src/nip44.c: calc_padded_len, pad_plaintext, unpad_plaintext"]}
{"id": "C11", "title": "NIP-44 encrypt then decrypt returns the plaintext", "statement": "Every plaintext the encryption function accepts is returned unchanged by the decryption function with the matching keys.", "quantifier": "all plaintexts of every accepted length, all keys and nonces", "why_tests_cant": "The failure window is a specific interval of lengths near the maximum that ordinary tests do not touch.", "anchors": ["src/nip44.c: nostr_nip44_encrypt, nostr_nip44_decrypt"]}
{"id": "C12", "title": "NIP-04 decryption frees each buffer once", "statement": "For every ciphertext string, valid or not, NIP-04 decryption releases every heap buffer it obtains exactly once and uses none after release.", "quantifier": "all ciphertext strings and all outcomes of the base64 and cipher libraries", "why_tests_cant": "Double frees appear only on particular malformed inputs and library outcomes.", "anchors": ["src/nip44.c: base64_decode, nostr_nip04_decrypt"]}
{"id": "C13", "title": "Hex encoding and decoding are inverse and strict", "statement": "Hex-encoding any byte string and decoding it returns the same bytes; decoding succeeds exactly on even-length strings of hex digits whose byte count fits the output, and writes exactly that many bytes.", "quantifier": "all byte strings, all character strings, all buffer sizes", "why_tests_cant": "Unbounded input space; strictness is a statement about every non-hex string.", "anchors": ["src/utils.c: nostr_hex_encode, nostr_hex_decode"]}
{"id": "C14", "title": "Key-from-hex accepts only hexadecimal keys", "statement": "Parsing a key from hex succeeds only if the string is exactly 64 hexadecimal digits, and the key then has those bytes; converting a key to hex and back is the identity.", "quantifier": "all strings; all keys", "why_tests_cant": "Leniency of the underlying scanner shows up only for odd characters in specific positions.", "anchors": ["src/key.c: nostr_key_from_hex, nostr_key_to_hex, nostr_privkey_from_hex, nostr_privkey_to_hex"]}
{"id": "C15", "title": "Constant-time comparison decides equality", "statement": "The constant-time comparison returns zero exactly when the two buffers are byte-wise equal, and the number of loop iterations depends only on the length.", "quantifier": "all pairs of equal-length buffers", "why_tests_cant": "2^(8n) pairs for each n.", "anchors": ["src/utils.c: nostr_constant_time_memcmp"]}
{"id": "C16", "title": "Event id serialization is injective", "statement": "Two events whose canonical id serializations are equal have the same public key, creation time, kind, tags (same grouping and order of values) and content; hence two different events only share an id through a hash collision.", "quantifier": "all pairs of events whose strings are NUL-free byte strings", "why_tests_cant": "A pair of colliding serializations would have to be guessed; escaping and delimiter ambiguities are exactly what fuzzing misses.", "anchors": ["src/event.c: serialize_for_id, escape_json_string, nostr_event_compute_id"]}
{"id": "C17", "title": "Signing produces an event that verifies", "statement": "After signing any event with any valid private key, verification returns OK, the event's public key is that of the private key, and the id is the hash of the event's canonical serialization; conversely verification returns OK only if the stored id is the hash of the stored fields and the signature is valid for that id under the stored public key.", "quantifier": "all events and private keys; all outcomes of the crypto library", "why_tests_cant": "Must hold for all events; in particular any later change of a signed field must be detected.", "anchors": ["src/event.c: nostr_event_sign, nostr_event_verify, nostr_event_compute_id"]}
{"id": "C18", "title": "Adding a tag never disturbs earlier tags", "statement": "After any sequence of tag additions (with any reallocation behaviour of the allocator) reading back the tags gives exactly the accepted additions in order, every access stays inside the tag storage, and a refused addition leaves the event's tags unchanged.", "quantifier": "all sequences of add-tag calls of any length with any values, all allocator relocation choices", "why_tests_cant": "Relocation of the backing memory is allocator dependent; pointer rebasing must be right for each tag and string in each state.", "anchors": ["src/event.c: nostr_event_add_tag, tag_arena_alloc"]}
{"id": "C19", "title": "Id serialization never overruns its buffer", "statement": "Computing the id of any event (in builds without the JSON library) writes only inside the buffer it allocated.", "quantifier": "all events, any number of tags and values", "why_tests_cant": "Needs event shapes with specific ratios of tags to values.", "anchors": ["src/event.c: serialize_for_id"]}
{"id": "C20", "title": "Event JSON import reads back what export wrote", "statement": "Exporting an event to JSON and importing it gives an event with the same id, public key, creation time (up to 2^53), kind, tags, content and signature.", "quantifier": "all events within configured limits", "why_tests_cant": "Unbounded events; string escaping and number conversion must be exact for each.", "anchors": ["src/event.c: nostr_event_to_json, nostr_event_from_json"]}
{"id": "C21", "title": "Event JSON import rejects malformed events", "statement": "Importing succeeds only for JSON objects that contain a 64-hex id, 64-hex public key, 128-hex signature and a kind between 0 and 65535, and the imported kind equals the one in the JSON.", "quantifier": "all JSON objects", "why_tests_cant": "The set of malformed objects is unbounded.", "anchors": ["src/event.c: nostr_event_from_json, hex_to_bytes"]}
{"id": "C22", "title": "NIP-49 encrypted keys round-trip", "statement": "Encrypting any private key under any password, work factor in range and key-security byte and decrypting the string with the same password returns the same key and security byte; the string always has the specified 91-byte payload layout.", "quantifier": "all keys, passwords, salts, nonces, log_n in range, security bytes", "why_tests_cant": "2^256 keys and unbounded passwords.", "anchors": ["src/nip49.c: nostr_ncryptsec_encrypt, nostr_ncryptsec_decrypt"]}
{"id": "C23", "title": "NIP-49 decryption fails closed", "statement": "Whenever decryption does not return OK the output private key is not the plaintext key: it is left untouched or zeroed; validation of a string succeeds exactly when decryption would get as far as the cryptographic step.", "quantifier": "all strings, passwords and library outcomes", "why_tests_cant": "Failure paths are numerous and include library failures tests cannot provoke.", "anchors": ["src/nip49.c: nostr_ncryptsec_decrypt, nostr_ncryptsec_validate"]}
{"id": "C24", "title": "Proof-of-work difficulty counts leading zero bits", "statement": "The reported difficulty of an id is exactly the number of leading zero bits of the 256-bit id read big-endian: it is at least d if and only if the id as an integer is below 2^(256-d).", "quantifier": "all 32-byte ids and all d", "why_tests_cant": "2^256 ids.", "anchors": ["src/nip13.c: nostr_nip13_calculate_difficulty"]}
{"id": "C25", "title": "Successful mining yields a valid proof of work", "statement": "If mining returns OK then the event carries a nonce tag committing to the target, its id is the hash of its current content, the id meets the target difficulty, and all other tags, content, kind and author are as before the call.", "quantifier": "all events, targets, iteration limits, clock behaviours and hash functions", "why_tests_cant": "The result depends on the hash oracle; a test sees one trajectory.", "anchors": ["src/nip13.c: nostr_nip13_mine_event, nostr_nip13_add_nonce_tag, find_nonce_tag_index"]}
{"id": "C26", "title": "Multi-threaded mining is correct under every schedule", "statement": "Whatever the interleaving of the worker threads, if the threaded miner returns OK the event delivered to the caller meets the target and its id matches its content; two workers never test the same nonce.", "quantifier": "all thread counts, all interleavings of the workers' atomic steps, all hash functions", "why_tests_cant": "Schedules are exponentially many and the bad ones are rare.", "anchors": ["src/nip13.c: nostr_nip13_mine_event_threaded, mining_thread"]}
{"id": "C27", "title": "Mnemonics encode and decode entropy without loss", "statement": "For every entropy of a supported size the generated phrase passes validation, has the standard number of words all from the list, and different entropies give different phrases; any phrase accepted by validation spells out an entropy whose checksum matches.", "quantifier": "all entropies of 16 and 32 bytes (the sizes the library supports); all phrases", "why_tests_cant": "2^128..2^256 entropies.", "anchors": ["src/hd_key.c: nostr_mnemonic_generate, nostr_mnemonic_validate, bip39_word_index"]}
{"id": "C28", "title": "HD path derivation follows the path and rejects malformed paths", "statement": "Deriving along a path string succeeds only for well-formed paths (m followed by /index or /index' components with index below 2^31), and the result is the left-to-right fold of single child derivations.", "quantifier": "all path strings, all parent keys, all child-derivation functions", "why_tests_cant": "The set of path strings is unbounded; numeric corner cases are easy to miss.", "anchors": ["src/hd_key.c: nostr_hd_key_derive_path, nostr_hd_key_derive"]}
{"id": "C29", "title": "The active configuration is always valid", "statement": "In every reachable state, the configuration returned to callers satisfies all documented range constraints; a rejected update leaves it unchanged; reads between updates return the last accepted configuration.", "quantifier": "all sequences of init-with-config, update, set-callback and get calls with arbitrary arguments and environment", "why_tests_cant": "State depends on the complete call history.", "anchors": ["src/config.c: nostr_init_with_config, nostr_config_update, nostr_config_validate, nostr_config_get_current, nostr_config_load_env"]}
{"id": "C30", "title": "Configuration changes do not deadlock", "statement": "Any sequence of configuration calls, including those made from inside the change callback, completes.", "quantifier": "all call sequences and callback behaviours", "why_tests_cant": "A deadlock needs a specific re-entrant call.", "anchors": ["src/config.c: nostr_config_update, nostr_config_set_callback, nostr_config_get_current"]}
{"id": "C31", "title": "Spending limits hold", "statement": "For every session with a nonzero spending limit on a method, the sum of the amounts authorised for that method within one accounting window never exceeds the limit.", "quantifier": "all histories of permission checks with arbitrary 64-bit amounts and times", "why_tests_cant": "Requires reasoning over complete histories, including arithmetic wrap-around at 2^64.", "anchors": ["src/nip47_session.c: nostr_nip47_session_check_permission, nostr_nip47_session_add_permission"]}
{"id": "C32", "title": "The session table stays within its limit and ids are distinct", "statement": "In every reachable state the number of active sessions is at most the configured maximum, active sessions have distinct ids (given distinct random draws), and operations on an id affect only the session with that id.", "quantifier": "all histories of create, destroy, extend, permission and cleanup operations", "why_tests_cant": "Depends on the full history of slot reuse.", "anchors": ["src/nip47_session.c: nostr_nip47_session_create, nostr_nip47_session_destroy, cleanup_expired_sessions, find_session"]}
{"id": "C33", "title": "Session creation is rate limited", "statement": "In any run, at most ten sessions are created inside any one rate-limiter window, and a refused creation has no effect on the table.", "quantifier": "all histories of creation attempts at arbitrary (non-decreasing) times", "why_tests_cant": "Unbounded histories.", "anchors": ["src/nip47_session.c: nostr_nip47_session_create"]}
{"id": "C34", "title": "Session permission storage is never overrun", "statement": "Adding permissions never writes outside the session's permission storage, whatever configuration changes happen between calls.", "quantifier": "all histories of add-permission calls and configuration updates", "why_tests_cant": "Needs a configuration increase between two particular calls.", "anchors": ["src/nip47_session.c: nostr_nip47_session_add_permission"]}
{"id": "C35", "title": "Expired or destroyed sessions authorise nothing", "statement": "A permission check succeeds only for a session that exists, is active and not expired at that time and holds a permission for the method.", "quantifier": "all histories and times", "why_tests_cant": "Depends on history and slot reuse.", "anchors": ["src/nip47_session.c: nostr_nip47_session_check_permission"]}
{"id": "C36", "title": "Delegation conditions mean what they say", "statement": "For every condition string, an event is accepted under the parsed conditions exactly when its kind is one of the listed kinds (if any are listed) and its time is inside every listed created_at bound.", "quantifier": "all condition strings, kinds and times", "why_tests_cant": "Unbounded strings; repeated and malformed conditions are the interesting ones.", "anchors": ["src/nip26.c: parse_delegation_conditions, nostr_delegation_check_conditions"]}
{"id": "C37", "title": "Delegation tokens bind delegatee and conditions", "statement": "The signed delegation string determines the delegatee key and the conditions string: a token valid for one (delegatee, conditions) pair is not valid for another except by hash collision; a created token attached to an event is read back unchanged and verifies.", "quantifier": "all delegators, delegatees and condition strings", "why_tests_cant": "Unbounded conditions strings.", "anchors": ["src/nip26.c: nostr_delegation_create, nostr_delegation_verify, nostr_event_add_delegation, nostr_event_get_delegation"]}
{"id": "C38", "title": "Wallet-connect URIs round-trip and reject junk", "statement": "Parsing a wallet-connect URI succeeds only if it has the scheme, a 64-hex-digit wallet key, a 64-hex-digit secret and at least one relay, and returns exactly those fields percent-decoded.", "quantifier": "all URI strings", "why_tests_cant": "Unbounded strings.", "anchors": ["src/nip47.c: nostr_nip47_parse_connection_uri, url_decode, hex_decode"]}
{"id": "C39", "title": "JSON escaping in request building is bounded and injective", "statement": "The string escaper never writes outside its destination, always terminates it, emits only complete escape sequences, and when the destination is large enough the original string can be recovered.", "quantifier": "all strings and destination sizes", "why_tests_cant": "All (string, size) pairs; truncation in the middle of an escape is a rare boundary.", "anchors": ["src/nip47.c: nip47_json_escape"]}
{"id": "C40", "title": "Wallet request builders stay inside their buffers", "statement": "In builds without the JSON library, building any wallet request with any argument strings writes only inside the request buffer.", "quantifier": "all argument strings of any length", "why_tests_cant": "Requires specific long arguments; silently corrupts the stack rather than failing.", "anchors": ["src/nip47.c: nostr_nip47_create_request_event", "src/nip47_commands.c"]}
{"id": "C41", "title": "NIP-05 identifiers are parsed exactly", "statement": "Parsing name@domain succeeds exactly for a 1..64 character local part of the allowed alphabet and a well-formed domain, outputs the lower-cased parts, and the lookup URL built from them is the specified one and fits its buffer.", "quantifier": "all strings", "why_tests_cant": "Unbounded strings.", "anchors": ["src/nip05.c: nostr_nip05_parse, nostr_nip05_build_url"]}
{"id": "C42", "title": "NIP-05 verification is sound", "statement": "Verification succeeds only if the well-known document's names object maps the given name to the expected public key.", "quantifier": "all documents, names and keys", "why_tests_cant": "Adversarial documents are unbounded; the failure needs a particular placement of the name.", "anchors": ["src/nip05.c: nostr_nip05_parse_response, nostr_nip05_verify"]}
{"id": "C43", "title": "Reply threading tags are found by the NIP-10 rules", "statement": "Adding reply tags for a root and a reply and reading them back gives the same root and reply ids and relay hints; on any event the reported root/reply are the marked ones if present, otherwise the first/last e tag, and no output buffer is overrun.", "quantifier": "all events with any tags, all ids and relay strings", "why_tests_cant": "Unbounded tag lists.", "anchors": ["src/nip10.c: nostr_event_add_reply_tags, nostr_event_get_root_id, nostr_event_get_reply_id"]}
{"id": "C44", "title": "Private message unwrapping authenticates the sender", "statement": "Unwrapping a gift-wrapped direct message returns OK only if the wrap and seal kinds are right, the seal verifies, and the inner message's author is the seal's signer.", "quantifier": "all wraps and all outcomes of the crypto oracle", "why_tests_cant": "Forged inner events are unbounded in number.", "anchors": ["src/nip17.c: nostr_nip17_unwrap_dm", "src/nip59.c: nostr_nip59_unwrap_event"]}
{"id": "C45", "title": "Gift wrap timestamps hide the sending time", "statement": "Every produced seal and wrap has a timestamp randomised into the two days before the sending time, or production fails; it is never silently the exact time.", "quantifier": "all random outcomes including generator failure, all clock values", "why_tests_cant": "Generator failure cannot be provoked by a test.", "anchors": ["src/nip17.c: random_timestamp_past_two_days", "src/nip59.c: randomize_timestamp"]}
{"id": "C46", "title": "Reposts and reactions are parsed back", "statement": "Creating a repost or reaction for a target event and parsing it returns the target id, author, relay and kind; the kind 6/16 choice and k tag follow the specification; parsers never write outside their fixed fields.", "quantifier": "all target events, relay strings and contents", "why_tests_cant": "Unbounded strings and all 65536 kinds.", "anchors": ["src/nip18.c: nostr_repost_create, nostr_repost_parse", "src/nip25.c: nostr_reaction_create, nostr_reaction_parse"]}
{"id": "C47", "title": "List editing behaves like a list", "statement": "Under any sequence of add and remove operations a NIP-51 list contains exactly the items added and not removed, in insertion order, within the documented limit.", "quantifier": "all sequences of list operations", "why_tests_cant": "Unbounded histories.", "anchors": ["src/nip51.c: add_item, nostr_list_remove, nostr_list_add_pubkey"]}
{"id": "C48", "title": "Private list content round-trips", "statement": "Serialising any private items into the encrypted content and parsing it back gives the same items; the serialiser never overruns its computed buffer and the parser is total and in-bounds on every string.", "quantifier": "all lists of private items; all strings for the parser", "why_tests_cant": "Unbounded strings with escapes; buffer-size arithmetic must hold for every content.", "anchors": ["src/nip51.c: build_private_content, parse_private_content, json_escape_to, encode_utf8"]}
{"id": "C49", "title": "Relay lists have distinct valid entries and round-trip", "statement": "Under any operations a NIP-65 relay list has at most 256 entries with pairwise distinct valid URLs; converting to an event and back gives the same list; read/write queries return exactly the entries with that capability, in order.", "quantifier": "all histories of operations; all events", "why_tests_cant": "Unbounded histories and events.", "anchors": ["src/nip65.c: nostr_relay_list_add, nostr_relay_list_to_event, nostr_relay_list_from_event, nostr_relay_list_get_read_relays"]}
{"id": "C50", "title": "Filter matching follows NIP-01", "statement": "A filter matches an event exactly when every present field matches (ids/authors by prefix, kinds by membership, since/until inclusively, tag fields by some event tag value); a filter list matches when some filter does.", "quantifier": "all filters and events, any number of tags", "why_tests_cant": "Unbounded tag lists; a limit on examined tag values is only seen with hundreds of tags.", "anchors": ["src/relay_filter.c: nostr_filter_matches, nostr_filters_match, hex_starts_with"]}
{"id": "C51", "title": "Cloned filters are equivalent and independent", "statement": "A cloned filter matches exactly the same events as the original and remains so after the original is freed.", "quantifier": "all filters and events", "why_tests_cant": "Unbounded filters.", "anchors": ["src/relay_filter.c: nostr_filter_clone, nostr_filter_free"]}
{"id": "C52", "title": "Replaceable-event precedence is a total order", "statement": "The comparison used to decide which version of a replaceable event wins is antisymmetric, transitive and total, is zero only for equal time and id, and therefore the surviving version does not depend on arrival order.", "quantifier": "all sets of events and all arrival orders", "why_tests_cant": "Factorially many arrival orders.", "anchors": ["src/relay_protocol.c: nostr_event_compare_replaceable"]}
{"id": "C53", "title": "Kind classes partition the kinds", "statement": "Every kind belongs to exactly one of regular, replaceable, ephemeral, addressable (with the documented exceptions), agreeing with NIP-01 ranges.", "quantifier": "all 32-bit kind values", "why_tests_cant": "2^32 values.", "anchors": ["src/relay_protocol.c: nostr_kind_get_type, nostr_kind_is_replaceable, nostr_kind_is_ephemeral, nostr_kind_is_addressable"]}
{"id": "C54", "title": "Expiry decisions follow the expiration tag", "statement": "An event is reported expired exactly when it carries an expiration tag whose decimal value is before the current time.", "quantifier": "all events, tag values and times", "why_tests_cant": "Unbounded tag strings.", "anchors": ["src/relay_protocol.c: nostr_event_get_expiration, nostr_event_is_expired"]}
{"id": "C55", "title": "Deletion requests authorise only the author's own events", "statement": "A deletion is authorised for a target only if the target has the same author as the request and the request lists the target's id or address; every listed, well-formed reference is honoured.", "quantifier": "all deletion events and targets", "why_tests_cant": "Unbounded tag lists and identifiers.", "anchors": ["src/relay_protocol.c: nostr_deletion_parse, nostr_deletion_authorized, nostr_deletion_authorized_address"]}
{"id": "C56", "title": "Relay message stream is independent of network chunking", "statement": "For every stream of relay messages and every way the network splits it into chunks, the client dispatches the same messages in the same order.", "quantifier": "all byte streams (without NUL, below the size cap) and all splittings", "why_tests_cant": "Exponentially many splittings of each stream.", "anchors": ["src/relay.c: callback_nostr_relay, find_json_array_end"]}
{"id": "C57", "title": "Receive buffering is in-bounds and bounded", "statement": "For every sequence of incoming chunks of any sizes, all buffer accesses are in bounds and the buffer never grows beyond its cap.", "quantifier": "all sequences of chunk sizes and contents", "why_tests_cant": "Unbounded sequences; off-by-one only at growth boundaries.", "anchors": ["src/relay.c: callback_nostr_relay"]}
{"id": "C58", "title": "Subscriptions are dispatched to the right handler", "statement": "Under any sequence of subscribe, unsubscribe and relay CLOSED messages, an incoming event for a subscription id is delivered to the most recent live subscription with that id and to no other, and unsubscribing stops delivery.", "quantifier": "all histories of subscription operations", "why_tests_cant": "Unbounded histories.", "anchors": ["src/relay.c: nostr_subscribe, nostr_relay_unsubscribe, callback_nostr_relay"]}
{"id": "C59", "title": "Relay connection objects are used safely", "statement": "Any sequence of create, connect (succeeding or failing), remote close, disconnect and destroy calls uses no memory after release and releases nothing twice.", "quantifier": "all call sequences and all connect outcomes", "why_tests_cant": "Failure of the socket library at specific points is hard to provoke, and use-after-free may not crash.", "anchors": ["src/relay.c: nostr_relay_connect, nostr_relay_disconnect, nostr_relay_destroy"]}
{"id": "C60", "title": "Zap verification binds receipt, request and amount", "statement": "Zap verification returns OK only if the receipt is a correctly signed zap receipt by the expected server key, for this zap request, with the amount requested.", "quantifier": "all receipts, requests and server keys", "why_tests_cant": "Forged receipts are unbounded in number.", "anchors": ["src/zap.c: nostr_zap_verify, nostr_zap_parse_receipt"]}
{"id": "C61", "title": "Invoice amounts are read correctly", "statement": "The amount extracted from a Lightning invoice in a zap receipt equals the amount encoded in the invoice's human-readable part, in millisatoshi, for every amount and multiplier.", "quantifier": "all invoices with amount/multiplier combinations", "why_tests_cant": "Unbounded amounts; ambiguity between digits and separator occurs only for some multiplier-less invoices.", "anchors": ["src/zap.c: nostr_zap_parse_receipt"]}
{"id": "C62", "title": "LNURL validation is memory-safe", "statement": "Validating any string as an LNURL performs no out-of-bounds write.", "quantifier": "all strings", "why_tests_cant": "Needs a particular position of the last separator.", "anchors": ["src/zap.c: nostr_zap_validate_lnurl, decode_bech32"]}
{"id": "C63", "title": "Tag pointer arrays are aligned", "statement": "The arrays of string pointers kept in an event's tag storage are always suitably aligned for pointer access, whatever tags were added before.", "quantifier": "all sequences of add-tag calls and allocator behaviours", "why_tests_cant": "Misaligned access is silent on x86; sanitizers only see the executed sequences.", "anchors": ["src/event.c: nostr_event_add_tag, tag_arena_alloc"]}
{"id": "C64", "title": "XChaCha20 subkey derivation follows the specification", "statement": "The symmetric subkey and nonce used to encrypt a private key are those of the XChaCha20-Poly1305 construction: HChaCha20 of the key and the first 16 nonce bytes, and four zero bytes followed by the last 8 nonce bytes, for every key and nonce.", "quantifier": "all 32-byte keys and 24-byte nonces", "why_tests_cant": "A wrong index or rotation in a round can agree on particular vectors; 2^448 inputs.", "anchors": ["src/nip49.c: hchacha20, xchacha20_poly1305_encrypt, load32_le, store32_le"]}
{"id": "C65", "title": "Proof-of-work verification is bound to the content", "statement": "If verification of an event's proof of work succeeds for a minimum difficulty then the hash of the event's content has at least that difficulty and at least the difficulty committed in its nonce tag.", "quantifier": "all events (including forged ids) and minimum difficulties", "why_tests_cant": "An attacker chooses the id field; tests use honestly built events.", "anchors": ["src/nip13.c: nostr_nip13_verify_pow"]}
{"id": "C66", "title": "Threaded mining is free of data races", "statement": "No two threads of the threaded miner can access the shared result flag at the same time, one of them writing, without both holding the mutex.", "quantifier": "all schedules", "why_tests_cant": "Race detectors only see the schedules that happen.", "anchors": ["src/nip13.c: mining_thread, nostr_nip13_mine_event_threaded"]}
{"id": "C67", "title": "The same words give the same keys", "statement": "Two phrases that validation accepts and that consist of the same words in the same order yield the same seed, and hence the same keys.", "quantifier": "all accepted phrases, all passphrases", "why_tests_cant": "The phrase is hashed as text; spacing variants of a phrase are unbounded.", "anchors": ["src/hd_key.c: nostr_mnemonic_to_seed, nostr_mnemonic_validate"]}
{"id": "C68", "title": "HD keys are those of BIP-32", "statement": "Master and child keys, along any well-formed path, are the ones BIP-32 defines (HMAC-SHA512 data layout, hardened and normal indices, scalar addition modulo the group order), invalid children are refused, and the key of a phrase is the one at 44'/1237'/account'/0/0.", "quantifier": "all parent keys, indices, paths, seeds and accounts; all HMAC and point functions", "why_tests_cant": "Keys, indices and paths cannot be enumerated; invalid children have negligible probability.", "anchors": ["src/hd_key.c: nostr_hd_key_from_seed, nostr_hd_key_derive, nostr_hd_key_derive_path, nostr_mnemonic_to_keypair"]}
{"id": "C69", "title": "Concurrent configuration reads are consistent", "statement": "While any number of threads read and update the configuration, every read returns one complete configuration, the one in force when the read returns, reads never go back in time, and no schedule gets stuck.", "quantifier": "all numbers of threads, all schedules, all accepted configurations", "why_tests_cant": "Interleavings of field copies are unbounded and timing dependent.", "anchors": ["src/config.c: nostr_config_get_current, nostr_config_update, lock_config"]}
{"id": "C70", "title": "Session calls have defined behaviour", "statement": "No session call reads or writes outside valid memory or dereferences a null pointer, whatever ids, allocation failures and earlier calls.", "quantifier": "all histories of session calls, all id strings, all allocation failures", "why_tests_cant": "Failure injection and short ids are not covered by tests; the read past a short id is silent.", "anchors": ["src/nip47_session.c: find_session, nostr_nip47_session_init, nostr_nip47_session_add_permission"]}
{"id": "C71", "title": "Concurrent session calls act on live sessions", "statement": "While any number of threads use sessions, no schedule deadlocks, two calls never work on the same session at once, a call that reports success acted on a live session with that id, and connections are only handed out or released for the session they were created with.", "quantifier": "all numbers of threads and sessions, all schedules", "why_tests_cant": "The window between lookup and locking is tiny; schedules cannot be enumerated.", "anchors": ["src/nip47_session.c: nostr_nip47_session_destroy, nostr_nip47_session_get_connection, cleanup_expired_sessions"]}
{"id": "C72", "title": "Wallet requests carry their arguments", "statement": "In builds without the JSON library, a wallet request that is built without an error says exactly what was asked for: requests built from different arguments have different texts, and the argument strings can be read back from the text.", "quantifier": "all argument strings and amounts", "why_tests_cant": "Requests are checked on a few literal arguments; the strings that collide are those with quotes in them or longer than an internal buffer.", "anchors": ["src/nip47.c: nostr_nip47_create_pay_invoice_params, nostr_nip47_create_make_invoice_params, nostr_nip47_create_request_event", "src/nip47_commands.c: nostr_nip47_create_lookup_invoice_params"]}
{"id": "C73", "title": "Wallet replies are read with the wallet's key", "statement": "A reply or notification that the wallet encrypted for the client is decrypted with the key shared between the two.", "quantifier": "all reply events, all keys, all encryption functions", "why_tests_cant": "A test that encrypts and decrypts with the same helper does not show which key pair is combined.", "anchors": ["src/nip47.c: nostr_nip47_parse_response_event, nostr_nip47_parse_notification_event"]}
{"id": "C74", "title": "Wallet info events list what they say", "statement": "The capability, notification and encryption lists of an info event are the words of its content and tags, for every event, without undefined behaviour.", "quantifier": "all info events", "why_tests_cant": "Spacing variants and missing tags are unbounded.", "anchors": ["src/nip47.c: nostr_nip47_parse_info_event"]}
{"id": "C75", "title": "Parsing a wallet URI leaves nothing behind", "statement": "Every block allocated while parsing a wallet-connect URI is either reachable from the returned connection or released.", "quantifier": "all URI strings", "why_tests_cant": "Leaks are silent, and need repeated parameters.", "anchors": ["src/nip47.c: nostr_nip47_parse_connection_uri"]}
{"id": "C76", "title": "NIP-05 relays are the listed ones", "statement": "The relays returned by a NIP-05 lookup are exactly the ws:// and wss:// URLs that the document's relays object lists for the key, in order.", "quantifier": "all documents with up to 100 relays, all keys", "why_tests_cant": "Documents are unbounded; the failure needs a bracket inside a URL.", "anchors": ["src/nip05.c: nostr_nip05_parse_response, is_valid_relay_url"]}
{"id": "C77", "title": "NIP-05 verification reads only the response", "statement": "Verification never reads outside the buffer that the HTTP callback returned together with its length.", "quantifier": "all identifiers, callbacks and responses", "why_tests_cant": "Test callbacks return C strings; a missing terminator is silent.", "anchors": ["src/nip05.c: nostr_nip05_verify, nostr_nip05_parse_response"]}
{"id": "C78", "title": "Mentioning an event does not make a reply", "statement": "An event whose e tags are all marked as mentions is not reported as a reply, and nostr_event_is_reply says yes exactly when a parent tag exists and names an event.", "quantifier": "all events with any tags", "why_tests_cant": "Unbounded tag lists; the existing tests only use root/reply markers.", "anchors": ["src/nip10.c: nostr_event_is_reply"]}
{"id": "C79", "title": "A wrapped message reaches its recipient", "statement": "Wrapping an event or sending a direct message and unwrapping the result with the recipient's key yields that event or message (text, kind, tags, time) and the sender's key, whatever the message.", "quantifier": "all events, messages, keys, random draws, configurations and all crypto/JSON libraries meeting their contracts", "why_tests_cant": "Composes serialisation, encryption, signing and parsing over unbounded messages; size limits of the layers interact.", "anchors": ["src/nip17.c: nostr_nip17_send_dm, nostr_nip17_unwrap_dm", "src/nip59.c: nostr_nip59_wrap_event, nostr_nip59_unwrap_event"]}
{"id": "C80", "title": "A delivered message carries the id of its contents", "statement": "The message inside a direct message has as its id the hash of its own fields, so that replies can refer to it.", "quantifier": "all messages, subjects and replies", "why_tests_cant": "Tests only check delivery; the id is wrong for every message.", "anchors": ["src/nip17.c: nostr_nip17_send_dm, nostr_nip17_create_rumor"]}
{"id": "C81", "title": "Quote tags list the references in the text", "statement": "After a successful call the event has gained one q tag for each readable note1/nevent1/naddr1 reference in its content, in order, naming the referenced event or address, its relay and author; the call has defined behaviour for every text.", "quantifier": "all contents, tag limits", "why_tests_cant": "Texts are unbounded; references may overlap with one another or be cut short.", "anchors": ["src/nip18.c: nostr_quote_tags_from_content, find_nostr_uri"]}
{"id": "C82", "title": "A published list is read back", "statement": "Turning a list into an event and reading the event back gives the list's identity, description and items: the public items to everyone, the private items only to the owner.", "quantifier": "all lists of at most 4096 items, all kinds, all keys", "why_tests_cant": "Lists and strings are unbounded and private items pass through escaping, padding, encryption and parsing.", "anchors": ["src/nip51.c: nostr_list_to_event, nostr_list_from_event"]}
{"id": "C83", "title": "Deleting an address spares newer versions", "statement": "A deletion request that names an address never authorises the removal of a version of that address created after the request.", "quantifier": "all events, requests, addresses and times", "why_tests_cant": "The order of arrival of requests and newer versions is arbitrary; tests check only who may delete.", "anchors": ["src/relay_protocol.c: nostr_deletion_authorized_address"]}
{"id": "C84", "title": "Full event validation accepts exactly the valid events", "statement": "Full validation succeeds exactly when the event is not further in the future than allowed, is not expired, its id is the hash of its fields and its signature verifies; the first failing check is the one reported.", "quantifier": "all events, current times and allowed leads; all hash, signature and serialisation functions", "why_tests_cant": "Times and events are unbounded, and the comparison with the current time can overflow.", "anchors": ["src/relay_protocol.c: nostr_event_validate_full"]}
{"id": "C85", "title": "Serialising into a buffer stays inside it", "statement": "Serialising an event into a caller's buffer writes only inside that buffer, ends with a NUL on success, and a buffer that is too small is reported.", "quantifier": "all events and all buffer sizes", "why_tests_cant": "Boundary sizes depend on the event's length.", "anchors": ["src/relay_protocol.c: nostr_event_serialize"]}
{"id": "C86", "title": "Tag access returns the tags of the event", "statement": "Iterating over an event's tags visits every tag once, in order; lookups return the first tag of that name; the binary accessors return exactly the well-formed ids or keys of the tags; a tag is indexable exactly when its name is one letter.", "quantifier": "all events and tag names", "why_tests_cant": "Tag lists and malformed values are unbounded.", "anchors": ["src/relay_protocol.c: nostr_tag_iterator_next, nostr_event_get_tag_value, nostr_event_get_e_tags_binary, nostr_tag_is_indexable"]}
{"id": "C87", "title": "Relay hex helpers and text checks are exact", "statement": "Hex decoding accepts exactly hex text of the announced length and inverts encoding, which is lower-case; the checks of ids, prefixes, subscription ids and addresses accept exactly the texts NIP-01 allows.", "quantifier": "all strings and byte strings", "why_tests_cant": "Strings are unbounded.", "anchors": ["src/relay_protocol.c: nostr_hex_to_bytes, nostr_bytes_to_hex, nostr_validate_hex64, nostr_validate_subscription_id"]}
{"id": "C88", "title": "A filter means what its JSON says", "statement": "A filter object that is accepted selects exactly the events its JSON members ask for.", "quantifier": "all filter objects and events", "why_tests_cant": "JSON objects are unbounded; the failures need odd member types or letter case.", "anchors": ["src/relay_filter.c: nostr_filter_parse, nostr_filter_matches"]}
{"id": "C89", "title": "Filter validation is exact", "statement": "Validation accepts exactly the filters whose ids and authors are prefixes of lower-case hex ids, whose e and p values are full ids and whose search text is within the limit; an accepted prefix can match some event; the accessors return the parsed values.", "quantifier": "all filters", "why_tests_cant": "Filters are unbounded.", "anchors": ["src/relay_filter.c: nostr_filter_validate, nostr_filter_get_tag_values"]}
{"id": "C90", "title": "Parsing relay requests leaves nothing behind", "statement": "Parsing a filter or a deletion request stays inside the arrays it allocates, and every block allocated on the way belongs to the result or, after an error, has been released; releasing a filter returns all its blocks exactly once.", "quantifier": "all JSON objects and events, all patterns of allocation failure", "why_tests_cant": "Failure injection over unbounded inputs; leaks and double frees on error paths are silent.", "anchors": ["src/relay_filter.c: nostr_filter_parse, nostr_filter_free", "src/relay_protocol.c: nostr_deletion_parse, nostr_deletion_free"]}
{"id": "C91", "title": "Delivered events are authentic", "statement": "An event handed to a subscription's handler has a correct id and signature and matches the filters of the subscription.", "quantifier": "all messages a relay may send", "why_tests_cant": "A relay is untrusted; forged events are unbounded in number.", "anchors": ["src/relay.c: callback_nostr_relay"]}
{"id": "C92", "title": "An unreadable message does not silence the connection", "statement": "Whatever text arrives between messages, the complete messages that follow it are still dispatched.", "quantifier": "all streams with unreadable parts", "why_tests_cant": "Arbitrary garbage in arbitrary positions and chunkings.", "anchors": ["src/relay.c: callback_nostr_relay, find_json_array_end"]}
{"id": "C93", "title": "Requests sent to the relay are well formed", "statement": "Subscribing and unsubscribing send exactly one well-formed REQ or CLOSE array with the caller's id and filters, or nothing.", "quantifier": "all ids, filter texts and allocation outcomes", "why_tests_cant": "Ids and filter texts are unbounded; injection needs particular texts.", "anchors": ["src/relay.c: nostr_subscribe, nostr_relay_unsubscribe"]}
{"id": "C94", "title": "The reported connection state is accurate", "statement": "A relay that reports CONNECTED has a live socket that is being served, and one that reports CONNECTING has an attempt in progress.", "quantifier": "all sequences of calls and socket events", "why_tests_cant": "Depends on timing of remote closes.", "anchors": ["src/relay.c: callback_nostr_relay, nostr_relay_connect"]}
{"id": "C95", "title": "Subscriptions may change while messages arrive", "statement": "Subscribing and unsubscribing from the application thread while the service thread dispatches messages uses no released memory.", "quantifier": "all interleavings of calls and incoming messages", "why_tests_cant": "Interleavings are not reproducible in tests.", "anchors": ["src/relay.c: nostr_subscribe, nostr_relay_unsubscribe, callback_nostr_relay"]}
{"id": "C96", "title": "A zap request says what was asked for", "statement": "A zap request built for a recipient, amount, LNURL, message and relays carries exactly these: its tags are the relays, the amount, the LNURL if given and the recipient, and the amount read back during verification is the one asked for.", "quantifier": "all amounts, recipients, LNURLs, messages and relay lists", "why_tests_cant": "Relay lists of every length and 64-bit amounts.", "anchors": ["src/zap.c: nostr_zap_create_request"]}
{"id": "C97", "title": "LNURL validation accepts exactly LNURLs", "statement": "LNURL validation returns OK for the LNURL of every address and for no text with a wrong checksum or with characters outside the alphabet.", "quantifier": "all texts", "why_tests_cant": "Infinitely many texts and lengths.", "anchors": ["src/zap.c: nostr_zap_validate_lnurl, decode_bech32"]}
{"id": "C98", "title": "Reading a zap receipt loses no memory", "statement": "Parsing or verifying a zap receipt performs no undefined behaviour for documented buffer sizes, and every block it allocates is released or returned to the caller, for every receipt and whichever allocation fails.", "quantifier": "all receipts, callers' choices of outputs and allocation failures", "why_tests_cant": "Receipts come from others and may repeat or omit tags; allocation failures are not exercised.", "anchors": ["src/zap.c: nostr_zap_parse_receipt, nostr_zap_verify"]}
{"id": "C99", "title": "Genuine zap receipts are accepted", "statement": "A correctly signed receipt by the server, which embeds the request and an invoice over the requested amount, passes zap verification.", "quantifier": "all requests, amounts and invoices", "why_tests_cant": "Amounts and invoice forms are unbounded.", "anchors": ["src/zap.c: nostr_zap_verify, nostr_zap_parse_receipt"]}
{"id": "C100", "title": "A relay reads client messages as NIP-01 has them", "statement": "nostr_client_msg_parse accepts exactly the arrays EVENT, REQ, CLOSE, AUTH and COUNT with a valid subscription id and at most ten valid filters, reports in type, event, subscription id and filters exactly what the text says, and names what is wrong otherwise; an accepted request selects exactly the events its JSON filters ask for", "quantifier": "for all message texts whose JSON parses to any tree, all filters, all events", "why_tests_cant": "Messages come from the network: any tree may arrive, and selection is over all events; tests only see the few well-formed messages somebody wrote down.", "anchors": ["src/relay_message.c: nostr_client_msg_parse, parse_filters, nostr_client_msg_get_filters"]}
{"id": "C101", "title": "A relay says what it was asked to say", "statement": "A message built with nostr_relay_msg_event, _ok, _eose, _closed, _notice, _auth or _count and serialized is the NIP-01 array with exactly the given id, flag, text or number, and an event so sent reaches the call-back of the subscription it names", "quantifier": "for all ids, texts, counts, events and subscription lists", "why_tests_cant": "Fixed-size fields and doubles fail only for long texts and large numbers, of which there are unboundedly many.", "anchors": ["src/relay_message.c: nostr_relay_msg_event, nostr_relay_msg_notice, nostr_relay_msg_count, nostr_relay_msg_serialize"]}
{"id": "C102", "title": "Serializing a relay message respects the buffer", "statement": "nostr_relay_msg_serialize never writes outside the caller's buffer, writes a terminated text or nothing, and when the buffer is too small reports a length such that exactly the larger buffers succeed", "quantifier": "for all messages, buffers and sizes up to the buffer's real size", "why_tests_cant": "An overrun by one byte shows only for one length in all, and usually not even then.", "anchors": ["src/relay_message.c: nostr_relay_msg_serialize"]}
{"id": "C103", "title": "Client messages neither leak nor are freed twice", "statement": "nostr_client_msg_parse leaves no allocation behind when it fails, whichever allocation fails or element is bad; nostr_client_msg_free gives back exactly what a parse allocated and may be called again, or after a failed parse, and running out of memory is reported as such", "quantifier": "for all messages, all patterns of failing allocations, all heaps", "why_tests_cant": "Every allocation of every element may fail; the combinations are unbounded and not reachable by normal tests.", "anchors": ["src/relay_message.c: nostr_client_msg_parse, nostr_client_msg_free, parse_filters"]}
{"id": "C104", "title": "Remote-signing requests are read as they were sent", "statement": "nostr_nip46_parse_request accepts exactly events of kind 24133 whose content decrypts to JSON, and reports the id, method and parameters the client wrote and the author it authenticated; anything else is refused with an error that tells why", "quantifier": "for all events, keys, decrypted texts and JSON trees", "why_tests_cant": "Requests come from the network; ids and methods of any length, absent or mistyped members and arbitrary JSON all occur, and tests see a handful.", "anchors": ["src/nip46.c: nostr_nip46_parse_request"]}
{"id": "C105", "title": "A remote-signing answer tells the client the result", "statement": "The event made by nostr_nip46_create_response decrypts, with the client's key, to a response with the request's id and exactly the result or the error the signer gave, as a string", "quantifier": "for all ids, results, errors, keys and nonces", "why_tests_cant": "Whether a result is passed on depends on its text (hex keys, JSON texts, numbers); the texts are unbounded and a test with one key passes by luck.", "anchors": ["src/nip46.c: nostr_nip46_create_response"]}
{"id": "C106", "title": "A remote-signing answer is signed and addressed", "statement": "The event made by nostr_nip46_create_response is of kind 24133, by the signer, verifiably signed, and names the client it is for; it is made whenever encryption and signing work", "quantifier": "for all responses, keys, configurations and clocks", "why_tests_cant": "It depends on the configuration in force and on every failure of the steps in between.", "anchors": ["src/nip46.c: nostr_nip46_create_response"]}
{"id": "C107", "title": "An event owns its memory through any sequence of calls, whichever allocations fail", "statement": "A program creates, imports, tags, re-fills and destroys an event in any order, and any subset of the allocations fails. Provided it does not use the variable after a failing create/import and the text it passes does not lie inside the event, no call touches released memory or releases twice, the live blocks are always exactly those of the event plus those the program already had, and after the final destroy nothing is left.", "quantifier": "all operation sequences, all allocation-failure patterns, all limits, all parsed texts", "why_tests_cant": "Tests do not inject allocation failures at every point of every call sequence; a leak or double free on an error path only shows under a specific failing allocation.", "anchors": ["src/event.c: nostr_event_create, nostr_event_destroy, nostr_event_set_content, nostr_event_add_tag, nostr_event_from_json, tag_arena_create"]}
{"id": "C108", "title": "Importing an event gives what the text says or reports failure, and keeps nothing on failure", "statement": "nostr_event_from_json returns OK only with the event that the text describes (id, pubkey, time, kind, all tags, content, signature). If it fails, the error is the one the text deserves, or an allocation failed (or the tags need more than 2^62 bytes); nothing it allocated stays live.", "quantifier": "all texts and parsers, all limits, all allocation-failure patterns", "why_tests_cant": "A missing tag or field under memory pressure would be accepted as a valid but different event; each failing allocation is a separate path.", "anchors": ["src/event.c: nostr_event_from_json, nostr_event_add_tag, nostr_event_set_content"]}
{"id": "C109", "title": "Computing an event's id never silently uses a different event when memory runs out", "statement": "nostr_event_compute_id either sets the id of the event's full canonical serialization or reports failure, whatever allocations fail, and releases every block it allocated.", "quantifier": "all events, all allocation-failure patterns, both JSON back ends", "why_tests_cant": "Tests do not inject failures into each of the allocations the JSON library makes while the serialization is built; each one is a separate execution.", "anchors": ["src/event.c: nostr_event_compute_id, serialize_for_id"]}
{"id": "C110", "title": "Signing and verifying keep their meaning when memory runs out", "statement": "nostr_event_verify accepts an event only if its id is the hash of its own canonical form and the signature is by its author over that id; nostr_event_sign reports success only for an event that verifies; both whatever allocations fail.", "quantifier": "all events and keys, all signature schemes meeting the contract, all allocation-failure patterns", "why_tests_cant": "A forgery under memory pressure needs one precisely placed failing allocation; no test enumerates them for all events.", "anchors": ["src/event.c: nostr_event_sign, nostr_event_verify"]}
{"id": "C111", "title": "Exporting an event gives the whole event or fails", "statement": "nostr_event_to_json returns OK only with a document that contains every field of the event (id, pubkey, time, kind, all tags, content, signature), whatever allocations fail; on failure nothing it allocated stays live.", "quantifier": "all events, all allocation-failure patterns", "why_tests_cant": "A document missing the signature or the tags is well-formed JSON; only a failing allocation at one of many points produces it.", "anchors": ["src/event.c: nostr_event_to_json"]}
{"id": "C112", "title": "A relay information document announces what was set", "statement": "nostr_relay_info_serialize (and nostr_relay_limitation_serialize), when it reports OK, has written a JSON document that gives each text, list, limit, retention and fee of the struct its value, and nothing for what is unset.", "quantifier": "all information structs, all allocation-failure patterns", "why_tests_cant": "The struct has some forty independent optional parts, nested lists and 64-bit amounts; tests look for a few substrings in one document.", "anchors": ["src/relay_nip11.c: nostr_relay_info_serialize, nostr_relay_limitation_serialize"]}
{"id": "C113", "title": "Serializing relay information respects the buffer and reports the length", "statement": "Nothing beyond the given size is written; on success the text is zero-terminated and *out_len is its length; on failure the buffer is unchanged; a short buffer is reported with the length needed, and a second call with that much space succeeds.", "quantifier": "all structs, sizes and buffers, all allocation-failure patterns", "why_tests_cant": "The off-by-one cases depend on the length of the generated text, which depends on every field.", "anchors": ["src/relay_nip11.c: nostr_relay_info_serialize, nostr_relay_limitation_serialize"]}
{"id": "C114", "title": "Relay information owns its lists", "statement": "Setting, adding to and releasing the NIPs of a relay information in any order, whatever allocations fail, never touches released memory and keeps the list the successful calls made; nostr_relay_info_free releases everything the struct holds.", "quantifier": "all operation sequences, all allocation-failure patterns, all filled-in structs", "why_tests_cant": "Needs every interleaving of calls and failures, and every shape of the nested fee and retention lists.", "anchors": ["src/relay_nip11.c: nostr_relay_info_set_nips, nostr_relay_info_add_nip, nostr_relay_info_free"]}
{"id": "C115", "title": "A wallet's balance is read exactly", "statement": "nostr_nip47_parse_balance_response returns NOSTR_OK exactly when the answer's balance is a number, and then stores that number; otherwise the caller's variable is untouched and everything allocated is released.", "quantifier": "all JSON answers, all numbers as balance, all schedules of failing allocations; in the build without cJSON all texts", "why_tests_cant": "Amounts range over all JSON numbers; tests use one small integer.", "anchors": ["src/nip47_commands.c: nostr_nip47_parse_balance_response"]}
{"id": "C116", "title": "After a wallet answer was read without error, the caller's variables are set", "statement": "When nostr_nip47_parse_pay_invoice_response, nostr_nip47_parse_info_response or nostr_nip47_parse_response_event returns NOSTR_OK, each output the caller asked for has been written, each entry of the delivered list of methods has been written, and a count comes with an array of that length.", "quantifier": "all JSON answers, with any member missing or of any type, all schedules of failing allocations", "why_tests_cant": "Unwritten outputs keep whatever was there, so tests that initialise their variables cannot see it.", "anchors": ["src/nip47_commands.c: nostr_nip47_parse_pay_invoice_response, nostr_nip47_parse_info_response", "src/nip47.c: nostr_nip47_parse_response_event"]}
{"id": "C117", "title": "Reading a wallet's answer keeps exactly what it hands out", "statement": "After reading a payment answer, a wallet description, a response or a notification, with any outcome, the blocks in use are those of the caller's variables and those in use before; each string variable has the named member's text or, without memory, the null pointer; the decrypted text and the parsed tree are gone.", "quantifier": "all JSON answers whose numbers fit, all schedules of failing allocations", "why_tests_cant": "Each allocation in each path can fail; tests never make any fail.", "anchors": ["src/nip47_commands.c: nostr_nip47_parse_pay_invoice_response, nostr_nip47_parse_info_response", "src/nip47.c: nostr_nip47_parse_response_event, nostr_nip47_parse_notification_event"]}
{"id": "C118", "title": "After a failed start the library can still be started", "statement": "Every call that needs the cryptographic context either finds it usable or reports an error; once the system's resources are available again, the next call succeeds. Starting a started library changes nothing.", "quantifier": "all sequences of starts, clean-ups and calls, each with any combination of failing resources", "why_tests_cant": "Tests never make the random number generator or the context fail, so the state left by a failure is never used.", "anchors": ["src/key.c: nostr_init, nostr_cleanup", "src/event.c: nostr_event_sign, nostr_event_verify", "src/nip44.c: nostr_nip44_encrypt, nostr_nip44_decrypt", "src/nip47.c: nostr_nip47_create_request"]}
{"id": "C119", "title": "Threads may start the library together", "statement": "Any number of threads may call functions that start the library on demand: no thread waits for ever, the context is made once, and no call uses a context that is not ready.", "quantifier": "all interleavings of any number of threads", "why_tests_cant": "The window is a few instructions wide; tests are single threaded.", "anchors": ["src/key.c: nostr_init, nostr_cleanup, nostr_random_bytes", "src/event.c: nostr_event_verify"]}
{"id": "C120", "title": "A key pair in use is a matching pair", "statement": "After any sequence of calls, failing or not, a key pair that hands out keys hands out a valid private key and the public key that belongs to it; nostr_keypair_validate returns NOSTR_OK exactly for those; its exports read back as the same keys; nothing is handed out before a successful generation or import, or after destruction.", "quantifier": "all sequences of generate, import and destroy calls, all key texts, all failures of the random source", "why_tests_cant": "Depends on what earlier failing calls left in the structure; tests use each structure once.", "anchors": ["src/key.c: nostr_keypair_init, nostr_keypair_generate, nostr_keypair_from_private_hex, nostr_keypair_from_private_key, nostr_keypair_validate, nostr_keypair_destroy, nostr_keypair_export_private_hex"]}
{"id": "C121", "title": "Random bytes fill the whole buffer or the call fails", "statement": "nostr_random_bytes reports success only after every byte of the buffer was given by the system's generator, in requests it can serve; it reports failure only if the generator failed; with mbedTLS the generator is seeded until that succeeds and never again, used only when seeded, and its lock is given back on every path.", "quantifier": "all buffer lengths, all patterns of failing requests and seedings, all sequences of calls", "why_tests_cant": "Failures of the generator and buffers above the request limit do not occur in tests.", "anchors": ["src/key.c: nostr_random_bytes"]}
{"id": "C122", "title": "No copy of a private key is left behind", "statement": "When a call that uses a private key (or a seed, a mnemonic, a shared secret, the key of a cipher) returns, on every path, with success or with an error, the secret is in the objects the caller passed in and, if the call succeeded, in the objects it promises to fill; no local variable and no freed heap block still holds it.  Destroying a key pair or closing a wallet connection removes it from the object too.", "quantifier": "every function that handles keys, every branch outcome, every number of loop rounds, every prior content of memory", "why_tests_cant": "Tests see results, not the stack below them or freed blocks; the failing paths (allocation, library errors) are hardly ever taken in a test", "anchors": ["src/key.c: nostr_key_generate, nostr_key_ecdh, nostr_keypair_from_private_key, nostr_keypair_validate", "src/event.c: nostr_event_sign", "src/nip44.c: nostr_nip44_encrypt, nostr_nip44_decrypt, nostr_nip04_encrypt, nostr_nip04_decrypt", "src/nip49.c: nostr_ncryptsec_encrypt, nostr_ncryptsec_decrypt", "src/nip47.c: nostr_nip47_create_request_event, nostr_nip47_parse_connection_uri", "src/hd_key.c: nostr_hd_key_from_seed, nostr_hd_key_derive, nostr_hd_key_derive_path, nostr_mnemonic_validate, nostr_mnemonic_to_seed", "src/bech32.c: nostr_privkey_to_bech32, nostr_privkey_from_bech32"]}
{"id": "C123", "title": "No plaintext is left in freed memory", "statement": "When a call that encrypts or decrypts a message returns, on every path, the plaintext is in the objects the caller passed in and, if the call succeeded, in the objects it promises to fill; no local variable and no freed heap block still holds it.", "quantifier": "every function that handles plaintexts, every branch outcome, every number of loop rounds", "why_tests_cant": "Freed memory is not observable through the interface a test uses", "anchors": ["src/nip44.c: nostr_nip44_encrypt, nostr_nip44_decrypt, nostr_nip04_decrypt", "src/nip59.c: nostr_nip59_wrap_event, nostr_nip59_unwrap_event", "src/nip17.c: nostr_nip17_send_dm", "src/nip46.c: nostr_nip46_parse_request, nostr_nip46_create_response"]}
{"id": "C124", "title": "The library reports the features it was built with", "statement": "For every build configuration, each optional feature appears in the comma-separated list of enabled features exactly when it was enabled, nostr_feature_nip_supported agrees for every optional NIP and says no for every other number, the availability calls agree, and the list is always complete inside its buffer, for every interleaving of threads calling it.", "quantifier": "all sets of enabled features, all numbers asked for, all interleavings of any number of threads in the listing call", "why_tests_cant": "There are over a million build configurations and unboundedly many interleavings; a test runs in one build.", "anchors": ["src/features.c: nostr_feature_nip_supported, nostr_feature_list_enabled"]}
{"id": "C125", "title": "Error codes have texts of their own, and formatted validation errors stay in their buffer", "statement": "Two different declared error codes never have the same text, in the library and in the relay protocol, and no declared code has the text given for numbers that are not codes. nostr_validation_error_format writes only inside the caller's buffer: it returns the length of the whole text when that fits with its terminator, and otherwise returns 0 and leaves a terminated prefix.", "quantifier": "all pairs of codes; all messages, field names and buffer sizes", "why_tests_cant": "The formatting claim is about every length and buffer size; the claim about codes is about every pair.", "anchors": ["src/key.c: nostr_error_string", "src/relay_protocol.c: nostr_relay_error_string, nostr_validation_error_format"]}
{"id": "C126", "title": "A list owns its memory through any sequence of calls", "statement": "Through any sequence of creating, reading from an event, setting texts, adding, removing and releasing, with any of the allocations failing, a list's calls never use or release a block twice; after each call the live blocks are exactly the list's own and what was there before; an item is added or removed as the call asks or the list is unchanged; reading gives the list the event describes or nothing; publishing gives the event the list describes, with exactly that event's blocks added, or nothing; and releasing the list at the end leaves nothing behind.", "quantifier": "all lists in good order, all texts (from outside the list, or for items also from the list itself), all events, all patterns of failing allocations, all sequences of calls", "why_tests_cant": "A test cannot make the n-th allocation fail for every n in every call sequence; leaks and stale blocks do not show in results", "anchors": ["src/nip51.c: nostr_list_create, nostr_list_free, set_string_field, ensure_capacity, add_item, nostr_list_remove, nostr_list_from_event, nostr_list_to_event"]}
{"id": "C127", "title": "A list call that fails leaves the list and the caller's variables as they were", "statement": "A call on a list that fails leaves what the list says unchanged and the caller's output variable empty, and the texts passed in may be any the caller can reach, the list's own included.", "quantifier": "all lists in good order, all calls, all texts, all patterns of failing allocations", "why_tests_cant": "Needs an allocation failing at a chosen point, or arguments that alias the object's own memory", "anchors": ["src/nip51.c: set_string_field, nostr_list_to_event, add_item, nostr_list_from_event"]}
{"id": "C128", "title": "A relay list owns its memory through any sequence of calls", "statement": "Through any sequence of creating, reading from an event, adding, asking for the read or write relays, and releasing, with any of the allocations failing, the calls on a relay list never use or release a block twice or write outside an array; after each call the live blocks are exactly the list's own and what was there before; each call has the effect it has without memory pressure, or reports a memory error (only when an allocation failed) and leaves the list saying what it said; publishing gives the event the list describes, with exactly that event's blocks added, or adds nothing; and releasing the list at the end leaves nothing behind.", "quantifier": "all relay lists in good order, all addresses (the list's own included), all events, all patterns of failing allocations, all sequences of calls", "why_tests_cant": "A test cannot make the n-th allocation fail for every n in every call sequence; leaks and stale blocks do not show in results", "anchors": ["src/nip65.c: nostr_relay_list_create, nostr_relay_list_free, nostr_relay_list_add, nostr_relay_list_from_event, nostr_relay_list_to_event, get_relays_by_flag, nostr_relay_list_free_urls"]}
{"id": "C129", "title": "A failing relay-list call leaves the list and the caller's variables in a known state", "statement": "A call on a relay list that fails leaves what the list says unchanged, keeps no memory, and sets the caller's output variables to empty and to a count of zero.", "quantifier": "all relay lists in good order, all calls, all patterns of failing allocations", "why_tests_cant": "Needs an allocation failing at a chosen point", "anchors": ["src/nip65.c: nostr_relay_list_add, get_relays_by_flag, nostr_relay_list_from_event, nostr_relay_list_to_event"]}
{"id": "C130", "title": "What a client sends is what the relay reads", "statement": "What nostr_publish_event, nostr_subscribe and nostr_relay_unsubscribe put on the wire, when they report success, is a message that nostr_client_msg_parse reads as that event, as a request with that id whose filters select what the JSON filters ask for, or as the end of that subscription; publishing never misuses or loses memory and its status says what happened", "quantifier": "for all events, ids, filters, allocation failures and socket results, all JSON libraries that write and read RFC 8259 texts", "why_tests_cant": "Both ends are tested apart from each other on a few literals; whether every text one end can write is read by the other with the same meaning is a statement about all of them.", "anchors": ["src/relay.c: nostr_relay_send_event, nostr_publish_event, nostr_subscribe, nostr_relay_unsubscribe", "src/relay_message.c: nostr_client_msg_parse", "src/event.c: nostr_event_to_json, nostr_event_from_json"]}
{"id": "C131", "title": "What a relay serializes is heard by the client", "statement": "Messages built and serialized with the relay functions, sent in any order over a connection that cuts the stream anywhere, are heard by the client in that order: each event at the handler of the newest live subscription with its id with all fields equal, every other message at the message call-back with exactly what was said, and CLOSED ends the subscription", "quantifier": "for all lists of messages whose texts fit their fields, all subscription lists, all ways of cutting the stream, all JSON libraries that write and read RFC 8259 texts", "why_tests_cant": "Needs every message list and every cutting of the stream; tests use single messages in one piece.", "anchors": ["src/relay_message.c: nostr_relay_msg_serialize", "src/relay.c: callback_nostr_relay, find_json_array_end", "src/event.c: nostr_event_from_json"]}
{"id": "C132", "title": "An event's id is the one NIP-01 prescribes", "statement": "The text nostr_event_compute_id hashes is, character for character, the text NIP-01 prescribes, so that other implementations compute the same id; and it is a JSON text that reads as the array of the event's fields", "quantifier": "for all events", "why_tests_cant": "Test vectors compare a few ids; the agreement must hold for every content and every tag, including every control character.", "anchors": ["src/event.c: nostr_event_compute_id, serialize_for_id, escape_json_string"]}
{"id": "C133", "title": "Private list items written by any client are read as written", "statement": "The private items of a NIP-51 list, written by any client as a JSON array of tags in any layout and escaping RFC 8259 permits, are read by nostr_list_from_event as exactly those items, in order, after the public ones; and what nostr_list_to_event encrypts is such a JSON text", "quantifier": "for all lists of tags, all JSON texts that stand for them, all lists", "why_tests_cant": "The library's own tests read only what the library wrote; other clients choose other spacing and escapes, and there are unboundedly many.", "anchors": ["src/nip51.c: nostr_list_from_event, parse_private_content, nostr_list_to_event, build_private_content"]}
{"id": "C134", "title": "A wallet reads the request that was asked for", "statement": "The parameters written by each nostr_nip47_create_*_params function are JSON that reads as the NIP-47 parameters asked for, and the content of an event made by nostr_nip47_create_request_event decrypts to JSON that reads as exactly that method with exactly those parameters; the event is addressed to the wallet and comes from the key of the connection", "quantifier": "for all methods, arguments, JSON texts given as parameters, and JSON libraries that write and read RFC 8259 texts", "why_tests_cant": "Tests compare a few texts; a request moves money, and that no argument changes what is read is a statement about all of them.", "anchors": ["src/nip47.c: nostr_nip47_create_request_event, nostr_nip47_create_pay_invoice_params, nostr_nip47_create_make_invoice_params, nostr_nip47_create_get_balance_params", "src/nip47_commands.c: nostr_nip47_create_list_transactions_params, nostr_nip47_create_lookup_invoice_params, nostr_nip47_create_pay_keysend_params, nostr_nip47_create_multi_pay_invoice_params, nostr_nip47_create_get_info_params"]}
{"id": "C135", "title": "Building wallet requests keeps memory and says everything", "statement": "Whatever allocation fails, the functions that build NIP-47 parameters misuse no memory, lose none, and either report that memory ran out or give a text with everything that was asked", "quantifier": "for all arguments and all patterns of allocation failures", "why_tests_cant": "Allocation failures are not injected by any test, and each of the many allocations of one call can be the one that fails.", "anchors": ["src/nip47.c: nostr_nip47_create_pay_invoice_params, nostr_nip47_create_make_invoice_params", "src/nip47_commands.c: nostr_nip47_create_list_transactions_params, nostr_nip47_create_lookup_invoice_params, nostr_nip47_create_pay_keysend_params, nostr_nip47_create_multi_pay_invoice_params"]}
{"id": "C136", "title": "Configuration comes from the environment as documented", "statement": "Starting the library without a configuration takes each of the thirteen documented settings from its environment variable, and the documented default where there is none; values in the documented ranges are accepted, other variables play no part, and a number variable holding something else counts as unset", "quantifier": "for all environments and all states before initialisation", "why_tests_cant": "The environment is an arbitrary set of texts; tests set one or two variables to chosen numbers.", "anchors": ["src/config.c: nostr_init_with_config, nostr_config_load_env, nostr_config_validate", "CONFIG.md"]}
{"id": "C137", "title": "Two people derive the same secret", "statement": "Whoever the two are, combining one's private key with the other's public key gives both the same 32-byte secret, the first coordinate of the common point; keys that cannot be used are refused", "quantifier": "for all curves with the usual laws, all pairs of private keys and all library builds", "why_tests_cant": "Tests agree on a few fixed keys; whether the two sides agree depends on the parities of both points, which are different for every pair.", "anchors": ["src/key.c: nostr_key_ecdh, nostr_keypair_from_private_key", "include/nostr.h: nostr_key_ecdh"]}
{"id": "C138", "title": "NIP-04 messages reach the other side", "statement": "A text encrypted with nostr_nip04_encrypt has the published form, carries the drawn vector, and nostr_nip04_decrypt gives it back to both sides; texts of other clients in the published form are read too, and anything else is refused", "quantifier": "for all keys, vectors and texts without a NUL", "why_tests_cant": "Texts, keys and vectors are unbounded sets; the marker that separates the parts could appear in any of them.", "anchors": ["src/nip44.c: nostr_nip04_encrypt, nostr_nip04_decrypt, base64_encode, base64_decode"]}
{"id": "C139", "title": "Remote-signing messages are safe when memory runs out", "statement": "Whichever allocations fail, reading a request or writing a response ends properly: the request owns exactly its params, the response is one sound signed event or none, nothing else stays allocated, and success means the same request or answer as with enough memory", "quantifier": "for all patterns of failing allocations, all events, requests and responses", "why_tests_cant": "The patterns of failing allocations are infinitely many, and each call makes dozens of allocations whose number depends on the input.", "anchors": ["src/nip46.c: nostr_nip46_parse_request, nostr_nip46_create_response, nostr_nip46_request_free, nostr_nip46_response_free", "src/event.c: nostr_event_create, nostr_event_set_content, nostr_event_add_tag"]}
{"id": "C140", "title": "A published event reaches exactly the subscribers who asked for it, whole", "statement": "Let one client open a subscription with JSON filters and a handler, let any others publish events, and let a relay that uses the library read what it gets, forward what its filters match and write it out. Then the relay reads every request, and however the network cuts the stream, the subscriber's handler is called for exactly the published events the JSON filters select, in order and with id, author, time, kind, tags, content and signature unchanged; each verifies for the subscriber if and only if it verified for its author.", "quantifier": "all filters within the relay's limits, all lists of events, all ways to cut the stream, all JSON libraries meeting the cJSON contract on either side", "why_tests_cant": "It composes six pieces of code on two machines (subscribe, publish, relay parsing, matching, relay serialisation, client reception); no unit test runs them together, and the network's cuts and the events are unbounded.", "anchors": ["src/relay.c: nostr_subscribe, nostr_publish_event", "src/relay_filter.c: nostr_filters_match", "src/relay_message.c: nostr_client_msg_parse, nostr_relay_msg_serialize", "src/event.c: nostr_event_verify"]}
{"id": "C141", "title": "Delegations are safe when memory runs out", "statement": "Whichever allocations fail, creating, reading, verifying, attaching and releasing a delegation misuse no memory and lose none: a delegation that is handed out owns exactly its text and its kinds, a refusal leaves nothing allocated, an event's delegation is never accepted when it would be refused with enough memory, and with enough memory the answers are the usual ones", "quantifier": "for all patterns of failing allocations, all condition texts, keys, events and signature schemes", "why_tests_cant": "The conditions are stored one realloc at a time, so the number of allocations depends on the text, and each of them can fail.", "anchors": ["src/nip26.c: parse_delegation_conditions, cleanup_conditions, build_delegation_hash, nostr_delegation_create, nostr_delegation_verify, nostr_event_get_delegation, nostr_event_verify_delegation, nostr_event_add_delegation, nostr_delegation_free"]}
{"id": "C142", "title": "Gift-wrapped messages are safe when memory runs out", "statement": "Whichever allocations fail, making a rumor, a seal or a gift wrap, sending a direct message, wrapping an event and opening either of them misuse no memory: what is handed out is one event that owns its blocks, is signed over (part of) itself by the right key, holds the encryption of (part of) the inner event and carries all its tags; what is handed out on opening was held by a seal whose signature is good for its id and, for direct messages, is by that seal's author; an error leaves no event behind. With enough memory nothing is lost and the answers are the usual ones, and a sender's variable is untouched or empty after an error", "quantifier": "for all patterns of failing allocations, all events, texts, keys, random draws, limits and signature and encryption schemes", "why_tests_cant": "Sending one message makes dozens of allocations in three layers, each of which can fail, and the number depends on the message.", "anchors": ["src/nip17.c: nostr_nip17_create_rumor, nostr_nip17_create_seal, nostr_nip17_create_gift_wrap, nostr_nip17_send_dm, nostr_nip17_unwrap_dm", "src/nip59.c: nostr_nip59_create_rumor, nostr_nip59_create_seal, nostr_nip59_create_gift_wrap, nostr_nip59_wrap_event, nostr_nip59_unwrap_event"]}
{"id": "C143", "title": "A relay keeps the limits it announces by default", "statement": "A relay that fills its information document with the library's defaults announces limits that its message parser keeps: no request with more filters or a longer subscription id than announced is taken, requests that use these limits up are taken, and events within the announced number of tags and content length are taken and larger ones are not", "quantifier": "for all client messages, all JSON libraries, all configurations", "why_tests_cant": "The announced numbers, the parser's limits and the configuration's limits are in three places; which messages fall between them is a question about all messages.", "anchors": ["src/relay_nip11.c: nostr_relay_limitation_init, nostr_relay_info_init", "src/relay_message.c: nostr_client_msg_parse, parse_filters", "src/event.c: nostr_event_from_json", "src/config.c: nostr_config_validate, nostr_config_get_defaults"]}
{"id": "C144", "title": "Parsers given a length read that many bytes", "statement": "Reading a client message, a filter or an event from a buffer with a given length looks at exactly that many bytes: the answer does not depend on what follows, and nothing beyond is read", "quantifier": "for all buffers, lengths and JSON libraries", "why_tests_cant": "Which bytes were looked at does not show in the result unless the memory behind the buffer is chosen to show it.", "anchors": ["src/relay_protocol.c: nostr_event_parse", "src/relay_message.c: nostr_client_msg_parse", "src/relay_filter.c: nostr_filter_parse"]}
{"id": "C145", "title": "Reading the parts of an event", "statement": "The functions that read parts of an event agree with the event: the texts of id and key are its 64 lower-case digits and stay within 65 bytes, tags and values by number are the tags and values in order and nothing from the count on, the d tag, expiry and deletion tests agree with the general functions, and a list of strings is released with all its strings", "quantifier": "for all events, numbers, buffers and lists", "why_tests_cant": "Holds for every index and every tag list, including empty tags and indices just beyond the end.", "anchors": ["src/relay_protocol.c: nostr_event_get_id_hex, nostr_event_get_pubkey_hex, nostr_event_get_tag_count, nostr_event_get_tag, nostr_event_get_tag_at, nostr_tag_get_name, nostr_tag_get_value, nostr_tag_get_value_count, nostr_event_get_d_tag, nostr_event_is_deletion, nostr_event_is_expired_now, nostr_free_strings"]}
{"id": "C146", "title": "A wallet connection owns its memory", "statement": "Whatever allocation fails while nostr_nip47_parse_connection_uri runs, no memory is misused, the caller's variable is written only on success, the connection then says what the address says and owns exactly its blocks, and nostr_nip47_free_connection releases all of them; after an error nothing is left.", "quantifier": "all addresses, any number of relays, all patterns of allocation failures", "why_tests_cant": "Allocation failures are not injected by any test, and the array of relays grows only from the fifth relay on.", "anchors": ["src/nip47.c: nostr_nip47_parse_connection_uri, free_connection, nostr_nip47_free_connection, url_decode"]}
{"id": "C147", "title": "The lists of a wallet's info event can be released", "statement": "Whatever allocation fails while nostr_nip47_parse_info_event runs, no memory is misused; without an error each list asked for is the words of the content or tag and is released by freeing its entries and array; after an error nothing is left and the caller's variables can be released the same way.", "quantifier": "all info events with content, all choices of lists, all patterns of allocation failures", "why_tests_cant": "Tests never make an allocation fail, so they never see the variables after an error.", "anchors": ["src/nip47.c: nostr_nip47_parse_info_event"]}
{"id": "C148", "title": "References own their relays", "statement": "Whatever allocation fails while a nostr: URI is read or released, no memory is misused: on success the value is the one the text says and owns one block per relay, after an error nothing is left, and nostr_uri_free gives everything back and may be called again. Writing a URI gives the text of C06 or an error and keeps no memory.", "quantifier": "all URIs whose reading stays within its buffers, all entities, all patterns of allocation failures", "why_tests_cant": "Tests do not make allocations fail, and a leak or a checksum never computed does not show in a result.", "anchors": ["src/nip21.c: nostr_uri_parse, nostr_uri_encode, nostr_uri_free, nostr_nprofile_decode, nostr_nevent_decode, nostr_naddr_decode, parse_tlv, encode_bytes_to_bech32"]}
{"id": "C149", "title": "Reposts, reactions and quotes own their memory", "statement": "Whatever allocation fails while a repost or reaction is made, or quotes are collected from a text, no memory is misused: the event is the one C46 describes, or nothing of it is left; the q tags added are, in order, some of the references of the text, all of them when memory suffices, and the event stays in order in any case.", "quantifier": "all arguments, contents and tag limits, all patterns of allocation failures", "why_tests_cant": "The loop takes and returns blocks for every reference, and each of them can be the one that is refused; no test refuses any.", "anchors": ["src/nip18.c: nostr_repost_create, nostr_quote_tags_from_content", "src/nip25.c: nostr_reaction_create"]}
{"id": "C150", "title": "Identity look-ups own their memory", "statement": "Whatever allocation fails while an identity is looked up and its relays are read, no memory is misused: the web client's response is released on every path; on success the caller holds the array and one string per relay, the same relays as without failures; after an error, a wrong key included, the caller holds nothing; nostr_nip05_free_relays gives everything back.", "quantifier": "all identifiers, expected keys, responses and web clients that return a response they no longer use, all patterns of allocation failures", "why_tests_cant": "Each relay is a block of its own and any of them can be the one refused; tests neither refuse memory nor count what is left after a mismatch.", "anchors": ["src/nip05.c: nostr_nip05_parse_response, nostr_nip05_verify, nostr_nip05_free_relays"]}
{"id": "C151", "title": "Zap requests own their memory", "statement": "Whatever allocation fails while a zap request is made, no memory is misused: the caller gets the request C96 describes, or an error and nothing of it is left. After an error the caller's variable may be passed to nostr_event_destroy.", "quantifier": "all arguments and tag limits, all patterns of allocation failures", "why_tests_cant": "Every tag can be the one that is refused; tests refuse none, and a second release of the same event need not crash.", "anchors": ["src/zap.c: nostr_zap_create_request"]}
{"id": "C152", "title": "Reply threads are safe when memory runs out", "statement": "Looking for the root or parent of an event keeps no memory and answers as C43 says or reports that memory ran out; nostr_event_is_reply tells replies from other events. Adding reply or mention tags leaves the event in order in any case: it gets the tags asked for, or with an error the first of them or none.", "quantifier": "all events, ids, hints and tag limits, all patterns of allocation failures", "why_tests_cant": "Tests do not refuse memory; an answer that is wrong without an error looks like any other answer.", "anchors": ["src/nip10.c: find_e_tag_by_marker, collect_e_tags, nostr_event_is_reply, nostr_event_add_reply_tags, nostr_event_add_mention_tag"]}
{"id": "C153", "title": "A key restored from words is complete or not at all", "statement": "Whatever allocation fails while words are checked, turned into a seed or into a key pair, or a path is derived, no memory is kept or misused. On success the caller has the pair C68 describes, its public key being that of its private key; on an error the caller's pair is as it was, and out of memory is reported only if memory ran out or the text or the library says so.", "quantifier": "all words, passphrases, accounts, paths and hash functions, with and without utf8proc, all patterns of allocation failures", "why_tests_cant": "Six allocations hold secrets on the way, and two builds differ in them; tests refuse none and run one build.", "anchors": ["src/hd_key.c: nostr_hd_key_derive_path, nostr_mnemonic_validate, nostr_mnemonic_to_seed, nostr_mnemonic_to_keypair, nostr_hd_key_to_keypair"]}
{"id": "C154", "title": "A signature covers the whole event", "statement": "If two events with the same id both pass verification, they have the same author, time, kind, tags and content, unless SHA-256 is broken; nobody can change a signed event unnoticed.", "quantifier": "all events with any number of tags a configuration may allow; builds with and without the JSON library", "why_tests_cant": "The bytes that go unnoticed exist only for events with hundreds of tags of one shape; tests sign small events.", "anchors": ["src/event.c: nostr_event_sign, nostr_event_verify, nostr_event_compute_id, serialize_for_id"]}
{"id": "C155", "title": "The configuration a caller was given does not change while it is held", "statement": "The configuration nostr_config_get_current returns keeps its values as long as the caller holds it, and passing it to nostr_config_update later puts that configuration back in force.", "quantifier": "all histories of configuration calls and of other library calls by any number of threads", "why_tests_cant": "The values change only after an update and a later library call of the same thread that happens to read the configuration; tests look at the values at once.", "anchors": ["src/config.c: nostr_config_get_current, nostr_config_update", "src/event.c: nostr_event_add_tag, nostr_event_from_json", "src/nip44.c: pad_plaintext, unpad_plaintext"]}
{"id": "C156", "title": "A private message published through a relay is read by its recipient", "statement": "A direct message that was made and published arrives at a recipient who subscribed to gift wraps addressed to them, in its place among the others, and the recipient reads the sender, the text, the subject, the reply and the time that were sent.", "quantifier": "all messages, keys, random draws, other publications before and after, cuts of the stream and JSON layouts", "why_tests_cant": "The message passes seven transformations on three machines; tests check each of them alone on short texts.", "anchors": ["src/nip17.c: nostr_nip17_send_dm, nostr_nip17_unwrap_dm", "src/relay.c: nostr_publish_event, nostr_subscribe, callback_nostr_relay", "src/relay_message.c: nostr_client_msg_parse, nostr_relay_msg_serialize", "src/relay_filter.c: nostr_filter_matches"]}
{"id": "C157", "title": "A remote signing exchange through a relay", "statement": "A request published to a signer arrives at the signer's handler and is read with the id, method, parameters and sender it has; a response made to what was read and published arrives at the client's handler, signed by the signer, and reports the client's id with the result or error the signer gave.", "quantifier": "all requests and outcomes, keys, random draws, other publications before and after, cuts of the stream and JSON layouts", "why_tests_cant": "The id passes through two encrypted texts, two relays' readings and two subscriptions; tests check each step alone.", "anchors": ["src/nip46.c: nostr_nip46_parse_request, nostr_nip46_create_response", "src/relay.c: nostr_publish_event, nostr_subscribe, callback_nostr_relay", "src/relay_message.c: nostr_client_msg_parse", "src/relay_filter.c: nostr_filter_matches"]}
{"id": "C158", "title": "A wallet request published through a relay is the one asked for", "statement": "A wallet request whose parameters were built by the library, put into an event, signed with the connection's secret and published arrives at the wallet's handler, signed by the client's key, and decrypts to JSON that is exactly the method and the parameters asked for; a notification the wallet publishes is decrypted by the client to the text the wallet encrypted.", "quantifier": "all methods and parameters, keys, random draws, other publications before and after, cuts of the stream and JSON layouts", "why_tests_cant": "An amount passes through two JSON texts inside an encrypted text inside two more; tests compare fixed strings at single steps.", "anchors": ["src/nip47_commands.c: nostr_nip47_create_pay_keysend_params, nostr_nip47_create_multi_pay_invoice_params", "src/nip47.c: nostr_nip47_create_pay_invoice_params, nostr_nip47_create_request_event, nostr_nip47_parse_notification_event", "src/relay.c: nostr_publish_event, nostr_subscribe, callback_nostr_relay", "src/relay_filter.c: nostr_filter_matches"]}
{"id": "C159", "title": "Values looked up in an event can be used to add to that event", "statement": "A tag value obtained from an event (the first value of a name, or any entry of its tags) is the text of that tag, can be passed as a value of a new tag of the same event with the same outcome as passing a copy of the text, and stays readable with the same text after tags are added.", "quantifier": "all events built by any history of additions, all values taken from them, all allocators", "why_tests_cant": "Whether the storage moves depends on the allocator and on the sizes of all earlier tags; a test with a few short tags never sees the move.", "anchors": ["src/event.c: nostr_event_add_tag, tag_arena_alloc", "src/relay_protocol.c: nostr_event_get_tag_value, nostr_event_get_d_tag"]}
{"id": "C160", "title": "Reactions, reposts and replies reach the author they concern and say what was meant", "statement": "When a reaction, repost or reply made by the library (for the author's key in hexadecimal) is signed and published through the library, an author who subscribed through the library to events of that kind that mention their key is given that event among exactly the published events that mention them: signed by its writer, naming the event reacted to, reposted or replied to, the kind and the like or dislike that was meant; an event embedded in a repost can be read back unchanged.", "quantifier": "all keys, ids, contents, relays, threads, mentions, other events published before and after, JSON library conventions and configurations of the three sides", "why_tests_cant": "The claim spans constructor, signing, client, relay filter, relay serialization, client dispatch and parser; a unit test fixes one of them at a time and short lower-case inputs.", "anchors": ["src/nip25.c: nostr_reaction_create, nostr_reaction_parse, nostr_reaction_is_like", "src/nip18.c: nostr_repost_create, nostr_repost_parse", "src/nip10.c: nostr_event_add_reply_tags, nostr_event_add_mention_tag, nostr_event_get_reply_id", "src/relay_filter.c: nostr_filter_matches"]}
{"id": "C161", "title": "Whoever follows an author ends up with the author's latest published list", "statement": "When an author publishes, through the library, versions of their relay list or of a named list, and a reader subscribed through the library to that author's events of that kind (and name), then of the events handed to the reader, in whatever order the relay forwards them, the one that survives the library's rule for replaceable events is the author's latest version (newest time, then lowest id): signed by the author, and read back as the list the author made - the relays with their read and write use, the public items for anyone, the private ones for the author.", "quantifier": "all lists, keys, versions and other events published before, between and after, orders of arrival, JSON library conventions and configurations of the three sides", "why_tests_cant": "It depends on list writer, signing, client, relay filter, wire format, dispatch, replacement rule and list reader agreeing for every history and order of arrival; unit tests read back one list in memory.", "anchors": ["src/nip65.c: nostr_relay_list_to_event, nostr_relay_list_from_event", "src/nip51.c: nostr_list_to_event, nostr_list_from_event", "src/relay_protocol.c: nostr_event_compare_replaceable", "src/relay_filter.c: nostr_filter_matches"]}
{"id": "C162", "title": "A gift wrap gives away nothing but its recipient and the size class of the message", "statement": "Two private messages (or wrapped events) for the same recipient, whoever wrote them, whatever they say and whenever they were written and sealed, are indistinguishable on the outside: with the same random draws for the wrap the published events have the same key, time, kind and tags; their sizes are equal if the messages fall in the same size class; and they are equal altogether if the ciphertexts are. The size of an encrypted text tells the size class of the plaintext, no more. The message the recipient gets carries no signature of its writer, so that it proves nothing to others.", "quantifier": "all pairs of messages, senders, subjects, replies, times and random draws", "why_tests_cant": "It compares two executions (non-interference); a unit test looks at one wrap at a time and cannot show that a field does not depend on the sender.", "anchors": ["src/nip17.c: nostr_nip17_send_dm, nostr_nip17_create_gift_wrap, nostr_nip17_create_seal", "src/nip59.c: nostr_nip59_wrap_event, nostr_nip59_create_gift_wrap", "src/nip44.c: calc_padded_len, pad_plaintext"]}
{"id": "C163", "title": "Every configuration that is accepted builds a whole library", "statement": "For every choice of build options and every set of installed libraries for which configuration succeeds: every function that a compiled part of the library calls is in the library or in a library it is linked with, and is there once; a function of a feature that was switched off can still be called and reports that it is not supported, as documented; and the reported cryptographic backend is the one that signs and verifies.", "quantifier": "all settings of the 25 build options, all combinations of installed libraries and platforms", "why_tests_cant": "There are millions of combinations of options and libraries; each test run is in one of them, and a shared library is linked without complaint when functions are missing.", "anchors": ["CMakeLists.txt: FEATURES_REQUIRING_NOSCRYPT, NOSTR_FEATURE_ALL_NIPS, NOSTR_SOURCES, HAVE_CRYPTO_BACKEND", "src/features.c: nostr_feature_crypto_backend_info", "src/hd_key.c: secp256k1_ctx", "src/relay.c: cJSON.h"]}
{"id": "C164", "title": "A zap goes round", "statement": "A request made by the library and signed reaches the wallet server as the request it was: who asks, for whom, how much. If the server then publishes a receipt that holds the text of the request and an invoice over that amount, the recipient, subscribed by the library to receipts for their key, is given it; the library's check of it against the server's key succeeds, with the request taken from the receipt as well as with the sender's own copy, and reading the receipt gives the amount, the invoice and the sender's signed request with its comment.", "quantifier": "all requests, amounts, recipients, comments, invoices, receipts, relay traffic around them and ways the connection splits the stream", "why_tests_cant": "Four programs and three encodings are involved, with one JSON text inside another; tests check a fixed receipt.", "anchors": ["src/zap.c: nostr_zap_create_request, nostr_zap_parse_receipt, nostr_zap_verify", "src/relay.c: nostr_publish_event, nostr_subscribe", "src/event.c: nostr_event_to_json, nostr_event_from_json"]}
{"id": "C165", "title": "Only its author makes a relay forget an event", "statement": "On a relay that reads, checks and deletes by the library, an event is kept exactly if it came in an acceptable EVENT message (genuine, not expired, not too far in the future) and no acceptable deletion request of its author that names it came later. Nothing else that arrives, malformed or forged, removes it; everything kept is genuine. A deletion request that its author signs and publishes by the library takes away all it names of theirs and nothing of anybody else's; deletion requests themselves and versions newer than a request that names their address are left alone.", "quantifier": "all sequences of texts received, all clocks, all stores", "why_tests_cant": "Histories are unbounded and adversarial; tests try one request against one event.", "anchors": ["src/relay_protocol.c: nostr_event_validate_full, nostr_deletion_parse, nostr_deletion_authorized, nostr_deletion_authorized_address", "src/relay_message.c: nostr_client_msg_parse", "src/relay.c: nostr_publish_event"]}
{"id": "C166", "title": "Work and delegations survive signing and the relay", "statement": "An event that was mined to a target by either miner, then signed and published, reaches the author's followers with the work: the check of the proof of work succeeds there for every difficulty up to the target. If a delegation was attached before, the followers learn from it the delegator and its conditions, and its check succeeds exactly if the conditions admit the kind and the time of the event, mined or not.", "quantifier": "all events, targets, nonces, schedules of the mining threads, delegations, relay traffic around them and ways the connection splits the stream", "why_tests_cant": "Mining, tagging, signing, publishing and receiving each rewrite or recompute a part of the event; tests check each alone on one event.", "anchors": ["src/nip13.c: nostr_nip13_mine_event, nostr_nip13_mine_event_threaded, nostr_nip13_verify_pow", "src/nip26.c: nostr_event_add_delegation, nostr_event_verify_delegation", "src/event.c: nostr_event_sign", "src/relay.c: nostr_publish_event"]}
{"id": "C167", "title": "Relays that got the same events hold the same events", "statement": "A relay that uses the library's kind classes, identifier tag and version comparison to keep one version of what can be replaced holds exactly the events it accepted that are not ephemeral and of which no later version came, each once. Two such relays that accepted the same ids, from whatever texts, in whatever order and however often, with limits and clocks of their own, hold events with the same ids, authors, times, kinds, tags and contents, unless SHA-256 has collided.", "quantifier": "all sequences of texts received by two relays, all clocks and limits, all signature and hash functions meeting the contract", "why_tests_cant": "Agreement is about all orders and repetitions of any number of arrivals; tests try a few orders of a few events.", "anchors": ["src/relay_protocol.c: nostr_kind_is_replaceable, nostr_kind_is_addressable, nostr_kind_is_ephemeral, nostr_event_compare_replaceable, nostr_event_get_d_tag, nostr_event_validate_full", "src/relay_message.c: nostr_client_msg_parse", "src/event.c: nostr_event_from_json, nostr_event_compute_id"]}
{"id": "C168", "title": "A signature serves only what it was made for", "statement": "The library signs in two calls: signing an event and creating a delegation. If nobody but the holder of a key makes signatures of it, then every event that verifies as the holder's, whatever text it was read from, has the time, kind, tags and content of an event the holder signed, and every delegation that verifies in the holder's name was created by the holder for that author with those conditions, which admit the event; a signature made by one of the two calls is never good for the other. The only way out is a collision of SHA-256. The same holds of everything a relay accepts.", "quantifier": "all texts and events, all sequences of uses of the key, all hash and signature functions meeting the contract", "why_tests_cant": "It is about every text an attacker may send and about the two signed formats never coinciding; tests only try some altered events.", "anchors": ["src/event.c: nostr_event_sign, nostr_event_verify, nostr_event_from_json", "src/nip26.c: nostr_delegation_create, nostr_delegation_verify, nostr_event_verify_delegation", "src/relay_protocol.c: nostr_event_validate_full"]}
{"id": "C169", "title": "What is read as a wallet's answer was written by the wallet", "statement": "When a client reads a wallet's response, the text it gets was authenticated with the shared secret of the client and the author of the event: nobody who holds only keys of their own can make a text that the client reads as that author's answer. The same holds of the wallet's notifications, and of a client that verifies the event and compares its author with the wallet.", "quantifier": "all events, keys, texts and ciphers meeting the NIP-44 contract", "why_tests_cant": "A test reads answers made by its own wallet; that no stranger's answer is read is about all events anybody may send.", "anchors": ["src/nip47.c: nostr_nip47_parse_response_event, nostr_nip47_parse_notification_event", "src/nip44.c: nostr_nip44_decrypt"]}
{"id": "C170", "title": "A NIP-04 message cannot be altered without its key", "statement": "A text that nostr_nip04_decrypt reads as a message was made from that message by somebody with the shared secret: nobody who only sees texts, even with what they say, can make another text that the receiver reads as a message of their choice.", "quantifier": "all keys, vectors, messages, and all ways to alter a text", "why_tests_cant": "It is about every procedure an attacker may run on every text; tests flip some bytes of some text.", "anchors": ["src/nip44.c: nostr_nip04_encrypt, nostr_nip04_decrypt"]}
{"id": "C171", "title": "What is decrypted was encrypted by one of the two", "statement": "If nobody without the shared secret makes a message authentication code of it, then whatever text nostr_nip44_decrypt accepts, the message it gives was passed, byte for byte, to an encryption by somebody with that secret. A private message read as somebody's was, in addition, in a seal that they signed; the only way out is a collision of SHA-256.", "quantifier": "all texts, wraps, keys, sequences of calls, and ciphers meeting the contract", "why_tests_cant": "It is about every text an attacker may assemble from those in circulation; tests alter some bytes of one.", "anchors": ["src/nip44.c: nostr_nip44_encrypt, nostr_nip44_decrypt", "src/nip17.c: nostr_nip17_unwrap_dm"]}
{"id": "C172", "title": "A conversation hangs together", "statement": "In a conversation of any length, where an answer to the opening event names it with nostr_event_add_reply_tags and an answer to an answer names the root that nostr_event_get_root_id read from it and the event it answers, every event's root is the opening event, every event's parent is the one it answers, nostr_event_is_reply tells answers from the opening event, and going from parent to parent finds exactly the events in between. Events mentioned besides change nothing.", "quantifier": "all conversations, all identifiers, all other tags, all stores", "why_tests_cant": "It is a statement about chains of any length, in which each event is written from what was read from the one before; tests read one event's tags.", "anchors": ["src/nip10.c: nostr_event_add_reply_tags, nostr_event_get_root_id, nostr_event_get_reply_id, nostr_event_is_reply, find_e_tag_by_marker"]}
{"id": "C173", "title": "A key kept in writing is the same key", "statement": "A key pair in use, written down as hex, as nsec or as ncryptsec and read back into another key pair object, any number of times in any order, can always be read back and hands out the same private and public key. A text is refused by the readers of the other forms, so that no form is taken for another key.", "quantifier": "all keys, all sequences of forms, all passwords, work factors and salts, all earlier contents of the key pair objects", "why_tests_cant": "It is about chains of any length through three encodings and two libraries; tests check each encoding with some keys.", "anchors": ["src/key.c: nostr_privkey_to_hex, nostr_privkey_from_hex, nostr_keypair_from_private_key", "src/bech32.c: nostr_privkey_to_bech32, nostr_privkey_from_bech32, nostr_key_from_bech32", "src/nip49.c: nostr_ncryptsec_encrypt, nostr_ncryptsec_decrypt"]}
{"id": "C174", "title": "An HD tree may be walked in steps", "statement": "Deriving a key along a path and then along a second path gives the key, or the error, of deriving once along the joined path, whatever the texts of the paths; a path of one index is one child derivation however the index is spelled; the key of an account restored from words is the one reached from the stored branch m/44'/1237'", "quantifier": "for all keys, all path texts (accepted or refused), all indices below 2^31, all mnemonics, passphrases and accounts, over any child derivation", "why_tests_cant": "tests compare a few fixed paths with fixed vectors; splitting at every place and every spelling of every path is out of reach", "anchors": ["src/hd_key.c: nostr_hd_key_derive_path, nostr_hd_key_derive, nostr_mnemonic_to_keypair"]}
{"id": "C175", "title": "Spending limits hold under threads", "statement": "When threads check, grant, extend, create and destroy sessions at once, the amounts authorised against a permission in one accounting window never exceed its limit (as long as no authorised amount passes 2^64 when added to a limit, see C31), and over any stretch of time no longer than the interval they stay within twice the limit; each is charged to the first permission granted for the method or for all, within the window's interval; and an amount is refused for want of funds only if what was authorised before left no room for it. Wanted but false: once all calls have returned, only live sessions hold permissions", "quantifier": "for all numbers of threads and slots, all calls and arguments, all clocks that do not run backwards, all interleavings of the steps between lock operations, of the lookup, and of the reading, comparing and writing of a permission", "why_tests_cant": "a test sees a handful of schedules; a lost update or a check against a stale total needs one particular interleaving", "anchors": ["src/nip47_session.c: nostr_nip47_session_check_permission, nostr_nip47_session_add_permission, nostr_nip47_session_destroy, nostr_nip47_session_create, cleanup_expired_sessions"]}
{"id": "C176", "title": "Bech32 strings and references are the ones other programs use", "statement": "The strings written for keys, ids and references are exactly the bech32 texts of BIP-173 (checksum by division by the published generator over the field with 32 elements, published alphabet, zero-padded 5-bit digits) of the bytes NIP-19 asks for; and every such text made by any other program is read, with its records in any order, repeated or of unknown type: the decoders answer exactly what the records say and refuse everything else.", "quantifier": "all keys and ids, all prefixes, all buffers, all references, and all texts of all lists of TLV records up to the decoders' limits", "why_tests_cant": "A test compares a few published vectors; a wrong generator constant, bit order or padding rule is often consistent between the library's own encoder and decoder and only shows against other programs.", "anchors": ["src/bech32.c: bech32_polymod, bech32_hrp_expand, bech32_convert_bits, nostr_key_to_bech32, nostr_key_from_bech32", "src/nip21.c: decode_bech32_to_bytes, encode_bytes_to_bech32, parse_tlv, build_tlv, nostr_uri_parse, nostr_uri_encode"]}
{"id": "C177", "title": "Encrypted private keys are those of NIP-49", "statement": "A private key locked with the library is a text that NIP-49 describes: bech32 with the prefix ncryptsec of the version 2, the work factor, the salt, the nonce, the security byte and the XChaCha20-Poly1305 sealing of the key under scrypt of the password with the security byte as associated data. Conversely every text of NIP-49 that another program wrote is validated and opened to its private key under its password, and no text outside bech32 is taken for one. The password counts in its Unicode normal form NFKC, and every work factor is read.", "quantifier": "all private keys, passwords, work factors, security bytes, salts, nonces and texts; all scrypt and AEAD implementations that meet their contracts", "why_tests_cant": "A round trip with the library's own writer holds under any shared deviation from the format, and the handful of published vectors fixes one password, one work factor and one security byte.", "anchors": ["src/nip49.c: nostr_ncryptsec_encrypt, nostr_ncryptsec_decrypt, nostr_ncryptsec_validate"]}
{"id": "C178", "title": "Encrypted messages are those of NIP-44", "statement": "A message encrypted with the library is the text NIP-44 version 2 prescribes for its nonce: base64 of the version, the nonce, the ChaCha20 ciphertext of the padded message and the HMAC over nonce and ciphertext, with the message keys expanded from the conversation key of the two. Conversely every such text of a message of 1 to 65535 bytes that another program wrote is decrypted to its message by whoever holds the other private key.", "quantifier": "all key pairs, nonces, messages and configurations; all primitives that meet their contracts", "why_tests_cant": "The library reads its own messages whatever its padding is; only a comparison with the published scheme at every length shows the lengths at which two programs do not understand each other.", "anchors": ["src/nip44.c: nostr_nip44_encrypt, nostr_nip44_decrypt, calc_padded_len, pad_plaintext, unpad_plaintext"]}
{"id": "C179", "title": "Private messages from other programs are read", "statement": "A direct message that any program made as NIP-17 and NIP-59 describe it, with the author's signed seal encrypted to the recipient under a key used once and both layers encrypted as NIP-44 prescribes, is unwrapped by the recipient to exactly the message and its author. The message inside, whose JSON carries no signature, is imported with all its fields.", "quantifier": "all keys, nonces, messages and seals; all primitives that meet their contracts", "why_tests_cant": "The library's tests unwrap what the library itself wrapped; whether messages of other programs arrive depends on the length of both encrypted texts and on fields the library itself always writes.", "anchors": ["src/nip17.c: nostr_nip17_unwrap_dm", "src/nip44.c: nostr_nip44_decrypt", "src/event.c: nostr_event_from_json"]}
{"id": "C180", "title": "Private messages sent are those of NIP-17", "statement": "A direct message sent with the library is what NIP-17 and NIP-59 describe: a wrap under the key drawn for it holding, encrypted as NIP-44 prescribes, the JSON of a seal signed by the sender, which holds, encrypted in the same way, the JSON of the message. The message names its sender, its recipient, its text, its subject and what it answers.", "quantifier": "all keys, nonces, texts, subjects, replies and times; all primitives that meet their contracts", "why_tests_cant": "The library's tests open what the library itself wrapped; whether another program can depends on the length of both encrypted texts.", "anchors": ["src/nip17.c: nostr_nip17_send_dm, nostr_nip17_create_rumor, nostr_nip17_create_seal, nostr_nip17_create_gift_wrap", "src/nip44.c: nostr_nip44_encrypt"]}

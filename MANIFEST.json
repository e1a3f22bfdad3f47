{
 "claims": [
  {
   "property": "C01",
   "status": "proved",
   "theorems": [
    "C01_pubkey_bech32_roundtrip",
    "C01_privkey_bech32_roundtrip",
    "C01_event_id_bech32_roundtrip",
    "C01_encoders_in_bounds"
   ],
   "note": "All three encoder/decoder pairs over all 32-byte values; the public-key pair for every prefix of 1..31 characters (longer prefixes exceed the 90-character limit of the decoder).  Encoders never write outside the caller's buffer for any prefix and size."
  },
  {
   "property": "C02",
   "status": "proved",
   "theorems": [
    "C02_privkey_detects_four_errors",
    "C02_event_id_detects_four_errors",
    "C02_pubkey_detects_four_errors"
   ],
   "note": "Up to four substitutions anywhere in the data part, for all three decoders."
  },
  {
   "property": "C03",
   "status": "partial",
   "theorems": [
    "C03_hrp_checked_refuted",
    "C03_hrp_checked_partial"
   ],
   "note": "False: nostr_key_from_bech32 ignores the human-readable part, so every nsec string is accepted as a public key (refuted for all keys).  The other two decoders are strict (partial)."
  },
  {
   "property": "C04",
   "status": "partial",
   "theorems": [
    "C04_decoders_in_bounds_refuted",
    "C04_decoders_in_bounds_partial"
   ],
   "note": "False: 90-character strings (87 for the public-key decoder) store past data[84]; note1kfrvu has a valid checksum with five symbols, so the length passed to the regrouping wraps.  Proved safe at every other length."
  },
  {
   "property": "C05",
   "status": "proved",
   "theorems": [
    "C05_privkey_decode_canonical",
    "C05_event_id_decode_canonical",
    "C05_decode_injective"
   ],
   "note": "The accepted string is exactly the encoder's output."
  },
  {
   "property": "C06",
   "status": "proved",
   "theorems": [
    "C06_uri_roundtrip",
    "C06_uri_encode_in_bounds",
    "C06_tlv_fits_buffer"
   ],
   "note": "Round trip of every NIP-19 entity (nprofile, nevent, naddr, nrelay) through the nostr: URI, for all contents whose TLV payload fits the 4096-byte working buffer; output size bound proved."
  },
  {
   "property": "C07",
   "status": "proved",
   "theorems": [
    "C07_tlv_reader_exact",
    "C07_tlv_reader_safe",
    "C07_entity_decoders_safe"
   ],
   "note": "The TLV reader is proved equal to an independent specification on every byte string, and the entity decoders never reach undefined behaviour."
  },
  {
   "property": "C08",
   "status": "partial",
   "theorems": [
    "C08_no_relay_lost_refuted",
    "C08_no_relay_lost_partial"
   ],
   "note": "Refuted: a relay longer than 255 bytes is silently dropped while encoding succeeds. Partial: nothing is lost when every relay is at most 255 bytes and the payload fits."
  },
  {
   "property": "C09",
   "status": "partial",
   "theorems": [
    "C09_padded_length_refuted",
    "C09_padded_length_partial"
   ],
   "note": "Refuted (400 bytes are padded to 416, NIP-44 says 448); the exact set of lengths that agree is proved."
  },
  {
   "property": "C10",
   "status": "proved",
   "theorems": [
    "C10_pad_unpad",
    "C10_pad_rejects",
    "C10_unpad_exact",
    "C10_unpad_rejects"
   ],
   "note": "Padding/unpadding proved exact for every plaintext and every buffer, for any configured limits."
  },
  {
   "property": "C11",
   "status": "partial",
   "theorems": [
    "C11_large_never_decrypts",
    "C11_large_accepted",
    "C11_roundtrip_refuted",
    "C11_roundtrip_partial",
    "C11_decrypt_authenticated"
   ],
   "note": "Refuted: plaintexts of 61441..65535 bytes are encrypted but always refused by decryption. Proved for all others over contracts of the cipher and base64 libraries; nothing is released unless the tag verified."
  },
  {
   "property": "C12",
   "status": "partial",
   "theorems": [
    "C12_nip04_decrypt_clean_refuted",
    "C12_nip04_decrypt_clean_partial",
    "C12_nip44_decrypt_clean",
    "C12_nip44_encrypt_clean",
    "C12_nip04_encrypt_clean"
   ],
   "note": "Refuted: when the base64 reader returns 0 bytes the buffer is released twice. The exact condition is proved; every other path, and the three other encryption entry points, release each buffer once."
  },
  {
   "property": "C13",
   "status": "proved",
   "theorems": [
    "C13_hex_roundtrip",
    "C13_hex_decode_exact",
    "C13_hex_text_shape",
    "C13_hex_decode_in_bounds"
   ],
   "note": "Hex encode/decode are inverse, decode accepts exactly the even-length hex strings, bounds proved."
  },
  {
   "property": "C14",
   "status": "partial",
   "theorems": [
    "C14_key_hex_roundtrip",
    "C14_key_from_hex_strict_refuted",
    "C14_key_from_hex_partial"
   ],
   "note": "Refuted: the %2hhx scanner accepts white space and signs. Round trip and the exact-hex part are proved."
  },
  {
   "property": "C15",
   "status": "proved",
   "theorems": [
    "C15_memcmp_decides_equality"
   ],
   "note": "The constant-time comparison returns 0 iff the byte strings are equal, for all lengths."
  },
  {
   "property": "C16",
   "status": "partial",
   "theorems": [
    "C16_buffer_refuted",
    "C16_serialization_injective",
    "C16_same_id",
    "C16_cjson_injective_refuted",
    "C16_cjson_injective_partial"
   ],
   "note": "Proved for the text of the library's own serializer over all int64 times; the buffer it is written to cuts texts of events with many one-value tags, which may then share an id (C16_buffer_refuted, C154). Refuted for the cJSON build (times 2^53 and 2^53+1 collide); proved there below 10^15, assuming cJSON prints such integers in plain decimal."
  },
  {
   "property": "C17",
   "status": "partial",
   "theorems": [
    "C17_buffer_refuted",
    "C17_verify_exact",
    "C17_sign_then_verify",
    "C17_tamper_detected"
   ],
   "note": "Hash and signature functions are parameters: hash length 32 and sign/verify correctness are hypotheses. Tamper theorem is for the build without cJSON and reduces to a hash collision; it is about the canonical text, which the buffer of that build may cut (C17_buffer_refuted; see C154)."
  },
  {
   "property": "C18",
   "status": "proved",
   "theorems": [
    "C18_tags_preserved",
    "C18_refused_unchanged",
    "C18_accepted",
    "C18_limit_respected"
   ],
   "note": "Byte-addressed memory with 64-bit pointers stored in it and an arbitrary relocating allocator. Alignment is out of this statement (see C63)."
  },
  {
   "property": "C19",
   "status": "partial",
   "theorems": [
    "C19_buffer_refuted",
    "C19_buffer_partial"
   ],
   "note": "Refuted: 600 tags of one empty string overflow the buffer. Proved for at most 408 one-value tags (the default limit is 100 tags)."
  },
  {
   "property": "C20",
   "status": "proved",
   "theorems": [
    "C20_json_roundtrip"
   ],
   "note": "Tree level, plus the cJSON contract parse (print t) = t for the exported tree. A NULL content comes back as the empty string. Times up to 2^53 in magnitude."
  },
  {
   "property": "C21",
   "status": "partial",
   "theorems": [
    "C21_holds",
    "C21_imports",
    "C21_refuses",
    "C21_import_strict_refuted",
    "C21_import_partial",
    "C21_well_formed",
    "C21_well_formed_text"
   ],
   "note": "Refuted (missing fields, kind modulo 65536, lenient hex, undefined cast of huge created_at). Beside it: C21_import_partial and C21_holds say field by field what an imported event holds, for every document; C21_imports that every document stating an event within the limits is imported as that event, with any order, spelling and further fields; C21_refuses what each refusal means and that only a created_at outside 64 bits is undefined; C21_well_formed and C21_well_formed_text that an event read from any C string is a well-formed event, so that what is proved of well-formed events holds of all that is received."
  },
  {
   "property": "C22",
   "status": "proved",
   "theorems": [
    "C22_roundtrip",
    "C22_encrypt_succeeds",
    "C22_foreign_string"
   ],
   "note": "Full for the stated quantifier. scrypt and ChaCha20-Poly1305 are parameters with the contract open(seal(p)) = p, asked of plaintexts that are bytes; C22_meets applies both theorems to a cipher that keeps it. The API always writes security byte 2; strings with bytes 0 and 1 made elsewhere are covered by C22_foreign_string."
  },
  {
   "property": "C23",
   "status": "proved",
   "theorems": [
    "C23_fail_closed",
    "C23_wrong_password",
    "C23_validate_exact"
   ],
   "note": "The cipher may write unauthenticated plaintext over the output before rejecting the tag; the model keeps that write, and the theorem says it is wiped."
  },
  {
   "property": "C24",
   "status": "proved",
   "theorems": [
    "C24_difficulty_exact"
   ],
   "note": "Exact for every event and target."
  },
  {
   "property": "C25",
   "status": "partial",
   "theorems": [
    "C25_mined_partial",
    "C25_mined_verifies",
    "C25_not_found_exhaustive",
    "C25_refuted",
    "C25_one_value_refuted"
   ],
   "note": "Proved for events whose first nonce tag has at least two values (C25_mined_partial, with completeness of the search and acceptance by verification). False otherwise: C25_refuted shows, on the byte-level tag storage, that setting the nonce of a one-value nonce tag overwrites a neighbouring tag."
  },
  {
   "property": "C26",
   "status": "partial",
   "theorems": [
    "C26_all_schedules_partial",
    "C26_no_deadlock",
    "C26_joined",
    "C26_distinct_nonces_partial",
    "C26_distinct_nonces_refuted"
   ],
   "note": "Interleaving semantics at the level of program points. Correct result and absence of deadlock for every schedule, up to 2^31 threads. Distinct nonces hold for at most 1000 threads and 2^54 iterations each; refuted beyond 1000 threads. The hypothesis on the nonce tag is as in C25."
  },
  {
   "property": "C27",
   "status": "proved",
   "theorems": [
    "C27_wordlist",
    "C27_generate",
    "C27_generate_fits",
    "C27_counts",
    "C27_validate_exact",
    "C27_generated_valid",
    "C27_lossless",
    "C27_injective",
    "C27_other_sizes_refused"
   ],
   "note": "Both supported sizes, over the word list of the source; validation is characterised exactly (accepts iff the space-separated words spell an entropy with its checksum), generation is injective, always validates and fits 9 bytes per word."
  },
  {
   "property": "C28",
   "status": "partial",
   "theorems": [
    "C28_well_formed",
    "C28_fold",
    "C28_refuted",
    "C28_accepted_refuted",
    "C28_account",
    "C28_account_range"
   ],
   "note": "False as stated: malformed components are accepted (4294967296 and -4294967295 wrap to 0 and 1, a lone quote is 0', empty components and leading blanks or signs are skipped). Proved: well-formed paths give the fold; every success is a fold of some indices; the account path."
  },
  {
   "property": "C29",
   "status": "partial",
   "theorems": [
    "C29_valid",
    "C29_accepts",
    "C29_rejected",
    "C29_in_force_partial",
    "C29_last_ok_refuted",
    "C29_env"
   ],
   "note": "All call sequences with arbitrary arguments, environments and library-start outcomes. The part on the last accepted configuration is refuted: a second initialisation reports success but is ignored, even if invalid; proved for the first effective initialisation and the updates."
  },
  {
   "property": "C30",
   "status": "partial",
   "theorems": [
    "C30_refuted",
    "C30_exact_partial"
   ],
   "note": "False: the change callback runs with the non-recursive lock held, so any locked configuration call from it blocks; characterised exactly. Deadlock freedom between threads is C69."
  },
  {
   "property": "C31",
   "status": "partial",
   "theorems": [
    "C31_limits_partial",
    "C31_charged",
    "C31_window",
    "C31_refuted"
   ],
   "note": "Proved while no amount passes 2^64 when added to a limit; refuted in general (the running total wraps). Windows are shown to span one interval, and the charged permission is the first granted for the method or for all methods."
  },
  {
   "property": "C32",
   "status": "partial",
   "theorems": [
    "C32_bound",
    "C32_configured_refuted",
    "C32_distinct",
    "C32_frame",
    "C32_create_frame"
   ],
   "note": "The bound is the maximum configured when the table was set up; the maximum configured later is refuted. Ids compared on their first 64 characters."
  },
  {
   "property": "C33",
   "status": "proved",
   "theorems": [
    "C33_rate",
    "C33_refused"
   ],
   "note": "Per clock second, non-decreasing clock across creations."
  },
  {
   "property": "C34",
   "status": "partial",
   "theorems": [
    "C34_refuted",
    "C34_partial"
   ],
   "note": "Refuted: raising max_permissions after the first grant overruns the array. Proved while the limit is never raised."
  },
  {
   "property": "C35",
   "status": "proved",
   "theorems": [
    "C35_check",
    "C35_connection",
    "C35_modify",
    "C35_accepts"
   ],
   "note": "Soundness against the history of calls; completeness for a stored session with room under its limit. Extending revives an expired session that was not yet cleaned up."
  },
  {
   "property": "C36",
   "status": "partial",
   "theorems": [
    "C36_reads",
    "C36_refuted",
    "C36_exact_partial",
    "C36_admits",
    "C36_language",
    "C36_strict_refuted"
   ],
   "note": "Refuted for repeated bounds (the last one replaces the earlier, C36_refuted); exact for texts with at most one bound of each sort (C36_exact_partial). C36_language gives the accepted texts exactly; C36_strict_refuted lists texts outside the grammar that are accepted."
  },
  {
   "property": "C37",
   "status": "partial",
   "theorems": [
    "C37_text",
    "C37_text_injective",
    "C37_binding",
    "C37_roundtrip",
    "C37_event_sound",
    "C37_earlier_tag_refuted",
    "C37_refusals",
    "C37_create_refusals",
    "C37_create_reasons"
   ],
   "note": "Binding up to a collision of SHA-256, for a signature scheme where a signature is good for one digest only; the read-back needs that no earlier delegation tag is present (C37_earlier_tag_refuted). C37_refusals and C37_create_reasons say which error means what, for builds with libsecp256k1 (which parses the delegator's key first) and with noscrypt."
  },
  {
   "property": "C38",
   "status": "partial",
   "theorems": [
    "C38_exact",
    "C38_refuted",
    "C38_digits_partial",
    "C38_roundtrip"
   ],
   "note": "C38_exact characterises acceptance and every returned field. The full claim is refuted: a sign or white space is accepted as the first digit of a pair (strtol). C38_digits_partial and C38_roundtrip cover URIs whose key and secret are hexadecimal digits."
  },
  {
   "property": "C39",
   "status": "proved",
   "theorems": [
    "C39_bounded",
    "C39_empty",
    "C39_recover",
    "C39_cut"
   ],
   "note": "Bounds include the NUL that snprintf writes after a \\u escape. C39_cut: nothing is cut unless the destination is nearly full."
  },
  {
   "property": "C40",
   "status": "partial",
   "theorems": [
    "C40_pay_invoice",
    "C40_request",
    "C40_make_invoice_exact",
    "C40_list_exact",
    "C40_lookup_exact",
    "C40_keysend_exact",
    "C40_multi_exact",
    "C40_refuted",
    "C40_fits_partial",
    "C40_refused"
   ],
   "note": "The two builders that call snprintf once never leave the buffer (C40_pay_invoice, C40_request). The five that accumulate pos do (C40_refuted); the *_exact theorems give the exact condition. C40_fits_partial: texts that fit are written completely."
  },
  {
   "property": "C41",
   "status": "proved",
   "theorems": [
    "C41_parse",
    "C41_url"
   ],
   "note": "C41_parse is an iff over all strings and buffer sizes; C41_url decides every call and includes the terminating NUL."
  },
  {
   "property": "C42",
   "status": "partial",
   "theorems": [
    "C42_exact",
    "C42_refuted",
    "C42_partial",
    "C42_complete",
    "C42_verify"
   ],
   "note": "C42_exact is an iff for every text made of JSON tokens. The claim is refuted: the name is matched anywhere behind the opening brace of the names object, e.g. in another object. C42_partial and C42_complete cover documents in NIP-05's layout (arbitrary white space and other members); C42_verify lifts it to the whole verification."
  },
  {
   "property": "C43",
   "status": "partial",
   "theorems": [
    "C43_field_exact",
    "C43_root",
    "C43_reply",
    "C43_defined",
    "C43_roundtrip",
    "C43_refuted",
    "C43_atomic_refuted",
    "C43_refused"
   ],
   "note": "Exact for every event; identifiers over 64 characters are cut (C43_refuted), and a full tag list leaves the root tag behind (C43_atomic_refuted)."
  },
  {
   "property": "C44",
   "status": "partial",
   "theorems": [
    "C44_dm_exact",
    "C44_dm_unforgeable",
    "C44_event_partial",
    "C44_dm_impostor",
    "C44_event_refuted"
   ],
   "note": "Direct messages: exact characterisation and refusal of impostors. Generic unwrapping does not compare the inner author (C44_event_refuted, C44_event_partial)."
  },
  {
   "property": "C45",
   "status": "partial",
   "theorems": [
    "C45_seal",
    "C45_wrap",
    "C45_dm",
    "C45_event_partial",
    "C45_uniform",
    "C45_event_refuted"
   ],
   "note": "NIP-17: in range or fails, near-uniform. NIP-59 falls back to the exact time when the generator fails (C45_event_refuted)."
  },
  {
   "property": "C46",
   "status": "partial",
   "theorems": [
    "C46_repost_parse",
    "C46_reaction_parse",
    "C46_parse_defined",
    "C46_repost_event",
    "C46_repost_roundtrip",
    "C46_reaction_roundtrip",
    "C46_create_total",
    "C46_like",
    "C46_not_reaction",
    "C46_relay_refuted",
    "C46_kind_refuted"
   ],
   "note": "Parsers characterised on every event, round trips for all kinds; refuted parts: the relay may come from an earlier e tag than the id (C46_relay_refuted), an out-of-range k tag is reported as 65535 (C46_kind_refuted)."
  },
  {
   "property": "C47",
   "status": "proved",
   "theorems": [
    "C47_list",
    "C47_answers",
    "C47_refused"
   ],
   "note": "Slot-level model with allocation identities; any history with any pattern of allocation failures refines an abstract list, answers determine the list, nothing leaks or is freed twice."
  },
  {
   "property": "C48",
   "status": "partial",
   "theorems": [
    "C48_fits",
    "C48_parse_defined",
    "C48_roundtrip_partial",
    "C48_refuted"
   ],
   "note": "Writer in bounds and reader total on every string are full; the round trip holds for items whose strings fit the reader fields (64/1024/512/256 bytes) and is refuted beyond (a 256-byte petname is written and cannot be read)."
  },
  {
   "property": "C49",
   "status": "proved",
   "theorems": [
    "C49_list",
    "C49_query",
    "C49_from_event",
    "C49_roundtrip"
   ],
   "note": "Slot-level array refined to an abstract list under any allocation failures; queries, event reading on every event, and the round trip are full."
  },
  {
   "property": "C50",
   "status": "partial",
   "theorems": [
    "C50_exact",
    "C50_sound_partial",
    "C50_match_partial",
    "C50_refuted",
    "C50_list"
   ],
   "note": "Sound and exact for non-negative times and events with at most 256 values per tag name; refuted beyond (the 257th value is not seen, a negative until is ignored)."
  },
  {
   "property": "C51",
   "status": "proved",
   "theorems": [
    "C51_clone",
    "C51_independent",
    "C51_succeeds"
   ],
   "note": "Filters with at most 256 kinds (every parsed filter); any heap, any allocation failures. A clone is equal, made of fresh blocks, and survives the release of the original."
  },
  {
   "property": "C52",
   "status": "proved",
   "theorems": [
    "C52_meaning",
    "C52_order",
    "C52_arrival_order"
   ],
   "note": "Full for the stated quantifier."
  },
  {
   "property": "C53",
   "status": "proved",
   "theorems": [
    "C53_classes"
   ],
   "note": "Full for the stated quantifier."
  },
  {
   "property": "C54",
   "status": "partial",
   "theorems": [
    "C54_refuted",
    "C54_exact_partial"
   ],
   "note": "Exact but for an expiration of 0 (and unreadable ones), which means none; refuted for that."
  },
  {
   "property": "C55",
   "status": "partial",
   "theorems": [
    "C55_by_id",
    "C55_by_address_partial",
    "C55_refuted",
    "C55_kind"
   ],
   "note": "By id: full. By address: for addresses under 256 bytes of addressable events; refuted for longer ones and for replaceable events."
  },
  {
   "property": "C56",
   "status": "proved",
   "theorems": [
    "C56_chunking",
    "C56_short",
    "C56_messages",
    "C56_nul_refuted",
    "C56_cap_refuted",
    "C56_fragment_refuted"
   ],
   "note": "Full for the stated quantifier (C56_short: streams without NUL and below the cap, while memory lasts), for any reaction of the call-backs; C56_messages adds that the messages are exactly those of the stream. Outside it: refuted for NUL bytes, for streams above the cap, where fragments of an event are taken for messages."
  },
  {
   "property": "C57",
   "status": "proved",
   "theorems": [
    "C57_bounded"
   ],
   "note": "Full: every access checked, cap 10 MiB."
  },
  {
   "property": "C58",
   "status": "partial",
   "theorems": [
    "C58_dispatch_partial",
    "C58_unsubscribed_partial",
    "C58_notices",
    "C58_twice_refuted",
    "C58_failed_refuted",
    "C58_null_refuted"
   ],
   "note": "Proved when no subscribe call fails late; unsubscribing stops delivery if the id was subscribed once. Refuted otherwise: two subscriptions with one id, failed calls that stay registered, a NULL id."
  },
  {
   "property": "C59",
   "status": "partial",
   "theorems": [
    "C59_careful_partial",
    "C59_refused_refuted",
    "C59_create",
    "C59_refused_callback_refuted",
    "C59_memory_refuted",
    "C59_closed_refuted",
    "C59_again_refuted",
    "C59_inside_refuted"
   ],
   "note": "Safe and leak-free for careful histories (rules in RelayLifeSpec.v). Refuted without them: a refused connect leaves a dangling handle; destroying or reconnecting after a remote close leaks connection and thread; disconnecting or destroying inside the state call-back, and running out of memory for the URL copy, are undefined."
  },
  {
   "property": "C60",
   "status": "partial",
   "theorems": [
    "C60_signed_partial",
    "C60_amount_partial",
    "C60_unpaid_refuted",
    "C60_refuted",
    "C60_embedded_refuted"
   ],
   "note": "Key, signature, kinds and embedded id are bound, and the amount when the invoice carries a multiplier. Refuted: a receipt without an invoice (or with one whose amount is not read) passes whatever was asked, and the embedded request is compared by its claimed id only."
  },
  {
   "property": "C61",
   "status": "partial",
   "theorems": [
    "C61_multiplier_partial",
    "C61_reads",
    "C61_huge_refuted",
    "C61_whole_refuted",
    "C61_refuted",
    "C61_open",
    "C61_open_refuted"
   ],
   "note": "Exact for invoices with a multiplier up to all bitcoin. Refuted for whole-bitcoin amounts (the separator is read as a digit) and, from 2038 on, for invoices without amount."
  },
  {
   "property": "C62",
   "status": "partial",
   "theorems": [
    "C62_exact_refuted",
    "C62_refuted",
    "C62_early_partial"
   ],
   "note": "Exact condition for the overflow proved; safe when the last separator is among the first 32 characters."
  },
  {
   "property": "C63",
   "status": "partial",
   "theorems": [
    "C63_values_aligned_refuted",
    "C63_exact_partial"
   ],
   "note": "Refuted: two tags with a one-character value leave the second pointer array at offset 10. C63_exact_partial: for every history an array is aligned exactly if the texts stored before it fill a multiple of 8 bytes."
  },
  {
   "property": "C64",
   "status": "proved",
   "theorems": [
    "C64_hchacha_correct",
    "C64_xchacha_construction"
   ],
   "note": "Every input of the library's own HChaCha20 against an independent matrix formulation; the published vector is checked as an example."
  },
  {
   "property": "C65",
   "status": "partial",
   "theorems": [
    "C65_verify_bound_refuted",
    "C65_verify_partial"
   ],
   "note": "False: the id field is not recomputed. The partial theorem gives what verification establishes about the claimed id."
  },
  {
   "property": "C66",
   "status": "partial",
   "theorems": [
    "C66_race_free_refuted",
    "C66_partial"
   ],
   "note": "False: the loop condition reads the flag without the mutex (C66_race_free_refuted). C66_partial: under every schedule the event is used by one worker at a time and not after the call returned, no two workers write the flag at once, and the loop condition is the only read of a worker that can overlap a worker's write."
  },
  {
   "property": "C67",
   "status": "partial",
   "theorems": [
    "C67_seed",
    "C67_extra_space",
    "C67_refuted",
    "C67_canonical_partial"
   ],
   "note": "False: the text is hashed as given, so an extra space yields another seed although validation accepts it. Proved for texts with single spaces."
  },
  {
   "property": "C68",
   "status": "partial",
   "theorems": [
    "C68_child",
    "C68_master",
    "C68_path",
    "C68_account_key",
    "C68_in_place_refuted"
   ],
   "note": "OpenSSL's HMAC and libsecp256k1 are represented by their contracts (record provides). In-place derivation (child = parent) is shown to fail and destroy the key."
  },
  {
   "property": "C69",
   "status": "proved",
   "theorems": [
    "C69_no_torn_reads",
    "C69_monotone",
    "C69_no_deadlock"
   ],
   "note": "Interleaving model with field-by-field copies under the lock."
  },
  {
   "property": "C70",
   "status": "partial",
   "theorems": [
    "C70_short_id_refuted",
    "C70_refuted",
    "C70_init_refuted",
    "C70_partial"
   ],
   "note": "Refuted three ways (short id, failed strdup, failed first initialisation); proved when ids have 63 or more characters, allocations succeed and the permission limit is not raised."
  },
  {
   "property": "C71",
   "status": "partial",
   "theorems": [
    "C71_no_deadlock",
    "C71_right_session",
    "C71_exclusive",
    "C71_refuted",
    "C71_live_partial",
    "C71_race_refuted"
   ],
   "note": "Interleaving model of the two lock levels. Liveness of the session acted on is refuted: a call that looked its session up before a concurrent destroy still succeeds; get_connection then returns NULL."
  },
  {
   "property": "C72",
   "status": "partial",
   "theorems": [
    "C72_pay_invoice",
    "C72_pay_injective",
    "C72_make_invoice_refuted",
    "C72_make_invoice_partial",
    "C72_lookup_refuted",
    "C72_request_refuted",
    "C72_request_partial"
   ],
   "note": "Refuted for invoice descriptions over 2047 bytes, for lookups (no escaping), and for the encrypted request (cut at 8191 bytes). Proved for payment requests; partial for the others."
  },
  {
   "property": "C73",
   "status": "partial",
   "theorems": [
    "C73_refuted",
    "C73_partial",
    "C73_notification",
    "C73_reads",
    "C73_refuses"
   ],
   "note": "Refuted: the reply's p tag, which names the client, overrides the author's key. C73_partial covers replies without such a tag; notifications are right."
  },
  {
   "property": "C74",
   "status": "partial",
   "theorems": [
    "C74_partial",
    "C74_refuses",
    "C74_refuted"
   ],
   "note": "Refuted only for an event without content (strdup of NULL); otherwise proved (C74_partial)."
  },
  {
   "property": "C75",
   "status": "partial",
   "theorems": [
    "C75_exact",
    "C75_refuted"
   ],
   "note": "Refuted: each repeated lud16 parameter loses the previous block. C75_exact counts the lost blocks."
  },
  {
   "property": "C76",
   "status": "partial",
   "theorems": [
    "C76_usable",
    "C76_refuted",
    "C76_partial",
    "C76_cut"
   ],
   "note": "Refuted: a closing bracket inside a URL (IPv6 host) ends the list. C76_partial: URLs without it, with the refusal of more than 100. C76_cut: a response that breaks off after a URL or a comma yields the URLs that arrived."
  },
  {
   "property": "C77",
   "status": "partial",
   "theorems": [
    "C77_refuted",
    "C77_partial"
   ],
   "note": "Refuted: the reported length is not used to delimit the text. C77_partial: buffers with a NUL."
  },
  {
   "property": "C78",
   "status": "partial",
   "theorems": [
    "C78_refuted",
    "C78_exact_partial",
    "C78_none"
   ],
   "note": "False: the last e tag counts as the parent whatever its marker (C78_refuted); C78_exact_partial gives what is reported."
  },
  {
   "property": "C79",
   "status": "partial",
   "theorems": [
    "C79_event_partial",
    "C79_dm_partial",
    "C79_large",
    "C79_refuted"
   ],
   "note": "Holds when the texts of message and seal are at most 61440 bytes (C79_*_partial); longer seals are wrapped but never open (C79_large, C79_refuted)."
  },
  {
   "property": "C80",
   "status": "partial",
   "theorems": [
    "C80_refuted",
    "C80_partial"
   ],
   "note": "False for every message: the id is computed before the tags are added; a correct id would be a SHA-256 collision. C80_partial: it is the id of the message without its tags."
  },
  {
   "property": "C81",
   "status": "partial",
   "theorems": [
    "C81_exact",
    "C81_limit",
    "C81_refuted",
    "C81_defined_partial"
   ],
   "note": "The tags are exact (C81_exact, C81_limit). Definedness is refuted: nostr:note1kfrvu in a text reaches the decoder defect of C04; C81_defined_partial gives the exact safe region by reference length."
  },
  {
   "property": "C82",
   "status": "partial",
   "theorems": [
    "C82_public",
    "C82_roundtrip_partial",
    "C82_refuted"
   ],
   "note": "Public view full; the owner round trip holds up to 61440 bytes of private text (the C11 limit) and for items that fit (C48); refuted as an identity: titles of non-addressable kinds are dropped."
  },
  {
   "property": "C83",
   "status": "partial",
   "theorems": [
    "C83_refuted",
    "C83_partial"
   ],
   "note": "Refuted: no comparison of times. C83_partial: the answer is the same for all versions of an address, so a caller that compares the times removes exactly what NIP-09 says."
  },
  {
   "property": "C84",
   "status": "partial",
   "theorems": [
    "C84_validate",
    "C84_refuted"
   ],
   "note": "Exact when now + max_future does not overflow; refuted (undefined) otherwise."
  },
  {
   "property": "C85",
   "status": "proved",
   "theorems": [
    "C85_bounds"
   ],
   "note": "Full for the stated quantifier."
  },
  {
   "property": "C86",
   "status": "proved",
   "theorems": [
    "C86_iterate",
    "C86_lookup",
    "C86_binary",
    "C86_indexable"
   ],
   "note": "Full for the stated quantifier."
  },
  {
   "property": "C87",
   "status": "proved",
   "theorems": [
    "C87_decode",
    "C87_encode",
    "C87_checks"
   ],
   "note": "Full for the stated quantifier."
  },
  {
   "property": "C88",
   "status": "partial",
   "theorems": [
    "C88_parse_partial",
    "C88_end_to_end_partial",
    "C88_refuted",
    "C88_bounds"
   ],
   "note": "Exact for well-formed filter objects; refuted for wrongly typed members, non-objects, letter case and far-away times. All accepted filters are within the size limits."
  },
  {
   "property": "C89",
   "status": "proved",
   "theorems": [
    "C89_validate",
    "C89_satisfiable",
    "C89_tag_values"
   ],
   "note": "Full."
  },
  {
   "property": "C90",
   "status": "proved",
   "theorems": [
    "C90_release",
    "C90_parse",
    "C90_deletion"
   ],
   "note": "Full, except that the times must be in range (C88)."
  },
  {
   "property": "C91",
   "status": "partial",
   "theorems": [
    "C91_honest_partial",
    "C91_unchecked_refuted"
   ],
   "note": "Refuted: neither signature nor filter is checked; even an empty object is delivered as an event of zeros. C91_honest_partial: behind a relay that forwards what matches, everything the handler is given matches the filters, and verifies if what was published verified."
  },
  {
   "property": "C92",
   "status": "partial",
   "theorems": [
    "C92_stuck_refuted",
    "C92_partial",
    "C92_refuted"
   ],
   "note": "Refuted: anything but white space or an array in front blocks the connection for good. C92_partial: the messages before it are dispatched, and blanks and line ends do no harm."
  },
  {
   "property": "C93",
   "status": "partial",
   "theorems": [
    "C93_request",
    "C93_close",
    "C93_wellformed",
    "C93_trailing_refuted"
   ],
   "note": "What is sent is proved exactly, and well nested if the filters are; refuted for filters with trailing text, which the check ignores."
  },
  {
   "property": "C94",
   "status": "partial",
   "theorems": [
    "C94_refuted",
    "C94_connected"
   ],
   "note": "CONNECTED is accurate (careful histories); CONNECTING is refuted: after a remote close it is reported although nothing is attempted."
  },
  {
   "property": "C95",
   "status": "partial",
   "theorems": [
    "C95_apart_partial",
    "C95_refuted"
   ],
   "note": "Safe when calls and look-ups do not overlap; refuted otherwise, the list is not protected by the mutex."
  },
  {
   "property": "C96",
   "status": "partial",
   "theorems": [
    "C96_request_partial",
    "C96_refuted",
    "C96_amount"
   ],
   "note": "Holds for up to 15 relays; further relays are dropped silently. The amount always reads back."
  },
  {
   "property": "C97",
   "status": "partial",
   "theorems": [
    "C97_exact",
    "C97_refuted",
    "C97_checksum_refuted",
    "C97_codes",
    "C97_short_partial"
   ],
   "note": "Exact acceptance proved: no checksum, no alphabet, at most 90 characters. Refuted both ways."
  },
  {
   "property": "C98",
   "status": "partial",
   "theorems": [
    "C98_parse_partial",
    "C98_verify_partial",
    "C98_repeated_refuted",
    "C98_memory_refuted",
    "C98_uninitialised_refuted",
    "C98_preimage_refuted"
   ],
   "note": "Holds with NULL-initialised outputs, 65 bytes for the preimage and no repeated tag. Refuted otherwise; verification also leaks the parsed request if the copy of the invoice fails."
  },
  {
   "property": "C99",
   "status": "partial",
   "theorems": [
    "C99_accepted_partial",
    "C99_unasked",
    "C99_refuted"
   ],
   "note": "Holds for invoices with a multiplier; refuted for whole-bitcoin invoices."
  },
  {
   "property": "C100",
   "status": "partial",
   "theorems": [
    "C100_exact",
    "C100_errors",
    "C100_request_partial",
    "C100_event",
    "C100_accessors",
    "C100_refuted",
    "C100_undefined_refuted"
   ],
   "note": "C100_exact characterises acceptance for all trees (single events and filters as nostr_event_from_json and nostr_filter_parse/validate read them), C100_errors the status codes, C100_request_partial the selection for well-formed filters and events with at most 256 tags per name, C100_event the event round trip (|created_at| <= 2^53), C100_accessors the accessors. The NIP-01 shape is not enforced (C100_refuted) and a far-away since/until is undefined behaviour (C100_undefined_refuted). cJSON printing and parsing is assumed to round-trip the elements concerned."
  },
  {
   "property": "C101",
   "status": "partial",
   "theorems": [
    "C101_says",
    "C101_full_partial",
    "C101_refuted",
    "C101_delivered"
   ],
   "note": "C101_says gives the exact message for all inputs up to the field sizes; C101_full_partial is the claim for texts that fit; C101_refuted shows cut notices, rounded and negative counts and a cut inside a UTF-8 character; C101_delivered composes the relay side with the client side's dispatch."
  },
  {
   "property": "C102",
   "status": "proved",
   "theorems": [
    "C102_buffer"
   ],
   "note": "All messages, buffers and sizes; the printed text is whatever the JSON library prints."
  },
  {
   "property": "C103",
   "status": "partial",
   "theorems": [
    "C103_parse",
    "C103_free",
    "C103_refuted"
   ],
   "note": "C103_parse and C103_free hold for all allocation patterns, given no undefined conversion; an event counts as one block. The last clause is false for EVENT and AUTH (C103_refuted)."
  },
  {
   "property": "C104",
   "status": "partial",
   "theorems": [
    "C104_exact",
    "C104_request_partial",
    "C104_errors",
    "C104_authentic",
    "C104_refuted",
    "C104_incomplete_refuted",
    "C104_unsigned_refuted"
   ],
   "note": "C104_exact and C104_errors settle what is read and what is refused, C104_authentic what is known of the sender. Not full: ids over 64 and methods over 31 bytes are cut (C104_refuted), requests without id or method are accepted (C104_incomplete_refuted), the event's own id and signature are not checked (C104_unsigned_refuted)."
  },
  {
   "property": "C105",
   "status": "partial",
   "theorems": [
    "C105_error",
    "C105_result_partial",
    "C105_json",
    "C105_public_key_refuted",
    "C105_refuted"
   ],
   "note": "C105_error is full for errors; C105_result_partial covers results that do not begin with a JSON text, C105_json says what happens to the others. C105_refuted and C105_public_key_refuted: a hex public key starting with a digit is sent as a number. The JSON library's reading back of what it printed, the cipher and base64 are contracts."
  },
  {
   "property": "C106",
   "status": "partial",
   "theorems": [
    "C106_event_partial",
    "C106_made",
    "C106_refuted"
   ],
   "note": "C106_event_partial is full except for the p tag under a configuration with max_tags = 0 (C106_refuted: the failing nostr_event_add_tag is ignored). C106_made: nothing but encryption and signing can fail (memory aside)."
  },
  {
   "property": "C107",
   "status": "proved",
   "theorems": [
    "C107_create",
    "C107_destroy",
    "C107_content",
    "C107_tag",
    "C107_kept",
    "C107_run",
    "C107_refuted",
    "C107_import_refuted",
    "C107_alias_refuted"
   ],
   "note": "Full for the stated quantifier. The refutations are about callers outside the hypotheses: C107_refuted / C107_import_refuted (the caller destroys what a failing create/import left in its variable: double free), C107_alias_refuted (setting the content to the event's own content string reads freed memory)."
  },
  {
   "property": "C108",
   "status": "proved",
   "theorems": [
    "C108_import",
    "C108_refuted"
   ],
   "note": "Full for the stated quantifier: C108_import is the claim. C108_refuted: the stronger reading 'a failing call leaves the event as it was' is false for nostr_event_set_content, which frees the old content before duplicating the new one."
  },
  {
   "property": "C109",
   "status": "partial",
   "theorems": [
    "C109_id",
    "C109_own_partial",
    "C109_content_dropped",
    "C109_refuted",
    "C109_leak_refuted",
    "C109_own_refuted"
   ],
   "note": "False of the faithful model. What holds (C109_id, C109_own_partial): with every allocation granted the id is that of the event and nothing is lost; otherwise success means the id of some 'thin' tree (the event's tree with members or elements missing). C109_content_dropped: for every event without tags one failing allocation gives the id of the event without its content, reported as success. C109_leak_refuted: blocks lost. C109_own_refuted: the build without cJSON dereferences NULL when its first allocation fails."
  },
  {
   "property": "C110",
   "status": "partial",
   "theorems": [
    "C110_verify",
    "C110_sign",
    "C110_forged",
    "C110_refuted",
    "C110_sign_refuted"
   ],
   "note": "False of the faithful model. What holds: C110_verify, C110_sign (with memory the usual meaning; without it the id checked or signed is that of a thin tree). C110_forged: adding a tag to a validly signed event leaves it accepted under one failing allocation. C110_sign_refuted: signing reports success for an event that does not verify."
  },
  {
   "property": "C111",
   "status": "partial",
   "theorems": [
    "C111_export",
    "C111_signature_dropped",
    "C111_refuted",
    "C111_leak_refuted"
   ],
   "note": "False of the faithful model. What holds: C111_export. C111_signature_dropped, C111_refuted: one failing allocation exports the event without its signature with OK; C111_leak_refuted: blocks lost."
  },
  {
   "property": "C112",
   "status": "partial",
   "theorems": [
    "C112_partial",
    "C112_limits_partial",
    "C112_refuted",
    "C112_never_zero",
    "C112_memory_refuted",
    "C112_null_refuted"
   ],
   "note": "C112_partial / C112_limits_partial: the claim for numbers up to 2^53 and all allocations granted; with failing allocations the text is that of such a document with parts missing. Missing for the full claim: amounts and kinds above 2^53 are rounded (C112_refuted); a document lacking its limits can be reported as OK (C112_memory_refuted); a retention time of 0, NIP-11's 'not stored', is never said (C112_never_zero); a retention entry with a count but NULL kinds is dereferenced (C112_null_refuted)."
  },
  {
   "property": "C113",
   "status": "proved",
   "theorems": [
    "C113_info",
    "C113_limits",
    "C113_retry"
   ],
   "note": "Full for the stated quantifier: info structs whose arrays are as long as their counts say (info_ok), buffers at least as long as the size given. cJSON's printed text is taken to contain no zero byte."
  },
  {
   "property": "C114",
   "status": "partial",
   "theorems": [
    "C114_nips",
    "C114_free",
    "C114_leak_refuted",
    "C114_literal_refuted",
    "C114_alias_refuted",
    "C114_refuted"
   ],
   "note": "C114_nips: every sequence of calls and failures; C114_free: everything is released but the kinds of admission and subscription fees (C114_leak_refuted). C114_literal_refuted: a fee unit that is a string literal is passed to free. C114_alias_refuted: setting the list from its own array reads freed memory. C114_refuted: a failing set loses the old list."
  },
  {
   "property": "C115",
   "status": "partial",
   "theorems": [
    "C115_balance_partial",
    "C115_own_partial",
    "C115_refuted",
    "C115_fraction_refuted",
    "C115_own_refuted"
   ],
   "note": "Proved for whole balances below 2^64 (C115_balance_partial) and, without cJSON, for balances written directly after the first key (C115_own_partial). False for negative balances (undefined conversion, C115_refuted), fractions (C115_fraction_refuted) and several texts without cJSON (C115_own_refuted)."
  },
  {
   "property": "C116",
   "status": "partial",
   "theorems": [
    "C116_payment_partial",
    "C116_methods_partial",
    "C116_refuted",
    "C116_methods_refuted",
    "C116_count_refuted"
   ],
   "note": "Proved when the members are there (C116_payment_partial) and when all methods are strings (C116_methods_partial). False otherwise: an empty answer leaves both variables unset (C116_refuted), an entry that is no string leaves its slot of the array unset (C116_methods_refuted), and without memory the count is set with no array (C116_count_refuted)."
  },
  {
   "property": "C117",
   "status": "proved",
   "theorems": [
    "C117_payment",
    "C117_info",
    "C117_response",
    "C117_notification"
   ],
   "note": "Full for the stated quantifier. The parsed tree counts as one block."
  },
  {
   "property": "C118",
   "status": "partial",
   "theorems": [
    "C118_calls",
    "C118_start",
    "C118_partial",
    "C118_refuted",
    "C118_forever_refuted",
    "C118_never_refuted"
   ],
   "note": "C118_calls and C118_start: in every reachable state the calls that look at the flag (keys, delegation) find a usable context or report an error, and succeed once resources are there. C118_partial: the rest too, as long as no start ever fails. C118_refuted, C118_forever_refuted: after one failing start the calls that look at the pointer (event signing and verifying, NIP-44) run on an unusable context, for ever. C118_never_refuted: a wallet request never starts the library."
  },
  {
   "property": "C119",
   "status": "partial",
   "theorems": [
    "C119_progress",
    "C119_started_partial",
    "C119_flag_partial",
    "C119_refuted",
    "C119_cleanup_refuted"
   ],
   "note": "C119_progress: no deadlock and no double start, with clean-ups and failures. C119_started_partial, C119_flag_partial: every use finds a usable context if the library was started first, or the call looks at the flag, and nobody cleans up. C119_refuted: two threads, no failure: a call that looks at the pointer uses a context that is not ready. C119_cleanup_refuted: a clean-up in another thread takes the context away."
  },
  {
   "property": "C120",
   "status": "partial",
   "theorems": [
    "C120_success",
    "C120_partial",
    "C120_validate",
    "C120_export",
    "C120_refuted",
    "C120_mixture_refuted",
    "C120_overlap_refuted"
   ],
   "note": "C120_success, C120_validate and C120_export are full. C120_partial: a pair always matches if keys are only imported into pairs that are not in use. C120_refuted: a failing import into a pair in use leaves it in use with a private key of zeros beside the old public key; C120_mixture_refuted: or with half of each key. C120_overlap_refuted: in ISO C each import of a hexadecimal key copies 32 bytes onto themselves with memcpy, which is undefined."
  },
  {
   "property": "C121",
   "status": "proved",
   "theorems": [
    "C121_openssl",
    "C121_mbedtls",
    "C121_mbed_bytes"
   ],
   "note": "The generator's answers are a parameter; assumed of it that a granted request for n bytes fills n bytes. mbedTLS and OpenSSL builds."
  },
  {
   "property": "C122",
   "status": "partial",
   "theorems": [
    "C122_keys",
    "C122_sign",
    "C122_messages",
    "C122_ncryptsec",
    "C122_wraps",
    "C122_close",
    "C122_partial",
    "C122_request_refuted",
    "C122_connect_refuted",
    "C122_mnemonic_refuted",
    "C122_mnemonic_buffer_refuted",
    "C122_derive_refuted",
    "C122_nsec_refuted",
    "C122_failure_refuted"
   ],
   "note": "The model is the control flow with open tests (a superset of the executions) and what happens to each place that may hold a secret; a sound analysis (check_sound) is proved once for all programs. C122_keys, C122_sign, C122_messages, C122_ncryptsec, C122_wraps, C122_close are full for their functions. C122_partial: the others leave secrets at most in the named places. The refutations give the executions that do: a wallet request and reading a wallet link (with success), checking a mnemonic and all that starts from one (with success), writing or reading an nsec (with success), and failing derivations, a too small mnemonic buffer, malformed hexadecimal keys, failing delegation signatures. Since tests are open in the model, each refuting path was checked by hand against the C. Builds with noscrypt; registers, compiler copies and the libraries' own copies are outside."
  },
  {
   "property": "C123",
   "status": "partial",
   "theorems": [
    "C123_nip04",
    "C123_partial",
    "C123_refuted"
   ],
   "note": "Same model. C123_nip04: NIP-04 and gift wrapping leave nothing. C123_partial: the others leave plaintexts at most in the named blocks. C123_refuted: NIP-44 encryption frees the padded message unwiped, decryption the decrypted and the unpadded message, hence unwrapping too."
  },
  {
   "property": "C124",
   "status": "partial",
   "theorems": [
    "C124_partial",
    "C124_others",
    "C124_refuted",
    "C124_threads_partial",
    "C124_threads_refuted"
   ],
   "note": "The full statement is refuted: reposts (NIP-18) and delegation (NIP-26) can be enabled but neither call mentions them, and a build with threading defined as 0 still lists threading (C124_refuted); two threads in their first call of the list can leave a caller that has already returned with a truncated list (C124_threads_refuted). C124_partial proves the claim for every build and every other feature, C124_others for every other number, C124_threads_partial for every interleaving after one call has returned."
  },
  {
   "property": "C125",
   "status": "partial",
   "theorems": [
    "C125_partial",
    "C125_refuted",
    "C125_format"
   ],
   "note": "C125_refuted: NOSTR_ERR_NOT_SUPPORTED and NOSTR_RELAY_ERR_STORAGE have the text for unknown codes. C125_partial proves all the other codes distinct; C125_format is the whole claim about formatting."
  },
  {
   "property": "C126",
   "status": "proved",
   "theorems": [
    "C126_free",
    "C126_remove",
    "C126_create",
    "C126_set",
    "C126_add",
    "C126_edit",
    "C126_from_event",
    "C126_run",
    "C126_to_event"
   ],
   "note": "Heap model of src/nip51.c (ListMem.v): realloc releases the old block; the cipher calls hand out one block each. C126_to_event may also refuse when the tags would need over 2^62 bytes."
  },
  {
   "property": "C127",
   "status": "partial",
   "theorems": [
    "C127_partial",
    "C127_alias_refuted",
    "C127_set_refuted",
    "C127_to_event_refuted"
   ],
   "note": "Adding, removing and reading are as claimed (C127_partial). Refuted: setting a text to the list's own copy of it reads a released block; a failing set loses the old text; a failing publication can leave a released event in the variable (nostr_event_create, as in C107)."
  },
  {
   "property": "C128",
   "status": "proved",
   "theorems": [
    "C128_free",
    "C128_create",
    "C128_add",
    "C128_from_event",
    "C128_query",
    "C128_free_urls",
    "C128_to_event",
    "C128_run"
   ],
   "note": "Heap model of src/nip65.c (RelayListMem.v): realloc releases the old block. C128_to_event may also refuse when the tags would need over 2^62 bytes (never with 256 addresses that fit in memory)."
  },
  {
   "property": "C129",
   "status": "partial",
   "theorems": [
    "C129_partial",
    "C129_count_refuted",
    "C129_from_event_refuted",
    "C129_to_event_refuted"
   ],
   "note": "The list is unchanged and nothing is kept (C129_partial). Refuted: a refused query leaves the count unwritten; reading from an event of another kind leaves the old pointer in the variable; a failing publication can leave a released event there (nostr_event_create, as in C107)."
  },
  {
   "property": "C130",
   "status": "partial",
   "theorems": [
    "C130_publish",
    "C130_subscribe_partial",
    "C130_unsubscribe_partial",
    "C130_id_refuted",
    "C130_injected_refuted",
    "C130_memory_refuted"
   ],
   "note": "Publishing is proved in full (C130_publish: memory, status, and the relay reads exactly the event, for every library satisfying json_library; JsonLibProofs.v shows that such libraries exist, one of them laying texts out as cJSON_Print does). Subscribing and unsubscribing are proved for ids of up to 64 printable characters and well-formed filter lists. Refuted beyond: the client accepts ids of up to 256 characters, which its own relay side refuses (C130_id_refuted); only the beginning of the filters is checked, so what is sent may be no JSON (C130_injected_refuted); and when memory runs out success may be reported for an event sent without its signature (C130_memory_refuted)."
  },
  {
   "property": "C131",
   "status": "proved",
   "theorems": [
    "C131_heard"
   ],
   "note": "Full for the stated quantifier: for call-backs that do not themselves subscribe or unsubscribe. json_library is the contract asked of the JSON library: it writes trees as RFC 8259 texts (integers of up to 15 digits) and reads every such text nested at most 1000 deep; compact_library and pretty_library give two instances."
  },
  {
   "property": "C132",
   "status": "partial",
   "theorems": [
    "C132_own_partial",
    "C132_cjson_partial",
    "C132_json",
    "C132_refuted"
   ],
   "note": "Holds, in both builds, for events whose strings contain no control characters but the seven NIP-01 escapes (with cJSON: and times of up to 15 digits, the contract for its number format being stated as a hypothesis). False beyond: other control characters are written as \\\\u escapes, which NIP-01 does not ask for (C132_refuted). That the text is JSON and reads as the array of the fields is proved for all events (C132_json, C132_read)."
  },
  {
   "property": "C133",
   "status": "partial",
   "theorems": [
    "C133_read_partial",
    "C133_written",
    "C133_refuted",
    "C133_extra_refuted",
    "C133_long_refuted"
   ],
   "note": "Proved for every RFC 8259 layout of private items whose strings fit their fields and hold no backspace or form feed (C133_read_partial), and for what the library writes (C133_written: every private list is such a JSON text). Refuted beyond: the short escapes for backspace and form feed are read as letters (C133_refuted), a quotation mark in a string after the fourth makes the whole list unreadable (C133_extra_refuted), and so does one string longer than its field (C133_long_refuted)."
  },
  {
   "property": "C134",
   "status": "partial",
   "theorems": [
    "C134_payload_partial",
    "C134_asked_partial",
    "C134_type",
    "C134_event_partial",
    "C134_own_pay_partial",
    "C134_own_partial",
    "C134_own_refuted",
    "C134_cut_refuted",
    "C134_method_refuted",
    "C134_tail_refuted",
    "C134_amount_refuted",
    "C134_type_refuted"
   ],
   "note": "Proved for every request of NIP-47 with C strings and numbers of up to 15 digits, a method name of at most 42 bytes and a text within the buffer (C134_asked_partial, C134_payload_partial, C134_event_partial); builds without cJSON: for strings that need no escape (C134_own_partial, C134_own_pay_partial). Refuted beyond: long parameters (C134_cut_refuted) and long method names (C134_method_refuted) are cut without an error, text after the parameters becomes part of the request (C134_tail_refuted), amounts go through a double (C134_amount_refuted), TLV types from 2^63 on collapse (C134_type_refuted), and builds without cJSON do not escape (C134_own_refuted)."
  },
  {
   "property": "C135",
   "status": "partial",
   "theorems": [
    "C135_kept",
    "C135_partial",
    "C135_empty",
    "C135_improper",
    "C135_dropped_refuted",
    "C135_lost_refuted",
    "C135_keysend_lost_refuted"
   ],
   "note": "The four builders without arrays lose nothing whatever fails (C135_kept), the two with arrays lose nothing unless an allocation fails (C135_partial). Refuted: success with the amount left out (C135_dropped_refuted), the array is lost when an element cannot be made (C135_lost_refuted, C135_keysend_lost_refuted). cJSON's allocations as in CjsonMem.v."
  },
  {
   "property": "C136",
   "status": "partial",
   "theorems": [
    "C136_partial",
    "C136_defaults",
    "C136_others",
    "C136_rubbish",
    "C136_refuted",
    "C136_empty_refuted",
    "C136_negative_refuted"
   ],
   "note": "Partial: the response timeout is documented up to 300000 ms but more than 60000 is refused (C136_refuted). An empty variable counts as 0, which makes starting fail (C136_empty_refuted). A negative number close to -2^64 is accepted as a small positive one (C136_negative_refuted)."
  },
  {
   "property": "C137",
   "status": "partial",
   "theorems": [
    "C137_agree",
    "C137_refused",
    "C137_secp_partial",
    "C137_secp_differs",
    "C137_refuted",
    "C137_builds_refuted"
   ],
   "note": "Holds in the build with noscrypt (C137_agree). In the build with libsecp256k1 it fails whenever the two points differ in parity (C137_secp_differs): the library hashes the compressed point, parity included, while public keys travel without it. That secret is also not the promised first coordinate (C137_builds_refuted)."
  },
  {
   "property": "C138",
   "status": "partial",
   "theorems": [
    "C138_cbc",
    "C138_reads",
    "C138_writes",
    "C138_partial",
    "C138_distinct",
    "C138_refused",
    "C138_refuted"
   ],
   "note": "Partial: for texts shorter than 2^31 - 16 bytes. The length goes to OpenSSL as an int, so of a text of 2^32 + 5 bytes only five are sent (C138_refuted). The contract aes_ok follows from the block cipher being a permutation (C138_cbc)."
  },
  {
   "property": "C139",
   "status": "partial",
   "theorems": [
    "C139_request",
    "C139_free",
    "C139_free_response",
    "C139_response",
    "C139_refuted",
    "C139_leak_refuted",
    "C139_params_refuted",
    "C139_dangling_refuted"
   ],
   "note": "Partial: never undefined, memory accounted for, and right if nothing fails (C139_request, C139_response, C139_free). Short of memory, success may mean a request without its params (C139_params_refuted), an answer without id, result or p tag or with the result turned into a string (C139_refuted), and a parsed result that is lost (C139_leak_refuted). After a failing nostr_event_create the caller's variable points to a released event (C139_dangling_refuted)."
  },
  {
   "property": "C140",
   "status": "partial",
   "theorems": [
    "C140_delivered_partial",
    "C140_verifies"
   ],
   "note": "C140_delivered_partial composes C130, C100, C88, C131 and C56: it needs the subscription's id to have been stored (memory), an id of at most 64 printable characters, at most 10 filters of depth at most 100, at most 256 tags of one name per event and publications not short of memory; C130_id_refuted, C130_injected_refuted and C130_memory_refuted show what happens outside. The relay's forwarding loop is the spec's, as the library has none. C140_verifies adds that verification carries over."
  },
  {
   "property": "C141",
   "status": "proved",
   "theorems": [
    "C141_create",
    "C141_get",
    "C141_verify",
    "C141_free",
    "C141_event",
    "C141_attach",
    "C141_empty",
    "C141_reason_refuted"
   ],
   "note": "Full for the stated quantifier; beside the claim, C141_reason_refuted shows that a shortage is not always reported as one: a valid delegation whose kinds cannot be stored is called an invalid event."
  },
  {
   "property": "C142",
   "status": "proved",
   "theorems": [
    "C142_rumor",
    "C142_seal",
    "C142_no_time",
    "C142_wrap",
    "C142_send",
    "C142_wrap_event",
    "C142_unwrap_dm",
    "C142_unwrap_event",
    "C142_variable_refuted",
    "C142_seal_variable_refuted",
    "C142_whole_refuted",
    "C142_leak_refuted"
   ],
   "note": "Full for the stated quantifier. Beside the claim: C142_variable_refuted (even with enough memory, a rumor with a malformed signature makes opening fail with the caller's variable still holding the address of the released event; the sender chooses that signature), C142_seal_variable_refuted (the same while sealing, when the event's tag store cannot be made), C142_whole_refuted (success short of memory may seal a message without its text) and C142_leak_refuted (a tag that cannot be attached to the JSON is lost)."
  },
  {
   "property": "C143",
   "status": "partial",
   "theorems": [
    "C143_requests",
    "C143_content",
    "C143_tags",
    "C143_refuted",
    "C143_open",
    "C143_message_refuted"
   ],
   "note": "Requests: exact (C143_requests). Content: never longer than announced while max_content_size is at most 65536, as by default (C143_content). False for the rest: the document announces 2000 tags, while every valid configuration refuses more than 1000 and the default one more than 100 (C143_tags), the limit of a filter is not compared with max_limit, and without a configuration or with a larger max_content_size tags and content are not held to the announcement (C143_refuted)."
  },
  {
   "property": "C144",
   "status": "partial",
   "theorems": [
    "C144_given",
    "C144_bad_id",
    "C144_event_partial",
    "C144_refuted",
    "C144_empty_refuted"
   ],
   "note": "Full for client messages and filters of positive length (C144_given). False for events: the length is ignored, so a text without a zero byte is read beyond its end and what follows decides the answer (C144_refuted; C144_event_partial says what holds with a zero byte after the text, and that a malformed key or signature is reported as a bad id). False for length zero, where the text is read up to a zero byte (C144_empty_refuted)."
  },
  {
   "property": "C145",
   "status": "proved",
   "theorems": [
    "C145_hex",
    "C145_tags",
    "C145_same",
    "C145_free"
   ],
   "note": "Full for the stated quantifier."
  },
  {
   "property": "C146",
   "status": "partial",
   "theorems": [
    "C146_release",
    "C146_parse",
    "C146_life",
    "C146_enough",
    "C146_refuted"
   ],
   "note": "Proved for addresses with at most one lud16 parameter (C146_life); C146_refuted: a second one loses the block of the first, on success and on error. C146_parse bounds what is lost."
  },
  {
   "property": "C147",
   "status": "partial",
   "theorems": [
    "C147_parse",
    "C147_release",
    "C147_refuted"
   ],
   "note": "Proved without an error and for definedness throughout. C147_refuted: after NOSTR_ERR_MEMORY lists finished before stay allocated, and the variable of the failing list has a count without array or points to a released array."
  },
  {
   "property": "C148",
   "status": "partial",
   "theorems": [
    "C148_decode",
    "C148_keys",
    "C148_parse",
    "C148_free",
    "C148_encode_partial",
    "C148_encode_enough",
    "C148_encode_refuted",
    "C148_memory_refuted"
   ],
   "note": "Reading and releasing: full for all URIs not hitting the decoder's out-of-bounds access of C04. Writing: C148_encode_partial covers the entities whose text is built with bech32 helpers that check for failure; the others read a checksum that was never computed when its block is refused (C148_encode_refuted), and are right when there is enough memory (C148_encode_enough). A shortage is reported as a bad encoding (C148_memory_refuted)."
  },
  {
   "property": "C149",
   "status": "proved",
   "theorems": [
    "C149_repost",
    "C149_reaction",
    "C149_quotes",
    "C149_quotes_refuted",
    "C149_pointer_refuted"
   ],
   "note": "Full for the stated quantifier, for texts whose references can be read without the out-of-bounds access of C04 (readable). Side results: a reference is passed over silently, with success, when reading it runs out of memory (C149_quotes_refuted); the caller's pointer dangles when the event's arena is refused (C149_pointer_refuted)."
  },
  {
   "property": "C150",
   "status": "proved",
   "theorems": [
    "C150_free",
    "C150_response",
    "C150_verify",
    "C150_empty_refuted"
   ],
   "note": "Full for the stated quantifier; the response must hold a NUL, as C42 requires of it. Side result: with no valid URL among the strings the caller gets an array of no relays, which must still be released although the count is 0 (C150_empty_refuted)."
  },
  {
   "property": "C151",
   "status": "partial",
   "theorems": [
    "C151_request",
    "C151_pointer_refuted"
   ],
   "note": "C151_request: the request or nothing, for all failures. The last clause is false: every error path releases the event and leaves the pointer in the caller's variable, so releasing it there is a double free, e.g. when the tag limit is reached (C151_pointer_refuted)."
  },
  {
   "property": "C152",
   "status": "partial",
   "theorems": [
    "C152_find",
    "C152_root_parent",
    "C152_is_reply_partial",
    "C152_reply",
    "C152_mention",
    "C152_is_reply_refuted",
    "C152_both_refuted"
   ],
   "note": "Look-ups and added tags are as claimed (C152_find, C152_reply, C152_mention). nostr_event_is_reply is right when memory suffices (C152_is_reply_partial); otherwise it reports success and that a reply is none (C152_is_reply_refuted). The two reply tags are not added together (C152_both_refuted)."
  },
  {
   "property": "C153",
   "status": "proved",
   "theorems": [
    "C153_path",
    "C153_validate",
    "C153_seed",
    "C153_keypair",
    "C153_pair"
   ],
   "note": "Full for the stated quantifier: C153_path, C153_validate, C153_seed, C153_keypair, C153_pair."
  },
  {
   "property": "C154",
   "status": "partial",
   "theorems": [
    "C154_text",
    "C154_signed",
    "C154_tamper_partial",
    "C154_cjson_partial",
    "C154_nip01_partial",
    "C154_uncovered",
    "C154_uncovered_verify",
    "C154_refuted"
   ],
   "note": "Proved for at most 408 one-value tags (C154_tamper_partial) and, with cJSON, for times of up to 15 digits (C154_cjson_partial). Refuted without cJSON: the text is cut to a buffer that is too small for many tags of one empty text, so the end of the content is not hashed, and a signed event still verifies after it was changed (C154_refuted). C154_text gives the hashed text for every event, C154_uncovered what is not covered."
  },
  {
   "property": "C155",
   "status": "partial",
   "theorems": [
    "C155_partial",
    "C155_last_read",
    "C155_refuted",
    "C155_put_back_refuted",
    "C155_copy_restores"
   ],
   "note": "Fails: every pointer handed out in a thread is the same thread-local copy, overwritten whenever that thread reads the configuration, directly or inside another library call (C155_refuted); so keeping the pointer and passing it back later leaves the new configuration in force (C155_put_back_refuted). What holds: the values stay until the thread's next read, whatever other threads do (C155_partial); the pointer always shows the configuration in force at the thread's last read (C155_last_read); putting back a copy of the values always works (C155_copy_restores)."
  },
  {
   "property": "C156",
   "status": "partial",
   "theorems": [
    "C156_dm_partial"
   ],
   "note": "C156_dm_partial: for C strings, times of up to 15 digits, rumor and seal texts of at most 61440 bytes (beyond, C79_refuted) and everything within the limits of relay and recipient, over the contracts of cipher, signature, base64 and JSON library; the relay is an application that forwards what matches (DeliverySpec.v); the memory of the two clients suffices."
  },
  {
   "property": "C157",
   "status": "partial",
   "theorems": [
    "C157_request_partial",
    "C157_response_partial",
    "C157_exchange_partial"
   ],
   "note": "C157_request_partial, C157_response_partial and, both ways together, C157_exchange_partial: for ids of up to 64 and methods of up to 31 bytes, outcomes that are C strings and not JSON (see C105_refuted), texts of at most 61440 bytes, a signer allowed to add tags (see C106_refuted) and events within the limits of relay and receiver, over the contracts of cipher, signature, base64 and JSON library; the client that asks may be any program; the relay is an application that forwards what matches (DeliverySpec.v)."
  },
  {
   "property": "C158",
   "status": "partial",
   "theorems": [
    "C158_request_partial",
    "C158_notification"
   ],
   "note": "C158_request_partial: with the JSON library, enough memory, C strings, numbers of at most 15 digits, methods of at most 42 bytes and payloads that fit the 8 KB buffer (beyond, see C134_*_refuted), for a request within the limits of relay and wallet; C158_notification. Over the contracts of cipher, signature, base64 and JSON library; the relay is an application that forwards what matches (DeliverySpec.v). The wallet's response is not included: it is read with the wrong key (C73_refuted)."
  },
  {
   "property": "C159",
   "status": "partial",
   "theorems": [
    "C159_no_move_partial",
    "C159_refuted",
    "C159_lookup",
    "C159_pointer_partial"
   ],
   "note": "C159_lookup is full: the address returned by the lookup is one the event holds and its text is the first value of that name. Re-use in a new tag (C159_no_move_partial) and later reading (C159_pointer_partial) are proved for every history while the storage has room or realloc extends it in place; when the block moves both fail, because the values are read from the freed block (C159_refuted)."
  },
  {
   "property": "C160",
   "status": "partial",
   "theorems": [
    "C160_reaction_partial",
    "C160_repost_partial",
    "C160_reply_partial",
    "C160_case_refuted"
   ],
   "note": "C160_reaction_partial, C160_repost_partial and C160_reply_partial cover the whole way for keys written in lower case and times of up to 15 digits. Missing, because false: keys in capitals, which the constructors accept and copy into the p tag as they are, so that the author's filter does not ask for the event (C160_case_refuted)."
  },
  {
   "property": "C161",
   "status": "partial",
   "theorems": [
    "C161_relays_partial",
    "C161_list_partial"
   ],
   "note": "C161_relays_partial and C161_list_partial cover the whole way. The follower's filter is one author, one kind and, for named lists, the identifier. Missing: times of more than 15 digits; lists whose private part exceeds 61440 bytes, more than 4096 items and items that do not survive the writer (C82)."
  },
  {
   "property": "C162",
   "status": "partial",
   "theorems": [
    "C162_size",
    "C162_dm_partial",
    "C162_event_partial",
    "C162_deniable_partial",
    "C162_class_refuted",
    "C162_signature_refuted"
   ],
   "note": "C162_dm_partial and C162_event_partial: same outside for all pairs, for nonces of 32 bytes and times with ten digits, over the contracts of cipher, base64 and JSON layout (the secrecy of the ciphertext itself is the cipher's and not claimed). C162_size is exact. False: the classes are finer than those NIP-44 publishes, so messages it makes alike differ in size (C162_class_refuted); an event wrapped with nostr_nip59_wrap_event keeps its signature, so the recipient can show it around (C162_signature_refuted), unlike a direct message (C162_deniable_partial)."
  },
  {
   "property": "C163",
   "status": "partial",
   "theorems": [
    "C163_whole_exact",
    "C163_refuted",
    "C163_full_build_refuted",
    "C163_json_refuted",
    "C163_default",
    "C163_all_nips",
    "C163_single",
    "C163_off",
    "C163_off_refuted",
    "C163_esp",
    "C163_backend_exact",
    "C163_backend_refuted"
   ],
   "note": "C163_whole_exact gives the exact condition; the default options always satisfy it (C163_default), all NIPs together exactly when libsecp256k1 is found besides noscrypt (C163_all_nips), and so does the ESP-IDF component (C163_esp). C163_single: nothing is defined twice. Refuted: NIP-17, NIP-47 or NIP-59 without NIP-44 (C163_refuted), the documented full build with noscrypt alone, as HD keys need libsecp256k1 (C163_full_build_refuted), JSON forced without cJSON (C163_json_refuted). Functions of features switched off are absent, not unsupported (C163_off, C163_off_refuted). The backend is named after the option, not after what was found (C163_backend_exact, C163_backend_refuted). The tables of functions defined and called were extracted from the sources by name."
  },
  {
   "property": "C164",
   "status": "partial",
   "theorems": [
    "C164_request",
    "C164_zap_partial"
   ],
   "note": "C164_request is full. C164_zap_partial misses invoices over whole bitcoin (C61), amounts above all bitcoin, and what JSON does not carry (times of 16 digits, C20). The receipt is any signed event of kind 9735 with the recipient's p tag, one description text and the invoice last among bolt11 tags; the way of the request to the server (HTTP) is taken to deliver its bytes."
  },
  {
   "property": "C165",
   "status": "partial",
   "theorems": [
    "C165_exact",
    "C165_only_author",
    "C165_genuine",
    "C165_deletes",
    "C165_request_refuted",
    "C165_newer_refuted",
    "C165_replaceable_refuted"
   ],
   "note": "C165_exact, C165_only_author, C165_genuine and C165_deletes hold for the deletion rule as the library has it. The last clause of the statement fails: a request against a request is honoured (C165_request_refuted), newer versions are taken away (C165_newer_refuted, see C83), and a replaceable event named by its address is not (C165_replaceable_refuted, see C55). The relay is an application written down in StoreSpec.v."
  },
  {
   "property": "C166",
   "status": "partial",
   "theorems": [
    "C166_mined",
    "C166_delegated",
    "C166_order_refuted"
   ],
   "note": "C166_mined and C166_delegated are full for events that already hold the author's key when mined and that JSON carries (times below 10^15, at most 255 tags, C20); C166_one_thread and C166_threads supply their hypothesis for both miners. Missing: the key put in only by signing, where signing computes the id again and the work is lost (C166_order_refuted)."
  },
  {
   "property": "C167",
   "status": "proved",
   "theorems": [
    "C167_exact",
    "C167_agree",
    "C167_ids",
    "C167_relays",
    "C167_deletion_refuted"
   ],
   "note": "Full for the stated quantifier, for a relay that is given no deletion requests to act on: C167_exact is what is held, C167_agree and C167_relays that two relays agree, C167_ids that ids name events among those accepted anywhere (in a build whose print of the creation time tells the times apart, see C16). The store is an application of a few lines (ReplaceSpec.v). C167_deletion_refuted: a relay that applies a deletion request only to what it holds at the time does not agree with one that got the same texts in another order."
  },
  {
   "property": "C168",
   "status": "proved",
   "theorems": [
    "C168_event",
    "C168_delegation",
    "C168_relay"
   ],
   "note": "Full for the stated quantifier: C168_event, C168_delegation and C168_relay, in a build whose print of the creation time tells the holder's times apart (C16), for events the holder signed that are well formed and not cut by the id buffer (C154). That nobody else makes signatures of the key is the hypothesis only_by (unforgeability, which no execution of the library can settle), asked only of the signatures that are around: an arbitrary set that contains those of the event read."
  },
  {
   "property": "C169",
   "status": "partial",
   "theorems": [
    "C169_forged",
    "C169_refuted",
    "C169_partial",
    "C169_notification",
    "C169_checked"
   ],
   "note": "False of the code (C169_refuted): the response is decrypted with the key of its first usable p tag instead of the author's, so for every wallet, client, stranger and text the stranger can write an event in the wallet's name that is read as its answer, with any id, time and signature (C169_forged). Partial: when no p tag names another key the text is authenticated with the author's key (C169_partial); notifications always are (C169_notification); a client that verifies the event and compares the author reads only the decryption of what the wallet signed, if the wallet's p tags name the wallet (C169_checked)."
  },
  {
   "property": "C170",
   "status": "partial",
   "theorems": [
    "C170_forged",
    "C170_refuted",
    "C170_partial"
   ],
   "note": "False of the code (C170_refuted): nothing authenticates the text, so one procedure without the key replaces the first 16 bytes of any message whose text and content are known, and any message of fewer than 16 bytes by any other such (C170_forged), for all keys, vectors and block ciphers. Partial: what does hold is that another vector changes nothing but the first 16 bytes of a longer message (C170_partial)."
  },
  {
   "property": "C171",
   "status": "proved",
   "theorems": [
    "C171_text",
    "C171_message"
   ],
   "note": "Full for the stated quantifier: C171_text and C171_message. That nobody else makes such codes and signatures is the hypothesis only_in / only_by, asked only of the codes and signatures that are around (an arbitrary set that contains those of the event read), so that it is compatible with every genuine code verifying."
  },
  {
   "property": "C172",
   "status": "partial",
   "theorems": [
    "C172_partial",
    "C172_climb",
    "C172_refuted",
    "C172_quote_refuted"
   ],
   "note": "Partial: C172_partial and C172_climb, for conversations of any length in which the opening event and the answers to it that carry a root tag alone name no other event; answers with both tags may mention events before and after them. The full statement fails in these two places: C172_refuted (a mention after a lone root tag is read as the parent) and C172_quote_refuted (an opening event that mentions another is taken for an answer, and those who answer write the mentioned event as the root)."
  },
  {
   "property": "C173",
   "status": "partial",
   "theorems": [
    "C173_succeeds",
    "C173_same",
    "C173_refused",
    "C173_refuted"
   ],
   "note": "C173_succeeds and C173_same for the chains, C173_refused for the three readers of private keys, over the contracts of scrypt and ChaCha20-Poly1305; the texts are read with nostr_privkey_from_hex and nostr_keypair_from_private_key (the shortcut nostr_keypair_from_private_hex copies an object onto itself, C120_overlap_refuted). C173_refuted: the reader of public keys takes an nsec and hands the private key out as a public one (C03)."
  },
  {
   "property": "C174",
   "status": "proved",
   "theorems": [
    "C174_steps",
    "C174_child",
    "C174_spelling",
    "C174_account"
   ],
   "note": "Full for the stated quantifier. C174_steps holds for every text; C174_child and C174_spelling say what one component means; C174_account splits the account path. Deriving in place (child = parent) is refuted in C68_in_place_refuted."
  },
  {
   "property": "C175",
   "status": "proved",
   "theorems": [
    "C175_limits",
    "C175_any_stretch",
    "C175_charged",
    "C175_refused",
    "C175_tidy_refuted"
   ],
   "note": "Full for the stated quantifier, the wanted addition refuted: C175_limits, C175_any_stretch, C175_charged, C175_refused hold of every reachable state; C175_tidy_refuted shows a permission granted to a session destroyed meanwhile, kept by nobody. A wrapping amount is C31_refuted."
  },
  {
   "property": "C176",
   "status": "partial",
   "theorems": [
    "C176_keys_written",
    "C176_keys_read",
    "C176_unique",
    "C176_refs_written_partial",
    "C176_refs_written_refuted",
    "C176_refs_read",
    "C176_upper_refuted",
    "C176_mixed_refuted"
   ],
   "note": "Keys and ids: written strings are the BIP-173 texts and the decoders accept exactly those (ASCII strings; prefixes up to 31 characters by the 90-character rule) (C176_keys_written, C176_keys_read); text and payload determine each other (C176_unique). References: every text of a list of records up to the decoders' 4096 (512 for nrelay) bytes is read as exactly what the records say (C176_refs_read); written references are the texts of the records NIP-19 asks for, except an address with an empty identifier, whose empty first record is left out (C176_refs_written_partial, C176_refs_written_refuted). False of the code: texts all in upper case are refused though BIP-173 asks decoders to take them (C176_upper_refuted), and texts that mix cases in prefix and data are taken (C176_mixed_refuted)."
  },
  {
   "property": "C177",
   "status": "partial",
   "theorems": [
    "C177_texts",
    "C177_written_partial",
    "C177_read_partial",
    "C177_rounds_refuted",
    "C177_password_refuted"
   ],
   "note": "Partial: what is written is a NIP-49 text and every NIP-49 text is validated and opened, for work factors 16 to 22, security bytes 0 to 2 and passwords already in NFKC form; the decoder accepts exactly the bech32 texts of 91 bytes (C177_texts, full). False outside: other work factors are refused (C177_rounds_refuted) and passwords are not normalised (C177_password_refuted). The vector of NIP-49 is checked as far as its frame (C177_example); scrypt and the AEAD are contracts."
  },
  {
   "property": "C178",
   "status": "partial",
   "theorems": [
    "C178_written_partial",
    "C178_read_partial",
    "C178_recipient_partial",
    "C178_written_refuted",
    "C178_read_refuted"
   ],
   "note": "Partial: the written text is the one of NIP-44 exactly for messages of up to 256 bytes and, beyond, at the lengths where the two padding rules agree (C178_written_partial, an equivalence); another program's text is read exactly at those lengths up to 61440 bytes and otherwise refused as invalid (C178_read_partial, C178_recipient_partial). The full statements are false: a message of 400 bytes is neither written as prescribed nor read (C178_written_refuted, C178_read_refuted). noscrypt, HKDF, ChaCha20, HMAC and the base64 decoder are contracts."
  },
  {
   "property": "C179",
   "status": "partial",
   "theorems": [
    "C179_read_partial",
    "C179_unsigned",
    "C179_read_refuted"
   ],
   "note": "Partial: the message and its author are delivered exactly if the texts of message and seal both have lengths at which the library pads as NIP-44 does and take at most 61440 bytes each (C179_read_partial, an equivalence, through the curve of the key agreement); the unsigned JSON is imported with every field and zeros for the signature (C179_unsigned). The full statement is false: a seal whose text takes 400 bytes is refused (C179_read_refuted). The texts are assumed free of NUL bytes; the JSON library, SHA-256, signature verification, noscrypt and the base64 decoder are contracts or parameters."
  },
  {
   "property": "C180",
   "status": "partial",
   "theorems": [
    "C180_written_partial",
    "C180_fields",
    "C180_written_refuted"
   ],
   "note": "Partial: what is sent is the prescribed message, for the drawn nonces and key, exactly if the texts of message and seal both have lengths at which the library pads as NIP-44 does (C180_written_partial, an equivalence); sender, recipient, text, subject and reply are named for every message (C180_fields). The full statement is false: a seal whose text takes 400 bytes is not encrypted as prescribed (C180_written_refuted). That the id of the message is not the id of its contents is C80. The JSON library, SHA-256, signatures, noscrypt and base64 are contracts."
  }
 ]
}
(** Model of the build: CMakeLists.txt (which options lead to which library) and, for
    each source file of src/, the functions it defines and the functions of other files it
    calls. *)
From Coq Require Import String.
From Verif Require Import Base.
Import ListNotations.
Open Scope string_scope.
Open Scope N_scope.

(** ** Options and surroundings *)
(** CMakeLists.txt:87-136: the options; [o_json]: NOSTR_FEATURE_JSON_ENHANCED if it was
    set before (113-119); [o_encoding]: the cache variable of line 91, announced as always
    on.  STD, EVENTS and KEYS are not asked for anywhere. *)
Record options : Set := mkOptions { o_nip : N -> bool; o_all : bool; o_relay_protocol : bool; o_relay : bool; o_hd : bool; o_json : option bool; o_threading : bool;
  o_encoding : bool; o_noscrypt : bool; o_secp : bool; o_mbedtls : bool }.
(** CMakeLists.txt:166-542: the platform and what the searches find.  [m_cjson]: CJSON_FOUND;
    [m_cjson_lib]: CJSON_LIBRARIES; [m_lws]: LIBWEBSOCKETS_FOUND or LIBWEBSOCKETS_LIBRARIES;
    [m_secp]: the condition in line 558; [m_secp_named]: a library to link is named
    (905-912); [m_schnorr]: the check in line 566 succeeds. *)
Record machine : Set := mkMachine { m_win32 : bool; m_msvc : bool; m_cjson : bool; m_cjson_lib : bool; m_lws : bool; m_noscrypt : bool; m_secp : bool; m_secp_named : bool; m_schnorr : bool }.
(** What the generated header defines (include/nostr_features.h.in:30-80) and the list of
    sources depends on. *)
Record cfg : Set := mkCfg { c_nip : N -> bool; c_relay_protocol : bool; c_relay : bool; c_hd : bool; c_json : bool; c_threading : bool; c_encoding : bool;
  c_noscrypt : bool; c_secp : bool; have_noscrypt : bool; have_secp : bool; have_cjson : bool; have_lws : bool; have_schnorr : bool; have_mbedtls : bool }.

(** CMakeLists.txt:94-110: the defaults of the NIP options *)
Definition default_nips : list N := [5; 10; 13; 18; 25; 26; 49; 51; 57; 65].
Definition mem (n : N) (l : list N) : bool := existsb (N.eqb n) l.
Definition defaults : options := mkOptions (fun n => mem n default_nips) false true true false None true true true true false.
(** CMakeLists.txt:139-157: the NIPs switched on by ALL_NIPS (which switches HD_KEYS on, too) *)
Definition all_nips : list N := [4; 5; 10; 13; 17; 18; 25; 26; 44; 46; 47; 49; 51; 57; 59; 65].
(** CMakeLists.txt:590 FEATURES_REQUIRING_NOSCRYPT *)
Definition noscrypt_nips : list N := [4; 17; 44; 46; 47; 59].
(** CMakeLists.txt:579-583: the NIPs switched off on Windows without backend *)
Definition dropped_nips : list N := [4; 17; 44; 47; 59].

(** CMakeLists.txt:138-645 and 904-943; [None]: a FATAL_ERROR *)
Definition configure (o : options) (m : machine) : option cfg :=
  (* 139-157 *)
  let nip1 := fun n => o_nip o n || (o_all o && mem n all_nips) in
  let hd1 := o_hd o || o_all o in
  (* 113-119, 379-390 *)
  let json1 := match o_json o with Some v => v | None => m_cjson m && negb (m_msvc m) end in
  (* 550-572 *)
  let hn := o_noscrypt o && m_noscrypt m in
  let hs := o_secp o && m_secp m in
  let backend := hn || hs in
  (* 575-587 *)
  if negb backend && negb (m_win32 m) then None
  else
    let nip2 := fun n => nip1 n && (backend || negb (mem n dropped_nips)) in
    let hd2 := hd1 && backend in
    (* 590-595 *)
    if existsb nip2 noscrypt_nips && negb hn then None
    else
      (* 603-612 *)
      let relay2 := o_relay o && (negb (m_win32 m) || m_lws m) in
      if relay2 && negb (m_lws m) then None
      else
        (* 615-620 *)
        let cj := m_cjson m || m_cjson_lib m in
        if relay2 && negb json1 && negb cj then None
        else
          let json2 := json1 || relay2 in
          (* 623-632 *)
          let json3 := json2 && cj in
          Some (mkCfg nip2 (o_relay_protocol o) relay2 hd2 json3 (o_threading o) (o_encoding o) (o_noscrypt o) (o_secp o)
            hn (hs && (m_secp_named m || negb (m_win32 m))) (cj && json3) (m_lws m && relay2) (m_schnorr m) (o_mbedtls o)).

(** ** Sources *)
Inductive source : Set :=
| EventC | KeyC | UtilsC | ConfigC | FeaturesC | Bech32C | Nip21C | RelayC | Nip05C | Nip10C | Nip13C | Nip17C | Nip18C | Nip25C | Nip26C | Nip44C | Nip46C
| Nip47C | Nip47SessionC | Nip47CommandsC | Nip49C | Nip51C | ZapC | Nip59C | Nip65C | HdKeyC | RelayProtocolC | RelayFilterC | RelayMessageC | RelayNip11C.
(** CMakeLists.txt:667-761: is the file compiled *)
Definition compiled (c : cfg) (s : source) : bool :=
  match s with
  | EventC | KeyC | UtilsC | ConfigC | FeaturesC => true
  | Bech32C | Nip21C => c_encoding c
  | RelayC => c_relay c
  | Nip05C => c_nip c 5 | Nip10C => c_nip c 10 | Nip13C => c_nip c 13 | Nip17C => c_nip c 17 | Nip18C => c_nip c 18
  | Nip25C => c_nip c 25 | Nip26C => c_nip c 26
  | Nip44C => c_nip c 44 || c_nip c 4
  | Nip46C => c_nip c 46
  | Nip47C | Nip47SessionC | Nip47CommandsC => c_nip c 47
  | Nip49C => c_nip c 49 | Nip51C => c_nip c 51 | ZapC => c_nip c 57 | Nip59C => c_nip c 59 | Nip65C => c_nip c 65
  | HdKeyC => c_hd c
  | RelayProtocolC | RelayFilterC | RelayMessageC | RelayNip11C => c_relay_protocol c
  end.
Definition all_sources : list source :=
  [EventC; KeyC; UtilsC; ConfigC; FeaturesC; Bech32C; Nip21C; RelayC; Nip05C; Nip10C; Nip13C; Nip17C; Nip18C; Nip25C; Nip26C; Nip44C; Nip46C;
   Nip47C; Nip47SessionC; Nip47CommandsC; Nip49C; Nip51C; ZapC; Nip59C; Nip65C; HdKeyC; RelayProtocolC; RelayFilterC; RelayMessageC; RelayNip11C].
Definition guard {A : Type} (b : bool) (l : list A) : list A := if b then l else [].
(** What each file defines when it is compiled: the non-static functions, and the two
    contexts (src/key.c:31-36).  A file compiled by CMakeLists.txt has its feature macro
    defined, so its stubs (after the last #else) are not; the functions with several
    versions inside a file have one in every case. *)
Definition defines (c : cfg) (s : source) : list string :=
  match s with
  | EventC => ["nostr_event_create"; "nostr_event_destroy"; "nostr_event_set_content"; "nostr_event_add_tag"; 
      "nostr_event_compute_id"; "nostr_event_to_json"; "nostr_event_from_json"; "nostr_event_sign"; "nostr_event_verify"]
  | KeyC => ["nostr_random_bytes"; "nostr_init"; "nostr_cleanup"; "nostr_key_generate"; "nostr_key_from_hex"; 
      "nostr_key_to_hex"; "nostr_privkey_from_hex"; "nostr_privkey_to_hex"; "nostr_key_ecdh"; "nostr_keypair_init"; 
      "nostr_keypair_generate"; "nostr_keypair_from_private_hex"; "nostr_keypair_from_private_key"; "nostr_keypair_export_private_hex"; 
      "nostr_keypair_export_public_hex"; "nostr_keypair_validate"; "nostr_keypair_public_key"; "nostr_keypair_private_key"; 
      "nostr_keypair_destroy"; "nostr_error_string"] ++ guard (have_noscrypt c) ["nc_ctx"] ++ guard (have_secp c) ["secp256k1_ctx"]
  | UtilsC => ["nostr_constant_time_memcmp"; "secure_wipe"; "nostr_hex_decode"; "nostr_hex_encode"]
  | ConfigC => ["nostr_config_get_defaults"; "nostr_config_load_env"; "nostr_config_validate"; "nostr_config_get_current"; 
      "nostr_init_with_config"; "nostr_config_set_callback"; "nostr_config_update"]
  | FeaturesC => ["nostr_feature_nip_supported"; "nostr_feature_relay_available"; "nostr_feature_hd_keys_available"; 
      "nostr_feature_json_enhanced_available"; "nostr_feature_relay_protocol_available"; "nostr_feature_list_enabled"; 
      "nostr_feature_crypto_backend_info"]
  | Bech32C => ["bech32_polymod"; "bech32_hrp_expand"; "bech32_verify_checksum"; "bech32_create_checksum"; 
      "bech32_convert_bits"; "bech32_charset_decode"; "nostr_key_to_bech32"; "nostr_key_from_bech32"; "nostr_privkey_to_bech32"; 
      "nostr_privkey_from_bech32"; "nostr_event_id_to_bech32"; "nostr_event_id_from_bech32"]
  | Nip21C => ["nostr_nprofile_encode"; "nostr_nprofile_decode"; "nostr_nprofile_free"; "nostr_nevent_encode"; 
      "nostr_nevent_decode"; "nostr_nevent_free"; "nostr_naddr_encode"; "nostr_naddr_decode"; "nostr_naddr_free"; 
      "nostr_nrelay_encode"; "nostr_nrelay_decode"; "nostr_uri_parse"; "nostr_uri_encode"; "nostr_uri_free"]
  | RelayC => ["nostr_relay_create"; "nostr_relay_destroy"; "nostr_relay_connect"; "nostr_relay_disconnect"; 
      "nostr_relay_send_event"; "nostr_subscribe"; "nostr_publish_event"; "nostr_relay_set_message_callback"; 
      "nostr_relay_unsubscribe"]
  | Nip05C => ["nostr_nip05_parse"; "nostr_nip05_build_url"; "nostr_nip05_parse_response"; "nostr_nip05_free_relays"; 
      "nostr_nip05_verify"]
  | Nip10C => ["nostr_event_get_root_id"; "nostr_event_get_reply_id"; "nostr_event_add_reply_tags"; "nostr_event_add_mention_tag"; 
      "nostr_event_is_reply"]
  | Nip13C => ["nostr_nip13_calculate_difficulty"; "nostr_nip13_add_nonce_tag"; "nostr_nip13_mine_event"; 
      "nostr_nip13_verify_pow"; "nostr_nip13_mine_event_threaded"]
  | Nip17C => ["nostr_nip17_create_rumor"; "nostr_nip17_create_seal"; "nostr_nip17_create_gift_wrap"; 
      "nostr_nip17_send_dm"; "nostr_nip17_unwrap_dm"]
  | Nip18C => ["nostr_repost_create"; "nostr_repost_parse"; "nostr_quote_tags_from_content"]
  | Nip25C => ["nostr_reaction_create"; "nostr_reaction_parse"; "nostr_reaction_is_like"; "nostr_reaction_is_dislike"]
  | Nip26C => ["nostr_delegation_create"; "nostr_delegation_verify"; "nostr_delegation_check_conditions"; 
      "nostr_event_add_delegation"; "nostr_event_get_delegation"; "nostr_event_verify_delegation"; "nostr_delegation_free"]
  | Nip44C => ["nostr_nip44_encrypt"; "nostr_nip44_decrypt"; "nostr_nip04_encrypt"; "nostr_nip04_decrypt"]
  | Nip46C => ["nostr_nip46_parse_request"; "nostr_nip46_create_response"; "nostr_nip46_request_free"; 
      "nostr_nip46_response_free"]
  | Nip47C => ["nostr_nip47_parse_connection_uri"; "nostr_nip47_parse_info_event"; "nostr_nip47_create_request_event"; 
      "nostr_nip47_parse_response_event"; "nostr_nip47_create_pay_invoice_params"; "nostr_nip47_create_get_balance_params"; 
      "nostr_nip47_create_make_invoice_params"; "nostr_nip47_parse_notification_event"; "nostr_nip47_free_connection"]
  | Nip47SessionC => ["nostr_nip47_session_init"; "nostr_nip47_session_create"; "nostr_nip47_session_add_permission"; 
      "nostr_nip47_session_check_permission"; "nostr_nip47_session_get_connection"; "nostr_nip47_session_extend"; 
      "nostr_nip47_session_destroy"]
  | Nip47CommandsC => ["nostr_nip47_create_list_transactions_params"; "nostr_nip47_create_lookup_invoice_params"; 
      "nostr_nip47_create_pay_keysend_params"; "nostr_nip47_create_multi_pay_invoice_params"; "nostr_nip47_create_get_info_params"; 
      "nostr_nip47_parse_balance_response"; "nostr_nip47_parse_pay_invoice_response"; "nostr_nip47_parse_info_response"]
  | Nip49C => ["nostr_ncryptsec_encrypt"; "nostr_ncryptsec_decrypt"; "nostr_ncryptsec_validate"]
  | Nip51C => ["nostr_list_create"; "nostr_list_free"; "nostr_list_set_d_tag"; "nostr_list_set_title"; 
      "nostr_list_set_description"; "nostr_list_set_image"; "nostr_list_add_pubkey"; "nostr_list_add_event"; 
      "nostr_list_add_hashtag"; "nostr_list_add_word"; "nostr_list_add_relay"; "nostr_list_add_reference"; "nostr_list_add_group"; 
      "nostr_list_add_emoji"; "nostr_list_count"; "nostr_list_get"; "nostr_list_remove"; "nostr_list_to_event"; 
      "nostr_list_from_event"]
  | ZapC => ["nostr_zap_create_request"; "nostr_zap_validate_lnurl"; "nostr_zap_parse_receipt"; "nostr_zap_verify"]
  | Nip59C => ["nostr_nip59_wrap_event"; "nostr_nip59_unwrap_event"; "nostr_nip59_create_rumor"; "nostr_nip59_create_seal"; 
      "nostr_nip59_create_gift_wrap"]
  | Nip65C => ["nostr_relay_list_create"; "nostr_relay_list_free"; "nostr_relay_list_add"; "nostr_relay_list_to_event"; 
      "nostr_relay_list_from_event"; "nostr_relay_list_count"; "nostr_relay_list_get"; "nostr_relay_list_get_read_relays"; 
      "nostr_relay_list_get_write_relays"; "nostr_relay_list_free_urls"]
  | HdKeyC => ["nostr_hd_key_from_seed"; "nostr_hd_key_derive"; "nostr_hd_key_derive_path"; "nostr_hd_key_to_keypair"; 
      "nostr_mnemonic_generate"; "nostr_mnemonic_validate"; "nostr_mnemonic_to_seed"; "nostr_mnemonic_to_keypair"]
  | RelayProtocolC => ["nostr_relay_error_string"; "nostr_validation_error_format"; "nostr_validate_hex64"; 
      "nostr_validate_hex_prefix"; "nostr_validate_subscription_id"; "nostr_validate_timestamp"; "nostr_validate_address"; 
      "nostr_timestamp_now"; "nostr_kind_get_type"; "nostr_kind_is_regular"; "nostr_kind_is_replaceable"; "nostr_kind_is_ephemeral"; 
      "nostr_kind_is_addressable"; "nostr_event_get_tag_value"; "nostr_event_get_d_tag"; "nostr_event_get_tag_values"; 
      "nostr_event_has_tag"; "nostr_event_get_tag_at"; "nostr_event_get_expiration"; "nostr_event_is_expired"; 
      "nostr_event_is_expired_now"; "nostr_event_parse"; "nostr_event_serialize_canonical"; "nostr_event_serialize"; 
      "nostr_event_compare_replaceable"; "nostr_event_compare_addressable"; "nostr_event_validate_full"; "nostr_deletion_free"; 
      "nostr_deletion_parse"; "nostr_deletion_authorized"; "nostr_deletion_authorized_address"; "nostr_tag_iterator_init"; 
      "nostr_tag_iterator_next"; "nostr_tag_iterator_next_info"; "nostr_tag_is_indexable"; "nostr_event_get_id"; 
      "nostr_event_get_pubkey"; "nostr_event_get_id_hex"; "nostr_event_get_pubkey_hex"; "nostr_event_get_tag_count"; 
      "nostr_event_get_tag"; "nostr_tag_get_name"; "nostr_tag_get_value_count"; "nostr_tag_get_value"; "nostr_event_find_tag"; 
      "nostr_event_is_deletion"; "nostr_event_get_e_tags_binary"; "nostr_event_get_p_tags_binary"; "nostr_hex_to_bytes"; 
      "nostr_bytes_to_hex"; "nostr_free"; "nostr_free_strings"; "nostr_version"]
  | RelayFilterC => ["nostr_filter_parse"; "nostr_filter_free"; "nostr_filter_validate"; "nostr_filter_matches"; 
      "nostr_filter_matches_with_search"; "nostr_filters_match"; "nostr_filters_match_with_search"; "nostr_filter_get_e_tags"; 
      "nostr_filter_get_p_tags"; "nostr_filter_get_tag_values"; "nostr_filter_has_tag_filters"; "nostr_filter_get_ids"; 
      "nostr_filter_get_authors"; "nostr_filter_get_kinds"; "nostr_filter_get_since"; "nostr_filter_get_until"; 
      "nostr_filter_get_limit"; "nostr_filter_get_search"; "nostr_filter_has_search"; "nostr_filter_clone"]
  | RelayMessageC => ["nostr_client_msg_parse"; "nostr_client_msg_free"; "nostr_relay_msg_event"; "nostr_relay_msg_ok"; 
      "nostr_relay_msg_eose"; "nostr_relay_msg_closed"; "nostr_relay_msg_notice"; "nostr_relay_msg_auth"; "nostr_relay_msg_count"; 
      "nostr_relay_msg_serialize"; "nostr_client_msg_get_type"; "nostr_client_msg_get_event"; "nostr_client_msg_get_subscription_id"; 
      "nostr_client_msg_get_filters"]
  | RelayNip11C => ["nostr_relay_limitation_init"; "nostr_relay_info_init"; "nostr_relay_info_set_nips"; 
      "nostr_relay_info_add_nip"; "nostr_relay_info_free"; "nostr_relay_limitation_serialize"; "nostr_relay_info_serialize"]
  end%list.
(** What each file needs from other files.  Conditions are given where the needed file is
    not one of the five core files: src/relay.c:1-13, src/nip46.c:27-70, 81-151, src/nip51.c:528-558, 802-827,
    and for the contexts (src/event.c:599-690, src/hd_key.c:24-31, src/nip26.c:207-262,
    src/nip17.c:130-170, src/nip59.c:72-108, src/nip47.c:433-464, src/nip44.c:6). *)
Definition calls (c : cfg) (s : source) : list string :=
  match s with
  | EventC => ["nostr_random_bytes"; "nostr_init"; "nostr_constant_time_memcmp"; "secure_wipe"; "nostr_config_get_current"] ++ guard (have_noscrypt c) ["nc_ctx"] ++ guard (negb (have_noscrypt c) && have_secp c) ["secp256k1_ctx"] ++ guard (c_json c) ["cJSON_Parse"]
  | KeyC => ["nostr_constant_time_memcmp"; "secure_wipe"]
  | UtilsC => []
  | ConfigC => ["nostr_init"]
  | FeaturesC => []
  | Bech32C => []
  | Nip21C => ["secure_wipe"; "bech32_verify_checksum"; "bech32_create_checksum"; "bech32_convert_bits"; 
      "bech32_charset_decode"; "nostr_key_to_bech32"; "nostr_key_from_bech32"; "nostr_privkey_to_bech32"; "nostr_privkey_from_bech32"; 
      "nostr_event_id_to_bech32"; "nostr_event_id_from_bech32"]
  | RelayC => ["nostr_event_destroy"; "nostr_event_to_json"; "nostr_event_from_json"] ++ ["cJSON_Parse"; "lws_create_context"]
  | Nip05C => ["nostr_constant_time_memcmp"]
  | Nip10C => ["nostr_event_add_tag"]
  | Nip13C => ["nostr_event_add_tag"; "nostr_event_compute_id"]
  | Nip17C => ["nostr_event_create"; "nostr_event_destroy"; "nostr_event_set_content"; "nostr_event_add_tag"; 
      "nostr_event_compute_id"; "nostr_event_to_json"; "nostr_event_from_json"; "nostr_event_sign"; "nostr_event_verify"; 
      "nostr_init"; "nostr_key_generate"; "secure_wipe"; "nostr_nip44_encrypt"; "nostr_nip44_decrypt"] ++ (if c_noscrypt c then ["nc_ctx"] else ["secp256k1_ctx"])
  | Nip18C => ["nostr_event_create"; "nostr_event_destroy"; "nostr_event_set_content"; "nostr_event_add_tag"; 
      "nostr_hex_encode"; "nostr_nevent_free"; "nostr_naddr_free"; "nostr_uri_parse"]
  | Nip25C => ["nostr_event_create"; "nostr_event_destroy"; "nostr_event_set_content"; "nostr_event_add_tag"]
  | Nip26C => ["nostr_event_add_tag"; "nostr_random_bytes"; "nostr_init"; "secure_wipe"; "nostr_hex_decode"; 
      "nostr_hex_encode"] ++ guard (have_noscrypt c) ["nc_ctx"] ++ guard (negb (have_noscrypt c) && have_secp c) ["secp256k1_ctx"]
  | Nip44C => guard (c_noscrypt c) ["nostr_random_bytes"; "nostr_init"; "nostr_key_ecdh"; "secure_wipe"; 
      "nostr_config_get_current"; "nc_ctx"]
  | Nip46C => ["nostr_event_create"; "nostr_event_destroy"; "nostr_event_set_content"; "nostr_event_add_tag"; 
      "nostr_event_compute_id"; "nostr_event_sign"; "nostr_key_to_hex"] ++ guard (c_nip c 44) ["nostr_nip44_decrypt"] ++ guard (c_nip c 44 && have_cjson c) ["nostr_nip44_encrypt"] ++ guard (have_cjson c) ["cJSON_Parse"]
  | Nip47C => ["nostr_event_create"; "nostr_event_destroy"; "nostr_event_set_content"; "nostr_event_add_tag"; 
      "nostr_event_compute_id"; "nostr_event_sign"; "secure_wipe"; "nostr_nip44_encrypt"; "nostr_nip44_decrypt"] ++ (if c_noscrypt c then ["nc_ctx"] else ["secp256k1_ctx"]) ++ guard (c_json c) ["cJSON_Parse"] ++ guard (have_cjson c) ["cJSON_Parse"]
  | Nip47SessionC => ["nostr_constant_time_memcmp"; "nostr_config_get_current"; "nostr_nip47_parse_connection_uri"; 
      "nostr_nip47_free_connection"]
  | Nip47CommandsC => [] ++ guard (have_cjson c) ["cJSON_Parse"]
  | Nip49C => ["secure_wipe"; "bech32_verify_checksum"; "bech32_create_checksum"; "bech32_convert_bits"; 
      "bech32_charset_decode"]
  | Nip51C => ["nostr_event_create"; "nostr_event_destroy"; "nostr_event_set_content"; "nostr_event_add_tag"; 
      "nostr_keypair_public_key"; "nostr_keypair_private_key"] ++ guard (c_nip c 44) ["nostr_nip44_encrypt"; 
      "nostr_nip44_decrypt"]
  | ZapC => ["nostr_event_create"; "nostr_event_destroy"; "nostr_event_set_content"; "nostr_event_add_tag"; 
      "nostr_event_from_json"; "nostr_event_verify"; "nostr_key_to_hex"; "nostr_constant_time_memcmp"]
  | Nip59C => ["nostr_event_create"; "nostr_event_destroy"; "nostr_event_set_content"; "nostr_event_add_tag"; 
      "nostr_event_compute_id"; "nostr_event_to_json"; "nostr_event_from_json"; "nostr_event_sign"; "nostr_event_verify"; 
      "nostr_init"; "nostr_key_generate"; "secure_wipe"; "nostr_nip44_encrypt"; "nostr_nip44_decrypt"] ++ (if c_noscrypt c then ["nc_ctx"] else ["secp256k1_ctx"])
  | Nip65C => ["nostr_event_create"; "nostr_event_destroy"; "nostr_event_set_content"; "nostr_event_add_tag"]
  | HdKeyC => ["nostr_random_bytes"; "secure_wipe"] ++ ["secp256k1_ctx"] ++ guard (have_noscrypt c) ["nc_ctx"]
  | RelayProtocolC => ["nostr_event_compute_id"; "nostr_event_to_json"; "nostr_event_from_json"; "nostr_event_verify"] ++ guard (c_json c) ["cJSON_Parse"]
  | RelayFilterC => ["nostr_validate_hex64"; "nostr_validate_hex_prefix"; "nostr_event_get_tag_values"; 
      "nostr_bytes_to_hex"] ++ guard (c_json c) ["cJSON_Parse"]
  | RelayMessageC => ["nostr_event_destroy"; "nostr_event_to_json"; "nostr_event_from_json"; "nostr_validate_subscription_id"; 
      "nostr_filter_parse"; "nostr_filter_free"; "nostr_filter_validate"] ++ guard (c_json c) ["cJSON_Parse"]
  | RelayNip11C => [] ++ guard (c_json c) ["cJSON_Parse"]
  end%list.
(** CMakeLists.txt:813-922: what the libraries linked in provide.  One function stands for
    each of cJSON and libwebsockets; the contexts in [defines] stand for the two
    cryptographic libraries, which are linked whenever the context exists. *)
Definition linked (c : cfg) : list string := (guard (have_cjson c) ["cJSON_Parse"] ++ guard (have_lws c) ["lws_create_context"])%list.

(** CMakeLists.txt:3-60: the component for ESP-IDF *)
Definition esp_cfg : cfg := mkCfg (fun n => n =? 13) true false false true false true true false true false true false false true.
Definition esp_compiled (s : source) : bool :=
  match s with
  | EventC | KeyC | UtilsC | ConfigC | FeaturesC | Bech32C | Nip21C | Nip13C | Nip44C | RelayProtocolC | RelayFilterC | RelayMessageC | RelayNip11C => true
  | _ => false
  end.

(** ** The backend *)
(** src/features.c:190-203 nostr_feature_crypto_backend_info *)
Definition backend_info (c : cfg) : string :=
  if c_noscrypt c then "noscrypt (preferred)"
  else if c_secp c then if have_schnorr c then "secp256k1 (with schnorr support)" else "secp256k1 (limited - no schnorr)"
  else "none (error - should not happen)".
(** src/event.c:599-690, 700-760: who signs and verifies events *)
Inductive signer : Set := Noscrypt | Secp256k1 | Nobody.
Definition signs (c : cfg) : signer := if have_noscrypt c then Noscrypt else if have_secp c then Secp256k1 else Nobody.

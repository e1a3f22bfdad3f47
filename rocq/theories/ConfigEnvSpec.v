(** CONFIG.md: settings, their environment variables, defaults and ranges. *)
From Verif Require Import Base Dec.
Open Scope Z_scope.

Record setting : Set := mkSetting { st_name : list N; st_default : Z; st_min : Z; st_max : Z }.
Definition documented : list setting :=
  [mkSetting (bs "NOSTR_NIP44_MIN_SIZE") 1 1 65535; mkSetting (bs "NOSTR_NIP44_MAX_SIZE") 65535 1 65535;
   mkSetting (bs "NOSTR_MAX_SESSIONS") 100 1 10000; mkSetting (bs "NOSTR_SESSION_TIMEOUT") 3600 60 86400;
   mkSetting (bs "NOSTR_MAX_PERMISSIONS") 32 1 1000; mkSetting (bs "NOSTR_MAX_CONTENT_SIZE") 65536 1024 1048576;
   mkSetting (bs "NOSTR_MAX_TAGS") 100 1 1000; mkSetting (bs "NOSTR_MAX_TAG_VALUES") 50 1 1000;
   mkSetting (bs "NOSTR_RELAY_CONNECT_TIMEOUT") 30000 1000 300000; mkSetting (bs "NOSTR_RELAY_RESPONSE_TIMEOUT") 10000 1000 300000;
   mkSetting (bs "NOSTR_ENCRYPTION_DEFAULT") 44 4 44; mkSetting (bs "NOSTR_SECURE_MEMORY_LOCK") 0 0 1; mkSetting (bs "NOSTR_DEBUG") 0 0 1].
(** The environment says nothing about the setting, or gives the number [v]. *)
Definition says (env : list N -> option (list N)) (s : setting) (v : Z) : Prop :=
  match env (st_name s) with None => v = st_default s | Some t => exists n, t = dec_N n /\ v = Z.of_N n end.
(** A configuration as documented: every number in its range, the smallest message no
    larger than the largest, and one of the two kinds of encryption. *)
Definition proper_config (c : list Z) : Prop :=
  Forall2 (fun s v => st_min s <= v <= st_max s) documented c /\
  (nth 0 c 0 <= nth 1 c 0) /\ (nth 10 c 0 = 4 \/ nth 10 c 0 = 44).
(** The largest response timeout that is accepted. *)
Definition quick (c : list Z) : Prop := nth 9 c 0 <= 60000.

(** Keeping a private key in writing and reading it back, in any of the forms the
    library offers. *)
From Verif Require Import Base Hex Bech32 Nip21 Nip49 KeyPair.
Open Scope N_scope.

(** The forms: hex, nsec, ncryptsec with a password, a work factor and the random
    bytes drawn. *)
Inductive form : Set :=
| InHex
| InNsec
| InNcryptsec (password : list N) (log_n : N) (salt nonce : list N).
Definition usable (f : form) : Prop :=
  match f with
  | InNcryptsec pw n salt nonce => pw <> [] /\ 16 <= n <= 22 /\ length salt = 16%nat /\ bytes_ok salt /\ length nonce = 24%nat /\ bytes_ok nonce
  | _ => True
  end.

Section Backup.
Variable scrypt : list N -> list N -> N -> option (list N).
Variable seal : list N -> list N -> list N -> list N -> option (list N * list N).
Variable open : list N -> list N -> list N -> list N -> list N -> option (list N) * bool.
Variable pubkey_of : list N -> option (list N).
Variable seckey_valid : list N -> bool.

(** The text written for a pair, and the key read from a text; buffers have the
    documented sizes. *)
Definition written (f : form) (k : keypair) : res (list N) :=
  match kp_private k with
  | None => Err EInvalidParam
  | Some sk => match f with
               | InHex => kp_private_hex k 65
               | InNsec => privkey_to_bech32 sk 64
               | InNcryptsec pw n salt nonce => ncryptsec_encrypt scrypt seal sk pw n 163 (Some salt) (Some nonce)
               end
  end.
Definition reads (f : form) (s : list N) : res (list N) :=
  match f with
  | InHex => key_from_hex s
  | InNsec => privkey_from_bech32 s
  | InNcryptsec pw _ _ _ => match ncryptsec_decrypt scrypt open s pw zeros with (Ok _, sk) => Ok sk | (Err e, _) => Err e | (Undef, _) => Undef end
  end.
(** [k'] is what a pair object that held [old] holds after a backup of [k] was read
    into it. *)
Definition restores (f : form) (k old k' : keypair) : Prop :=
  exists s sk, written f k = Ok s /\ reads f s = Ok sk /\ kp_from_key pubkey_of seckey_valid None sk old = (k', None).
(** Any number of times, from device to device; with each form, what the pair object
    it is read into held. *)
Inductive moves : list (form * keypair) -> keypair -> keypair -> Prop :=
| Stay k : moves [] k k
| Move f fs k old k' k'' : restores f k old k' -> moves fs k' k'' -> moves ((f, old) :: fs) k k''.
End Backup.

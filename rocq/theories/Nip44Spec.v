(** Independent specification for C09-C12. *)
From Verif Require Import Base Nip21 Heap.
Open Scope N_scope.

(** The padded length published in NIP-44:
    next_power = 1 << (floor(log2(len - 1)) + 1);
    chunk = next_power <= 256 ? 32 : next_power / 8;
    len <= 32 ? 32 : chunk * (floor((len - 1) / chunk) + 1). *)
Definition nip44_spec_padded (len : N) : N :=
  if len <=? 32 then 32
  else
    let next_power := N.shiftl 1 (N.log2 (len - 1) + 1) in
    let chunk := if next_power <=? 256 then 32 else next_power / 8 in
    chunk * ((len - 1) / chunk + 1).

(** A call left the heap as it must: nothing live except what it returned. *)
Definition clean_exit (r : res (res (option nat) * heap)) : Prop :=
  match r with
  | Ok (Ok (Some p), h) => h_live h = [p]
  | Ok (Err _, h) => h_live h = []
  | _ => False
  end.

(** Contract of an EVP cipher over [inl] input bytes: at most one block beyond
    the input is written by the update call, and at most one block by the
    final call, never more than the padded input in total. *)
Definition evp_contract (inl : Z) (upd fin : option N) : Prop :=
  (upd <> None -> (0 <= inl)%Z) /\
  (forall n1, upd = Some n1 -> (Z.of_N n1 <= inl + 16)%Z) /\
  (forall n1 n2, upd = Some n1 -> fin = Some n2 -> (Z.of_N (n1 + n2) <= inl + 16)%Z).

(** Contract of the authenticated cipher for a matching pair of key pairs. *)
Record nc_contract
  (nc_encrypt : list N -> list N -> list N -> list N -> option (list N * list N))
  (nc_mac : list N -> list N -> list N)
  (nc_verify : list N -> list N -> list N -> list N -> list N -> bool)
  (nc_decrypt : list N -> list N -> list N -> list N -> option (list N))
  (matching : list N -> list N -> list N -> list N -> Prop) : Prop := {
  ncc_len : forall sk pk n d ct hk, nc_encrypt sk pk n d = Some (ct, hk) -> length ct = length d;
  ncc_bytes : forall sk pk n d ct hk, nc_encrypt sk pk n d = Some (ct, hk) -> bytes_ok ct;
  ncc_maclen : forall hk d, length (nc_mac hk d) = 32%nat /\ bytes_ok (nc_mac hk d);
  ncc_verify : forall sa pb sb pa n d ct hk, matching sa pb sb pa ->
    nc_encrypt sa pb n d = Some (ct, hk) ->
    nc_verify sb pa n (n ++ ct) (nc_mac hk (n ++ ct)) = true;
  ncc_decrypt : forall sa pb sb pa n d ct hk, matching sa pb sb pa ->
    nc_encrypt sa pb n d = Some (ct, hk) -> nc_decrypt sb pa n ct = Some d
}.

(** Contract of the base64 codec. *)
Record b64_contract (enc : list N -> list N) (dec : list N -> option (list N)) : Prop := {
  b64_rt : forall l, bytes_ok l -> dec (enc l) = Some l;
  b64_nohash : forall l c r, bytes_ok l -> enc l = c :: r -> c <> 35
}.

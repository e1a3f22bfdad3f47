(** Model of nostr_zap_create_request (src/zap.c) when memory may run out.  What
    the request says is in Zap.v. *)
From Verif Require Import Base Heap Hex Dec Event EventMem Zap Nip46Mem.
Open Scope N_scope.

Section Mem.
Variable grant : nat -> bool.
Variable lim : option ev_limits.
Notation made := (M (option cevent * option err)).

(** The error paths (src/zap.c:61-64, 74-77, 83-86, 91-94, 99-102, 105-108) release
    the event and leave the caller's variable as it is. *)
Definition discard (c : cevent) (x : err) : made :=
  let! _ := event_destroy (Some c) in mret (Some c, Some x).
Definition tag_or_discard (c : cevent) (vs : list (list N)) (k : cevent -> made) : made :=
  let! v := EventMem.add_tag grant lim c vs in
  match v with
  | (c, Some x) => discard c x
  | (c, None) => k c
  end.
(** src/zap.c:45-110 nostr_zap_create_request; [src]: where the content lies *)
Definition zap_create_m (now : Z) (amount : N) (recipient : list N) (lnurl : option (list N)) (src : nat) (content : option (list N)) (relays : list (list N)) : made :=
  if (length relays =? 0)%nat then mret (None, Some EInvalidParam)
  else
    let! v := event_create grant now in
    match v with
    | (p, Some x) => mret (p, Some x)
    | (None, None) => fun _ => Undef
    | (Some c, None) =>
      let c := with_kind c ZAP_REQUEST_KIND in
      let rest c :=
        tag_or_discard c (bs "relays" :: firstn 15 relays) (fun c =>
        tag_or_discard c [bs "amount"; dec_N amount] (fun c =>
        let last c := tag_or_discard c [bs "p"; hex_encode recipient] (fun c => mret (Some c, None)) in
        match lnurl with Some s => tag_or_discard c [bs "lnurl"; s] last | None => last c end)) in
      match content with
      | Some (a :: t) =>
        let! v := set_content grant c src (a :: t) in
        match v with
        | (c, Some x) => discard c x
        | (c, None) => rest c
        end
      | _ => rest c
      end
    end.
End Mem.

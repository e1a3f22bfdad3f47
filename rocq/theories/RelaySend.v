(** Model of src/relay.c:380-423 nostr_relay_send_event and 487-489
    nostr_publish_event, with the memory they use.  The queue mutex around
    lws_write is taken and given back in the same call and is not modelled. *)
From Verif Require Import Base Heap Json Event EventMem CjsonMem EventOom.
Open Scope N_scope.

Section Send.
Variable grant : nat -> bool.
(** cJSON_Print *)
Variable print : json -> list N.
(** [relay]: relay and event are given and the relay is connected; [socket]: the
    context and its connection exist; [written]: lws_write takes the frame.
    What went out, and the status. *)
Definition send_event (relay socket written : bool) (e : event) : M (option (list N) * option err) :=
  if negb relay then mret (None, Some EInvalidParam)
  else
    let! x := to_json_m grant print e in
    match x with
    | (_, Some er) => mret (None, Some er)
    | (None, None) => fun _ => Undef
    | (Some (b, json), None) =>
      if negb socket then let! _ := hfree (Some b) in mret (None, Some EConnection)
      else
        let! p := ealloc grant in
        match p with
        | None => let! _ := hfree (Some b) in mret (None, Some EMemory)
        | Some m =>
          (* sprintf(msg, "[""EVENT"",%s]", json) into strlen(json) + 20 bytes *)
          let text := bs "[""EVENT""," ++ json ++ bs "]" in
          let! _ := hassert (length text + 1 <=? length json + 20)%nat in
          let! _ := huse (Some b) in
          let! _ := huse (Some m) in
          let! _ := hfree (Some b) in
          let! q := ealloc grant in
          match q with
          | None => let! _ := hfree (Some m) in mret (None, Some EMemory)
          | Some u =>
            let! _ := huse (Some m) in
            let! _ := huse (Some u) in
            let! _ := hfree (Some m) in
            let! _ := hfree (Some u) in
            mret (if written then (Some text, None) else (None, Some EConnection))
          end
        end
    end.
Definition publish_event := send_event.
End Send.

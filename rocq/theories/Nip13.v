(** Model of src/nip13.c (proof of work). *)
From Verif Require Import Base Dec Strto Event.
Open Scope N_scope.

(** ** Difficulty *)

(** src/nip13.c:34-35  while (b >>= 1) n++;  a byte is zero after 8 shifts *)
Fixpoint shifts (fuel : nat) (b : N) : nat :=
  match fuel with
  | O => O
  | S f => let b' := N.shiftr b 1 in if b' =? 0 then O else S (shifts f b')
  end.
(** src/nip13.c:27-38 zero_bits *)
Definition zero_bits (b : N) : nat := if b =? 0 then 8%nat else (7 - shifts 8 b)%nat.
(** src/nip13.c:46-51, the loop over the id *)
Fixpoint count_bits (total : nat) (id : list N) : nat :=
  match id with
  | [] => total
  | b :: r => let bits := zero_bits b in
              if (bits =? 8)%nat then count_bits (total + bits) r else (total + bits)%nat
  end.
(** src/nip13.c:40-54 nostr_nip13_calculate_difficulty (non-NULL, 32 bytes) *)
Definition difficulty (id : list N) : nat := count_bits 0 (firstn 32 id).

(** ** The nonce tag.  A value pointer may be NULL after a failed update. *)
Definition otag := list (option (list N)).

(** src/nip13.c:62-66 *)
Definition is_nonce (vs : otag) : bool :=
  match vs with
  | Some v :: _ => beq v (bs "nonce")
  | _ => false
  end.
(** src/nip13.c:56-71 find_nonce_tag_index *)
Fixpoint find_nonce (ts : list otag) : option nat :=
  match ts with
  | [] => None
  | t :: r => if is_nonce t then Some O else option_map S (find_nonce r)
  end.

Fixpoint set_nth {A} (l : list A) (i : nat) (x : A) : list A :=
  match l, i with
  | [], _ => []
  | _ :: r, O => x :: r
  | y :: r, S i' => y :: set_nth r i' x
  end.

(** Outcomes of the allocations of one call: the nonce string, the values
    array, the target string; result of nostr_event_add_tag; and the buffer of
    nostr_event_compute_id. *)
Record allocs : Set := mkAllocs {
  al_nonce : bool; al_values : bool; al_target : bool; al_add : option err; al_id : bool }.

(** src/nip13.c:131-198 nostr_nip13_add_nonce_tag (non-NULL event).  Writing
    values[1] of a tag with a single value is outside its array
    (src/nip13.c:164): [Undef] here; Nip13Arena.v shows what it overwrites. *)
Definition add_nonce_tag (a : allocs) (ts : list otag) (nonce : N) (target : Z)
  : list otag * res unit :=
  let nonce_str := dec_N nonce in
  let target_str := dec_Z target in
  match find_nonce ts with
  | Some i =>
    let t := nth i ts [] in
    if negb (al_nonce a) then (ts, Err EMemory)
    else if (length t <? 2)%nat then (ts, Undef)
    else
      let t := set_nth t 1 (Some nonce_str) in
      if (0 <? target)%Z then
        if (length t <? 3)%nat && negb (al_values a) then (set_nth ts i t, Err EMemory)
        else
          let t := if (length t <? 3)%nat then firstn 2 t ++ [None] else t in
          if negb (al_target a) then (set_nth ts i t, Err EMemory)
          else (set_nth ts i (set_nth t 2 (Some target_str)), Ok tt)
      else (set_nth ts i (firstn 2 t), Ok tt)
  | None =>
    match al_add a with
    | Some x => (ts, Err x)
    | None =>
      (ts ++ [[Some (bs "nonce"); Some nonce_str] ++ (if (0 <? target)%Z then [Some target_str] else [])], Ok tt)
    end
  end.

(** The tags as strings, when no value is NULL. *)
Fixpoint full_tag (t : otag) : option (list (list N)) :=
  match t with
  | [] => Some []
  | None :: _ => None
  | Some v :: r => option_map (cons v) (full_tag r)
  end.
Fixpoint full_tags (ts : list otag) : option (list (list (list N))) :=
  match ts with
  | [] => Some []
  | t :: r => match full_tag t, full_tags r with Some x, Some y => Some (x :: y) | _, _ => None end
  end.

(** The event being mined: everything but the tags, and the tags. *)
Record mev : Set := mkMev { m_ev : event; m_tags : list otag }.
Definition with_tags (e : event) (ts : list (list (list N))) : event :=
  mkEvent (ev_id e) (ev_pubkey e) (ev_created e) (ev_kind e) ts (ev_content e) (ev_sig e).
Definition with_created (e : event) (t : Z) : event :=
  mkEvent (ev_id e) (ev_pubkey e) t (ev_kind e) (ev_tags e) (ev_content e) (ev_sig e).
Definition with_id (e : event) (i : list N) : event :=
  mkEvent i (ev_pubkey e) (ev_created e) (ev_kind e) (ev_tags e) (ev_content e) (ev_sig e).
Definition load (e : event) : mev := mkMev e (map (map Some) (ev_tags e)).
Definition observe (m : mev) : option event :=
  match full_tags (m_tags m) with Some ts => Some (with_tags (m_ev m) ts) | None => None end.

Section Mine.
Variable num : Z -> list N.            (* printing of created_at *)
Variable sha256 : list N -> list N.

(** src/event.c:366-383 nostr_event_compute_id on it *)
Definition m_compute_id (a : allocs) (m : mev) : mev * res unit :=
  match observe m with
  | None => (m, Undef)
  | Some e => if al_id a then (mkMev (with_id (m_ev m) (sha256 (serialize_with num e))) (m_tags m), Ok tt)
              else (m, Err EMemory)
  end.

(** One candidate, src/nip13.c:223-238: did it meet the target? *)
Definition try_nonce (a : allocs) (now : Z) (m : mev) (nonce : N) (target : Z) : mev * res bool :=
  match add_nonce_tag a (m_tags m) nonce target with
  | (ts, Err x) => (mkMev (m_ev m) ts, Err x)
  | (ts, Undef) => (mkMev (m_ev m) ts, Undef)
  | (ts, Ok _) =>
    match m_compute_id a (mkMev (with_created (m_ev m) now) ts) with
    | (m, Ok _) => (m, Ok (target <=? Z.of_nat (difficulty (ev_id (m_ev m))))%Z)
    | (m, Err x) => (m, Err x)
    | (m, Undef) => (m, Undef)
    end
  end.

(** src/nip13.c:219-244, the loop; [al] and [clock] give the allocation results
    and time(NULL) of each iteration, None is fuel exhaustion. *)
Fixpoint mine_loop (fuel : nat) (al : N -> allocs) (clock : N -> Z) (target : Z) (max : N)
         (nonce iterations : N) (m : mev) : option (mev * res unit) :=
  match fuel with
  | O => None
  | S f =>
    if (max =? 0) || (iterations <? max) then
      match try_nonce (al iterations) (clock iterations) m nonce target with
      | (m, Ok true) => Some (m, Ok tt)
      | (m, Ok false) =>
        mine_loop f al clock target max ((nonce + 1) mod 2 ^ 64) ((iterations + 1) mod 2 ^ 64) m
      | (m, Err x) => Some (m, Err x)
      | (m, Undef) => Some (m, Undef)
      end
    else Some (m, Err ENotFound)
  end.

(** src/nip13.c:206-215 the tag is added first when missing *)
Definition prepare (a : allocs) (target : Z) (m : mev) : mev * res unit :=
  match find_nonce (m_tags m) with
  | Some _ => (m, Ok tt)
  | None => let '(ts, r) := add_nonce_tag a (m_tags m) 0 target in
            match r with
            | Ok _ => match find_nonce ts with
                      | Some _ => (mkMev (m_ev m) ts, Ok tt)
                      | None => (mkMev (m_ev m) ts, Err ENotFound)
                      end
            | _ => (mkMev (m_ev m) ts, r)
            end
  end.

(** src/nip13.c:200-245 nostr_nip13_mine_event *)
Definition mine_event (fuel : nat) (a0 : allocs) (al : N -> allocs) (clock : N -> Z)
           (e : event) (target : Z) (max : N) : option (mev * res unit) :=
  if (target <? 1)%Z then Some (load e, Err EInvalidParam)
  else match prepare a0 target (load e) with
       | (m, Ok _) => mine_loop fuel al clock target max 0 0 m
       | (m, r) => Some (m, r)
       end.
End Mine.

(** src/nip13.c:247-276 nostr_nip13_verify_pow *)
Definition verify_pow (e : event) (min : Z) : res unit :=
  if (min <? 1)%Z then Err EInvalidParam
  else match find_nonce (map (map Some) (ev_tags e)) with
       | None => Err EInvalidEvent
       | Some i =>
         let t := nth i (ev_tags e) [] in
         if (length t <? 2)%nat then Err EInvalidEvent
         else
           let d := Z.of_nat (difficulty (ev_id e)) in
           if (d <? min)%Z then Err EInvalidEvent
           else if (3 <=? length t)%nat then
             let c := atoi (nth 2 t []) in
             if (0 <? c)%Z && (d <? c)%Z then Err EInvalidEvent else Ok tt
           else Ok tt
       end.

(** ** The threaded miner (POSIX build): interleaving semantics *)

(** src/nip13.c:354-403 mining_thread, one constructor per program point:
    loop condition with its unlocked read; blocked on the mutex; re-check under
    the mutex; the three updates of the event and the test under the mutex; the
    two unlock points; returned. *)
Inductive wpc : Set := PLoop | PLock | PCheck | PAdd | PTime | PHash | PTest | PBreak | PNext | PDone.
Record worker : Set := mkWorker { w_pc : wpc; w_nonce : N; w_iter : N; w_found : bool }.
(** src/nip13.c:406-543: creating thread i; failure of a creation: the unlocked
    write, then joining; joining; returned. *)
Inductive mpc : Set :=
| MCreate (i : nat) | MAbort | MAbortJoin | MJoin | MDone (r : res unit).
Record tstate : Set := mkT {
  t_ev : mev; t_found : bool; t_lock : option nat; t_workers : list worker; t_main : mpc }.

Section Threads.
Variable num : Z -> list N.
Variable sha256 : list N -> list N.
Variable target : Z.
Variable max : N.
Variable nthreads : nat.

Definition goto (w : worker) (p : wpc) : worker := mkWorker p (w_nonce w) (w_iter w) (w_found w).
Definition upd_worker (s : tstate) (i : nat) (w : worker) : list worker := set_nth (t_workers s) i w.

(** One atomic step of worker [i] in state [w]. *)
Inductive wstep (s : tstate) (i : nat) (w : worker) : tstate -> Prop :=
| WExit : w_pc w = PLoop -> t_found s = true \/ (max <> 0 /\ max <= w_iter w) ->
    wstep s i w (mkT (t_ev s) (t_found s) (t_lock s) (upd_worker s i (goto w PDone)) (t_main s))
| WEnter : w_pc w = PLoop -> t_found s = false -> (max = 0 \/ w_iter w < max) ->
    wstep s i w (mkT (t_ev s) (t_found s) (t_lock s) (upd_worker s i (goto w PLock)) (t_main s))
| WLock : w_pc w = PLock -> t_lock s = None ->
    wstep s i w (mkT (t_ev s) (t_found s) (Some i) (upd_worker s i (goto w PCheck)) (t_main s))
| WCheck : w_pc w = PCheck ->
    wstep s i w (mkT (t_ev s) (t_found s) (t_lock s)
                     (upd_worker s i (goto w (if t_found s then PBreak else PAdd))) (t_main s))
| WAdd a ts r : w_pc w = PAdd -> add_nonce_tag a (m_tags (t_ev s)) (w_nonce w) target = (ts, r) -> r <> Undef ->
    wstep s i w (mkT (mkMev (m_ev (t_ev s)) ts) (t_found s) (t_lock s)
                     (upd_worker s i (goto w (match r with Ok _ => PTime | _ => PBreak end))) (t_main s))
| WTime now : w_pc w = PTime ->
    wstep s i w (mkT (mkMev (with_created (m_ev (t_ev s)) now) (m_tags (t_ev s))) (t_found s) (t_lock s)
                     (upd_worker s i (goto w PHash)) (t_main s))
| WHash a m r : w_pc w = PHash -> m_compute_id num sha256 a (t_ev s) = (m, r) -> r <> Undef ->
    wstep s i w (mkT m (t_found s) (t_lock s)
                     (upd_worker s i (goto w (match r with Ok _ => PTest | _ => PBreak end))) (t_main s))
| WHit : w_pc w = PTest -> (target <= Z.of_nat (difficulty (ev_id (m_ev (t_ev s)))))%Z ->
    wstep s i w (mkT (t_ev s) true (t_lock s)
                     (upd_worker s i (mkWorker PBreak (w_nonce w) (w_iter w) true)) (t_main s))
| WMiss : w_pc w = PTest -> (Z.of_nat (difficulty (ev_id (m_ev (t_ev s)))) < target)%Z ->
    wstep s i w (mkT (t_ev s) (t_found s) (t_lock s) (upd_worker s i (goto w PNext)) (t_main s))
| WBreak : w_pc w = PBreak ->
    wstep s i w (mkT (t_ev s) (t_found s) None (upd_worker s i (goto w PDone)) (t_main s))
| WNext : w_pc w = PNext ->
    wstep s i w (mkT (t_ev s) (t_found s) None
                     (upd_worker s i (mkWorker PLoop ((w_nonce w + 1000) mod 2 ^ 64)
                                               ((w_iter w + 1) mod 2 ^ 64) (w_found w))) (t_main s)).

Definition all_done (s : tstate) : Prop := Forall (fun w => w_pc w = PDone) (t_workers s).
Definition any_found (s : tstate) : bool := existsb w_found (t_workers s).

(** One atomic step of the calling thread. *)
Inductive cstep (s : tstate) : tstate -> Prop :=
| CCreate i : t_main s = MCreate i -> (i < nthreads)%nat ->
    cstep s (mkT (t_ev s) (t_found s) (t_lock s)
                 (t_workers s ++ [mkWorker PLoop (N.of_nat i) 0 false]) (MCreate (S i)))
| CFail i : t_main s = MCreate i -> (i < nthreads)%nat ->
    cstep s (mkT (t_ev s) (t_found s) (t_lock s) (t_workers s) MAbort)
| CCreated : t_main s = MCreate nthreads ->
    cstep s (mkT (t_ev s) (t_found s) (t_lock s) (t_workers s) MJoin)
| CAbort : t_main s = MAbort ->
    cstep s (mkT (t_ev s) true (t_lock s) (t_workers s) MAbortJoin)
| CAborted : t_main s = MAbortJoin -> all_done s ->
    cstep s (mkT (t_ev s) (t_found s) (t_lock s) (t_workers s) (MDone (Err EProtocol)))
| CJoined : t_main s = MJoin -> all_done s ->
    cstep s (mkT (t_ev s) (t_found s) (t_lock s) (t_workers s)
                 (MDone (if any_found s then Ok tt else Err ENotFound))).

Inductive tstep (s s' : tstate) : Prop :=
| TWorker i w : nth_error (t_workers s) i = Some w -> wstep s i w s' -> tstep s s'
| TCaller : cstep s s' -> tstep s s'.

Definition tinit (m : mev) : tstate := mkT m false None [] (MCreate 0).
Inductive treach (m : mev) : tstate -> Prop :=
| TR0 : treach m (tinit m)
| TRS s s' : treach m s -> tstep s s' -> treach m s'.
End Threads.

(** src/nip13.c:426-433, before the threads start; the outcome of a run that
    ends with [MDone r]. *)
Definition prepare_threaded (a : allocs) (target : Z) (e : event) : mev * res unit :=
  match find_nonce (map (map Some) (ev_tags e)) with
  | Some _ => (load e, Ok tt)
  | None => let '(ts, r) := add_nonce_tag a (map (map Some) (ev_tags e)) 0 target in
            (mkMev e ts, r)
  end.

(** How a relay object may be used, independently of the model: which calls an
    application that looks only at return codes and the public state may make. *)
From Verif Require Import Base RelayLife.

Inductive phase : Set := Idle | Failed | Open.
(** Open: connected successfully and not disconnected since; Failed: the last
    connect call failed *)
Definition after (p : phase) (x : op) (result : res unit) : phase :=
  match x, result with
  | Connect _, Ok _ => Open
  | Connect _, _ => match p with Open => Open | _ => Failed end
  | Disconnect, Ok _ => Idle
  | _, _ => p
  end.
Definition allowed (p : phase) (state : rstate) (x : op) : Prop :=
  match x with
  | Connect o => o_dup o = true /\ (p = Open -> state = RConnected \/ state = RConnecting)
  | Disconnect | SetCallback => p <> Failed
  | Service _ (SClosed _ i) => i = INone
  | _ => True
  end.
(** Following the rules throughout, and destroying only a relay that is closed or
    says it is connected *)
Fixpoint careful (r : nat) (h : list op) (p : phase) (w : world) : Prop :=
  match h with
  | [] => p = Open -> r_state (w_relay w r) = RConnected \/ r_state (w_relay w r) = RConnecting
  | x :: h' => allowed p (r_state (w_relay w r)) x /\
               forall w' result, step r x w = Ok (w', result) -> careful r h' (after p x result) w'
  end.

(** Reading of texts for HdMemProps.v. *)
From Verif Require Import Base.
Open Scope N_scope.

(** What the words and the passphrase are read as: normalised, or in the build
    without utf8proc as they are if they are ASCII. *)
Definition reading (nfkd : option (list N -> option (list N))) (s : list N) : res (list N) :=
  match nfkd with
  | Some f => match f s with Some t => Ok t | None => Err EMemory end
  | None => if existsb (fun c => 128 <=? c) s then Err EInvalidParam else Ok s
  end.

(** Sharing the work of a connection between a layer and its clone: which
    calls receive and which send. *)

From Verif.Model Require Import Complete.
From Verif.Spec Require Import Wire Datagram Trace ReadSpec Accept Session Writers CompleteTrace.

(** Calls that receive: [read], and taking out what was received too early. *)
Definition receiving (c : call) : bool :=
  match c with CRead _ | CTakeAck | CDrain => true | _ => false end.

(** Calls that send a user message. *)
Definition sending (c : call) : bool :=
  match c with CWrite _ _ => true | _ => false end.

(** Receiving user messages only: nothing that starts like a negotiation
    message. *)
Definition receiving_messages (c : call) : bool :=
  match c with CRead d => negb (starts_clear d) | CDrain => true | _ => false end.

(** The events of a history whose call is of some kind. *)
Definition only (p : call -> bool) (h : history) : history := filter (fun e => p (fst e)) h.

(** The same in complete mode. *)
Definition sreceiving (c : scall) : bool := match c with SRead _ => true | _ => false end.
Definition ssending (c : scall) : bool := match c with SWrite _ _ => true | _ => false end.
Definition sonly (p : scall -> bool) (h : shistory) : shistory := filter (fun e => p (fst e)) h.

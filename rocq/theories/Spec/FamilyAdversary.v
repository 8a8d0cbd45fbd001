(** Connections used through several handles (Spec/Family.v) in a network the
    attacker controls.  As in Spec/Adversary.v nothing is said about the
    network: what the attacker cannot do is stated on the datagrams the handles
    were given. *)

From Verif.Model Require Import Complete.
From Verif.Spec Require Import Wire Datagram Trace ReadSpec Accept Session Writers Adversary CompleteTrace
  CompleteAdversary Family.

(** A connection at one of its ends: its handles and the calls made on them. *)
Definition connection : Type := list msl * trace event.
Definition holds (c : connection) (k : secret_key) : Prop := exists x, In x (fst c) /\ session_key x = Some k.

(** The call at position [t] wrote [data] as a user message, in the bytes [d]. *)
Definition wrote_as (c : connection) (t : nat) (data d : bytes) : Prop :=
  exists i w w', nth_error (snd c) t = Some (i, (CWrite data w, RWritten (Ok tt) w')) /\
    (takes_all w \/ 16 < bw_cap w) /\ output w' = output w ++ d.

(** Whatever was given to [read], on any handle, and bears a good tag under [k]
    was written on some handle of one of the connections [W] that hold that key. *)
Definition unforged_datagrams (C : Crypto) (k : secret_key) (W : connection -> Prop) (tr : trace event) : Prop :=
  forall i text r, In (i, (CRead (seal C k text), r)) tr ->
    exists c t data, W c /\ holds c k /\ wrote_as c t data (seal C k text).

(** Complete mode. *)
Definition sconnection : Type := list secure_layer * trace (scall * sreply).
Definition sholds (c : sconnection) (k : secret_key) : Prop :=
  exists x, In x (fst c) /\ session_key (minimal x) = Some k.
Definition swrote_as (c : sconnection) (t : nat) (data d : bytes) : Prop :=
  exists i w w', nth_error (snd c) t = Some (i, (SWrite data w, SWritten (Ok tt) w')) /\
    (takes_all w \/ 16 < bw_cap w) /\ output w' = output w ++ d.
Definition sunforged_datagrams (C : Crypto) (k : secret_key) (W : sconnection -> Prop) (tr : trace (scall * sreply)) : Prop :=
  forall i text r, In (i, (SRead (seal C k text), r)) tr ->
    exists c t data, W c /\ sholds c k /\ swrote_as c t data (seal C k text).

(** [j] is the only handle on which calls with property [p] were made. *)
Definition only {E} (p : E -> Prop) (tr : trace E) (j : nat) : Prop := forall i e, In (i, e) tr -> p e -> i = j.
Definition writes_user (e : event) : Prop := writes [e] <> [].
Definition delivers_user (e : event) : Prop := user_deliveries [e] <> [].
Definition swrites_user (e : scall * sreply) : Prop := swrites [e] <> [].
Definition sdelivers_user (e : scall * sreply) : Prop := smessages [e] <> [].

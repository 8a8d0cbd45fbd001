(** Writers, nonces and early messages. *)

From Verif.Model Require Import Minimal.
From Verif.Spec Require Import Wire Datagram Trace ReadSpec Accept Session.

(** The sink takes every byte it is given. *)
Definition takes_all (w : bufwriter) : Prop := sink_script (bw_sink w) = [].

(** Everything handed to the writer so far. *)
Definition output (w : bufwriter) : bytes := bw_bytes w.

(** An error a writer can answer with: one its sink gives, or that the sink
    took no byte of a block it was to take whole. *)
Definition writer_error (w : bufwriter) (e : io_error) : Prop :=
  e = IoWriteZero \/ In (WFail e) (sink_script (bw_sink w)).

(** A user message was written. *)
Definition written (e : event) : bool :=
  match snd e with RWritten (Ok _) _ => true | _ => false end.

(** Which nonces are taken, given the ones delivered so far: a new one, and
    either the least missing one or one that finds fewer than 10000 delivered
    nonces above the least missing one. *)
Definition nonce_acceptable (ns : list N) (n : N) : Prop :=
  ~ In n ns /\
  ((forall m, m < n -> In m ns) \/
   exists least, ~ In least ns /\ (forall m, m < least -> In m ns) /\
     len (filter (fun m => least <? m) ns) < 10000).

(** Sealed datagrams for which [read] returned nothing yet: early user
    messages. *)
Definition starts_clear (d : bytes) : bool := bytes_eqb (firstn 4 d) magic.
Definition early_messages (h : history) : list bytes :=
  flat_map (fun e => match e with
                     | (CRead d, RMsg (Ok None)) => if starts_clear d then [] else [d]
                     | _ => []
                     end) h.

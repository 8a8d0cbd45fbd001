(** What the handles of one end of a connection (Spec/Family.v) put on the wire,
    in order, for the network to carry to the other end. *)

From Verif.Model Require Import Complete.
From Verif.Spec Require Import Wire Datagram Trace ReadSpec Accept Session Writers CompleteTrace Family.

(** The user messages written through any of the handles, oldest first, each
    with the bytes the call added to its writer. *)
Definition posted (u : trace event) : list (bytes * bytes) :=
  flat_map (fun e => match e with
                     | (CWrite data w, RWritten (Ok _) w') => [(data, skipn (length (output w)) (output w'))]
                     | _ => []
                     end) (map snd u).

(** Complete mode. *)
Definition sposted (u : trace (scall * sreply)) : list (bytes * bytes) :=
  flat_map (fun e => match e with
                     | (SWrite data w, SWritten (Ok _) w') => [(data, skipn (length (output w)) (output w'))]
                     | _ => []
                     end) (map snd u).

(** [xs] are the elements of [l] at the places [ps]: repeated, left out, in any
    order. *)
Definition picked {A} (l : list A) (ps : list N) (xs : list A) : Prop :=
  Forall2 (fun p x => nth_error l (N.to_nat p) = Some x) ps xs.

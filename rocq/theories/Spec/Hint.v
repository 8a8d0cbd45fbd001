(** Histories of the methods that ask for a buffer of five times the size of a
    payload before they inflate it, and the sizes for which that works. *)

From Verif.Model Require Import Hint.
From Verif.Spec Require Import Wire Datagram Trace ReadSpec Accept Session Writers CompleteTrace Typed TypedTrace.

(** A buffer of five times [n] bytes can be asked for: the product does not
    overflow, or overflows unnoticed, and is no more than isize::MAX. *)
Definition affordable (T : target) (n : N) : Prop :=
  (overflow_checks T = true -> 5 * n < 2 ^ usize_bits T) /\
  (5 * n) mod 2 ^ usize_bits T < 2 ^ (usize_bits T - 1).

(** Shorter than a tenth of the address space: 429 megabytes with 32 bits. *)
Definition roomy (T : target) (d : bytes) : Prop := 5 * len d < 2 ^ (usize_bits T - 1).

Section WithEnv.
Context (C : Crypto) (Z : Zip) (T : target) (F : features).
Context {M : Type} (K : Codec M).

(** As [tcall_step], with the reads that ask for the buffer. *)
Definition hcall_step (s : secure_layer) (c : tcall M) : secure_layer * treply M :=
  match c with
  | VRead d => let '(s, o) := sl_read_hint C Z T F K d s in (s, TMsgs o)
  | VBin (SRead d) => let '(s, o) := read_bin_hint C Z T d s in (s, TOther (SMsgs o))
  | c => tcall_step C Z T F K s c
  end.

Fixpoint hrun (s : secure_layer) (cs : list (tcall M)) : secure_layer * thistory :=
  match cs with
  | [] => (s, [])
  | c :: cs =>
      let '(s, r) := hcall_step s c in
      let '(s, h) := hrun s cs in
      (s, (c, r) :: h)
  end.

(** The datagram of a read. *)
Definition roomy_call (c : tcall M) : Prop :=
  match c with VRead d | VBin (SRead d) => roomy T d | _ => True end.

(** Created, used on roomy datagrams, cloned. *)
Inductive roomy_life : secure_layer -> Prop :=
| rl_create r rs cfg given pin s : sl_create C r rs cfg given pin = Ok s -> roomy_life s
| rl_step s c : roomy_life s -> roomy_call c -> roomy_life (fst (hcall_step s c))
| rl_clone s c : roomy_life s -> snd (sl_try_clone s) = Ok c -> roomy_life c.

End WithEnv.

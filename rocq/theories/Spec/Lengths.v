(** Calls and replies that differ in the contents of user messages only. *)

From Verif.Model Require Import Complete.
From Verif.Spec Require Import Trace CompleteTrace.

(** Two writers holding as many bytes, with the same behaviour to come. *)
Definition same_size (w w' : bufwriter) : Prop :=
  bw_cap w = bw_cap w' /\ len (bw_buf w) = len (bw_buf w') /\
  len (sink_data (bw_sink w)) = len (sink_data (bw_sink w')) /\
  sink_script (bw_sink w) = sink_script (bw_sink w').

(** The same call, except that a user message may be another one of that length. *)
Definition same_lengths (c c' : call) : Prop :=
  match c, c' with
  | CWrite data w, CWrite data' w' => len data = len data' /\ same_size w w'
  | _, _ => c = c'
  end.

(** The same reply, except for the bytes written, which are as many. *)
Definition same_but_bytes (r r' : reply) : Prop :=
  match r, r' with
  | RWritten o w, RWritten o' w' => o = o' /\ same_size w w'
  | _, _ => r = r'
  end.

(** Complete mode: the same call, except that a user message may be another one
    whose compressed form has the same length with the configuration [s] has. *)
Definition same_packed_lengths (Z : Zip) (s : secure_layer) (c c' : scall) : Prop :=
  match c, c' with
  | SWrite data w, SWrite data' w' =>
      len (packed Z (Some data) s) = len (packed Z (Some data') s) /\ same_size w w'
  | _, _ => c = c'
  end.

Definition same_but_bytes_complete (r r' : sreply) : Prop :=
  match r, r' with
  | SWritten o w, SWritten o' w' => o = o' /\ same_size w w'
  | _, _ => r = r'
  end.

(** Call by call along a run. *)
Fixpoint same_packed_run (C : Crypto) (Z : Zip) (T : target) (s : secure_layer) (cs cs' : list scall) : Prop :=
  match cs, cs' with
  | [], [] => True
  | c :: cs, c' :: cs' =>
      same_packed_lengths Z s c c' /\ same_packed_run C Z T (fst (scall_step C Z T s c)) cs cs'
  | _, _ => False
  end.

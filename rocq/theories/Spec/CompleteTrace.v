(** Histories of API calls on one [SecureLayer] (complete mode).

    [scall] lists the public methods of /repo/src/complete.rs that work on
    bytes; the typed methods are these composed with a serialiser
    (Model/Serde.v, Properties/Typed.v).  [scall_step] dispatches to the model
    of the method. *)

From Verif.Model Require Import Complete.
From Verif.Spec Require Import Wire Datagram Trace ReadSpec Accept Session Writers.

Inductive scall :=
| SRead (incoming : bytes)                       (* read_bin, complete.rs:113 *)
| SConnect (cd : option bytes) (w : bufwriter)   (* write_connect_msg_bin, :227 *)
| SAck (cd : option bytes) (w : bufwriter)       (* write_ack_msg_bin, :195 *)
| SWrite (data : bytes) (w : bufwriter)          (* write_bin, :273 *)
| SClone                                         (* try_clone, :48 *)
| SConfig (cfg : config).                        (* change_config, :58 *)

Inductive sreply :=
| SMsgs (o : outcome (list incoming_binary_message))
| SWritten (o : outcome unit) (w : bufwriter)
| SCloned (o : outcome secure_layer)
| SUnit (o : outcome unit).

Definition shistory := list (scall * sreply).

Section WithEnv.
Context (C : Crypto) (Z : Zip) (T : target).

Definition scall_step (s : secure_layer) (c : scall) : secure_layer * sreply :=
  match c with
  | SRead d => let '(s, o) := read_bin C Z T d s in (s, SMsgs o)
  | SConnect cd w => let '(s, w, o) := write_connect_msg_bin C Z cd s w in (s, SWritten o w)
  | SAck cd w => let '(s, w, o) := write_ack_msg_bin C Z cd s w in (s, SWritten o w)
  | SWrite data w => let '(s, w, o) := write_bin C Z T data s w in (s, SWritten o w)
  | SClone => let '(s, o) := sl_try_clone s in (s, SCloned o)
  | SConfig cfg => let '(s, o) := sl_change_config cfg s in (s, SUnit o)
  end.

Fixpoint srun (s : secure_layer) (cs : list scall) : secure_layer * shistory :=
  match cs with
  | [] => (s, [])
  | c :: cs =>
      let '(s, r) := scall_step s c in
      let '(s, h) := srun s cs in
      (s, (c, r) :: h)
  end.

(** The states of a complete-mode handle: created, used, or cloned. *)
Inductive sreachable : secure_layer -> Prop :=
| sreach_create r rs cfg seed pin s : sl_create C r rs cfg seed pin = Ok s -> sreachable s
| sreach_step s c : sreachable s -> sreachable (fst (scall_step s c))
| sreach_clone s c : sreachable s -> snd (sl_try_clone s) = Ok c -> sreachable c.

(** The calls one complete-mode call makes on the layer inside it: [read_bin]
    reads, then takes an early ACK after a CONNECT, or drains the early user
    messages after an ACK. *)
Inductive sub_calls : scall -> list call -> Prop :=
| sub_read d : sub_calls (SRead d) [CRead d]
| sub_read_ack d : sub_calls (SRead d) [CRead d; CTakeAck]
| sub_read_drain d : sub_calls (SRead d) [CRead d; CDrain]
| sub_none_connect cd w : sub_calls (SConnect cd w) []
| sub_connect cd w pk x : sub_calls (SConnect cd w) [CConnect pk x]
| sub_none_ack cd w : sub_calls (SAck cd w) []
| sub_ack cd w x : sub_calls (SAck cd w) [CAck x]
| sub_write data w x : sub_calls (SWrite data w) [CWrite x w]
| sub_clone : sub_calls SClone [CClone]
| sub_config cfg : sub_calls (SConfig cfg) [CConfig cfg].

(** What complete mode makes of a message of the layer inside it: the payload
    is inflated; absent stays absent. *)
Definition inflates (o x : option bytes) : Prop :=
  match o, x with
  | None, None => True
  | Some c, Some d => inflate Z c = inl d
  | _, _ => False
  end.
Definition decodes (m : message) (i : incoming_binary_message) : Prop :=
  match m, i with
  | MConnect _ pk o, IConnect x pk' => pk' = pk /\ inflates o x
  | MAck o, IAck x => inflates o x
  | MMessage o, IMessage x => inflates o x
  | _, _ => False
  end.

(** A payload that inflates to [x], or no payload. *)
Definition deflated (x : option bytes) (c : bytes) : Prop :=
  match x with
  | None => c = []
  | Some d => c <> [] /\ inflate Z c = inl d
  end.

(** The possible results of [read_bin]. *)
Definition is_message (i : incoming_binary_message) : Prop :=
  match i with IMessage _ => True | _ => False end.
Inductive read_shape : list incoming_binary_message -> Prop :=
| shape_none : read_shape []
| shape_connect cd pk : read_shape [IConnect cd pk]
| shape_connect_ack cd pk cd' : read_shape [IConnect cd pk; IAck cd']
| shape_ack cd l : Forall is_message l -> read_shape (IAck cd :: l)
| shape_message x : read_shape [IMessage x].

End WithEnv.

(** Replies that report a payload that could not be inflated, or a panic. *)
Definition zip_error (r : sreply) : bool :=
  match r with SMsgs (Err (ZipError _)) => true | _ => false end.
Definition spanics (r : sreply) : bool :=
  match r with
  | SMsgs (Panic _) | SWritten (Panic _) _ | SCloned (Panic _) | SUnit (Panic _) => true
  | _ => false
  end.

(** A complete-mode layer is failed, or has negotiated, when it says so. *)
Definition sfailed (C : Crypto) (s : secure_layer) : Prop := failed C (minimal s).
Definition sestablished (s : secure_layer) : Prop := exists c, snd (sl_try_clone s) = Ok c.

(** No early user message is waiting: draining finds nothing. *)
Definition none_waiting (C : Crypto) (T : target) (s : secure_layer) : Prop :=
  drain_tmp_stack_user_msgs C T (minimal s) = (minimal s, Ok []).

(** The same layer with another configuration. *)
Definition with_conf (cfg : config) (s : secure_layer) : secure_layer := set_minimal (set_conf cfg (minimal s)) s.

(** A call that made a clone. *)
Definition clone_made (e : scall * sreply) : bool :=
  match snd e with SCloned (Ok _) => true | _ => false end.

(** The payload of a written message: data shorter than the configured minimum
    is not compressed (level 0), other data is, at the configured level. *)
Definition packed (Z : Zip) (data : option bytes) (s : secure_layer) : bytes :=
  match data with
  | None => []
  | Some d =>
      let c := conf (minimal s) in
      deflate Z (if len d <? cfg_compression_min_size c then 0 else cfg_compression c) d
  end.

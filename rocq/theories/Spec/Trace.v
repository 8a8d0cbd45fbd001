(** Histories of API calls on one [MinimalSecureLayer].

    [call] lists the public methods of /repo/src/minimal.rs with their
    arguments, [reply] what each returns; [call_step] just dispatches to the
    model of the method.  A history is the list of calls with their replies,
    oldest first.  Histories go on after errors and after panics. *)

From Verif.Model Require Import Minimal.

Inductive call :=
| CRead (incoming : bytes)                         (* read, minimal.rs:159 *)
| CTakeAck                                         (* take_ack_msg_recv_too_early, :150 *)
| CDrain                                           (* drain_tmp_stack_user_msgs, :133 *)
| CConnect (public_key : bytes) (cd : option bytes) (* create_connect_message, :332 *)
| CAck (cd : option bytes)                         (* create_ack_message, :355 *)
| CWrite (data : bytes) (w : bufwriter)            (* write_message, :370 *)
| CClone                                           (* try_clone, :55 *)
| CConfig (cfg : config).                          (* change_config, :78 *)

Inductive reply :=
| RMsg (o : outcome (option message))
| RMsgs (o : outcome (list message))
| RBytes (o : outcome bytes)
| RWritten (o : outcome unit) (w : bufwriter)      (* and the writer after the call *)
| RClone (o : outcome msl)
| RUnit (o : outcome unit).

Definition event := (call * reply)%type.
Definition history := list event.

Section WithEnv.
Context (C : Crypto) (T : target).

Definition call_step (s : msl) (c : call) : msl * reply :=
  match c with
  | CRead d => let '(s, o) := read C T d s in (s, RMsg o)
  | CTakeAck => let '(s, o) := take_ack_msg_recv_too_early C T s in (s, RMsg o)
  | CDrain => let '(s, o) := drain_tmp_stack_user_msgs C T s in (s, RMsgs o)
  | CConnect pk cd => let '(s, o) := create_connect_message C pk cd s in (s, RBytes o)
  | CAck cd => let '(s, o) := create_ack_message C cd s in (s, RBytes o)
  | CWrite data w => let '(s, w, o) := write_message C T data s w in (s, RWritten o w)
  | CClone => let '(s, o) := try_clone s in (s, RClone o)
  | CConfig cfg => let '(s, o) := change_config cfg s in (s, RUnit o)
  end.

Fixpoint run (s : msl) (cs : list call) : msl * history :=
  match cs with
  | [] => (s, [])
  | c :: cs =>
      let '(s, r) := call_step s c in
      let '(s, h) := run s cs in
      (s, (c, r) :: h)
  end.

(** The states a handle can be in: created, used, or obtained by cloning. *)
Inductive reachable : msl -> Prop :=
| reach_create r cfg pin s : create C r cfg pin = Ok s -> reachable s
| reach_step s c : reachable s -> reachable (fst (call_step s c))
| reach_clone s c : reachable s -> snd (try_clone s) = Ok c -> reachable c.

End WithEnv.

(** ** Observations on replies *)

(** Messages handed to the application. *)
Definition delivered (r : reply) : list message :=
  match r with
  | RMsg (Ok (Some m)) => [m]
  | RMsgs (Ok l) => l
  | _ => []
  end.

Definition panics (r : reply) : bool :=
  match r with
  | RMsg (Panic _) | RMsgs (Panic _) | RBytes (Panic _)
  | RWritten (Panic _) _ | RClone (Panic _) | RUnit (Panic _) => true
  | _ => false
  end.

(** The panic a call ended with, if any. *)
Definition panic_of (r : reply) : option panic :=
  match r with
  | RMsg (Panic p) | RMsgs (Panic p) | RBytes (Panic p)
  | RWritten (Panic p) _ | RClone (Panic p) | RUnit (Panic p) => Some p
  | _ => None
  end.

Definition is_connect (m : message) : bool :=
  match m with MConnect _ _ _ => true | _ => false end.
Definition is_ack (m : message) : bool :=
  match m with MAck _ => true | _ => false end.
Definition is_user (m : message) : bool :=
  match m with MMessage _ => true | _ => false end.

(** The four events of README.md "Negotiation stage".  A CONNECT is also
    accepted when its key agreement is refused afterwards (the signature was
    good and the peer key is recorded). *)
Definition connect_created (e : event) : bool :=
  match e with (CConnect _ _, RBytes (Ok _)) => true | _ => false end.
Definition ack_created (e : event) : bool :=
  match e with (CAck _, RBytes (Ok _)) => true | _ => false end.
Definition connect_accepted (e : event) : bool :=
  match snd e with
  | RMsg (Ok (Some (MConnect _ _ _))) => true
  | RMsg (Err FailToComputeAgreement) => true
  | _ => false
  end.
Definition ack_accepted (e : event) : bool :=
  match snd e with RMsg (Ok (Some (MAck _))) => true | _ => false end.

(** Errors of a read that do not fail the connection. *)
Definition harmless (e : error) : bool :=
  match e with
  | RecvInvalidMsg InvalidChallenge
  | RecvInvalidMsg InvalidHashOrSig
  | RecvInvalidMsg InvalidNonce
  | UnexpectedRemoteSigPubKey
  | FailToComputeAgreement => true
  | _ => false
  end.

(** A call whose reply says that the connection has failed (now or before). *)
Definition fatal (e : event) : bool :=
  match snd e with
  | RMsg (Err er) => negb (harmless er)
  | RMsgs (Err er) => negb (harmless er)
  | RWritten (Err _) _ => true
  | _ => false
  end.

Definition happened (p : event -> bool) (h : history) : Prop := exists e, In e h /\ p e = true.
Definition count (p : event -> bool) (h : history) : nat := length (filter p h).

(** The negotiation is complete: README.md "When the two threads reach step 3". *)
Definition negotiated (h : history) : Prop :=
  happened connect_created h /\ happened connect_accepted h /\
  happened ack_created h /\ happened ack_accepted h /\ ~ happened fatal h.

(** A layer is failed when it says so: creating a CONNECT answers
    [ConnectionHadFail] (and changes nothing). *)
Definition failed (C : Crypto) (s : msl) : Prop :=
  snd (create_connect_message C [] None s) = Err ConnectionHadFail.

(** A layer has negotiated when it can be cloned. *)
Definition established (s : msl) : Prop := exists c, snd (try_clone s) = Ok c.

(** A call that gives nothing to the application nor to the network. *)
Definition inert (e : event) : Prop :=
  delivered (snd e) = [] /\
  match e with
  | (CConnect _ _, r) | (CAck _, r) => forall b, r <> RBytes (Ok b)
  | (CWrite _ w, r) => exists er, r = RWritten (Err er) w
  | (CClone, r) => forall c, r <> RClone (Ok c)
  | _ => True
  end.

(** Calls that need an established connection: a user message delivered or
    written, or a clone. *)
Definition uses_session (e : event) : Prop :=
  (exists m, In m (delivered (snd e)) /\ is_user m = true) \/
  (exists w, snd e = RWritten (Ok tt) w) \/
  (exists c, snd e = RClone (Ok c)).

Definition panic_free (h : history) : Prop := forall e, In e h -> panics (snd e) = false.

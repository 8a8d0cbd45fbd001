(** Two honest applications that use minimal mode, and the network between them.

    Each application signs its CONNECT and its ACK itself.  The early ACK and
    the early user messages come out of the layer only when the application
    asks for them, which it may do at any time.  The network is that of
    Spec/Network.v: it hands over the travelling datagrams in any order, each
    once.  Not /repo code: the environment of two [MinimalSecureLayer]s. *)

From Verif.Model Require Import Minimal.
From Verif.Spec Require Import Wire Trace ReadSpec Session Writers Network.

(** What was read. *)
Definition read_conns (l : list message) : list (bytes * option bytes) :=
  flat_map (fun m => match m with MConnect _ pk cd => [(pk, cd)] | _ => [] end) l.
Definition read_acks (l : list message) : list (option bytes) :=
  flat_map (fun m => match m with MAck cd => [cd] | _ => [] end) l.
Definition read_users (l : list message) : list (option bytes) :=
  flat_map (fun m => match m with MMessage d => [d] | _ => [] end) l.

Record agent := {
  a_layer : msl;
  a_sent : list packet;                   (* what it wrote *)
  a_travelling : list (packet * bytes);   (* datagrams on their way to it *)
  a_arrived : list packet;                (* what was handed to its [read] *)
  a_inbox : list message;                 (* the messages its calls returned *)
  a_kept : list (N * bytes);   (* user messages handed to [read] and not returned yet *)
  a_got : list (N * bytes)     (* user messages returned, in that order *)
}.
Definition mnet := side -> agent.
Definition mupd (n : mnet) (x : side) (a : agent) : mnet :=
  fun y => match x, y with Alice, Alice | Bob, Bob => a | _, _ => n y end.

Inductive mmove :=
| DoConnect (x : side) (cd : option bytes)
| DoAck (x : side) (cd : option bytes)
| DoSend (x : side) (data : bytes) (cap : N)
| DoConfig (x : side) (cfg : config)
| DoTakeAck (x : side)
| DoDrain (x : side)
| DoDeliver (x : side) (i : nat).

Section WithEnv.
Context (C : Crypto) (T : target).

Definition with_layer_of (a : agent) (s : msl) : agent :=
  {| a_layer := s; a_sent := a_sent a; a_travelling := a_travelling a; a_arrived := a_arrived a;
     a_inbox := a_inbox a; a_kept := a_kept a; a_got := a_got a |}.

(** [x] made the datagram of [p]: if the call returned Ok it travels to the
    other side. *)
Definition mpost (n : mnet) (x : side) (p : packet) (s : msl) (o : outcome bytes) : mnet * bool :=
  let me := n x in
  let you := n (other x) in
  match o with
  | Ok d =>
      (mupd (mupd n x {| a_layer := s; a_sent := a_sent me ++ [p]; a_travelling := a_travelling me;
                         a_arrived := a_arrived me; a_inbox := a_inbox me; a_kept := a_kept me;
                         a_got := a_got me |})
         (other x) {| a_layer := a_layer you; a_sent := a_sent you;
                      a_travelling := a_travelling you ++ [(p, d)]; a_arrived := a_arrived you;
                      a_inbox := a_inbox you; a_kept := a_kept you; a_got := a_got you |}, true)
  | _ => (mupd n x (with_layer_of me s), false)
  end.

(** The application appends its signature. *)
Definition sign (seed : bytes) (o : outcome bytes) : outcome bytes :=
  match o with Ok b => Ok (b ++ ed25519_sign C seed b) | _ => o end.

(** A datagram is handed to [read]. *)
Definition mdeliver (n : mnet) (x : side) (i : nat) : mnet * bool :=
  let me := n x in
  match nth_error (a_travelling me) i with
  | None => (n, false)
  | Some (p, d) =>
      let '(s, o) := read C T d (a_layer me) in
      let next ib kp gt :=
        mupd n x {| a_layer := s; a_sent := a_sent me; a_travelling := without_nth i (a_travelling me);
                    a_arrived := a_arrived me ++ [p]; a_inbox := ib; a_kept := kp; a_got := gt |} in
      match o with
      | Ok (Some m) => (next (a_inbox me ++ [m]) (a_kept me) (a_got me ++ users [p]), true)
      | Ok None => (next (a_inbox me) (a_kept me ++ users [p]) (a_got me), true)
      | _ => (next (a_inbox me) (a_kept me) (a_got me), false)
      end
  end.

(** One move; the boolean tells whether the call returned Ok. *)
Definition mnet_step (P : side -> party) (n : mnet) (m : mmove) : mnet * bool :=
  match m with
  | DoConnect x cd =>
      let '(s, o) := create_connect_message C (public_key C P x) cd (a_layer (n x)) in
      mpost n x (PConnect cd) s (sign (p_seed (P x)) o)
  | DoAck x cd =>
      let '(s, o) := create_ack_message C cd (a_layer (n x)) in
      mpost n x (PAck cd) s (sign (p_seed (P x)) o)
  | DoSend x data cap =>
      let '(s, w, o) := write_message C T data (a_layer (n x)) (fresh_writer cap) in
      mpost n x (PData (len (users (a_sent (n x)))) data) s
        match o with Ok _ => Ok (output w) | Err e => Err e | Panic p => Panic p end
  | DoConfig x cfg =>
      let '(s, o) := change_config cfg (a_layer (n x)) in
      (mupd n x (with_layer_of (n x) s), match o with Ok _ => true | _ => false end)
  | DoTakeAck x =>
      let '(s, o) := take_ack_msg_recv_too_early C T (a_layer (n x)) in
      let me := with_layer_of (n x) s in
      match o with
      | Ok r =>
          (mupd n x {| a_layer := s; a_sent := a_sent me; a_travelling := a_travelling me;
                       a_arrived := a_arrived me;
                       a_inbox := a_inbox me ++ match r with Some m => [m] | None => [] end;
                       a_kept := a_kept me; a_got := a_got me |}, true)
      | _ => (mupd n x me, false)
      end
  | DoDrain x =>
      let '(s, o) := drain_tmp_stack_user_msgs C T (a_layer (n x)) in
      let me := with_layer_of (n x) s in
      match o with
      | Ok l =>
          (mupd n x {| a_layer := s; a_sent := a_sent me; a_travelling := a_travelling me;
                       a_arrived := a_arrived me; a_inbox := a_inbox me ++ l;
                       a_kept := skipn (length l) (a_kept me);
                       a_got := a_got me ++ firstn (length l) (a_kept me) |}, true)
      | _ => (mupd n x me, false)
      end
  | DoDeliver x i => mdeliver n x i
  end.

(** The user messages that count for the limit on reordering: those returned
    and, as long as the peer's ACK was not, those kept. *)
Definition counted (a : agent) : list N :=
  map fst (match read_acks (a_inbox a) with [] => a_kept a | _ => a_got a end).

(** What applications and network do: CONNECT once, ACK once after the peer's
    CONNECT was read, user messages after the peer's ACK was read, everything
    else at any time; no user message is handed over while one sent more than
    10000 messages before it does not count yet. *)
Definition mallowed (n : mnet) (m : mmove) : Prop :=
  match m with
  | DoConnect x cd => conns (a_sent (n x)) = [] /\ fits T (custom cd)
  | DoAck x cd => read_conns (a_inbox (n x)) <> [] /\ acks (a_sent (n x)) = [] /\ fits T (custom cd)
  | DoSend x data _ =>
      acks (a_sent (n x)) <> [] /\ read_acks (a_inbox (n x)) <> [] /\
      len (users (a_sent (n x))) + 1 < 2 ^ 64 /\ fits T data
  | DoConfig _ _ | DoTakeAck _ | DoDrain _ => True
  | DoDeliver x i =>
      exists p d, nth_error (a_travelling (n x)) i = Some (p, d) /\
        match p with PData j _ => gap_bounded (counted (n x)) j | _ => True end
  end.

Inductive mexec (P : side -> party) (n0 : mnet) : mnet -> Prop :=
| mexec_start : mexec P n0 n0
| mexec_step n m : mexec P n0 n -> mallowed n m -> mexec P n0 (fst (mnet_step P n m)).

(** Both layers just created, nothing written. *)
Definition mstart (P : side -> party) (n : mnet) : Prop :=
  forall x,
    create C (RngKey (p_sk (P x))) (p_conf (P x))
      (if p_pins (P x) then Some (public_key C P (other x)) else None) = Ok (a_layer (n x)) /\
    a_sent (n x) = [] /\ a_travelling (n x) = [] /\ a_arrived (n x) = [] /\ a_inbox (n x) = [] /\
    a_kept (n x) = [] /\ a_got (n x) = [].

End WithEnv.

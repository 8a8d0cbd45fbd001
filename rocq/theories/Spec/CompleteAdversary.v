(** Complete-mode layers of several owners in a network the attacker controls:
    Spec/Adversary.v for [SecureLayer], in terms of what its calls read, return
    and write. *)

From Verif.Model Require Import Complete.
From Verif.Spec Require Import Wire Datagram Trace ReadSpec Accept Session Writers CompleteTrace.

(** One layer's life: the ephemeral private key and signing key, configuration,
    expected peer key, present state, history. *)
Record ssession := {
  ss_sk : bytes;
  ss_seed : bytes;
  ss_conf : config;
  ss_pin : option bytes;
  ss_state : secure_layer;
  ss_log : shistory
}.

(** The datagrams given to [read_bin]. *)
Definition sread (h : shistory) (d : bytes) : Prop := exists r, In (SRead d, r) h.

(** [read_bin] returned the message [i]. *)
Definition sreturned (h : shistory) (i : incoming_binary_message) : Prop :=
  exists d l, In (SRead d, SMsgs (Ok l)) h /\ In i l.

(** The user messages returned and written along a history, in order. *)
Definition message_of (i : incoming_binary_message) : list (option bytes) :=
  match i with IMessage x => [x] | _ => [] end.
Definition smessages (h : shistory) : list (option bytes) :=
  flat_map (fun e => match snd e with SMsgs (Ok l) => flat_map message_of l | _ => [] end) h.
Definition swrites (h : shistory) : list bytes :=
  flat_map (fun e => match e with (SWrite data _, SWritten (Ok _) _) => [data] | _ => [] end) h.

Definition snever_panics (h : shistory) : Prop := forall e, In e h -> spanics (snd e) = false.

(** A call of [x] put the bytes [d] at the end of a writer. *)
Definition put (x : ssession) (c : bufwriter -> scall) (d : bytes) : Prop :=
  exists w w', In (c w, SWritten (Ok tt) w') (ss_log x) /\ takes_all w /\ output w' = output w ++ d.

Section WithEnv.
Context (C : Crypto) (Z : Zip) (T : target).

Definition sgenuine (x : ssession) : Prop :=
  exists rs given s0 cs,
    (given = Some (ss_seed x) \/ given = None /\ rs = Some (ss_seed x)) /\
    sl_create C (RngKey (ss_sk x)) rs (ss_conf x) given (ss_pin x) = Ok s0 /\
    srun C Z T s0 cs = (ss_state x, ss_log x).

(** The ephemeral public key and the session key of a layer. *)
Definition sepk (x : ssession) : bytes := x25519_public C (ss_sk x).
Definition skey (x : ssession) : option secret_key := session_key (minimal (ss_state x)).

(** [B] are the layers with signing key [seed]. *)
Definition sowned (seed : bytes) (B : ssession -> Prop) : Prop :=
  forall b, B b -> sgenuine b /\ ss_seed b = seed.

(** Whatever was read along [h] and bears a good signature of [seed]'s public
    key was signed and written by one of the layers [B]. *)
Definition sunforged (seed : bytes) (B : ssession -> Prop) (h : shistory) : Prop :=
  forall t sig, sread h (t ++ sig) -> ed25519_verify C (ed25519_public C seed) t sig = true ->
    exists b x, B b /\ (put b (SConnect x) (t ++ ed25519_sign C seed t) \/
                        put b (SAck x) (t ++ ed25519_sign C seed t)).

(** Whatever was read along [h] and bears a good tag under [k] was written as a
    user message by one of the layers [W], which hold that key. *)
Definition sunforged_tags (k : secret_key) (W : ssession -> Prop) (h : shistory) : Prop :=
  forall text, sread h (seal C k text) ->
    exists b data, W b /\ skey b = Some k /\ put b (SWrite data) (seal C k text).

End WithEnv.

(** The peer's key is [pk]: expected from the start, or that of a CONNECT
    [read_bin] returned. *)
Definition speer_is (a : ssession) (pk : bytes) : Prop :=
  ss_pin a = Some pk \/ exists x, sreturned (ss_log a) (IConnect x pk).

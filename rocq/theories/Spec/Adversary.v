(** Layers of several owners in a network the attacker controls.

    Nothing is said about the network: a layer may be given any datagram at any
    time.  What the attacker cannot do is stated on the datagrams a layer was
    given: [unforged] for signatures, [unforged_tags] for the cipher. *)

From Verif.Model Require Import Minimal.
From Verif.Spec Require Import Wire Datagram Trace ReadSpec Accept Session Writers.

(** One layer's life: the ephemeral private key drawn, configuration, expected
    peer key, present state, history. *)
Record session := {
  ses_sk : bytes;
  ses_conf : config;
  ses_pin : option bytes;
  ses_state : msl;
  ses_log : history
}.

(** User messages written successfully, in order. *)
Definition writes (h : history) : list bytes :=
  flat_map (fun e => match e with (CWrite data _, RWritten (Ok _) _) => [data] | _ => [] end) h.

(** The texts an application has to sign: what its layer's
    [create_connect_message] and [create_ack_message] returned. *)
Definition to_sign (h : history) (t : bytes) : Prop := exists c, In (c, RBytes (Ok t)) h.

Section WithEnv.
Context (C : Crypto) (T : target).

Definition genuine (x : session) : Prop :=
  exists s0 cs, create C (RngKey (ses_sk x)) (ses_conf x) (ses_pin x) = Ok s0 /\
    run C T s0 cs = (ses_state x, ses_log x).

(** The ephemeral public key of a layer. *)
Definition epk (x : session) : bytes := x25519_public C (ses_sk x).

(** [B] are layers of the owner of signature key [pk]: their CONNECTs carry it. *)
Definition owned (pk : bytes) (B : session -> Prop) : Prop :=
  forall b, B b -> genuine b /\ forall k cd r, In (CConnect k cd, r) (ses_log b) -> k = pk.

(** Whatever was read along [h] and bears a good signature of [pk] was signed by
    its owner. *)
Definition unforged (pk : bytes) (B : session -> Prop) (h : history) : Prop :=
  forall t sig, In (t ++ sig) (submitted h) -> ed25519_verify C pk t sig = true ->
    exists b, B b /\ to_sign (ses_log b) t.

(** [b] wrote the bytes [d] as one user message. *)
Definition wrote (b : session) (d : bytes) : Prop :=
  exists data w w', In (CWrite data w, RWritten (Ok tt) w') (ses_log b) /\
    (takes_all w \/ 16 < bw_cap w) /\ output w' = output w ++ d.

(** Whatever was read along [h] and bears a good tag under [k] was written by one
    of the layers [W], which hold that key. *)
Definition unforged_tags (k : secret_key) (W : session -> Prop) (h : history) : Prop :=
  forall text, In (seal C k text) (submitted h) ->
    exists b, W b /\ session_key (ses_state b) = Some k /\ wrote b (seal C k text).

End WithEnv.

(** [a] takes [pk] for its peer's key: expected at creation, or delivered with
    the CONNECT. *)
Definition peer_is (a : session) (pk : bytes) : Prop :=
  ses_pin a = Some pk \/
  exists e al o, In e (ses_log a) /\ In (MConnect al pk o) (delivered (snd e)).

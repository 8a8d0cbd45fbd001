(** Causes of panics and of failure of [read], in terms of what the datagram
    is (Spec/Datagram.v) and of what the layer has already accepted. *)

From Verif.Model Require Import Minimal.
From Verif.Spec Require Import Wire Datagram Trace.

(** ** What a layer knows *)

(** The session key, once agreed. *)
Definition session_key (s : msl) : option secret_key :=
  match encrypt_algo_with_secret s with Some (WithChacha k) => Some k | None => None end.

(** Waiting for the peer's CONNECT. *)
Definition wants_connect (s : msl) : Prop :=
  exists l, msl_status s = OngoingNegotiation l WaitConnectMsg.
(** Our CONNECT was created, the peer's ACK has not been accepted. *)
Definition wants_ack (s : msl) : Prop :=
  exists r, msl_status s = OngoingNegotiation ConnectMsgSent r.
(** Only the peer's ACK is missing. *)
Definition wants_only_ack (s : msl) : Prop :=
  msl_status s = OngoingNegotiation ConnectMsgSent AckMsgSent.
(** A CONNECT carrying this key is not refused at once. *)
Definition key_acceptable (s : msl) (pk : bytes) : Prop :=
  peer_sig_pubkey s = None \/ peer_sig_pubkey s = Some pk.
(** The nonce was delivered before. *)
Definition received (s : msl) (n : N) : Prop :=
  n < next_nonce_expected s \/ In n (orphan_nonce_list s).

Section WithEnv.
Context (C : Crypto) (T : target).

Definition is_datagram (s : msl) (d text : bytes) (L : N) (k : content) : Prop :=
  datagram T C (session_key s) d (DFrame text L k).

(** The bytes before the announced end are signed by what follows it. *)
Definition signed_by (pk text : bytes) (L : N) : Prop :=
  text_end T L <= len text /\
  ed25519_verify C pk (firstn (N.to_nat (text_end T L)) text)
                      (skipn (N.to_nat (text_end T L)) text) = true.
(** The bytes before the announced end are hashed by what follows it. *)
Definition hash_ok (text : bytes) (L : N) : Prop :=
  text_end T L <= len text /\
  skipn (N.to_nat (text_end T L)) text = sha256 C (firstn (N.to_nat (text_end T L)) text).

(** The agreement of this layer's ephemeral key with [epk] is not refused. *)
Definition agreement_possible (s : msl) (epk : bytes) : Prop :=
  exists kp key, ephemeral s = Some kp /\ x25519_agree C (ekp_priv kp) epk = Some key.

(** ** Why a read panics *)
Inductive panic_cause (s : msl) (d : bytes) : Prop :=
(* the datagram, or its decrypted text, is cut or overflows *)
| pc_cut : datagram T C (session_key s) d DPanic -> panic_cause s d
(* the announced end is after the end of the datagram *)
| pc_connect_end text L epk pk :
    is_datagram s d text L (KConnect epk pk) -> key_acceptable s pk ->
    len text < text_end T L -> panic_cause s d
| pc_ack_end text L k :
    is_datagram s d text L (KAck (sha256 C (ephemeral_pubkey s))) ->
    peer_sig_pubkey s = Some k -> len text < text_end T L -> panic_cause s d
| pc_user_end text L n :
    is_datagram s d text L (KUser n) -> ~ received s n -> established s ->
    len text < text_end T L -> panic_cause s d
(* the message is accepted, but its announced end is before the end of its headers *)
| pc_connect_headers text L epk pk :
    is_datagram s d text L (KConnect epk pk) -> key_acceptable s pk -> signed_by pk text L ->
    wants_connect s -> agreement_possible s epk -> text_end T L < 86 -> panic_cause s d
| pc_ack_headers text L k :
    is_datagram s d text L (KAck (sha256 C (ephemeral_pubkey s))) ->
    peer_sig_pubkey s = Some k -> signed_by k text L -> wants_ack s ->
    text_end T L < 50 -> panic_cause s d
| pc_user_headers text L n :
    is_datagram s d text L (KUser n) -> ~ received s n -> established s -> hash_ok text L ->
    n = next_nonce_expected s \/ len (orphan_nonce_list s) < 10000 ->
    text_end T L < 26 -> panic_cause s d
(* every nonce up to the last one has now been received *)
| pc_nonce_overflow text L n :
    is_datagram s d text L (KUser n) -> ~ received s n -> established s -> hash_ok text L ->
    overflow_checks T = true -> n = next_nonce_expected s ->
    (forall m, n < m -> m < 2 ^ 64 -> In m (orphan_nonce_list s)) -> panic_cause s d.

(** ** Why a read fails the connection *)
Inductive failure_cause (s : msl) (d : bytes) : error -> Prop :=
(* refused by the reader *)
| fc_reject e : datagram T C (session_key s) d (DReject e) -> failure_cause s d (RecvInvalidMsg e)
| fc_undecryptable : datagram T C (session_key s) d DUndecryptable ->
    failure_cause s d (FailToDecryptData DecTagMismatch)
(* a signed CONNECT, when one was already accepted *)
| fc_connect text L epk pk :
    is_datagram s d text L (KConnect epk pk) -> key_acceptable s pk -> signed_by pk text L ->
    ~ wants_connect s -> failure_cause s d (RecvInvalidMsg UnexpectedConnectMsg)
(* a signed ACK, when none is expected *)
| fc_ack text L k :
    is_datagram s d text L (KAck (sha256 C (ephemeral_pubkey s))) ->
    peer_sig_pubkey s = Some k -> signed_by k text L -> ~ wants_ack s ->
    failure_cause s d (RecvInvalidMsg UnexpectedAckMsg)
(* a second early ACK *)
| fc_early_ack text L b :
    is_datagram s d text L (KAck (sha256 C (ephemeral_pubkey s))) ->
    peer_sig_pubkey s = None -> ack_msg_recv_too_early s = Some b ->
    failure_cause s d (RecvInvalidMsg UnexpectedAckMsg)
(* a user message out of turn *)
| fc_user text L n :
    is_datagram s d text L (KUser n) -> ~ received s n ->
    ~ established s -> ~ wants_only_ack s ->
    failure_cause s d (RecvInvalidMsg UnexpectedMessage)
(* too many nonces out of order *)
| fc_orphans text L n :
    is_datagram s d text L (KUser n) -> ~ received s n -> established s -> hash_ok text L ->
    n <> next_nonce_expected s -> 10000 <= len (orphan_nonce_list s) ->
    failure_cause s d TooManyUnorderedMsgs.

End WithEnv.

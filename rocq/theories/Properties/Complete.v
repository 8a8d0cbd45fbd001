(** C43-C48: complete mode. *)

From Coq Require Import ZifyBool ZifyNat ZifyN.
From Verif.Model Require Import Complete.
From Verif.Spec Require Import Wire Datagram Trace ReadSpec Accept Session Writers Attacks CompleteTrace.
From Verif.Proofs Require Import Vocabulary Sending Histories CompleteFacts CompleteMode CompleteStates Configs.
From Verif.Instances Require Import Toy Scenario CompleteScenario.

(** ** C43 *)

(** The CONNECT carries [cd] through, with no data, empty data or data; also
    when the peer's ACK came before it. *)
Theorem C43_connect : forall (C : Crypto) (Z : Zip) (T : target), CryptoLaws C -> ZipLaws Z ->
  forall cd a w a' w',
  sreachable C Z T a -> takes_all w -> write_connect_msg_bin C Z cd a w = (a', w', Ok tt) ->
  exists seed d, sig_key_pair a = Some seed /\ output w' = output w ++ d /\
  forall b, sreachable C Z T b -> len d < 2 ^ usize_bits T ->
    key_acceptable (minimal b) (ed25519_public C seed) -> wants_connect (minimal b) ->
    agreement_possible C (minimal b) (ephemeral_pubkey (minimal a)) ->
    (ack_msg_recv_too_early (minimal b) = None ->
       snd (read_bin C Z T d b) = Ok [IConnect cd (ed25519_public C seed)]) /\
    (forall cd' c', wants_ack (minimal b) -> deflated Z cd' c' -> 50 + len c' < 2 ^ usize_bits T ->
       ack_msg_recv_too_early (minimal b) = Some (signed_ack C seed (ephemeral_pubkey (minimal b)) c') ->
       snd (read_bin C Z T d b) = Ok [IConnect cd (ed25519_public C seed); IAck cd']).
Proof. exact connect_roundtrip. Qed.
Print Assumptions C43_connect.

Theorem C43_ack : forall (C : Crypto) (Z : Zip) (T : target), CryptoLaws C -> ZipLaws Z ->
  forall cd a w a' w',
  sreachable C Z T a -> takes_all w -> write_ack_msg_bin C Z cd a w = (a', w', Ok tt) ->
  exists seed d, sig_key_pair a = Some seed /\ output w' = output w ++ d /\
  forall b, sreachable C Z T b -> len d < 2 ^ usize_bits T ->
    peer_sig_pubkey (minimal b) = Some (ed25519_public C seed) -> wants_ack (minimal b) ->
    peer_epk (minimal a) = Some (ephemeral_pubkey (minimal b)) ->
    tmp_stack_user_msgs (minimal b) = [] ->
    snd (read_bin C Z T d b) = Ok [IAck cd].
Proof. exact ack_roundtrip. Qed.
Print Assumptions C43_ack.

Theorem C43_message : forall (C : Crypto) (Z : Zip) (T : target), CryptoLaws C -> ZipLaws Z ->
  forall data a w a' w',
  sreachable C Z T a -> takes_all w -> write_bin C Z T data a w = (a', w', Ok tt) ->
  exists k d, session_key (minimal a) = Some k /\ output w' = output w ++ d /\
  forall b, sreachable C Z T b -> len d < 2 ^ usize_bits T -> sestablished b ->
    session_key (minimal b) = Some k -> keystream_ok C k ->
    window_room (minimal b) (next_nonce_sent (minimal a)) ->
    ~ last_nonce T (minimal b) (next_nonce_sent (minimal a)) ->
    snd (read_bin C Z T d b) = Ok [IMessage (Some data)].
Proof. exact message_roundtrip. Qed.
Print Assumptions C43_message.

(** B's CONNECT, ACK (with empty, not absent, data) and an empty message. *)
Example C43_case_connect :
  sreachable toy toy_zip T SB0 /\ takes_all vec_writer /\
  snd (write_connect_msg_bin toy toy_zip (Some [x05]) SB0 vec_writer) = Ok tt /\
  sreachable toy toy_zip T SA1 /\ key_acceptable (minimal SA1) (ed25519_public toy seedB) /\
  wants_connect (minimal SA1) /\ agreement_possible toy (minimal SA1) (ephemeral_pubkey (minimal SB0)) /\
  ack_msg_recv_too_early (minimal SA1) = None.
Proof.
  split; [exact sreachable_SB0|]. split; [reflexivity|]. split; [vm_compute; reflexivity|].
  split; [exact sreachable_SA1|]. split; [left; reflexivity|].
  split; [eexists; vm_compute; reflexivity|].
  split; [|vm_compute; reflexivity]. eexists _, _. split; vm_compute; reflexivity.
Qed.
(** The ACK first: B's ACK is kept by A until B's CONNECT comes. *)
Example C43_case_early_ack :
  let b := safter SA1 [SRead (ackB [x00])] in
  sreachable toy toy_zip T b /\ wants_connect (minimal b) /\ wants_ack (minimal b) /\
  deflated toy_zip (Some []) [x00] /\
  ack_msg_recv_too_early (minimal b) = Some (signed_ack toy seedB (ephemeral_pubkey (minimal b)) [x00]) /\
  snd (read_bin toy toy_zip T (connectB [x00; x05]) b) = Ok [IConnect (Some [x05]) pkB; IAck (Some [])].
Proof.
  split; [apply sreachable_run, sreachable_SA1|]. split; [eexists; vm_compute; reflexivity|].
  split; [eexists; vm_compute; reflexivity|]. split; [split; [discriminate|reflexivity]|].
  split; vm_compute; reflexivity.
Qed.
Example C43_case_ack :
  snd (write_ack_msg_bin toy toy_zip (Some []) SB2 vec_writer) = Ok tt /\
  sreachable toy toy_zip T SB2 /\ sreachable toy toy_zip T SA3 /\
  peer_sig_pubkey (minimal SA3) = Some (ed25519_public toy seedB) /\ wants_ack (minimal SA3) /\
  peer_epk (minimal SB2) = Some (ephemeral_pubkey (minimal SA3)) /\ tmp_stack_user_msgs (minimal SA3) = [].
Proof.
  split; [vm_compute; reflexivity|]. split; [exact sreachable_SB2|]. split; [exact sreachable_SA3|].
  split; [vm_compute; reflexivity|]. split; [eexists; vm_compute; reflexivity|]. split; vm_compute; reflexivity.
Qed.
Example C43_case_message :
  snd (write_bin toy toy_zip T [] SB4 vec_writer) = Ok tt /\
  sreachable toy toy_zip T SB4 /\ sreachable toy toy_zip T SA4 /\ sestablished SA4 /\
  session_key (minimal SB4) = Some kAB /\ session_key (minimal SA4) = Some kAB /\ keystream_ok toy kAB /\
  window_room (minimal SA4) (next_nonce_sent (minimal SB4)) /\
  ~ last_nonce T (minimal SA4) (next_nonce_sent (minimal SB4)).
Proof.
  split; [vm_compute; reflexivity|]. split; [exact sreachable_SB4|]. split; [exact sreachable_SA4|].
  split; [eexists; vm_compute; reflexivity|]. split; [vm_compute; reflexivity|]. split; [vm_compute; reflexivity|].
  split; [apply toy_keystream_ok|].
  split; [split; [vm_compute; intros [H|[]]; discriminate|left; vm_compute; reflexivity]|].
  intros [H _]. vm_compute in H. discriminate.
Qed.

(** ** C44 *)
Theorem C44_shape : forall (C : Crypto) (Z : Zip) (T : target), CryptoLaws C ->
  forall d s s' l, sreachable C Z T s -> read_bin C Z T d s = (s', Ok l) -> read_shape l.
Proof. exact read_bin_shape. Qed.
Print Assumptions C44_shape.

(** And what it returns is, inflated, what the layer inside delivers. *)
Theorem C44_content : forall (C : Crypto) (Z : Zip) (T : target), CryptoLaws C ->
  forall d s s' l, sreachable C Z T s -> read_bin C Z T d s = (s', Ok l) ->
  exists cs h, sub_calls (SRead d) cs /\ run C T (minimal s) cs = (minimal s', h) /\
    Forall2 (decodes Z) (flat_map (fun e => delivered (snd e)) h) l.
Proof. exact read_bin_refines. Qed.
Print Assumptions C44_content.

(** An ACK with two early messages behind it: the longest shape. *)
Example C44_case :
  let s := safter SA3 [SRead (msgA 1 [x00; x31]); SRead (msgA 0 [])] in
  sreachable toy toy_zip T s /\
  snd (read_bin toy toy_zip T (ackB [x00]) s) = Ok [IAck (Some []); IMessage (Some [x31]); IMessage None].
Proof. split; [apply sreachable_run, sreachable_SA3|]. vm_compute. reflexivity. Qed.

(** ** C45 *)

(** Of a layer and of the clones made of it. *)
Theorem C45_not_stranded : forall (C : Crypto) (Z : Zip) (T : target), CryptoLaws C ->
  forall r rs cfg seed pin s0 cs s h,
  sl_create C r rs cfg seed pin = Ok s0 -> srun C Z T s0 cs = (s, h) ->
  (forall e, In e h -> zip_error (snd e) = false /\ spanics (snd e) = false) ->
  sestablished s -> none_waiting C T s /\ forall c, snd (sl_try_clone s) = Ok c -> none_waiting C T c.
Proof. exact no_message_stranded. Qed.
Print Assumptions C45_not_stranded.

(** The same from any handle that starts with nothing waiting (a clone). *)
Theorem C45_not_stranded_handle : forall (C : Crypto) (Z : Zip) (T : target), CryptoLaws C ->
  forall s0 cs s h,
  sreachable C Z T s0 -> sestablished s0 -> none_waiting C T s0 -> srun C Z T s0 cs = (s, h) ->
  (forall e, In e h -> zip_error (snd e) = false /\ spanics (snd e) = false) ->
  sestablished s -> none_waiting C T s.
Proof. exact clone_message_stranded. Qed.
Print Assumptions C45_not_stranded_handle.

(** Without "no call failed to inflate" it is false: an authentic ACK with a
    payload that does not inflate completes the negotiation, but the early
    message before it is never returned. *)
Theorem C45_refuted : exists (C : Crypto) (Z : Zip) (T : target), CryptoLaws C /\ ZipLaws Z /\
  exists r rs cfg seed pin s0 cs s h,
  sl_create C r rs cfg seed pin = Ok s0 /\ srun C Z T s0 cs = (s, h) /\
  (forall e, In e h -> spanics (snd e) = false) /\
  sestablished s /\ ~ none_waiting C T s.
Proof.
  exists toy, toy_zip, T. split; [exact toy_laws|]. split; [exact toy_zip_laws|].
  exists (RngKey skA), None, config_default, (Some seedA), None, SA0.
  exists (firstn 3 scallsA ++ [SRead (msgA 0 [x00; x31]); SRead (ackB [xff])]).
  eexists _, _. split; [exact created_SA0|]. split; [apply srun_log|].
  split.
  { assert (forallb (fun e => negb (spanics (snd e)))
      (slog SA0 (firstn 3 scallsA ++ [SRead (msgA 0 [x00; x31]); SRead (ackB [xff])])) = true) as H
      by (vm_compute; reflexivity).
    intros e He. apply negb_true_iff. exact (proj1 (forallb_forall _ _) H e He). }
  split; [eexists; vm_compute; reflexivity|].
  intros H. vm_compute in H. discriminate.
Qed.
Print Assumptions C45_refuted.

(** Two early messages, then the ACK. *)
Example C45_case :
  let cs := firstn 3 scallsA ++ [SRead (msgA 1 [x00; x31]); SRead (msgA 0 [x00]); SRead (ackB [])] in
  sl_create toy (RngKey skA) None config_default (Some seedA) None = Ok SA0 /\
  srun toy toy_zip T SA0 cs = (safter SA0 cs, slog SA0 cs) /\
  (forall e, In e (slog SA0 cs) -> zip_error (snd e) = false /\ spanics (snd e) = false) /\
  sestablished (safter SA0 cs) /\
  len (tmp_stack_user_msgs (minimal (safter SA0 (firstn 5 cs)))) = 2.
Proof.
  cbv zeta. split; [exact created_SA0|]. split; [apply srun_log|].
  split; [|split; [eexists; vm_compute; reflexivity|vm_compute; reflexivity]].
  assert (forallb (fun e => negb (zip_error (snd e)) && negb (spanics (snd e)))
    (slog SA0 (firstn 3 scallsA ++ [SRead (msgA 1 [x00; x31]); SRead (msgA 0 [x00]); SRead (ackB [])])) = true) as H
    by (vm_compute; reflexivity).
  intros e He. pose proof (proj1 (forallb_forall _ _) H e He) as H1. cbv beta in H1.
  apply andb_true_iff in H1 as [H1 H2]. apply negb_true_iff in H1, H2. exact (conj H1 H2).
Qed.

(** ** C46 *)

(** Any message with a payload that does not inflate: the connection is not
    failed, and the datagram is used up: read again, it is refused as a second
    CONNECT or ACK, or as a replay. *)
Theorem C46_consumed : forall (C : Crypto) (Z : Zip) (T : target), CryptoLaws C ->
  forall d s s' e,
  sreachable C Z T s ->
  next_nonce_expected (minimal s) + len (orphan_nonce_list (minimal s)) + 1 < 2 ^ 64 ->
  read_bin C Z T d s = (s', Err (ZipError e)) ->
  ~ sfailed C s' /\ exists x, In x [UnexpectedConnectMsg; UnexpectedAckMsg; InvalidNonce] /\
    snd (read_bin C Z T d s') = Err (RecvInvalidMsg x).
Proof. exact undecodable_consumed. Qed.
Print Assumptions C46_consumed.

(** For a user message of the session, exactly. *)
Theorem C46_message : forall (C : Crypto) (Z : Zip) (T : target), CryptoLaws C ->
  forall d s k n data e,
  sreachable C Z T s -> sestablished s -> session_key (minimal s) = Some k ->
  opens C T k d n data -> data <> [] -> inflate Z data = inr e ->
  window_room (minimal s) n ->
  next_nonce_expected (minimal s) + len (orphan_nonce_list (minimal s)) + 1 < 2 ^ 64 ->
  exists s', read_bin C Z T d s = (s', Err (ZipError e)) /\ sestablished s' /\
    read_bin C Z T d s' = (s', Err (RecvInvalidMsg InvalidNonce)).
Proof. exact undecodable_message. Qed.
Print Assumptions C46_message.

(** A CONNECT, an ACK and a user message with the payload ff. *)
Example C46_case :
  snd (read_bin toy toy_zip T (connectB [xff]) SA1) = Err (ZipError (IoOther 2)) /\
  snd (read_bin toy toy_zip T (ackB [xff]) SA3) = Err (ZipError (IoOther 2)) /\
  opens toy T kAB (msgA 3 [xff]) 3 [xff] /\ inflate toy_zip [xff] = inr (IoOther 2) /\
  window_room (minimal SA4) 3 /\ session_key (minimal SA4) = Some kAB /\ sestablished SA4.
Proof.
  split; [vm_compute; reflexivity|]. split; [vm_compute; reflexivity|].
  split; [apply opens_user_datagram; [reflexivity|apply toy_keystream_ok|reflexivity]|].
  split; [reflexivity|].
  split; [split; [vm_compute; intros [H|[]]; discriminate|right; vm_compute; reflexivity]|].
  split; [vm_compute; reflexivity|]. eexists. vm_compute. reflexivity.
Qed.

(** ** C47 *)
Theorem C47_clones_cannot_negotiate : forall (C : Crypto) (Z : Zip) (T : target),
  forall s c cs c' h,
  snd (sl_try_clone s) = Ok c -> srun C Z T c cs = (c', h) ->
  (forall cd w, write_connect_msg_bin C Z cd c' w = (c', w, Err ConnectMsgAlreadyWritten)) /\
  (forall cd w, write_ack_msg_bin C Z cd c' w = (c', w, Err ConnectMsgAlreadyWritten)).
Proof. exact clone_cannot_negotiate. Qed.
Print Assumptions C47_clones_cannot_negotiate.

Example C47_case : exists c, snd (sl_try_clone SA4) = Ok c /\
  map snd (slog c [SRead (msgA 0 [x00; x31])]) = [SMsgs (Ok [IMessage (Some [x31])])].
Proof. eexists. split; [vm_compute; reflexivity|]. vm_compute. reflexivity. Qed.

(** ** C48 *)

(** A created layer can be reconfigured as long as it was not cloned. *)
Theorem C48_unless_cloned : forall (C : Crypto) (Z : Zip) (T : target),
  forall r rs cfg0 seed pin s0 cs s h,
  sl_create C r rs cfg0 seed pin = Ok s0 -> srun C Z T s0 cs = (s, h) ->
  forall cfg,
  sl_change_config cfg s =
    (if existsb clone_made h then (s, Err ForbidChangeConfAfterClone) else (with_conf cfg s, Ok tt)).
Proof. exact config_unless_cloned. Qed.
Print Assumptions C48_unless_cloned.

(** A clone never can. *)
Theorem C48_never_on_clone : forall (C : Crypto) (Z : Zip) (T : target),
  forall s c cs c' h,
  sreachable C Z T s -> snd (sl_try_clone s) = Ok c -> srun C Z T c cs = (c', h) ->
  forall cfg, sl_change_config cfg c' = (c', Err ForbidChangeConfAfterClone).
Proof. exact config_never_on_clone. Qed.
Print Assumptions C48_never_on_clone.

(** Reading does not depend on the configuration. *)
Theorem C48_read_independent : forall (C : Crypto) (Z : Zip) (T : target),
  forall cfg d s,
  read_bin C Z T d (with_conf cfg s) = (with_conf cfg (fst (read_bin C Z T d s)), snd (read_bin C Z T d s)).
Proof. exact read_ignores_config. Qed.
Print Assumptions C48_read_independent.

(** Neither does anything in minimal mode. *)
Theorem C48_minimal_independent : forall (C : Crypto) (T : target),
  forall cfg s c,
  c <> CClone -> (forall x, c <> CConfig x) ->
  call_step C T (set_conf cfg s) c = (set_conf cfg (fst (call_step C T s c)), snd (call_step C T s c)).
Proof. exact minimal_ignores_config. Qed.
Print Assumptions C48_minimal_independent.

Example C48_case :
  let cfg := {| cfg_compression := 9; cfg_compression_min_size := 0;
                cfg_message_format := Cbor; cfg_encrypt_algo := Chacha20Poly1305Aead |} in
  existsb clone_made (slog SA0 scallsA) = false /\
  existsb clone_made (slog SA0 (scallsA ++ [SClone])) = true /\
  snd (sl_change_config cfg SA4) = Ok tt /\
  with_conf cfg SA4 <> SA4 /\
  snd (sl_change_config cfg (safter SA4 [SClone])) = Err ForbidChangeConfAfterClone /\
  snd (read_bin toy toy_zip T (msgA 0 [x00; x31]) (with_conf cfg SA4)) = Ok [IMessage (Some [x31])].
Proof.
  cbv zeta. split; [vm_compute; reflexivity|]. split; [vm_compute; reflexivity|].
  split; [vm_compute; reflexivity|].
  split; [intros H; apply (f_equal (fun s => cfg_compression_min_size (conf (minimal s)))) in H; vm_compute in H; discriminate|].
  split; vm_compute; reflexivity.
Qed.

(** C53-C56: writers and creation. *)

From Coq Require Import ZifyBool ZifyNat ZifyN.
From Verif.Model Require Import Complete.
From Verif.Spec Require Import Wire Datagram Trace ReadSpec Accept Session Writers Attacks CompleteTrace.
From Verif.Proofs Require Import Writing.
From Verif.Instances Require Import Toy Scenario CompleteScenario.

(** ** C53 *)

Theorem C53_connect : forall (C : Crypto) (Z : Zip) cd a w a' w',
  takes_all w -> write_connect_msg_bin C Z cd a w = (a', w', Ok tt) ->
  exists seed, sig_key_pair a = Some seed /\ takes_all w' /\
    output w' = output w ++ signed_connect C seed (ephemeral_pubkey (minimal a)) (packed Z cd a).
Proof. exact connect_appended. Qed.
Print Assumptions C53_connect.

Theorem C53_ack : forall (C : Crypto) (Z : Zip) (T : target) cd a w a' w',
  sreachable C Z T a -> takes_all w -> write_ack_msg_bin C Z cd a w = (a', w', Ok tt) ->
  exists seed epk, sig_key_pair a = Some seed /\ peer_epk (minimal a) = Some epk /\ takes_all w' /\
    output w' = output w ++ signed_ack C seed epk (packed Z cd a).
Proof. exact ack_appended. Qed.
Print Assumptions C53_ack.

Theorem C53_message : forall (C : Crypto) (Z : Zip) (T : target) data a w a' w',
  takes_all w -> write_bin C Z T data a w = (a', w', Ok tt) ->
  exists k, session_key (minimal a) = Some k /\ takes_all w' /\
    output w' = output w ++ user_datagram C k (next_nonce_sent (minimal a)) (packed Z (Some data) a).
Proof. exact message_appended_complete. Qed.
Print Assumptions C53_message.

Theorem C53_minimal_message : forall (C : Crypto) (T : target) data s w s' w',
  takes_all w -> write_message C T data s w = (s', w', Ok tt) ->
  exists k, session_key s = Some k /\ takes_all w' /\
    output w' = output w ++ user_datagram C k (next_nonce_sent s) data.
Proof. exact message_appended. Qed.
Print Assumptions C53_minimal_message.

(** A writer of capacity 3 with two bytes pending. *)
Definition small_writer : bufwriter :=
  {| bw_cap := 3; bw_buf := [x61; x62]; bw_sink := {| sink_data := [x60]; sink_script := [] |} |}.
Example C53_case :
  takes_all small_writer /\ sreachable toy toy_zip T SB2 /\
  (let '(_, w, o) := write_connect_msg_bin toy toy_zip (Some [x05]) SB0 small_writer in
   o = Ok tt /\ output w = [x60; x61; x62] ++ connectB [x00; x05]) /\
  (let '(_, w, o) := write_ack_msg_bin toy toy_zip (Some [x06]) SB2 small_writer in
   o = Ok tt /\ len (output w) = 3 + 116) /\
  (let '(_, w, o) := write_bin toy toy_zip T [x31; x32] SA4 small_writer in
   o = Ok tt /\ len (output w) = 3 + 77) /\
  (let '(_, w, o) := write_message toy T [x31; x32] (minimal SA4) small_writer in
   o = Ok tt /\ len (output w) = 3 + 76).
Proof.
  split; [reflexivity|]. split; [exact sreachable_SB2|].
  vm_compute. repeat split.
Qed.

(** ** C54 *)

(** Whatever the writer does, what it gets of a user message is a prefix of
    the datagram; all of it on success, with a buffer of more than 16 bytes;
    an error fails the connection, and is an error of the writer unless the
    layer was not established, when the writer gets nothing. *)
Theorem C54_message : forall (C : Crypto) (Z : Zip) (T : target), CryptoLaws C ->
  forall data a w a' w' o k,
  session_key (minimal a) = Some k -> write_bin C Z T data a w = (a', w', o) ->
  let d := user_datagram C k (next_nonce_sent (minimal a)) (packed Z (Some data) a) in
  (exists j, output w' = output w ++ firstn j d) /\
  (o = Ok tt -> 16 < bw_cap w -> output w' = output w ++ d) /\
  (forall e, o = Err e -> sfailed C a' /\
     ((~ established (minimal a) /\ w' = w /\
       ((~ sfailed C a /\ e = NegoMustHaveBeenSuccessful) \/ (sfailed C a /\ e = ConnectionHadFail))) \/
      (established (minimal a) /\ exists io, e = FailToEncryptData io /\ writer_error w io))).
Proof.
  intros C Z T HL data a w a' w' o k Hk E d. split; [exact (message_prefix_complete C Z T _ _ _ _ _ _ _ Hk E)|]. split.
  - intros -> Hw. destruct (message_whole_complete C Z T HL _ _ _ _ _ Hw E) as (k' & Hk' & H).
    rewrite Hk in Hk'. injection Hk' as <-. exact H.
  - intros e ->. exact (message_write_fails_complete C Z T _ _ _ _ _ _ E).
Qed.
Print Assumptions C54_message.

Theorem C54_minimal_message : forall (C : Crypto) (T : target), CryptoLaws C ->
  forall data s w s' w' o k,
  session_key s = Some k -> write_message C T data s w = (s', w', o) ->
  let d := user_datagram C k (next_nonce_sent s) data in
  (exists j, output w' = output w ++ firstn j d) /\
  (o = Ok tt -> 16 < bw_cap w -> output w' = output w ++ d) /\
  (forall e, o = Err e -> failed C s' /\
     ((~ established s /\ w' = w /\
       ((~ failed C s /\ e = NegoMustHaveBeenSuccessful) \/ (failed C s /\ e = ConnectionHadFail))) \/
      (established s /\ exists io, e = FailToEncryptData io /\ writer_error w io))).
Proof.
  intros C T HL data s w s' w' o k Hk E d. split; [exact (message_prefix C T _ _ _ _ _ _ _ Hk E)|]. split.
  - intros -> Hw. destruct (message_whole C T HL _ _ _ _ _ Hw E) as (k' & Hk' & H).
    rewrite Hk in Hk'. injection Hk' as <-. exact H.
  - intros e ->. exact (message_write_fails C T _ _ _ _ _ _ E).
Qed.
Print Assumptions C54_minimal_message.

(** With a buffer of 16 bytes or less the tag can be cut although the reply is Ok. *)
Theorem C54_small_buffer_refuted :
  ~ (forall (C : Crypto) (T : target), CryptoLaws C -> forall data s w s' w' k,
     session_key s = Some k -> write_message C T data s w = (s', w', Ok tt) ->
     output w' = output w ++ user_datagram C k (next_nonce_sent s) data).
Proof.
  intros H.
  set (w := {| bw_cap := 16; bw_buf := []; bw_sink := {| sink_data := []; sink_script := [WAccept 64; WAccept 5] |} |}).
  destruct (write_message toy T [x31] (minimal SA4) w) as [[s' w'] o] eqn:E.
  destruct (session_key (minimal SA4)) as [k|] eqn:Ek; [|vm_compute in Ek; discriminate].
  assert (o = Ok tt) as -> by (vm_compute in E; injection E as _ _ <-; reflexivity).
  specialize (H toy T toy_laws [x31] (minimal SA4) w s' w' k Ek E).
  vm_compute in Ek. injection Ek as <-. vm_compute in E. injection E as _ <-.
  apply (f_equal len) in H. vm_compute in H. discriminate.
Qed.
Print Assumptions C54_small_buffer_refuted.

(** A script of short writes and an interruption, buffer of 17 bytes: complete;
    a failing one: a prefix. *)
Example C54_case :
  let sc r := {| bw_cap := 17; bw_buf := [x60]; bw_sink := {| sink_data := []; sink_script := r |} |} in
  (let '(_, w, o) := write_bin toy toy_zip T [x31] SA4 (sc [WAccept 3; WFail IoInterrupted; WAccept 1; WAccept 7]) in
   o = Ok tt /\ len (output w) = 77 /\ sink_script (bw_sink w) = []) /\
  (let '(s, w, o) := write_bin toy toy_zip T [x31] SA4 (sc [WAccept 1; WAccept 20; WFail (IoOther 5)]) in
   o = Err (FailToEncryptData (IoOther 5)) /\ len (output w) = 21).
Proof. vm_compute. repeat split. Qed.

(** CONNECT and ACK: whatever the writer does it gets part of the message and
    part of the signature; everything, on success, when the message is shorter
    than the buffer. *)
Theorem C54_connect : forall (C : Crypto) (Z : Zip) (T : target), CryptoLaws C ->
  forall cd a w a' w' o,
  sreachable C Z T a -> write_connect_msg_bin C Z cd a w = (a', w', o) ->
  (w' = w \/ exists seed i j, sig_key_pair a = Some seed /\
     let f := connect_frame (ephemeral_pubkey (minimal a)) (ed25519_public C seed) (packed Z cd a) in
     output w' = output w ++ firstn i f ++ firstn j (ed25519_sign C seed f)) /\
  (o = Ok tt -> 86 + len (packed Z cd a) < bw_cap w ->
   exists seed, sig_key_pair a = Some seed /\
     output w' = output w ++ signed_connect C seed (ephemeral_pubkey (minimal a)) (packed Z cd a)).
Proof.
  intros C Z T HL cd a w a' w' o Ha E. split; [exact (connect_output C Z _ _ _ _ _ _ E)|].
  intros -> Hc. exact (connect_complete C Z T HL _ _ _ _ _ Ha E Hc).
Qed.
Print Assumptions C54_connect.

Theorem C54_ack : forall (C : Crypto) (Z : Zip) (T : target), CryptoLaws C ->
  forall cd a w a' w' o,
  sreachable C Z T a -> write_ack_msg_bin C Z cd a w = (a', w', o) ->
  (w' = w \/ exists seed epk i j, sig_key_pair a = Some seed /\ peer_epk (minimal a) = Some epk /\
     let f := ack_frame (sha256 C epk) (packed Z cd a) in
     output w' = output w ++ firstn i f ++ firstn j (ed25519_sign C seed f)) /\
  (o = Ok tt -> 64 + len (packed Z cd a) < bw_cap w ->
   exists seed epk, sig_key_pair a = Some seed /\ peer_epk (minimal a) = Some epk /\
     output w' = output w ++ signed_ack C seed epk (packed Z cd a)).
Proof.
  intros C Z T HL cd a w a' w' o Ha E. split; [exact (ack_output C Z T _ _ _ _ _ _ Ha E)|].
  intros -> Hc. exact (ack_complete C Z T HL _ _ _ _ _ Ha E Hc).
Qed.
Print Assumptions C54_ack.

(** A message of at least the capacity, and a sink that takes [n] bytes of it
    at first: the rest is lost, and the reply is Ok. *)
Theorem C54_connect_truncated : forall (C : Crypto) (Z : Zip), CryptoLaws C ->
  forall cd a seed r w n,
  sig_key_pair a = Some seed -> msl_status (minimal a) = OngoingNegotiation Created r ->
  let f := connect_frame (ephemeral_pubkey (minimal a)) (ed25519_public C seed) (packed Z cd a) in
  bw_buf w = [] -> bw_cap w <= len f -> sink_script (bw_sink w) = [WAccept n] -> n <= len f ->
  exists a' w', write_connect_msg_bin C Z cd a w = (a', w', Ok tt) /\
    output w' = output w ++ firstn (N.to_nat n) f ++ ed25519_sign C seed f.
Proof. exact connect_truncated. Qed.
Print Assumptions C54_connect_truncated.

Definition short_writer (cap n : N) : bufwriter :=
  {| bw_cap := cap; bw_buf := []; bw_sink := {| sink_data := []; sink_script := [WAccept n] |} |}.
Example C54_case_connect :
  (let '(_, w, o) := write_connect_msg_bin toy toy_zip (Some [x05]) SB0 (short_writer 89 7) in
   o = Ok tt /\ output w = connectB [x00; x05]) /\
  (let '(_, w, o) := write_connect_msg_bin toy toy_zip (Some [x05]) SB0 (short_writer 88 7) in
   o = Ok tt /\ output w = firstn 7 (connectB [x00; x05]) ++ skipn 88 (connectB [x00; x05])) /\
  (let '(_, w, o) := write_ack_msg_bin toy toy_zip (Some [x06]) SB2 (short_writer 67 7) in
   o = Ok tt /\ len (output w) = 116).
Proof. vm_compute. repeat split. Qed.

(** ** C55 *)

(** A CONNECT or ACK that was written, or that the writer failed to take, is
    never written again: after any later calls the layer refuses, and hands
    nothing to the writer. *)
Theorem C55_connect : forall (C : Crypto) (Z : Zip) (T : target) cd a w a' w' o,
  sreachable C Z T a -> write_connect_msg_bin C Z cd a w = (a', w', o) ->
  o = Ok tt \/ o = Err BufferFlushError ->
  forall cs b h cd2 w2, srun C Z T a' cs = (b, h) ->
  exists e, write_connect_msg_bin C Z cd2 b w2 = (b, w2, Err e) /\
    (e = ConnectMsgAlreadyWritten \/ e = ConnectionHadFail).
Proof. exact connect_not_retried. Qed.
Print Assumptions C55_connect.

Theorem C55_ack : forall (C : Crypto) (Z : Zip) (T : target) cd a w a' w' o,
  sreachable C Z T a -> write_ack_msg_bin C Z cd a w = (a', w', o) ->
  o = Ok tt \/ o = Err BufferFlushError ->
  forall cs b h cd2 w2, srun C Z T a' cs = (b, h) ->
  exists e, write_ack_msg_bin C Z cd2 b w2 = (b, w2, Err e) /\
    (e = ConnectMsgAlreadyWritten \/ e = ForbidWriteAckMsgNow \/ e = ConnectionHadFail).
Proof. exact ack_not_retried. Qed.
Print Assumptions C55_ack.

(** [BufferFlushError] is the writer's error; every other error leaves layer
    and writer as they were. *)
Theorem C55_other_errors : forall (C : Crypto) (Z : Zip) (T : target) cd a w a' w' e,
  sreachable C Z T a ->
  (write_connect_msg_bin C Z cd a w = (a', w', Err e) ->
   (e = BufferFlushError /\ exists io, writer_error w io) \/ (e <> BufferFlushError /\ a' = a /\ w' = w)) /\
  (write_ack_msg_bin C Z cd a w = (a', w', Err e) ->
   (e = BufferFlushError /\ exists io, writer_error w io) \/ (e <> BufferFlushError /\ a' = a /\ w' = w)).
Proof.
  intros C Z T cd a w a' w' e Ha.
  exact (conj (connect_write_errors C Z cd a w a' w' e) (ack_write_errors C Z T cd a w a' w' e Ha)).
Qed.
Print Assumptions C55_other_errors.

Definition failing_writer : bufwriter :=
  {| bw_cap := 10; bw_buf := []; bw_sink := {| sink_data := []; sink_script := [WFail (IoOther 5)] |} |}.
Example C55_case :
  (let '(a, w, o) := write_connect_msg_bin toy toy_zip None SA0 failing_writer in
   o = Err BufferFlushError /\ output w = [] /\
   snd (write_connect_msg_bin toy toy_zip None a vec_writer) = Err ConnectMsgAlreadyWritten) /\
  (let '(a, w, o) := write_ack_msg_bin toy toy_zip None SA2 failing_writer in
   o = Err BufferFlushError /\ output w = [] /\
   snd (write_ack_msg_bin toy toy_zip None a vec_writer) = Err ForbidWriteAckMsgNow).
Proof. vm_compute. repeat split. Qed.

(** ** C56 *)

Theorem C56_minimal : forall (C : Crypto) r cfg pin,
  match r with
  | RngFailPriv => create C r cfg pin = Err FailToGenEphemerKeyPair
  | RngFailPub => create C r cfg pin = Err FailToGenEphemerPubKey
  | RngKey sk => exists s, create C r cfg pin = Ok s /\
      conf s = cfg /\ peer_sig_pubkey s = pin /\
      ephemeral_pubkey s = x25519_public C sk /\
      ephemeral s = Some {| ekp_priv := sk; ekp_pub := x25519_public C sk |} /\
      session_key s = None /\ ~ established s /\ ~ failed C s /\
      next_nonce_sent s = 0 /\ (forall n, ~ received s n) /\
      ack_msg_recv_too_early s = None /\ tmp_stack_user_msgs s = [] /\
      (forall cd pk, exists s', create_connect_message C pk cd s =
        (s', Ok (connect_frame (x25519_public C sk) pk (custom cd))))
  end.
Proof. exact create_result. Qed.
Print Assumptions C56_minimal.

(** Complete mode: [rs] is what the generator gives when no seed is. *)
Theorem C56_complete : forall (C : Crypto) r rs cfg seed pin,
  match (match seed with Some x => Some x | None => rs end) with
  | None => sl_create C r rs cfg seed pin = Panic PRandom
  | Some x =>
      match create C r cfg pin with
      | Ok m => exists s, sl_create C r rs cfg seed pin = Ok s /\ minimal s = m /\ sig_key_pair s = Some x
      | Err e => sl_create C r rs cfg seed pin = Err e
      | Panic p => False
      end
  end.
Proof. exact sl_create_result. Qed.
Print Assumptions C56_complete.

Example C56_case :
  sl_create toy (RngKey skA) None config_default (Some seedA) None = Ok SA0 /\
  sl_create toy RngFailPriv None config_default (Some seedA) None = Err FailToGenEphemerKeyPair /\
  sl_create toy RngFailPub (Some seedA) config_default None None = Err FailToGenEphemerPubKey /\
  sl_create toy (RngKey skA) None config_default None None = Panic PRandom.
Proof. repeat split. Qed.

(** C46 (deserialisation), C49-C52: typed messages. *)

From Coq Require Import ZifyBool ZifyNat ZifyN.
From Verif.Model Require Import Serde.
From Verif.Spec Require Import Wire Datagram Trace ReadSpec Accept Session Writers Attacks CompleteTrace Typed.
From Verif.Proofs Require Import Typed.
From Verif.Instances Require Import Toy Scenario CompleteScenario.

(** ** C46, payloads that inflate but cannot be deserialised *)
Theorem C46_typed : forall (C : Crypto) (Z : Zip) (T : target) (F : features) (M : Type) (K : Codec M),
  CryptoLaws C ->
  forall d s s' l o,
  sreachable C Z T s ->
  next_nonce_expected (minimal s) + len (orphan_nonce_list (minimal s)) + 1 < 2 ^ 64 ->
  snd (read_bin C Z T d s) = Ok l -> sl_read C Z T F K d s = (s', o) -> fails o ->
  ~ sfailed C s' /\ exists x, In x [UnexpectedConnectMsg; UnexpectedAckMsg; InvalidNonce] /\
    snd (sl_read C Z T F K d s') = Err (RecvInvalidMsg x).
Proof. exact @typed_undecodable_consumed. Qed.
Print Assumptions C46_typed.

(** A CBOR payload the back end refuses, and one too short for a header. *)
Example C46_typed_case :
  map (fun d => snd (sl_read toy toy_zip T all_features toy_codec d SA4))
    [msgA 0 ([x00] ++ header Cbor); msgA 2 [x00; x00; x00]] =
    [Err (SerdeError (CborError 1)); Err (RecvInvalidMsg MessageTooShort)] /\
  snd (read_bin toy toy_zip T (msgA 0 ([x00] ++ header Cbor)) SA4) = Ok [IMessage (Some (header Cbor))].
Proof. split; vm_compute; reflexivity. Qed.

(** ** C49 *)

(** Whatever the receiver's configuration, as long as its build has the format. *)
Theorem C49_connect : forall (C : Crypto) (Z : Zip) (T : target) (F : features) (M : Type) (K : Codec M),
  CryptoLaws C -> ZipLaws Z -> CodecLaws K ->
  forall cd a w a' w',
  sreachable C Z T a -> takes_all w -> sl_write_connect_msg C Z K cd a w = (a', w', Ok tt) ->
  exists seed d, sig_key_pair a = Some seed /\ output w' = output w ++ d /\
  forall b, sreachable C Z T b -> len d < 2 ^ usize_bits T -> understood F cd a ->
    key_acceptable (minimal b) (ed25519_public C seed) -> wants_connect (minimal b) ->
    agreement_possible C (minimal b) (ephemeral_pubkey (minimal a)) ->
    (ack_msg_recv_too_early (minimal b) = None ->
       snd (sl_read C Z T F K d b) = Ok [TMConnect cd (ed25519_public C seed)]) /\
    (forall p x c', wants_ack (minimal b) -> deflated Z p c' -> value_of F K p x ->
       50 + len c' < 2 ^ usize_bits T ->
       ack_msg_recv_too_early (minimal b) = Some (signed_ack C seed (ephemeral_pubkey (minimal b)) c') ->
       snd (sl_read C Z T F K d b) = Ok [TMConnect cd (ed25519_public C seed); TMAck x]).
Proof. exact @typed_connect_roundtrip. Qed.
Print Assumptions C49_connect.

Theorem C49_ack : forall (C : Crypto) (Z : Zip) (T : target) (F : features) (M : Type) (K : Codec M),
  CryptoLaws C -> ZipLaws Z -> CodecLaws K ->
  forall cd a w a' w',
  sreachable C Z T a -> takes_all w -> sl_write_ack_msg C Z K cd a w = (a', w', Ok tt) ->
  exists seed d, sig_key_pair a = Some seed /\ output w' = output w ++ d /\
  forall b, sreachable C Z T b -> len d < 2 ^ usize_bits T -> understood F cd a ->
    peer_sig_pubkey (minimal b) = Some (ed25519_public C seed) -> wants_ack (minimal b) ->
    peer_epk (minimal a) = Some (ephemeral_pubkey (minimal b)) ->
    tmp_stack_user_msgs (minimal b) = [] ->
    snd (sl_read C Z T F K d b) = Ok [TMAck cd].
Proof. exact @typed_ack_roundtrip. Qed.
Print Assumptions C49_ack.

Theorem C49_message : forall (C : Crypto) (Z : Zip) (T : target) (F : features) (M : Type) (K : Codec M),
  CryptoLaws C -> ZipLaws Z -> CodecLaws K ->
  forall m a w a' w',
  sreachable C Z T a -> takes_all w -> sl_write C Z T K m a w = (a', w', Ok tt) ->
  exists k d, session_key (minimal a) = Some k /\ output w' = output w ++ d /\
  forall b, sreachable C Z T b -> len d < 2 ^ usize_bits T -> understood F (Some m) a -> sestablished b ->
    session_key (minimal b) = Some k -> keystream_ok C k ->
    window_room (minimal b) (next_nonce_sent (minimal a)) ->
    ~ last_nonce T (minimal b) (next_nonce_sent (minimal a)) ->
    snd (sl_read C Z T F K d b) = Ok [TMMessage (Some m)].
Proof. exact @typed_message_roundtrip. Qed.
Print Assumptions C49_message.

(** Layers used through typed calls are layers the other theorems talk about:
    a typed call moves the layer as a binary call does, or not at all. *)
Theorem C49_typed_reachable : forall (C : Crypto) (Z : Zip) (T : target) (F : features) (M : Type) (K : Codec M),
  forall s, sreachable C Z T s ->
  (forall d, sreachable C Z T (fst (sl_read C Z T F K d s))) /\
  (forall cd w, sreachable C Z T (fst (fst (sl_write_connect_msg C Z K cd s w)))) /\
  (forall cd w, sreachable C Z T (fst (fst (sl_write_ack_msg C Z K cd s w)))) /\
  (forall m w, sreachable C Z T (fst (fst (sl_write C Z T K m s w)))).
Proof. exact @typed_reachable. Qed.
Print Assumptions C49_typed_reachable.

(** B writes CBOR and compresses; A is configured with JSON and does not. *)
Example C49_case :
  let a := formatted Cbor SB4 in let b := formatted Utf8Json SA4 in
  snd (sl_write toy toy_zip T toy_codec [x31; x32] a vec_writer) = Ok tt /\
  sreachable toy toy_zip T a /\ sreachable toy toy_zip T b /\ sestablished b /\
  understood all_features (Some [x31; x32]) a /\
  session_key (minimal a) = Some kAB /\ session_key (minimal b) = Some kAB /\ keystream_ok toy kAB /\
  window_room (minimal b) (next_nonce_sent (minimal a)) /\ ~ last_nonce T (minimal b) (next_nonce_sent (minimal a)) /\
  snd (sl_read toy toy_zip T all_features toy_codec
         (output (snd (fst (sl_write toy toy_zip T toy_codec [x31; x32] a vec_writer)))) b) =
    Ok [TMMessage (Some [x31; x32])].
Proof.
  cbv zeta. split; [vm_compute; reflexivity|].
  split; [apply sreachable_formatted; [reflexivity|exact sreachable_SB4]|].
  split; [apply sreachable_formatted; [reflexivity|exact sreachable_SA4]|].
  split; [eexists; vm_compute; reflexivity|]. split; [intros _; reflexivity|].
  split; [vm_compute; reflexivity|]. split; [vm_compute; reflexivity|]. split; [apply toy_keystream_ok|].
  split; [split; [vm_compute; intros [H|[]]; discriminate|left; vm_compute; reflexivity]|].
  split; [intros [H _]; vm_compute in H; discriminate|]. vm_compute. reflexivity.
Qed.
Example C49_case_connect :
  let a := formatted Bincode SB0 in
  snd (sl_write_connect_msg toy toy_zip toy_codec (Some [x41]) a vec_writer) = Ok tt /\
  sreachable toy toy_zip T a /\ understood all_features (Some [x41]) a /\
  key_acceptable (minimal SA1) (ed25519_public toy seedB) /\ wants_connect (minimal SA1) /\
  agreement_possible toy (minimal SA1) (ephemeral_pubkey (minimal a)) /\
  ack_msg_recv_too_early (minimal SA1) = None /\
  snd (sl_write_ack_msg toy toy_zip toy_codec (Some [x42]) (formatted Utf8Json SB2) vec_writer) = Ok tt.
Proof.
  cbv zeta. split; [vm_compute; reflexivity|].
  split; [apply sreachable_formatted; [reflexivity|exact sreachable_SB0]|]. split; [intros _; reflexivity|].
  split; [left; reflexivity|]. split; [eexists; vm_compute; reflexivity|].
  split; [eexists _, _; split; vm_compute; reflexivity|]. split; vm_compute; reflexivity.
Qed.

(** ** C50 *)
Theorem C50_headers : forall f g : message_format,
  length (format_as_ref f) = 4%nat /\ (format_as_ref f = format_as_ref g -> f = g).
Proof.
  intros f g. rewrite !header_as_ref. split; [apply header_length|apply header_injective].
Qed.
Print Assumptions C50_headers.

(** In every build: a header is read as a format exactly when it is that
    format's and the build has it; anything else is unknown. *)
Theorem C50_decode : forall (F : features) (h : bytes),
  (forall f, format_try_from F h = inl f <-> format_enabled F f = true /\ h = header f) /\
  ((forall f, format_enabled F f = true -> h <> header f) -> format_try_from F h = inr UnknownMessageFormat).
Proof. intros F h. split; [intros f; apply format_read|apply format_unknown]. Qed.
Print Assumptions C50_decode.

(** A typed read returns the values of the payloads the binary read returns, or
    the failure of the first payload that has one ([payload_result]). *)
Theorem C50_read : forall (C : Crypto) (Z : Zip) (T : target) (F : features) (M : Type) (K : Codec M),
  forall d s s' o,
  read_bin C Z T d s = (s', o) ->
  exists o', sl_read C Z T F K d s = (s', o') /\
    match o with
    | Ok l => typed_result F K l o'
    | Err e => o' = Err e
    | Panic p => o' = Panic p
    end.
Proof. exact @typed_read. Qed.
Print Assumptions C50_read.

(** The result of a payload is determined. *)
Theorem C50_payload : forall (F : features) (M : Type) (K : Codec M) (p : bytes),
  exists o, payload_result F K p o /\ forall o', payload_result F K p o' -> o' = o.
Proof.
  intros F M K p. exists (deserialize F K p). split; [apply payload_read; reflexivity|].
  intros o' H. apply payload_read in H. congruence.
Qed.
Print Assumptions C50_payload.

(** A peer whose build has a format this build does not have. *)
Theorem C50_disabled : forall (C : Crypto) (Z : Zip) (T : target) (F : features) (M : Type) (K : Codec M),
  CryptoLaws C -> ZipLaws Z ->
  forall m a w a' w',
  sreachable C Z T a -> takes_all w -> sl_write C Z T K m a w = (a', w', Ok tt) ->
  format_enabled F (cfg_message_format (conf (minimal a))) = false ->
  exists k d, session_key (minimal a) = Some k /\ output w' = output w ++ d /\
  forall b, sreachable C Z T b -> len d < 2 ^ usize_bits T -> sestablished b ->
    session_key (minimal b) = Some k -> keystream_ok C k ->
    window_room (minimal b) (next_nonce_sent (minimal a)) ->
    ~ last_nonce T (minimal b) (next_nonce_sent (minimal a)) ->
    snd (sl_read C Z T F K d b) = Err (RecvInvalidMsg UnknownMessageFormat).
Proof. exact @typed_message_disabled. Qed.
Print Assumptions C50_disabled.

Example C50_case :
  let no_cbor := {| feat_bin := true; feat_cbor := false; feat_json := true |} in
  let d := output (snd (fst (sl_write toy toy_zip T toy_codec [x31] (formatted Cbor SB4) vec_writer))) in
  format_enabled no_cbor Cbor = false /\
  snd (sl_read toy toy_zip T no_cbor toy_codec d SA4) = Err (RecvInvalidMsg UnknownMessageFormat) /\
  snd (sl_read toy toy_zip T all_features toy_codec d SA4) = Ok [TMMessage (Some [x31])].
Proof. cbv zeta. split; [reflexivity|]. split; vm_compute; reflexivity. Qed.

(** ** C51 *)
Theorem C51_no_effect : forall (C : Crypto) (Z : Zip) (T : target) (M : Type) (K : Codec M),
  forall m s e w,
  unserialisable K m (cfg_message_format (conf (minimal s))) e ->
  sl_write_connect_msg C Z K (Some m) s w = (s, w, Err e) /\
  sl_write_ack_msg C Z K (Some m) s w = (s, w, Err e) /\
  sl_write C Z T K m s w = (s, w, Err e).
Proof. exact @unserialisable_no_effect. Qed.
Print Assumptions C51_no_effect.

Example C51_case :
  unserialisable toy_codec [xff] (cfg_message_format (conf (minimal (formatted Utf8Json SA4)))) (SerdeError (JsonError 2)) /\
  unserialisable toy_codec [x31] (cfg_message_format (conf (minimal SA4))) (SerdeError UseSuffixedBinFunctions).
Proof.
  split; [right|left; split; reflexivity].
  exists (json_ser toy_codec), 2. repeat split.
Qed.

(** ** C52 *)
Theorem C52_write_panics : forall (C : Crypto) (Z : Zip) (T : target) (M : Type) (K : Codec M),
  forall m s w,
  cfg_message_format (conf (minimal s)) = Utf8PlainText ->
  sl_write_connect_msg C Z K (Some m) s w = (s, w, Panic PUnimplemented) /\
  sl_write_ack_msg C Z K (Some m) s w = (s, w, Panic PUnimplemented) /\
  sl_write C Z T K m s w = (s, w, Panic PUnimplemented).
Proof. exact @plain_text_write_panics. Qed.
Print Assumptions C52_write_panics.

(** The session peer can make a typed read panic ... *)
Theorem C52_message_panics : forall (C : Crypto) (Z : Zip) (T : target) (F : features) (M : Type) (K : Codec M),
  CryptoLaws C -> ZipLaws Z ->
  forall r a w a' w',
  sreachable C Z T a -> takes_all w ->
  write_bin C Z T (header Utf8PlainText ++ r) a w = (a', w', Ok tt) ->
  exists k d, session_key (minimal a) = Some k /\ output w' = output w ++ d /\
  forall b, sreachable C Z T b -> len d < 2 ^ usize_bits T -> sestablished b ->
    session_key (minimal b) = Some k -> keystream_ok C k ->
    window_room (minimal b) (next_nonce_sent (minimal a)) ->
    ~ last_nonce T (minimal b) (next_nonce_sent (minimal a)) ->
    snd (sl_read C Z T F K d b) = Panic PUnimplemented.
Proof. exact @plain_text_message_panics. Qed.
Print Assumptions C52_message_panics.

(** ... and anyone can, with a CONNECT, when no peer key was given. *)
Theorem C52_connect_panics : forall (C : Crypto) (Z : Zip) (T : target) (F : features) (M : Type) (K : Codec M),
  CryptoLaws C -> ZipLaws Z ->
  forall r a w a' w',
  sreachable C Z T a -> takes_all w ->
  write_connect_msg_bin C Z (Some (header Utf8PlainText ++ r)) a w = (a', w', Ok tt) ->
  exists seed d, sig_key_pair a = Some seed /\ output w' = output w ++ d /\
  forall b, sreachable C Z T b -> len d < 2 ^ usize_bits T ->
    key_acceptable (minimal b) (ed25519_public C seed) -> wants_connect (minimal b) ->
    agreement_possible C (minimal b) (ephemeral_pubkey (minimal a)) ->
    ack_msg_recv_too_early (minimal b) = None ->
    snd (sl_read C Z T F K d b) = Panic PUnimplemented.
Proof. exact @plain_text_connect_panics. Qed.
Print Assumptions C52_connect_panics.

Example C52_case :
  snd (write_bin toy toy_zip T (header Utf8PlainText ++ [x68; x69]) SB4 vec_writer) = Ok tt /\
  snd (sl_read toy toy_zip T all_features toy_codec
    (output (snd (fst (write_bin toy toy_zip T (header Utf8PlainText ++ [x68; x69]) SB4 vec_writer)))) SA4) =
    Panic PUnimplemented /\
  snd (write_connect_msg_bin toy toy_zip (Some (header Utf8PlainText)) SB0 vec_writer) = Ok tt /\
  snd (sl_read toy toy_zip T all_features toy_codec
    (output (snd (fst (write_connect_msg_bin toy toy_zip (Some (header Utf8PlainText)) SB0 vec_writer)))) SA1) =
    Panic PUnimplemented.
Proof.
  split; [vm_compute; reflexivity|]. split; [vm_compute; reflexivity|]. split; vm_compute; reflexivity.
Qed.

(** The tests of /repo, run on the model.

    Each Example below is one test of the repository, with the same steps and the
    same assertions; the random keys of the tests are those of Scenario.v and the
    libraries are the toy instances.  They check the model against what the
    authors say the code does; they prove nothing in general.

    Left out: src/message.rs:290 (a getter), src/seeds.rs:127 (two random seeds
    differ) and the ignored test of src/minimal.rs:773 (10001 messages with the first
    one missing), which is an instance of C57_first_message_lost. *)

From Verif.Model Require Import Serde.
From Verif.Spec Require Import Wire Trace Writers CompleteTrace.
From Verif.Instances Require Import Toy Scenario CompleteScenario Sha256.

(** [toy] with the real SHA-256. *)
Definition toy256 : Crypto := {|
  sha256 := real_sha256; x25519_public := pad32; x25519_agree := toy_agree; pbkdf2 := toy_pbkdf2;
  chacha20_keystream := toy_keystream; poly1305_mac := toy_mac;
  ed25519_public := pad32; ed25519_sign := toy_sign; ed25519_verify := toy_verify |}.

Definition zeros (n : nat) : bytes := repeat x00 n.

(** ** src/config.rs, src/format.rs, src/encryption.rs *)

(** src/config.rs:63 *)
Example test_default_config :
  config_default = {| cfg_compression := compression_fast; cfg_compression_min_size := DEFAULT_COMPRESSION_MIN_SIZE;
    cfg_message_format := message_format_default; cfg_encrypt_algo := encrypt_algo_default |}.
Proof. reflexivity. Qed.

(** src/format.rs:96, src/encryption.rs:103 *)
Example test_default : message_format_default = RawBinary /\ encrypt_algo_default = Chacha20Poly1305Aead.
Proof. split; reflexivity. Qed.

(** src/format.rs:101 *)
Example test_messafe_format_as_ref :
  map format_as_ref [RawBinary; Utf8PlainText; Utf8Json; Cbor; Bincode] =
  [RAW_BINARY; UTF8_PLAIN_TEXT; UTF8_JSON; CBOR; BINCODE].
Proof. reflexivity. Qed.

(** src/format.rs:122 *)
Example test_message_format_try_from :
  map (format_try_from all_features) [RAW_BINARY; UTF8_PLAIN_TEXT; UTF8_JSON; CBOR; BINCODE; [x00; x00; x00; x05]] =
  [inl RawBinary; inl Utf8PlainText; inl Utf8Json; inl Cbor; inl Bincode; inr UnknownMessageFormat].
Proof. reflexivity. Qed.

(** src/encryption.rs:108 (should panic) *)
Example test_encryption_with_wrong_shared_secret_len :
  algo_build Chacha20Poly1305Aead (SecB32 (map byte_of_N (map N.of_nat (seq 0 32)))) = Panic PWrongSecretLen.
Proof. reflexivity. Qed.

(** src/encryption.rs:120 and src/encryption/chacha20_poly1305_aead.rs:97, with b"My secret data" *)
Definition my_secret_data : bytes := [x4d; x79; x20; x73; x65; x63; x72; x65; x74; x20; x64; x61; x74; x61].
Definition seed48 : bytes := map byte_of_N (map N.of_nat (seq 0 48)).
Example test_encryption_ok :
  exists a, algo_build Chacha20Poly1305Aead (SecB48 seed48) = Ok a /\
    let '(w, o) := encrypt toy my_secret_data a vec_writer in
    o = Ok tt /\ decrypt toy T (bw_bytes w) a = Ok my_secret_data.
Proof. eexists. split; [reflexivity|]. vm_compute. split; reflexivity. Qed.

(** ** src/agreement.rs *)

(** src/agreement.rs:142, 178 *)
Definition ekp (sk : bytes) : ephemeral_kp :=
  match ekp_generate toy (RngKey sk) with Ok k => k | _ => {| ekp_priv := []; ekp_pub := [] |} end.
Example test_exchange_dh_shared_secret : forall l, In l [LenB48; LenB64] ->
  exists s, ekp_compute_shared_secret toy (ekp skA) (ekp_pub (ekp skB)) l = Ok s /\
            ekp_compute_shared_secret toy (ekp skB) (ekp_pub (ekp skA)) l = Ok s.
Proof. intros l [<-|[<-|[]]]; eexists; split; vm_compute; reflexivity. Qed.

(** ** src/message.rs *)

Definition fake_epk : bytes := zeros 32.
Definition fake_sig_pk : bytes := [x00; x01; x02; x03; x04; x05; x06; x07; x08; x09; x0a; x0b; x0c; x0d; x0e; x0f;
     x00; x01; x02; x03; x04; x05; x06; x07; x08; x09; x0a; x0b; x0c; x0d; x0e; x0f].

(** src/message.rs:299 *)
Example test_connect_message_to_bytes :
  message_to_bytes toy256 (RConnect (zeros 4) fake_sig_pk (Some [x05; x04; x04; x05])) fake_epk None = Ok [xe2; xc2;
     xe2; xd2; x00; x00; x00; x01; x00; x00; x00; x00; x00; x00; x00; x4a; x00; x01; x00; x00; x00; x00; x00; x00;
     x00; x00; x00; x00; x00; x00; x00; x00; x00; x00; x00; x00; x00; x00; x00; x00; x00; x00; x00; x00; x00; x00;
     x00; x00; x00; x00; x00; x00; x00; x00; x00; x01; x02; x03; x04; x05; x06; x07; x08; x09; x0a; x0b; x0c; x0d;
     x0e; x0f; x00; x01; x02; x03; x04; x05; x06; x07; x08; x09; x0a; x0b; x0c; x0d; x0e; x0f; x05; x04; x04; x05] /\
  message_to_bytes toy256 (RConnect (zeros 4) fake_sig_pk None) fake_epk None = Ok [xe2; xc2; xe2; xd2; x00; x00; x00;
     x01; x00; x00; x00; x00; x00; x00; x00; x46; x00; x01; x00; x00; x00; x00; x00; x00; x00; x00; x00; x00; x00;
     x00; x00; x00; x00; x00; x00; x00; x00; x00; x00; x00; x00; x00; x00; x00; x00; x00; x00; x00; x00; x00; x00;
     x00; x00; x00; x00; x01; x02; x03; x04; x05; x06; x07; x08; x09; x0a; x0b; x0c; x0d; x0e; x0f; x00; x01; x02;
     x03; x04; x05; x06; x07; x08; x09; x0a; x0b; x0c; x0d; x0e; x0f].
Proof. split; vm_compute; reflexivity. Qed.

(** src/message.rs:360: the challenge is the SHA-256 of 32 zero bytes. *)
Definition sha256_of_zeros : bytes :=
  [x66; x68; x7a; xad; xf8; x62; xbd; x77; x6c; x8f; xc1; x8b; x8e; x9f; x8e; x20; x08; x97; x14; x85; x6e; xe2; x33;
     xb3; x90; x2a; x59; x1d; x0d; x5f; x29; x25].
Example test_ack_message_to_bytes :
  message_to_bytes toy256 (RAck (Some [x05; x04; x04; x05])) fake_epk (Some fake_epk) =
    Ok ([xe2; xc2; xe2; xd2; x00; x00; x00; x01; x00; x00; x00; x00; x00; x00; x00; x26; x00;
     x02] ++ sha256_of_zeros ++ [x05; x04; x04; x05]) /\
  message_to_bytes toy256 (RAck None) fake_epk (Some fake_epk) =
    Ok ([xe2; xc2; xe2; xd2; x00; x00; x00; x01; x00; x00; x00; x00; x00; x00; x00; x22; x00; x02] ++ sha256_of_zeros).
Proof. split; vm_compute; reflexivity. Qed.

(** src/message.rs:405 (should panic) *)
Example test_ack_message_to_bytes_before_recv_connect_msg :
  message_to_bytes toy256 (RAck None) fake_epk None = Panic PNoPeerEpk.
Proof. reflexivity. Qed.

(** src/message.rs:414 *)
Example test_user_message_to_bytes :
  message_to_bytes toy256 (RMessage (Some [x05; x04; x04; x05]) 123456) fake_epk None = Ok [xe2; xc2; xe2; xd2; x00;
     x00; x00; x01; x00; x00; x00; x00; x00; x00; x00; x0e; x00; x00; x00; x00; x00; x00; x00; x01; xe2; x40; x05;
     x04; x04; x05] /\
  message_to_bytes toy256 (RMessage None 0) fake_epk None = Ok [xe2; xc2; xe2; xd2; x00; x00; x00; x01; x00; x00; x00;
     x00; x00; x00; x00; x0a; x00; x00; x00; x00; x00; x00; x00; x00; x00; x00].
Proof. split; vm_compute; reflexivity. Qed.

(** src/message.rs:458 *)
Definition upto31 : bytes := map byte_of_N (map N.of_nat (seq 0 31)).
Example test_message_from_bytes :
  message_from_bytes [x03; x03; x03; x03] (HUserMsg 123456) = MMessage (Some [x03; x03; x03; x03]) /\
  message_from_bytes [x03; x03; x03; x03] (HAck (zeros 32)) = MAck (Some [x03; x03; x03; x03]) /\
  message_from_bytes [x03; x03; x03;
     x03] (HConnect (zeros 32) (zeros 4) upto31) = MConnect (zeros 4) upto31 (Some [x03; x03; x03; x03]) /\
  message_from_bytes (firstn 2 [x03; x03; x03; x03]) (HUserMsg 123456) = MMessage (Some [x03; x03]) /\
  message_from_bytes [] (HUserMsg 123456) = MMessage None.
Proof. repeat split. Qed.

(** ** src/reader.rs *)

(** src/reader.rs:159 *)
Example test_unexpected_user_msg : reader_read toy T None (zeros 4) true = Err (RecvInvalidMsg UnexpectedMessage).
Proof. reflexivity. Qed.

(** src/reader.rs:170 *)
Example test_msg_with_unsupported_version :
  reader_read toy T None (MAGIC_VALUE ++ [x00; x00; x00; x02]) true = Err (RecvInvalidMsg UnsupportedVersion).
Proof. reflexivity. Qed.

(** src/reader.rs:183 *)
Example test_unencrypted_user_msg :
  reader_read toy T None (MAGIC_VALUE ++ CURRENT_VERSION ++ be_encode 8 2 ++ USER_MSG_TYPE ++ zeros 8) true =
  Err (RecvInvalidMsg UnexpectedEncryptionState).
Proof. vm_compute. reflexivity. Qed.

(** src/reader.rs:199 *)
Definition some_secret : algo_with_secret := WithChacha (secret_key_new seed48).
Example test_user_msg_with_wrong_magiv_value :
  let '(w, o) := encrypt toy (zeros 4) some_secret vec_writer in
  o = Ok tt /\ reader_read toy T (Some some_secret) (bw_bytes w) true = Err (RecvInvalidMsg InvalidMagicValue).
Proof. vm_compute. split; reflexivity. Qed.

(** src/reader.rs:225 *)
Definition incoming_connect : bytes :=
  MAGIC_VALUE ++ CURRENT_VERSION ++ be_encode 8 74 ++ [x00; x01] ++ zeros 32 ++ SIG_ALGO_ED25519 ++ zeros 32
    ++ [x05; x04; x04; x05] ++ zeros 32.
Definition fake_challenge : bytes := toy_hash (zeros 32).
Definition incoming_ack : bytes :=
  MAGIC_VALUE ++ CURRENT_VERSION ++ be_encode 8 34 ++ [x00; x02] ++ fake_challenge ++ zeros 32.
Example test_read :
  reader_read toy T (Some some_secret) incoming_connect true =
    Ok {| dd_data := incoming_connect; dd_user_msg_begin := 86; dd_user_msg_end := 90;
          dd_headers := HConnect (zeros 32) SIG_ALGO_ED25519 (zeros 32) |} /\
  reader_read toy T (Some some_secret) incoming_ack true =
    Ok {| dd_data := incoming_ack; dd_user_msg_begin := 50; dd_user_msg_end := 50; dd_headers := HAck fake_challenge |}.
Proof. split; vm_compute; reflexivity. Qed.

(** src/reader.rs:294 *)
Example test_read_user_type_headers : read_type_headers [x00; x00; x00; x00; x00; x00; x00; x01; xe2;
     x40] = Ok (HUserMsg 123456, 10).
Proof. vm_compute. reflexivity. Qed.

(** src/reader.rs:308 *)
Example test_read_unknown_type_headers : read_type_headers [x01; x00] = Err (RecvInvalidMsg UnknownMessageType).
Proof. reflexivity. Qed.

Definition some32 : bytes :=
  [x00; x01; x02; x03; x04; x05; x06; x07; x08; x09; x00; x01; x02; x03; x04; x05; x06; x07; x08; x09; x00; x01; x02;
     x03; x04; x05; x06; x07; x08; x09; x00; x01].

(** src/reader.rs:322 *)
Example test_read_ack_type_headers : read_type_headers ([x00; x02] ++ some32) = Ok (HAck some32, 34).
Proof. vm_compute. reflexivity. Qed.

(** src/reader.rs:340 *)
Example test_read_connect_type_headers :
  read_type_headers ([x00; x01] ++ some32 ++ zeros 4 ++ some32) = Ok (HConnect some32 (zeros 4) some32, 70).
Proof. vm_compute. reflexivity. Qed.

(** src/reader.rs:368 *)
Example test_read_connect_type_headers_with_unsupported_sig_algo :
  read_type_headers ([x00; x01] ++ some32 ++ [x00; x00; x00; x01] ++ some32) = Err (RecvInvalidMsg UnsupportedSigAlgo).
Proof. vm_compute. reflexivity. Qed.

(** ** src/minimal.rs *)

(** src/minimal.rs:420-433, 435-445: messages put together by hand. *)
Definition create_connect_msg_bytes (epk seed : bytes) : bytes :=
  let d := MAGIC_VALUE ++ CURRENT_VERSION ++ be_encode 8 74 ++ [x00; x01] ++ epk ++ SIG_ALGO_ED25519
             ++ ed25519_public toy seed ++ [x05; x04; x04; x05] in
  d ++ ed25519_sign toy seed d.
Definition create_ack_msg_bytes (remote_epk seed : bytes) : bytes :=
  let d := MAGIC_VALUE ++ CURRENT_VERSION ++ be_encode 8 34 ++ [x00; x02] ++ sha256 toy remote_epk in
  d ++ ed25519_sign toy seed d.

(** src/minimal.rs:448 *)
Example test_minimal_change_config :
  map snd (log A0 [CConfig {| cfg_compression := cfg_compression config_default;
     cfg_compression_min_size := cfg_compression_min_size config_default;
     cfg_message_format := cfg_message_format config_default; cfg_encrypt_algo := Chacha20Poly1305Aead |}]) = [RUnit (Ok tt)].
Proof. vm_compute. reflexivity. Qed.

(** src/minimal.rs:459 *)
Example test_compute_shared_secret_twice :
  let '(s1, o1) := compute_shared_secret toy (ephemeral_pubkey B0) A0 in
  let '(_, o2) := compute_shared_secret toy (ephemeral_pubkey B0) s1 in
  o1 = Ok tt /\ o2 = Ok tt.
Proof. vm_compute. split; reflexivity. Qed.

(** src/minimal.rs:469 *)
Example test_status_update_to_fail :
  msl_status (after A0 [CRead (zeros 4)]) = Fail /\
  replies (log A0 [CRead (zeros 4)]) = [RMsg (Err (RecvInvalidMsg UnexpectedMessage))].
Proof. split; vm_compute; reflexivity. Qed.

(** src/minimal.rs:485 *)
Example test_ack_msg_with_wrong_challenge :
  replies (log A0 [CRead (MAGIC_VALUE ++ CURRENT_VERSION ++ be_encode 8 34 ++ [x00; x02] ++ zeros 32 ++ zeros 32)]) =
  [RMsg (Err (RecvInvalidMsg InvalidChallenge))].
Proof. vm_compute. reflexivity. Qed.

(** src/minimal.rs:510 *)
Example test_write_user_msg_before_nego :
  replies (log A0 [CWrite [] vec_writer]) = [RWritten (Err NegoMustHaveBeenSuccessful) vec_writer].
Proof. vm_compute. reflexivity. Qed.

(** src/minimal.rs:525 *)
Example test_create_ack_msg_before_connect : replies (log A0 [CAck None]) = [RBytes (Err ForbidWriteAckMsgNow)].
Proof. vm_compute. reflexivity. Qed.

(** src/minimal.rs:540 *)
Example test_connect_msg_twice :
  exists m, replies (log A0 [CConnect pkA None; CConnect pkA None]) = [RBytes (Ok m); RBytes (Err ConnectMsgAlreadyWritten)].
Proof. eexists. vm_compute. reflexivity. Qed.

(** src/minimal.rs:561 *)
Example test_connect_msg_with_wrong_sig :
  replies (log A0 [CRead incoming_connect]) = [RMsg (Err (RecvInvalidMsg InvalidHashOrSig))].
Proof. vm_compute. reflexivity. Qed.

(** src/minimal.rs:594 *)
Example test_recv_connect_msg_twice :
  exists m, replies (log A0 [CRead (create_connect_msg_bytes epkB seedB); CRead (create_connect_msg_bytes epkB seedB)]) =
    [RMsg (Ok m); RMsg (Err (RecvInvalidMsg UnexpectedConnectMsg))].
Proof. eexists. vm_compute. reflexivity. Qed.

(** src/minimal.rs:623 *)
Example test_recv_ack_msg_early_twice :
  exists r, replies (log A0 [CRead (create_ack_msg_bytes epkA seedB); CRead (create_ack_msg_bytes epkA seedB)]) =
    [r; RMsg (Err (RecvInvalidMsg UnexpectedAckMsg))].
Proof. eexists. vm_compute. reflexivity. Qed.

(** src/minimal.rs:648 *)
Example test_recv_user_msg_before_nego :
  let d := zeros 4 ++ CURRENT_VERSION ++ be_encode 8 2 ++ [x00; x00] in
  replies (log A0 [CRead (d ++ sha256 toy d)]) = [RMsg (Err (RecvInvalidMsg UnexpectedMessage))].
Proof. vm_compute. reflexivity. Qed.

(** The negotiation common to the next three tests, src/minimal.rs:671-702,
    722-753, 773-804: the layer is given messages put together by hand and its own
    are thrown away.  (The key it announces is the ephemeral one, as in the test.) *)
Definition by_hand : list call :=
  [CRead (create_connect_msg_bytes epkB seedB); CConnect epkB None; CAck None; CRead (create_ack_msg_bytes epkA seedB)].
Definition A_by_hand : msl := Eval vm_compute in after A0 by_hand.
Definition is_ok (r : reply) : bool :=
  match r with
  | RMsg (Ok _) | RMsgs (Ok _) | RBytes (Ok _) | RWritten (Ok _) _ | RClone (Ok _) | RUnit (Ok _) => true
  | _ => false
  end.
Example by_hand_ok : forallb is_ok (replies (log A0 by_hand)) = true /\ A_by_hand = after A0 by_hand.
Proof. split; vm_compute; reflexivity. Qed.

(** What a layer writes into a new writer, and the layer after it.  The tests read
    it from the buffer of the writer. *)
Definition written_by (s : msl) (data : bytes) : msl * bytes :=
  let '(s, w, o) := write_message toy T data s vec_writer in
  (s, match o with Ok _ => bw_buf w | _ => [] end).

(** src/minimal.rs:671: a layer reads its own messages. *)
Example test_recv_twice_same_user_msg :
  let '(s, d0) := written_by A_by_hand [x01; x02; x03; x04] in
  let '(s, r0) := read toy T d0 s in
  let '(s, d1) := written_by s [x01; x02; x03; x04] in
  let '(s, r1) := read toy T d1 s in
  let '(s, r2) := read toy T d1 s in
  (exists m0 m1, r0 = Ok m0 /\ r1 = Ok m1) /\ r2 = Err (RecvInvalidMsg InvalidNonce).
Proof. vm_compute. split; [eexists; eexists; split; reflexivity|reflexivity]. Qed.

(** src/minimal.rs:722 *)
Example test_recv_unordered_user_msgs :
  let '(s, d0) := written_by A_by_hand [x01; x02; x03; x04] in
  let '(s, d1) := written_by s [x01; x02; x03; x04] in
  let '(s, d2) := written_by s [x01; x02; x03; x04] in
  let '(s, d3) := written_by s [x01; x02; x03; x04] in
  forallb is_ok (replies (log s [CRead d0; CRead d2; CRead d3; CRead d1])) = true.
Proof. vm_compute. reflexivity. Qed.

(** ** tests/minimal_mode.rs *)

(** tests/minimal_mode.rs:35-56 *)
Definition server_msl : msl := Eval vm_compute in fresh skB None.
Definition client_msl : msl := Eval vm_compute in fresh skA (Some pkB).

(** What went through the channel: the message and its signature, written to a new
    writer (tests/minimal_mode.rs:72-84, 135-147). *)
Definition channel (seed m : bytes) : bytes :=
  let '(w, _) := bw_write vec_writer m in
  let '(w, _) := bw_write w (ed25519_sign toy seed m) in
  bw_bytes w.

(** tests/minimal_mode.rs:58-85, 127-148, 166-178: sender and receiver afterwards, and what the receiver
    returned. *)
Definition send_connect_msg_inner (seed : bytes) (sender receiver : msl) (cd : option bytes)
  : msl * msl * outcome (option message) :=
  let '(sender, o) := create_connect_message toy (ed25519_public toy seed) cd sender in
  match o with
  | Ok m => let '(receiver, r) := read toy T (channel seed m) receiver in (sender, receiver, r)
  | Err e => (sender, receiver, Err e)
  | Panic p => (sender, receiver, Panic p)
  end.
Definition send_ack_msg_inner (seed : bytes) (sender receiver : msl) (cd : option bytes)
  : msl * msl * outcome (option message) :=
  let '(sender, o) := create_ack_message toy cd sender in
  match o with
  | Ok m => let '(receiver, r) := read toy T (channel seed m) receiver in (sender, receiver, r)
  | Err e => (sender, receiver, Err e)
  | Panic p => (sender, receiver, Panic p)
  end.
Definition send_user_msg_inner (sender receiver : msl) (data : bytes) : msl * msl * outcome (option message) :=
  let '(sender, w, o) := write_message toy T data sender vec_writer in
  match o with
  | Ok _ => let '(receiver, r) := read toy T (bw_bytes w) receiver in (sender, receiver, r)
  | Err e => (sender, receiver, Err e)
  | Panic p => (sender, receiver, Panic p)
  end.
Definition connect_recv (seed : bytes) (cd : option bytes) : outcome (option message) :=
  Ok (Some (MConnect SIG_ALGO_ED25519 (ed25519_public toy seed) cd)).
Definition ack_recv (cd : option bytes) : outcome (option message) := Ok (Some (MAck cd)).
Definition user_recv (data : bytes) : outcome (option message) := Ok (Some (MMessage (Some data))).

(** tests/minimal_mode.rs:184 *)
Example test_server_recv_ack_early :
  let '(server, client, r1) := send_connect_msg_inner seedB server_msl client_msl (Some [x05; x01; x01; x05]) in
  let '(client, server, r2) := send_ack_msg_inner seedA client server (Some [x07; x01; x01; x07]) in
  let '(client, server, r3) := send_connect_msg_inner seedA client server (Some [x05; x04; x04; x05]) in
  let '(server, client, r4) := send_ack_msg_inner seedB server client (Some [x03; x01; x01; x03]) in
  let '(client, server, r5) := send_user_msg_inner client server [x05; x02; x02; x05] in
  let '(server, r6) := take_ack_msg_recv_too_early toy T server in
  let '(server, r7) := take_ack_msg_recv_too_early toy T server in
  let '(server, r8) := drain_tmp_stack_user_msgs toy T server in
  let '(server, r9) := drain_tmp_stack_user_msgs toy T server in
  r1 = connect_recv seedB (Some [x05; x01; x01; x05]) /\ r2 = Ok None /\
  r3 = connect_recv seedA (Some [x05; x04; x04; x05]) /\ r4 = ack_recv (Some [x03; x01; x01; x03]) /\
  r5 = Ok None /\ r6 = ack_recv (Some [x07; x01; x01; x07]) /\ r7 = Ok None /\
  r8 = Ok [MMessage (Some [x05; x02; x02; x05])] /\ r9 = Ok [].
Proof. vm_compute. repeat split. Qed.

(** tests/minimal_mode.rs:286 *)
Example test_disordered_passing_case :
  let '(client, server, r1) := send_connect_msg_inner seedA client_msl server_msl (Some [x05; x04; x04; x05]) in
  let '(server, client, r2) := send_ack_msg_inner seedB server client (Some [x05; x08; x08; x05]) in
  let '(server, client, r3) := send_connect_msg_inner seedB server client (Some [x05; x01; x01; x05]) in
  let '(client, server, r4) := send_ack_msg_inner seedA client server (Some [x07; x04; x04; x07]) in
  let '(server, client, r5) := send_user_msg_inner server client [x01; x05; x05; x01] in
  r1 = connect_recv seedA (Some [x05; x04; x04; x05]) /\ r2 = ack_recv (Some [x05; x08; x08; x05]) /\
  r3 = connect_recv seedB (Some [x05; x01; x01; x05]) /\ r4 = ack_recv (Some [x07; x04; x04; x07]) /\
  r5 = user_recv [x01; x05; x05; x01].
Proof. vm_compute. repeat split. Qed.

(** tests/minimal_mode.rs:353; the man in the middle has other keys. *)
Definition seedM : bytes := [x31; x32; x33].
Definition middle_msl : msl := Eval vm_compute in fresh [xc1; xc2; xc3; xc4] None.
Example test_middle_man_detection :
  let '(client, middle, r1) := send_connect_msg_inner seedA client_msl middle_msl (Some [x07; x06; x05; x04]) in
  let '(middle, client, r2) := send_connect_msg_inner seedM middle client (Some [x07; x05; x06; x04]) in
  r1 = connect_recv seedA (Some [x07; x06; x05; x04]) /\ r2 = Err UnexpectedRemoteSigPubKey.
Proof. vm_compute. repeat split. Qed.

(** tests/minimal_mode.rs:402 *)
Example test_ordered_passing_case :
  let '(client, server, r1) := send_connect_msg_inner seedA client_msl server_msl (Some [x05; x04; x04; x05]) in
  let '(server, client, r2) := send_connect_msg_inner seedB server client (Some [x05; x06; x06; x05]) in
  let '(server, client, r3) := send_ack_msg_inner seedB server client (Some [x05; x08; x08; x05]) in
  let '(client, server, r4) := send_ack_msg_inner seedA client server (Some [x05; x09; x09; x05]) in
  let '(client, r5) := try_clone client in
  let '(server, r6) := try_clone server in
  let '(client, r7) := change_config config_default client in
  let '(client, server, r8) := send_user_msg_inner client server [x05; x07; x07; x05] in
  let '(server, client, r9) := send_user_msg_inner server client [x07; x04; x04; x07] in
  r1 = connect_recv seedA (Some [x05; x04; x04; x05]) /\ r2 = connect_recv seedB (Some [x05; x06; x06; x05]) /\
  r3 = ack_recv (Some [x05; x08; x08; x05]) /\ r4 = ack_recv (Some [x05; x09; x09; x05]) /\
  is_ok (RClone r5) = true /\ is_ok (RClone r6) = true /\ r7 = Err ForbidChangeConfAfterClone /\
  r8 = user_recv [x05; x07; x07; x05] /\ r9 = user_recv [x07; x04; x04; x07].
Proof. vm_compute. repeat split. Qed.

(** ** src/complete.rs and tests/complete_mode.rs *)

(** src/complete.rs:293 *)
Example test_change_config :
  map snd (slog SA0 [SConfig {| cfg_compression := compression_fast; cfg_compression_min_size := 8192;
    cfg_message_format := RawBinary; cfg_encrypt_algo := encrypt_algo_default |}]) = [SUnit (Ok tt)].
Proof. vm_compute. reflexivity. Qed.

(** tests/complete_mode.rs:37-66 *)
Definition server_sl : secure_layer := Eval vm_compute in sfresh skB seedB None.
Definition client_sl : secure_layer := Eval vm_compute in sfresh skA seedA (Some pkB).

(** tests/complete_mode.rs:68-138: write into a new channel, then read from it. *)
Definition transmit (written : secure_layer * bufwriter * outcome unit) (receiver : secure_layer)
  : secure_layer * secure_layer * outcome (list incoming_binary_message) :=
  let '(sender, w, o) := written in
  match o with
  | Ok _ => let '(receiver, r) := read_bin toy toy_zip T (bw_bytes w) receiver in (sender, receiver, r)
  | Err e => (sender, receiver, Err e)
  | Panic p => (sender, receiver, Panic p)
  end.

(** tests/complete_mode.rs:140 *)
Example test_complete_server_recv_ack_early :
  let '(server, client, r1) :=
    transmit (write_connect_msg_bin toy toy_zip (Some [x05; x01; x01; x05]) server_sl vec_writer) client_sl in
  let '(client, server, r2) := transmit (write_ack_msg_bin toy toy_zip (Some [x07; x01; x01;
     x07]) client vec_writer) server in
  let '(client, server, r3) := transmit (write_connect_msg_bin toy toy_zip (Some [x05; x01; x01;
     x05]) client vec_writer) server in
  r1 = Ok [IConnect (Some [x05; x01; x01; x05]) pkB] /\ r2 = Ok [] /\
  r3 = Ok [IConnect (Some [x05; x01; x01; x05]) pkA; IAck (Some [x07; x01; x01; x07])].
Proof. vm_compute. repeat split. Qed.

(** tests/complete_mode.rs:216 *)
Example test_complete_ordered_passing_case :
  let '(client, server, r1) :=
    transmit (write_connect_msg_bin toy toy_zip (Some [x05; x04; x04; x05]) client_sl vec_writer) server_sl in
  let '(server, client, r2) := transmit (write_connect_msg_bin toy toy_zip (Some [x05; x03; x03;
     x05]) server vec_writer) client in
  let '(server, client, r3) := transmit (write_ack_msg_bin toy toy_zip (Some [x05; x09; x09;
     x05]) server vec_writer) client in
  let '(client, server, r4) := transmit (write_ack_msg_bin toy toy_zip (Some [x05; x00; x00;
     x05]) client vec_writer) server in
  let '(client, r5) := sl_try_clone client in
  let '(server, r6) := sl_try_clone server in
  let '(client, r7) := sl_change_config config_default client in
  let '(client, server, r8) := transmit (write_bin toy toy_zip T [x05; x05; x05; x05] client vec_writer) server in
  let '(server, client, r9) := transmit (write_bin toy toy_zip T [x09; x09; x09; x09] server vec_writer) client in
  r1 = Ok [IConnect (Some [x05; x04; x04; x05]) pkA] /\ r2 = Ok [IConnect (Some [x05; x03; x03; x05]) pkB] /\
  r3 = Ok [IAck (Some [x05; x09; x09; x05])] /\ r4 = Ok [IAck (Some [x05; x00; x00; x05])] /\
  (exists c c', r5 = Ok c /\ r6 = Ok c') /\ r7 = Err ForbidChangeConfAfterClone /\
  r8 = Ok [IMessage (Some [x05; x05; x05; x05])] /\ r9 = Ok [IMessage (Some [x09; x09; x09; x09])].
Proof. vm_compute. repeat split. eexists; eexists; split; reflexivity. Qed.

(** ** tests/complete_serde_mode.rs *)

(** The user messages of these tests are [Option<String>]. *)
Definition toy_codec_opt : Codec (option bytes) := {|
  bincode_ser := fun o => inl (match o with None => [x00] | Some b => x01 :: b end);
  bincode_de := fun b => match b with [x00] => inl None | x01 :: b => inl (Some b) | _ => inr 1 end;
  cbor_ser := fun o => inl (match o with None => [xf6] | Some b => xa0 :: b end);
  cbor_de := fun b => match b with [xf6] => inl None | xa0 :: b => inl (Some b) | _ => inr 1 end;
  json_ser := fun o => inl (match o with None => [x6e] | Some b => x22 :: b end);
  json_de := fun b => match b with [x6e] => inl None | x22 :: b => inl (Some b) | _ => inr 1 end |}.

(** tests/complete_serde_mode.rs:29-59 *)
Definition serde_fresh (f : message_format) (sk seed : bytes) (pin : option bytes) : secure_layer :=
  match sl_create toy (RngKey sk) None {| cfg_compression := cfg_compression config_default;
     cfg_compression_min_size := cfg_compression_min_size config_default;
     cfg_message_format := f; cfg_encrypt_algo := cfg_encrypt_algo config_default |} (Some seed) pin with
  | Ok s => s
  | _ => sdummy
  end.

(** tests/complete_serde_mode.rs:61-131 *)
Definition ttransmit {M} (K : Codec M) (written : secure_layer * bufwriter * outcome unit) (receiver : secure_layer)
  : secure_layer * secure_layer * outcome (list (incoming_message M)) :=
  let '(sender, w, o) := written in
  match o with
  | Ok _ => let '(receiver, r) := sl_read toy toy_zip T all_features K (bw_bytes w) receiver in (sender, receiver, r)
  | Err e => (sender, receiver, Err e)
  | Panic p => (sender, receiver, Panic p)
  end.

(** tests/complete_serde_mode.rs:166-228 *)
Definition serde_ordered_passing_case (f : message_format) (connect_data ack_data user_data : option bytes) : Prop :=
  let '(client, server, r1) := ttransmit toy_codec
    (sl_write_connect_msg toy toy_zip toy_codec connect_data (serde_fresh f skA seedA (Some pkB)) vec_writer)
    (serde_fresh f skB seedB None) in
  let '(server, client, r2) := ttransmit toy_codec (sl_write_connect_msg toy toy_zip toy_codec connect_data server vec_writer) client in
  let '(server, client, r3) := ttransmit toy_codec (sl_write_ack_msg toy toy_zip toy_codec ack_data server vec_writer) client in
  let '(client, server, r4) := ttransmit toy_codec (sl_write_ack_msg toy toy_zip toy_codec ack_data client vec_writer) server in
  let '(client, server, r5) := ttransmit toy_codec_opt (sl_write toy toy_zip T toy_codec_opt user_data client vec_writer) server in
  let '(server, client, r6) := ttransmit toy_codec_opt (sl_write toy toy_zip T toy_codec_opt user_data server vec_writer) client in
  r1 = Ok [TMConnect connect_data pkA] /\ r2 = Ok [TMConnect connect_data pkB] /\
  r3 = Ok [TMAck ack_data] /\ r4 = Ok [TMAck ack_data] /\
  r5 = Ok [TMMessage (Some user_data)] /\ r6 = Ok [TMMessage (Some user_data)].

(** tests/complete_serde_mode.rs:133, 144, 155, with "abc", "def" and "blablabla" *)
Definition abc : bytes := [x61; x62; x63].
Definition def : bytes := [x64; x65; x66].
Definition blablabla : bytes := [x62; x6c; x61; x62; x6c; x61; x62; x6c; x61].
Example test_ordered_passing_case_bincode : serde_ordered_passing_case Bincode (Some abc) None (Some blablabla).
Proof. vm_compute. repeat split. Qed.
Example test_ordered_passing_case_cbor : serde_ordered_passing_case Cbor None (Some def) (Some blablabla).
Proof. vm_compute. repeat split. Qed.
Example test_ordered_passing_case_json : serde_ordered_passing_case Utf8Json (Some abc) (Some def) None.
Proof. vm_compute. repeat split. Qed.

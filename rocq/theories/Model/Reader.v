(** src/reader.rs *)

From Verif.Model Require Export Message.

(** src/reader.rs:26-29 *)
Definition MAGIC_VALUE_END : N := 4.
Definition VERSION_END : N := 8.
Definition ENCAPSULED_MSG_BEGIN : N := 16.
Definition NONCE_SIZE : N := 8.

(** src/reader.rs:32-37 ([DecryptedIncomingData]) *)
Record decrypted_data := {
  dd_data : bytes;
  dd_user_msg_begin : N;
  dd_user_msg_end : N;
  dd_headers : msg_type_headers
}.

(** src/reader.rs:97-146 ([read_type_headers]) *)
Definition read_type_headers (th : bytes) : outcome (msg_type_headers * N) :=
  do ty <- slice_to th MSG_TYPE_LEN;
  if bytes_eqb ty USER_MSG_TYPE then
    do nonce <- slice th MSG_TYPE_LEN (MSG_TYPE_LEN + NONCE_SIZE);
    Ok (HUserMsg (be_decode nonce), MSG_TYPE_LEN + NONCE_SIZE)
  else if bytes_eqb ty CONNECT_MSG_TYPE then
    do peer_ephemeral_pk <- slice th MSG_TYPE_LEN (MSG_TYPE_LEN + EPK_SIZE);
    do algo <- slice th (MSG_TYPE_LEN + EPK_SIZE) SIG_PUBKEY_BEGIN;
    if bytes_eqb algo SIG_ALGO_ED25519 then
      do sig_algo <- slice th (MSG_TYPE_LEN + EPK_SIZE)
                              (MSG_TYPE_LEN + EPK_SIZE + SIG_ALGO_LEN);
      do sig_pubkey <- slice th SIG_PUBKEY_BEGIN (SIG_PUBKEY_BEGIN + 32);
      Ok (HConnect peer_ephemeral_pk sig_algo sig_pubkey, SIG_PUBKEY_BEGIN + 32)
    else Err (RecvInvalidMsg UnsupportedSigAlgo)
  else if bytes_eqb ty ACK_MSG_TYPE then
    do challenge <- slice th MSG_TYPE_LEN (MSG_TYPE_LEN + CHALLENGE_SIZE);
    Ok (HAck challenge, MSG_TYPE_LEN + CHALLENGE_SIZE)
  else Err (RecvInvalidMsg UnknownMessageType).

Section WithEnv.
Context (C : Crypto) (T : target).

(** src/reader.rs:45-61: first half of [read], returns (data_encrypted,
    decrypted_data).  Simplified: the in-memory BufWriter the cipher writes to
    takes everything, so its content is the decrypted text. *)
Definition read_decrypt (secret : option algo_with_secret) (incoming : bytes)
  : outcome (bool * bytes) :=
  do magic <- slice_to incoming MAGIC_VALUE_END;
  if bytes_eqb magic MAGIC_VALUE then Ok (false, incoming)
  else
    match secret with
    | Some a => do d <- decrypt C T incoming a; Ok (true, d)
    | None => Err (RecvInvalidMsg UnexpectedMessage)
    end.

(** src/reader.rs:63-95: second half of [read]. *)
Definition read_parse (check_encrypt_state data_encrypted : bool) (d : bytes)
  : outcome decrypted_data :=
  do magic <- slice_to d MAGIC_VALUE_END;
  if negb (bytes_eqb magic MAGIC_VALUE) then Err (RecvInvalidMsg InvalidMagicValue)
  else
  do version <- slice d MAGIC_VALUE_END VERSION_END;
  if negb (bytes_eqb version CURRENT_VERSION) then Err (RecvInvalidMsg UnsupportedVersion)
  else
  do size <- slice d VERSION_END ENCAPSULED_MSG_BEGIN;
  let encapsuled_msg_size := u64_as_usize T (be_decode size) in
  do user_msg_end <- usize_add T ENCAPSULED_MSG_BEGIN encapsuled_msg_size;
  do th <- slice_from d ENCAPSULED_MSG_BEGIN;
  do (headers, type_headers_len) <- read_type_headers th;
  if check_encrypt_state && negb (Bool.eqb data_encrypted (must_be_encrypted headers))
  then Err (RecvInvalidMsg UnexpectedEncryptionState)
  else Ok {| dd_data := d;
             dd_user_msg_begin := ENCAPSULED_MSG_BEGIN + type_headers_len;
             dd_user_msg_end := user_msg_end;
             dd_headers := headers |}.

(** src/reader.rs:40-95 ([reader::read]) *)
Definition reader_read (secret : option algo_with_secret) (incoming : bytes)
    (check_encrypt_state : bool) : outcome decrypted_data :=
  do (data_encrypted, d) <- read_decrypt secret incoming;
  read_parse check_encrypt_state data_encrypted d.

End WithEnv.

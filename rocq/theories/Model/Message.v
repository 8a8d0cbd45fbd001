(** src/constants.rs, src/signature.rs and src/message.rs. *)

From Verif.Model Require Export Encryption.

(** src/constants.rs:19-52 *)
Definition SIG_ALGO_LEN : N := 4.
Definition CURRENT_VERSION : bytes := [x00; x00; x00; x01].
Definition CHALLENGE_SIZE : N := 32.
Definition HASH_SIZE : N := 32.
Definition EPK_SIZE : N := 32.
Definition MAGIC_VALUE : bytes := [xe2; xc2; xe2; xd2].
Definition MSG_TYPE_LEN : N := 2.
Definition USER_MSG_TYPE : bytes := [x00; x00].
Definition CONNECT_MSG_TYPE : bytes := [x00; x01].
Definition ACK_MSG_TYPE : bytes := [x00; x02].
Definition SIG_PUBKEY_BEGIN : N := MSG_TYPE_LEN + EPK_SIZE + SIG_ALGO_LEN.
Definition MAX_ORPHAN_NONCES : N := 10000.

(** src/signature.rs:21, 24 *)
Definition SIG_ALGO_ED25519 : bytes := [x00; x00; x00; x00].

(** src/message.rs:31-51 ([Message], public API) *)
Inductive message :=
| MConnect (sig_algo sig_pubkey : bytes) (custom_data : option bytes)
| MAck (custom_data : option bytes)
| MMessage (custom_data : option bytes).

(** src/message.rs:55-77 ([MessageRef]) *)
Inductive message_ref :=
| RConnect (sig_algo sig_pubkey : bytes) (custom_data : option bytes)
| RAck (custom_data : option bytes)
| RMessage (custom_data : option bytes) (nonce : N).

(** src/message.rs:92-104 ([MsgTypeHeaders]) *)
Inductive msg_type_headers :=
| HConnect (peer_ephemeral_pk sig_algo sig_pubkey : bytes)
| HAck (challenge : bytes)
| HUserMsg (nonce : N).

(** src/message.rs:107-113 *)
Definition must_be_encrypted (h : msg_type_headers) : bool :=
  match h with HUserMsg _ => true | _ => false end.

(** src/message.rs:122-144 ([Message::from_bytes]); it never fails. *)
Definition message_from_bytes (msg_bytes : bytes) (h : msg_type_headers) : message :=
  let custom_data := match msg_bytes with [] => None | _ => Some msg_bytes end in
  match h with
  | HUserMsg _ => MMessage custom_data
  | HConnect _ sig_algo sig_pubkey => MConnect sig_algo sig_pubkey custom_data
  | HAck _ => MAck custom_data
  end.

Section WithCrypto.
Context (C : Crypto).

(** src/message.rs:149-217 and 275-280 ([prepare_message], [write_challenge]):
    returns (bin_user_msg, type_msg_headers).  Writes into a [Vec] are total. *)
Definition prepare_message (m : message_ref) (self_epk : bytes) (peer_epk : option bytes)
  : outcome (option bytes * bytes) :=
  match m with
  | RConnect sig_algo sig_pubkey custom_data =>
      Ok (custom_data, CONNECT_MSG_TYPE ++ self_epk ++ sig_algo ++ sig_pubkey)
  | RAck custom_data =>
      match peer_epk with
      | Some peer_epk => Ok (custom_data, ACK_MSG_TYPE ++ sha256 C peer_epk)
      | None => Panic PNoPeerEpk
      end
  | RMessage custom_data nonce =>
      Ok (custom_data, USER_MSG_TYPE ++ be_encode 8 nonce)
  end.

(** [bin_user_msg.unwrap_or(&[])], src/message.rs:229, 247, and the optional write
    of src/message.rs:258-262. *)
Definition opt_bytes (o : option bytes) : bytes :=
  match o with Some b => b | None => [] end.

(** src/message.rs:219-273 ([MessageRef::to_bytes]).  The in-memory BufWriter
    is plain concatenation (Proofs/IoFacts.v shows a BufWriter over a sink that
    takes everything is). *)
Definition message_to_bytes (m : message_ref) (self_epk : bytes) (peer_epk : option bytes)
  : outcome bytes :=
  do (bin_user_msg, type_msg_headers) <- prepare_message m self_epk peer_epk;
  let encapsuled_msg_size := len type_msg_headers + len (opt_bytes bin_user_msg) in
  Ok (MAGIC_VALUE ++ CURRENT_VERSION ++ be_encode 8 encapsuled_msg_size
        ++ type_msg_headers ++ opt_bytes bin_user_msg).

End WithCrypto.

(** Specification of the wire format, written from /repo/README.md ("Messages
    format") and independent of the functions of Model/.  Only the data types
    ([bytes], [Crypto], [secret_key]) are shared.

    Differences with README.md, where the code decides: SIG_ALGO is 0 (README: 1)
    and the encrypted type is 0 (README: "MSG_TYPE == 2"). *)

From Verif.Model Require Import Encryption.

(** The byte of weight 256^k of a number. *)
Definition byte_at (n k : N) : byte :=
  match Byte.of_N ((n / 256 ^ k) mod 256) with Some b => b | None => x00 end.

(** u64, big endian ("All numbers are encoded in big endian"). *)
Definition u64_be (n : N) : bytes := map (byte_at n) [7; 6; 5; 4; 3; 2; 1; 0].

Definition magic : bytes := [xe2; xc2; xe2; xd2].
Definition version : bytes := [x00; x00; x00; x01].

(** MAGIC_VALUE, VERSION, ENCAPSULED_MSG_LEN, MSG_TYPE, MSG_CONTENT, with any
    number in the length field. *)
Definition frame_len (L : N) (ty content : bytes) : bytes :=
  magic ++ version ++ u64_be L ++ ty ++ content.

(** The same with the right number: "encapsuled message length (MSG_TYPE +
    MSG_CONTENT)". *)
Definition frame (ty content : bytes) : bytes := frame_len (2 + len content) ty content.

(** CUSTOM_DATA is optional: absent data takes no byte. *)
Definition custom (o : option bytes) : bytes := match o with Some d => d | None => [] end.

(** What a reader can say about it: no byte means absent. *)
Definition nonempty (d : bytes) : option bytes := match d with [] => None | _ => Some d end.

Definition connect_content (epk sig_pubkey cd : bytes) : bytes :=
  epk ++ [x00; x00; x00; x00] ++ sig_pubkey ++ cd.
Definition connect_frame (epk sig_pubkey cd : bytes) : bytes :=
  frame [x00; x01] (connect_content epk sig_pubkey cd).
Definition ack_frame (challenge cd : bytes) : bytes :=
  frame [x00; x02] (challenge ++ cd).
Definition user_frame (nonce : N) (data : bytes) : bytes :=
  frame [x00; x00] (u64_be nonce ++ data).

(** ** Encryption: ChaCha20-Poly1305 *)

(** Text xored with a key stream, position by position. *)
Definition stream_xor (ks : nat -> byte) (text : bytes) : bytes :=
  map (fun p => byte_xor (fst p) (ks (snd p))) (combine text (seq 0 (length text))).

Definition ciphertext (C : Crypto) (k : secret_key) (text : bytes) : bytes :=
  stream_xor (chacha20_keystream C (sk_key k) (sk_nonce k)) text.

(** Ciphertext followed by the 16-byte tag over aad and ciphertext. *)
Definition seal (C : Crypto) (k : secret_key) (text : bytes) : bytes :=
  ciphertext C k text
    ++ poly1305_mac C (sk_key k) (sk_nonce k) (sk_aad k) (ciphertext C k text).

(** "HASH: Sha256 hash of all previous bytes" *)
Definition hashed (C : Crypto) (f : bytes) : bytes := f ++ sha256 C f.

(** A user message as it travels. *)
Definition user_datagram (C : Crypto) (k : secret_key) (nonce : N) (data : bytes) : bytes :=
  seal C k (hashed C (user_frame nonce data)).

(** The session's key stream does not start with four zero bytes: otherwise the
    ciphertext of any user message starts with the clear magic value. *)
Definition keystream_ok (C : Crypto) (k : secret_key) : Prop :=
  ~ (forall i, (i < 4)%nat -> chacha20_keystream C (sk_key k) (sk_nonce k) i = x00).

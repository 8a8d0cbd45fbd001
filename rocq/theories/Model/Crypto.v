(** The external libraries the crate calls, as one record of functions.

    Nothing here is /repo code.  Every theorem quantifies over a [Crypto];
    theorems that need a fact about a library take [CryptoLaws] (or one of
    the other law records) as a hypothesis and so say so in their statement.
    Instances.v builds instances that satisfy the laws. *)

From Verif.Model Require Export Base.

(** PBKDF2 variants selected in src/agreement.rs:33-39. *)
Inductive pbkdf2_algo := PBKDF2_HMAC_SHA256 | PBKDF2_HMAC_SHA384 | PBKDF2_HMAC_SHA512.

Record Crypto := {
  (** ring::digest::digest(&SHA256, _), src/digest.rs:18-20 *)
  sha256 : bytes -> bytes;
  (** ring::agreement::EphemeralPrivateKey::compute_public_key (X25519),
      src/agreement.rs:92-94 *)
  x25519_public : bytes -> bytes;
  (** ring::agreement::agree_ephemeral: [None] when ring refuses the peer key
      (wrong length, or all-zero shared point), src/agreement.rs:115-120 *)
  x25519_agree : bytes -> bytes -> option bytes;
  (** ring::pbkdf2::derive algo iterations salt secret out_len,
      src/agreement.rs:126-132 *)
  pbkdf2 : pbkdf2_algo -> N -> bytes -> bytes -> nat -> bytes;
  (** chacha20_poly1305_aead: byte i of the ChaCha20 key stream for a key and
      a nonce, and the Poly1305 tag of (key, nonce, aad, ciphertext),
      src/encryption/chacha20_poly1305_aead.rs:55-62, 74-80 *)
  chacha20_keystream : bytes -> bytes -> nat -> byte;
  poly1305_mac : bytes -> bytes -> bytes -> bytes -> bytes;
  (** ring::signature::Ed25519KeyPair::{public_key, sign} for the key pair of
      a 32 byte seed, and UnparsedPublicKey::verify(pubkey, msg, sig),
      src/signature.rs:26-30, src/complete/writer.rs:95 *)
  ed25519_public : bytes -> bytes;
  ed25519_sign : bytes -> bytes -> bytes;
  ed25519_verify : bytes -> bytes -> bytes -> bool
}.

(** Functional correctness of the libraries (no secrecy assumption). *)
Record CryptoLaws (C : Crypto) : Prop := {
  law_sha256_len : forall m, length (sha256 C m) = 32%nat;
  law_x25519_public_len : forall sk, length (x25519_public C sk) = 32%nat;
  (** Diffie-Hellman: both sides compute the same point, or both are refused *)
  law_x25519_comm : forall a b,
      x25519_agree C a (x25519_public C b) = x25519_agree C b (x25519_public C a);
  law_pbkdf2_len : forall al it salt sec n, length (pbkdf2 C al it salt sec n) = n;
  law_mac_len : forall k n a c, length (poly1305_mac C k n a c) = 16%nat;
  law_ed25519_public_len : forall s, length (ed25519_public C s) = 32%nat;
  law_ed25519_sign_len : forall s m, length (ed25519_sign C s m) = 64%nat;
  law_ed25519_correct : forall s m,
      ed25519_verify C (ed25519_public C s) m (ed25519_sign C s m) = true;
  (** ring rejects any signature that is not 64 bytes long *)
  law_ed25519_verify_len : forall pk m s,
      ed25519_verify C pk m s = true -> length s = 64%nat
}.

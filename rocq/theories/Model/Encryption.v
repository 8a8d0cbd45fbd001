(** src/encryption.rs and src/encryption/chacha20_poly1305_aead.rs. *)

From Verif.Model Require Export Agreement Io.

(** src/encryption.rs:26-29 *)
Inductive encrypt_algo := Chacha20Poly1305Aead.

(** src/encryption.rs:31-35 *)
Definition encrypt_algo_default : encrypt_algo := Chacha20Poly1305Aead.

(** src/encryption.rs:38-42 *)
Definition algo_shared_secret_len (a : encrypt_algo) : shared_secret_len :=
  match a with Chacha20Poly1305Aead => LenB48 end.

(** chacha20_poly1305_aead.rs:28-32 *)
Record secret_key := { sk_key : bytes; sk_nonce : bytes; sk_aad : bytes }.

(** src/encryption.rs:46-48 *)
Inductive algo_with_secret := WithChacha (k : secret_key).

(** chacha20_poly1305_aead.rs:36-44 ([SecretKey::new]).  The slices cannot
    panic: a Seed48 is an array of 48 bytes. *)
Definition secret_key_new (seed : bytes) : secret_key :=
  {| sk_key := firstn 32 seed;
     sk_nonce := firstn 12 (skipn 32 seed);
     sk_aad := firstn 4 (skipn 44 seed) |}.

(** src/encryption.rs:51-61 ([EncryptAlgoWithSecretKey::build]) *)
Definition algo_build (a : encrypt_algo) (s : shared_secret) : outcome algo_with_secret :=
  match a with
  | Chacha20Poly1305Aead =>
      match s with
      | SecB48 seed => Ok (WithChacha (secret_key_new seed))
      | _ => Panic PWrongSecretLen
      end
  end.

(** chacha20_poly1305_aead.rs:23 *)
Definition CHACHA20_TAG_SIZE : N := 16.

Section WithCrypto.
Context (C : Crypto).

(** The stream cipher of the chacha20_poly1305_aead crate (RFC 7539): byte i of
    the text is xored with byte i of the key stream of (key, nonce). *)
Fixpoint xor_stream (key nonce : bytes) (i : nat) (text : bytes) : bytes :=
  match text with
  | [] => []
  | b :: t => byte_xor b (chacha20_keystream C key nonce i) :: xor_stream key nonce (S i) t
  end.

(** [chacha20_poly1305_aead::decrypt] (dependency) called at
    chacha20_poly1305_aead.rs:55-63: the tag is checked, then the text is
    written out. *)
Definition aead_open (k : secret_key) (ct tag : bytes) : outcome bytes :=
  if bytes_eqb tag (poly1305_mac C (sk_key k) (sk_nonce k) (sk_aad k) ct)
  then Ok (xor_stream (sk_key k) (sk_nonce k) 0 ct)
  else Err (FailToDecryptData DecTagMismatch).

(** chacha20_poly1305_aead.rs:48-66 ([decrypt]) into an in-memory writer.  A
    text shorter than the tag panics: the subtraction overflows with overflow
    checks, the slice is out of range without. *)
Definition chacha_decrypt (T : target) (d : bytes) (k : secret_key) : outcome bytes :=
  if len d <? CHACHA20_TAG_SIZE then
    Panic (if overflow_checks T then POverflow else PSliceRange)
  else
    let payload_len := len d - CHACHA20_TAG_SIZE in
    aead_open k (firstn (N.to_nat payload_len) d) (skipn (N.to_nat payload_len) d).

(** src/encryption.rs:65-75 *)
Definition decrypt (T : target) (d : bytes) (a : algo_with_secret) : outcome bytes :=
  match a with WithChacha k => chacha_decrypt T d k end.

(** 64-byte blocks of a text, the last one possibly shorter (ChaCha20 block
    size of the dependency's [encrypt_read]); fuel = length of the text. *)
Fixpoint chunks64 (fuel : nat) (t : bytes) : list bytes :=
  match fuel, t with
  | _, [] => []
  | O, _ => []
  | S f, _ => firstn 64 t :: chunks64 f (skipn 64 t)
  end.

(** [write_all] of each block in turn, stopping at the first error. *)
Fixpoint write_chunks (w : bufwriter) (l : list bytes) : bufwriter * option io_error :=
  match l with
  | [] => (w, None)
  | c :: l' =>
      match bw_write_all w c with
      | (w', None) => write_chunks w' l'
      | (w', Some e) => (w', Some e)
      end
  end.

(** chacha20_poly1305_aead.rs:69-88 ([encrypt]).  [encrypt_read] (dependency)
    encrypts block after block, [write_all]s each, and returns the tag; the tag
    is then passed to a single [write] whose count is ignored (line 83). *)
Definition chacha_encrypt (text : bytes) (k : secret_key) (w : bufwriter)
  : bufwriter * outcome unit :=
  let ct := xor_stream (sk_key k) (sk_nonce k) 0 text in
  match write_chunks w (chunks64 (length ct) ct) with
  | (w1, Some e) => (w1, Err (FailToEncryptData e))
  | (w1, None) =>
      let tag := poly1305_mac C (sk_key k) (sk_nonce k) (sk_aad k) ct in
      match bw_write w1 tag with
      | (w2, inr e) => (w2, Err (FailToEncryptData e))
      | (w2, inl _) => (w2, Ok tt)
      end
  end.

(** src/encryption.rs:79-89 *)
Definition encrypt (text : bytes) (a : algo_with_secret) (w : bufwriter)
  : bufwriter * outcome unit :=
  match a with WithChacha k => chacha_encrypt text k w end.

End WithCrypto.

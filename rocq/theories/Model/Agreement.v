(** src/agreement.rs and the seed wrappers of src/seeds.rs. *)

From Verif.Model Require Export Crypto.

(** src/agreement.rs:26-30 *)
Inductive shared_secret_len := LenB32 | LenB48 | LenB64.

(** src/agreement.rs:33-39 ([SharedSecretLen::algo]) *)
Definition secret_len_algo (l : shared_secret_len) : pbkdf2_algo :=
  match l with
  | LenB32 => PBKDF2_HMAC_SHA256
  | LenB48 => PBKDF2_HMAC_SHA384
  | LenB64 => PBKDF2_HMAC_SHA512
  end.

(** Sizes of Seed32, Seed48, Seed64: src/seeds.rs:23, 61, 96. *)
Definition secret_len_bytes (l : shared_secret_len) : nat :=
  match l with LenB32 => 32 | LenB48 => 48 | LenB64 => 64 end.

(** src/agreement.rs:42-46.  A seed's fixed-size array is a byte list; its
    zeroization on drop (src/seeds.rs) is not modelled. *)
Inductive shared_secret := SecB32 (s : bytes) | SecB48 (s : bytes) | SecB64 (s : bytes).

(** src/agreement.rs:23 *)
Definition ITERATIONS : N := 3.

(** src/agreement.rs:80-83 *)
Record ephemeral_kp := { ekp_priv : bytes; ekp_pub : bytes }.

(** Outcome of ring's random generator and key derivation during
    [EphemeralKeyPair::generate]: a private key, or a failure of either call. *)
Inductive rng_result := RngKey (sk : bytes) | RngFailPriv | RngFailPub.

Section WithCrypto.
Context (C : Crypto).

(** src/agreement.rs:87-98 ([EphemeralKeyPair::generate]); the randomness is an
    argument. *)
Definition ekp_generate (r : rng_result) : outcome ephemeral_kp :=
  match r with
  | RngFailPriv => Err FailToGenEphemerKeyPair
  | RngFailPub => Err FailToGenEphemerPubKey
  | RngKey sk => Ok {| ekp_priv := sk; ekp_pub := x25519_public C sk |}
  end.

(** src/agreement.rs:58-66, 124-134 ([SharedSecret::new] + [derive]) *)
Definition derive (seed salt : bytes) (l : shared_secret_len) : shared_secret :=
  let out := pbkdf2 C (secret_len_algo l) ITERATIONS salt seed (secret_len_bytes l) in
  match l with
  | LenB32 => SecB32 out
  | LenB48 => SecB48 out
  | LenB64 => SecB64 out
  end.

(** src/agreement.rs:104-121 ([EphemeralKeyPair::compute_shared_secret]) *)
Definition ekp_compute_shared_secret
    (kp : ephemeral_kp) (other : bytes) (l : shared_secret_len) : outcome shared_secret :=
  let salt := if bytes_gtb (ekp_pub kp) other then ekp_pub kp else other in
  match x25519_agree C (ekp_priv kp) other with
  | None => Err FailToComputeAgreement
  | Some key_material => Ok (derive key_material salt l)
  end.

End WithCrypto.

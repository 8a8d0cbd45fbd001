(** The text of [format!("{:?}", layer)]: the derived [Debug] of the types a
    layer is made of.

    Only the one-line form is modelled, not [{:#?}].  [derive(Debug)] prints a
    struct as [Name { field: value, field: value }], a tuple struct or variant
    as [Name(value)] and a unit variant as [Name]; [core] prints numbers in
    decimal, slices as [[a, b]], sets as [{a, b}] in increasing order, and
    options as [None] or [Some(value)]. *)

From Coq Require Export Strings.String.
From Coq Require Import Strings.Ascii Decimal DecimalString.
From Verif.Model Require Export Minimal Complete.
Local Open Scope string_scope.

(** What ring prints (not /repo code, ring 0.16).  The [Debug] of a private key
    names the algorithm only, that of a signature key pair shows the public key
    only; this is part of the trusted base. *)
Record RingDebug := {
  dbg_private : string;
  dbg_public : bytes -> string;
  dbg_keypair : bytes -> string
}.

(** [core]'s [Debug] for integers. *)
Definition dec (n : N) : string := NilZero.string_of_uint (N.to_uint n).

(** Values separated by commas. *)
Fixpoint commas (l : list string) : string :=
  match l with
  | [] => ""
  | [a] => a
  | a :: r => a ++ ", " ++ commas r
  end.

(** [Debug] for slices, vectors and arrays. *)
Definition dbg_list {A} (f : A -> string) (l : list A) : string := "[" ++ commas (map f l) ++ "]".
Definition dbg_bytes (b : bytes) : string := dbg_list (fun x => dec (Byte.to_N x)) b.

(** [Debug] for [Option] and [bool]. *)
Definition dbg_option {A} (f : A -> string) (o : option A) : string :=
  match o with None => "None" | Some a => "Some(" ++ f a ++ ")" end.
Definition dbg_bool (b : bool) : string := if b then "true" else "false".

(** [Debug] for [BTreeSet<u64>]: the elements in increasing order.  The model
    keeps them in a list in no particular order (Model/Minimal.v). *)
Fixpoint insert (n : N) (l : list N) : list N :=
  match l with
  | [] => [n]
  | m :: r => if (n <=? m)%N then n :: l else m :: insert n r
  end.
Definition in_order (l : list N) : list N := fold_right insert [] l.
Definition dbg_set (l : list N) : string := "{" ++ commas (map dec (in_order l)) ++ "}".

(** src/format.rs:34-49 *)
Definition dbg_format (f : message_format) : string :=
  match f with
  | RawBinary => "RawBinary"
  | Utf8PlainText => "Utf8PlainText"
  | Utf8Json => "Utf8Json"
  | Cbor => "Cbor"
  | Bincode => "Bincode"
  end.
(** src/encryption.rs:25-29 *)
Definition dbg_encrypt_algo (a : encrypt_algo) : string :=
  match a with Chacha20Poly1305Aead => "Chacha20Poly1305Aead" end.
(** src/config.rs:27-41.  The format is there only in builds with a serialiser
    ([ser]). *)
Definition dbg_config (ser : bool) (c : config) : string :=
  "SecureLayerConfig { compression: Compression(" ++ dec (cfg_compression c) ++
  "), compression_min_size: " ++ dec (cfg_compression_min_size c) ++
  (if ser then ", message_format: " ++ dbg_format (cfg_message_format c) else "") ++
  ", encrypt_algo: " ++ dbg_encrypt_algo (cfg_encrypt_algo c) ++ " }".

(** src/encryption/chacha20_poly1305_aead.rs:25-32 *)
Definition dbg_secret_key (k : secret_key) : string :=
  "SecretKey { key: " ++ dbg_bytes (sk_key k) ++ ", nonce: " ++ dbg_bytes (sk_nonce k) ++
  ", aad: " ++ dbg_bytes (sk_aad k) ++ " }".
(** src/encryption.rs:45-48 *)
Definition dbg_algo_with_secret (a : algo_with_secret) : string :=
  match a with WithChacha k => "Chacha20Poly1305Aead(" ++ dbg_secret_key k ++ ")" end.

(** src/lib.rs:70-75, 77-82 *)
Definition dbg_local (l : local_thread) : string :=
  match l with
  | Created => "Created"
  | ConnectMsgSent => "ConnectMsgSent"
  | ValidAckMsgReceived => "ValidAckMsgReceived"
  end.
Definition dbg_remote (r : remote_thread) : string :=
  match r with
  | WaitConnectMsg => "WaitConnectMsg"
  | ValidConnectMsgReceived => "ValidConnectMsgReceived"
  | AckMsgSent => "AckMsgSent"
  end.
(** src/status.rs:22-33 *)
Definition dbg_status (s : status) : string :=
  match s with
  | Fail => "Fail"
  | OngoingNegotiation l r =>
      "OngoingNegotiation { local: " ++ dbg_local l ++ ", remote: " ++ dbg_remote r ++ " }"
  | NegotiationSuccessful => "NegotiationSuccessful"
  end.

Section WithRing.
Context (R : RingDebug) (ser : bool).

(** src/agreement.rs:68-70 *)
Definition dbg_epk (b : bytes) : string := "EphemeralPublicKey(" ++ dbg_public R b ++ ")".
(** src/agreement.rs:78-83 *)
Definition dbg_ekp (k : ephemeral_kp) : string :=
  "EphemeralKeyPair { privkey: " ++ dbg_private R ++ ", pubkey: " ++ dbg_epk (ekp_pub k) ++ " }".

(** src/minimal.rs:33-51 *)
Definition dbg_msl (s : msl) : string :=
  "MinimalSecureLayer { ack_msg_recv_too_early: " ++ dbg_option dbg_bytes (ack_msg_recv_too_early s) ++
  ", cloned: " ++ dbg_bool (cloned s) ++
  ", config: " ++ dbg_config ser (conf s) ++
  ", encrypt_algo_with_secret: " ++ dbg_option dbg_algo_with_secret (encrypt_algo_with_secret s) ++
  ", ephemeral_kp: " ++ dbg_option dbg_ekp (ephemeral s) ++
  ", ephemeral_pubkey: " ++ dbg_epk (ephemeral_pubkey s) ++
  ", next_nonce_expected: " ++ dec (next_nonce_expected s) ++
  ", next_nonce_sent: " ++ dec (next_nonce_sent s) ++
  ", orphan_nonce_list: " ++ dbg_set (orphan_nonce_list s) ++
  ", peer_epk: " ++ dbg_option dbg_bytes (peer_epk s) ++
  ", peer_sig_pubkey: " ++ dbg_option dbg_bytes (peer_sig_pubkey s) ++
  ", status: " ++ dbg_status (msl_status s) ++
  ", tmp_stack_user_msgs: " ++ dbg_list dbg_bytes (tmp_stack_user_msgs s) ++ " }".

(** src/complete.rs:40-44.  The key pair shows its public key. *)
Definition dbg_secure_layer (C : Crypto) (s : secure_layer) : string :=
  "SecureLayer { minimal_secure_layer: " ++ dbg_msl (minimal s) ++
  ", sig_key_pair: " ++ dbg_option (fun seed => dbg_keypair R (ed25519_public C seed)) (sig_key_pair s) ++ " }".

End WithRing.

(** src/seeds.rs:21-23 *)
Definition dbg_seed32 (seed : bytes) : string := "Seed32(" ++ dbg_bytes seed ++ ")".

(** src/format.rs and src/config.rs. *)

From Verif.Model Require Export Encryption.

(** Cargo features (Cargo.toml [features]).  zip-sign is always on: without it
    src/config.rs does not declare [SecureLayerConfig] and the crate does not
    compile. *)
Record features := { feat_bin : bool; feat_cbor : bool; feat_json : bool }.

(** src/format.rs:35-49.  Variants of disabled features do not exist in Rust;
    see [format_enabled]. *)
Inductive message_format := RawBinary | Utf8PlainText | Utf8Json | Cbor | Bincode.

(** Which variants exist under which features: src/format.rs:40, 43, 46. *)
Definition format_enabled (F : features) (f : message_format) : bool :=
  match f with
  | RawBinary | Utf8PlainText => true
  | Utf8Json => feat_json F
  | Cbor => feat_cbor F
  | Bincode => feat_bin F
  end.

(** src/format.rs:51-55 *)
Definition message_format_default : message_format := RawBinary.

(** src/format.rs:21-31 *)
Definition RAW_BINARY : bytes := [x00; x00; x00; x00].
Definition UTF8_PLAIN_TEXT : bytes := [x00; x00; x00; x01].
Definition BINCODE : bytes := [x00; x00; x00; x04].
Definition CBOR : bytes := [x00; x00; x00; x03].
Definition UTF8_JSON : bytes := [x00; x00; x00; x02].

(** src/format.rs:60-72 ([TryFrom<&[u8]> for MessageFormat]) *)
Definition format_try_from (F : features) (b : bytes) : message_format + incoming_msg_err :=
  if feat_bin F && bytes_eqb b BINCODE then inl Bincode
  else if feat_cbor F && bytes_eqb b CBOR then inl Cbor
  else if bytes_eqb b RAW_BINARY then inl RawBinary
  else if feat_json F && bytes_eqb b UTF8_JSON then inl Utf8Json
  else if bytes_eqb b UTF8_PLAIN_TEXT then inl Utf8PlainText
  else inr UnknownMessageFormat.

(** src/format.rs:76-87 ([AsRef<[u8]> for MessageFormat]) *)
Definition format_as_ref (f : message_format) : bytes :=
  match f with
  | Bincode => BINCODE
  | Cbor => CBOR
  | RawBinary => RAW_BINARY
  | Utf8Json => UTF8_JSON
  | Utf8PlainText => UTF8_PLAIN_TEXT
  end.

(** flate2::Compression: a level; [none] is 0 and [fast] is 1. *)
Definition compression := N.
Definition compression_none : compression := 0.
Definition compression_fast : compression := 1.

(** src/config.rs:21 *)
Definition DEFAULT_COMPRESSION_MIN_SIZE : N := 8192.

(** src/config.rs:29-41 *)
Record config := {
  cfg_compression : compression;
  cfg_compression_min_size : N;
  cfg_message_format : message_format;
  cfg_encrypt_algo : encrypt_algo
}.

(** src/config.rs:44-54 *)
Definition config_default : config := {|
  cfg_compression := compression_fast;
  cfg_compression_min_size := DEFAULT_COMPRESSION_MIN_SIZE;
  cfg_message_format := message_format_default;
  cfg_encrypt_algo := encrypt_algo_default
|}.

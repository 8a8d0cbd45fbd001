(** src/complete/serde.rs, serde/serializer.rs, serde/deserializer.rs and the
    typed methods of src/complete.rs. *)

From Verif.Model Require Export Complete.

(** src/complete/serde.rs:24 *)
Definition HEADER_FORMAT_LEN : N := 4.

(** The serde back ends (bincode, serde_cbor, serde_json) for one type M.
    Not /repo code.  [ser] into memory, [de] from bytes; an error is a code. *)
Record Codec (M : Type) := {
  bincode_ser : M -> bytes + N;  bincode_de : bytes -> M + N;
  cbor_ser : M -> bytes + N;     cbor_de : bytes -> M + N;
  json_ser : M -> bytes + N;     json_de : bytes -> M + N
}.
Arguments bincode_ser {M}. Arguments bincode_de {M}.
Arguments cbor_ser {M}. Arguments cbor_de {M}.
Arguments json_ser {M}. Arguments json_de {M}.

(** Functional correctness of the back ends. *)
Record CodecLaws {M} (K : Codec M) : Prop := {
  law_bincode : forall m b, bincode_ser K m = inl b -> bincode_de K b = inl m;
  law_cbor : forall m b, cbor_ser K m = inl b -> cbor_de K b = inl m;
  law_json : forall m b, json_ser K m = inl b -> json_de K b = inl m
}.

(** src/complete/serde.rs:28-46 *)
Inductive incoming_message (M : Type) :=
| TMConnect (custom_data : option M) (peer_sig_public_key : bytes)
| TMAck (custom_data : option M)
| TMMessage (data : option M).
Arguments TMConnect {M}. Arguments TMAck {M}. Arguments TMMessage {M}.

Section WithEnv.
Context (C : Crypto) (Z : Zip) (T : target) (F : features).
Context {M : Type} (K : Codec M).

(** serializer.rs:97-121: the bytes appended to the writer.  The variant of a
    disabled feature does not exist, so the [_] arm is Utf8PlainText. *)
Definition serialize_inner (m : M) (f : message_format) : outcome bytes :=
  let lift (g : N -> serde_error) (r : bytes + N) :=
    match r with inl b => Ok b | inr c => Err (SerdeError (g c)) end in
  match f with
  | RawBinary => Err (SerdeError UseSuffixedBinFunctions)
  | Bincode => lift BincodeError (bincode_ser K m)
  | Cbor => lift CborError (cbor_ser K m)
  | Utf8Json => lift JsonError (json_ser K m)
  | Utf8PlainText => Panic PUnimplemented
  end.

(** serializer.rs:85-95.  Simplified: the in-memory BufWriter takes everything,
    so the WriteError and BufferFlushError arms cannot be reached. *)
Definition serialize (m : M) (f : message_format) : outcome bytes :=
  do b <- serialize_inner m f; Ok (format_as_ref f ++ b).

(** deserializer.rs:84-106 *)
Definition deserialize_inner (b : bytes) (f : message_format) : outcome M :=
  let lift (g : N -> serde_error) (r : M + N) :=
    match r with inl m => Ok m | inr c => Err (SerdeError (g c)) end in
  match f with
  | RawBinary => Err (SerdeError UseSuffixedBinFunctions)
  | Bincode => lift BincodeError (bincode_de K b)
  | Cbor => lift CborError (cbor_de K b)
  | Utf8Json => lift JsonError (json_de K b)
  | Utf8PlainText => Panic PUnimplemented
  end.

(** deserializer.rs:70-82 *)
Definition deserialize (b : bytes) : outcome M :=
  if len b <? HEADER_FORMAT_LEN then Err (RecvInvalidMsg MessageTooShort)
  else
    do h <- slice_to b HEADER_FORMAT_LEN;
    match format_try_from F h with
    | inr e => Err (RecvInvalidMsg e)
    | inl f => do r <- slice_from b HEADER_FORMAT_LEN; deserialize_inner r f
    end.

(** [if let Some(d) = custom_data { Some(deserialize(&d)?) } else { None }], used
    throughout deserializer.rs:37-66. *)
Definition deserialize_opt (o : option bytes) : outcome (option M) :=
  match o with
  | None => Ok None
  | Some d => do x <- deserialize d; Ok (Some x)
  end.

(** deserializer.rs:37-66: the loop over the binary messages. *)
Fixpoint deserialize_msgs (l : list incoming_binary_message) (acc : list (incoming_message M))
  : outcome (list (incoming_message M)) :=
  match l with
  | [] => Ok acc
  | IConnect cd pk :: l' =>
      do x <- deserialize_opt cd; deserialize_msgs l' (acc ++ [TMConnect x pk])
  | IAck cd :: l' =>
      do x <- deserialize_opt cd; deserialize_msgs l' (acc ++ [TMAck x])
  | IMessage d :: l' =>
      do x <- deserialize_opt d; deserialize_msgs l' (acc ++ [TMMessage x])
  end.

(** src/complete.rs:181-186, deserializer.rs:26-67 ([SecureLayer::read]) *)
Definition sl_read (incoming : bytes) (s : secure_layer)
  : secure_layer * outcome (list (incoming_message M)) :=
  match read_bin C Z T incoming s with
  | (s, Ok l) => (s, deserialize_msgs l [])
  | (s, Err e) => (s, Err e)
  | (s, Panic p) => (s, Panic p)
  end.

(** serializer.rs:34-39, 55-60 *)
Definition serialize_compress_opt (cd : option M) (s : secure_layer) : outcome (option bytes) :=
  match cd with
  | None => Ok None
  | Some m =>
      do b <- serialize m (cfg_message_format (conf (minimal s)));
      Ok (Some (compress Z b s))
  end.

(** src/complete.rs:247-257, serializer.rs:24-43 *)
Definition sl_write_connect_msg (cd : option M) (s : secure_layer) (w : bufwriter)
  : secure_layer * bufwriter * outcome unit :=
  match serialize_compress_opt cd s with
  | Ok x => writer_write_connect_msg C x s w
  | Err e => (s, w, Err e)
  | Panic p => (s, w, Panic p)
  end.

(** src/complete.rs:215-225, serializer.rs:45-64 *)
Definition sl_write_ack_msg (cd : option M) (s : secure_layer) (w : bufwriter)
  : secure_layer * bufwriter * outcome unit :=
  match serialize_compress_opt cd s with
  | Ok x => writer_write_ack_msg C x s w
  | Err e => (s, w, Err e)
  | Panic p => (s, w, Panic p)
  end.

(** src/complete.rs:265-271, serializer.rs:66-83 *)
Definition sl_write (m : M) (s : secure_layer) (w : bufwriter)
  : secure_layer * bufwriter * outcome unit :=
  match serialize m (cfg_message_format (conf (minimal s))) with
  | Ok b => writer_write_bin_message C T (compress Z b s) s w
  | Err e => (s, w, Err e)
  | Panic p => (s, w, Panic p)
  end.

End WithEnv.

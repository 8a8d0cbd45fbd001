(** Typed payloads of complete mode: a 4-byte format header, then the value. *)

From Verif.Model Require Import Serde.
From Verif.Spec Require Import Wire CompleteTrace.

(** The header of each format: src/format.rs:21-31, README.md "User messages". *)
Definition header (f : message_format) : bytes :=
  match f with
  | RawBinary => [x00; x00; x00; x00]
  | Utf8PlainText => [x00; x00; x00; x01]
  | Utf8Json => [x00; x00; x00; x02]
  | Cbor => [x00; x00; x00; x03]
  | Bincode => [x00; x00; x00; x04]
  end.

Section WithCodec.
Context (F : features) {M : Type} (K : Codec M).

(** The back end of a format, if it has one. *)
Definition encoder (f : message_format) : option (M -> bytes + N) :=
  match f with
  | Bincode => Some (bincode_ser K)
  | Cbor => Some (cbor_ser K)
  | Utf8Json => Some (json_ser K)
  | _ => None
  end.
Definition decoder (f : message_format) : option (bytes -> M + N) :=
  match f with
  | Bincode => Some (bincode_de K)
  | Cbor => Some (cbor_de K)
  | Utf8Json => Some (json_de K)
  | _ => None
  end.
Definition back_end_error (f : message_format) (c : N) : error :=
  SerdeError (match f with
              | Bincode => BincodeError c
              | Cbor => CborError c
              | _ => JsonError c
              end).

(** What a typed read makes of a payload, in a build with the features [F]. *)
Inductive payload_result : bytes -> outcome M -> Prop :=
| pr_short p : len p < 4 -> payload_result p (Err (RecvInvalidMsg MessageTooShort))
| pr_unknown h r : length h = 4%nat -> (forall f, format_enabled F f = true -> h <> header f) ->
    payload_result (h ++ r) (Err (RecvInvalidMsg UnknownMessageFormat))
| pr_raw r : payload_result (header RawBinary ++ r) (Err (SerdeError UseSuffixedBinFunctions))
| pr_text r : payload_result (header Utf8PlainText ++ r) (Panic PUnimplemented)
| pr_value f de r m : format_enabled F f = true -> decoder f = Some de -> de r = inl m ->
    payload_result (header f ++ r) (Ok m)
| pr_error f de r c : format_enabled F f = true -> decoder f = Some de -> de r = inr c ->
    payload_result (header f ++ r) (Err (back_end_error f c)).

(** A binary message and the typed message made of it. *)
Definition value_of (o : option bytes) (x : option M) : Prop :=
  match o, x with
  | None, None => True
  | Some p, Some m => payload_result p (Ok m)
  | _, _ => False
  end.
Definition typed_as (i : incoming_binary_message) (t : incoming_message M) : Prop :=
  match i, t with
  | IConnect o pk, TMConnect x pk' => pk' = pk /\ value_of o x
  | IAck o, TMAck x => value_of o x
  | IMessage o, TMMessage x => value_of o x
  | _, _ => False
  end.
Definition payload (i : incoming_binary_message) : option bytes :=
  match i with IConnect o _ => o | IAck o => o | IMessage o => o end.

Definition fails {A} (o : outcome A) : Prop := match o with Ok _ => False | _ => True end.
Definition same_failure {A B} (a : outcome A) (b : outcome B) : Prop :=
  match a, b with
  | Err e, Err e' => e' = e
  | Panic p, Panic p' => p' = p
  | _, _ => False
  end.

(** The typed messages, or the failure of the first payload that has one. *)
Definition typed_result (l : list incoming_binary_message) (o : outcome (list (incoming_message M))) : Prop :=
  (exists ts, o = Ok ts /\ Forall2 typed_as l ts) \/
  (exists l1 ts i l2 p r, l = l1 ++ i :: l2 /\ Forall2 typed_as l1 ts /\
     payload i = Some p /\ payload_result p r /\ same_failure r o).

(** The format the sender uses exists in the receiver's build. *)
Definition understood (cd : option M) (a : secure_layer) : Prop :=
  cd <> None -> format_enabled F (cfg_message_format (conf (minimal a))) = true.

(** A value that cannot be serialised in a format, and the error. *)
Definition unserialisable (m : M) (f : message_format) (e : error) : Prop :=
  (f = RawBinary /\ e = SerdeError UseSuffixedBinFunctions) \/
  (exists en c, encoder f = Some en /\ en m = inr c /\ e = back_end_error f c).

End WithCodec.

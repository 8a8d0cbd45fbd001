(** What the bytes of an incoming datagram are, case by case, in terms of
    concatenations of fields.  Independent of Model/Reader.v. *)

From Verif.Model Require Import Encryption.
From Verif.Spec Require Import Wire.

(** The fields of a complete set of type headers. *)
Inductive content :=
| KConnect (epk sig_pubkey : bytes)
| KAck (challenge : bytes)
| KUser (nonce : N).

Inductive dclass :=
| DPanic                                   (* a read past the end, or an overflow *)
| DReject (e : incoming_msg_err)           (* refused for this reason *)
| DUndecryptable                           (* not a sealing under the session key *)
| DFrame (text : bytes) (L : N) (k : content).  (* clear text, its length field, its headers *)

Section WithTarget.
Context (T : target).

(** Where the length field says that the message ends in the clear text, in
    the arithmetic of the target. *)
Definition text_end (L : N) : N := (16 + L) mod 2 ^ usize_bits T.
Definition end_overflows (L : N) : Prop :=
  2 ^ usize_bits T <= 16 + L mod 2 ^ usize_bits T.

(** Type, fixed fields and whatever follows them. *)
Inductive headers : bytes -> content -> bytes -> Prop :=
| hd_user n rest : n < 2 ^ 64 ->
    headers ([x00; x00] ++ u64_be n ++ rest) (KUser n) rest
| hd_connect epk pk rest : len epk = 32 -> len pk = 32 ->
    headers ([x00; x01] ++ epk ++ [x00; x00; x00; x00] ++ pk ++ rest) (KConnect epk pk) rest
| hd_ack ch rest : len ch = 32 ->
    headers ([x00; x02] ++ ch ++ rest) (KAck ch) rest.

(** Size of the type and fixed fields. *)
Definition headers_size (k : content) : N :=
  match k with KUser _ => 10 | KConnect _ _ => 70 | KAck _ => 34 end.

(** A type field or fixed fields that are cut. *)
Inductive headers_cut : bytes -> Prop :=
| hc_type th : len th < 2 -> headers_cut th
| hc_user r : len r < 8 -> headers_cut ([x00; x00] ++ r)
| hc_connect r : len r < 36 -> headers_cut ([x00; x01] ++ r)
| hc_connect_key epk r : len epk = 32 -> len r < 32 ->
    headers_cut ([x00; x01] ++ epk ++ [x00; x00; x00; x00] ++ r)
| hc_ack r : len r < 32 -> headers_cut ([x00; x02] ++ r).

(** Type fields or signature algorithms that do not exist. *)
Inductive headers_unknown : bytes -> incoming_msg_err -> Prop :=
| hu_type a b r : a <> x00 \/ (b <> x00 /\ b <> x01 /\ b <> x02) ->
    headers_unknown (a :: b :: r) UnknownMessageType
| hu_algo epk al r : len epk = 32 -> len al = 4 -> al <> [x00; x00; x00; x00] ->
    headers_unknown ([x00; x01] ++ epk ++ al ++ r) UnsupportedSigAlgo.

(** A clear text. *)
Inductive text_class : bytes -> dclass -> Prop :=
| tx_short p : len p < 4 -> text_class p DPanic
| tx_magic m r : len m = 4 -> m <> magic -> text_class (m ++ r) (DReject InvalidMagicValue)
| tx_version_cut r : len r < 4 -> text_class (magic ++ r) DPanic
| tx_version v r : len v = 4 -> v <> version ->
    text_class (magic ++ v ++ r) (DReject UnsupportedVersion)
| tx_length_cut r : len r < 8 -> text_class (magic ++ version ++ r) DPanic
| tx_overflow L th : L < 2 ^ 64 -> overflow_checks T = true -> end_overflows L ->
    text_class (magic ++ version ++ u64_be L ++ th) DPanic
| tx_headers_cut L th : L < 2 ^ 64 -> ~ (overflow_checks T = true /\ end_overflows L) ->
    headers_cut th -> text_class (magic ++ version ++ u64_be L ++ th) DPanic
| tx_headers_unknown L th e : L < 2 ^ 64 -> ~ (overflow_checks T = true /\ end_overflows L) ->
    headers_unknown th e -> text_class (magic ++ version ++ u64_be L ++ th) (DReject e)
| tx_frame L th k rest : L < 2 ^ 64 -> ~ (overflow_checks T = true /\ end_overflows L) ->
    headers th k rest ->
    text_class (magic ++ version ++ u64_be L ++ th)
               (DFrame (magic ++ version ++ u64_be L ++ th) L k).

Definition must_be_sealed (k : content) : bool :=
  match k with KUser _ => true | _ => false end.

(** The check that user messages, and only they, travel sealed. *)
Definition check_sealed (sealed : bool) (c : dclass) : dclass :=
  match c with
  | DFrame _ _ k => if Bool.eqb sealed (must_be_sealed k) then c
                    else DReject UnexpectedEncryptionState
  | _ => c
  end.

(** A datagram received by a layer whose session key, if any, is [key]. *)
Inductive datagram (C : Crypto) (key : option secret_key) : bytes -> dclass -> Prop :=
| dg_short d : len d < 4 -> datagram C key d DPanic
| dg_clear r c : text_class (magic ++ r) c ->
    datagram C key (magic ++ r) (check_sealed false c)
| dg_no_key m r : len m = 4 -> m <> magic -> key = None ->
    datagram C key (m ++ r) (DReject UnexpectedMessage)
| dg_tag_cut m r k : len m = 4 -> m <> magic -> key = Some k -> len (m ++ r) < 16 ->
    datagram C key (m ++ r) DPanic
| dg_forged m r k : len m = 4 -> m <> magic -> key = Some k -> 16 <= len (m ++ r) ->
    (forall text, m ++ r <> seal C k text) -> datagram C key (m ++ r) DUndecryptable
| dg_sealed m r k text c : len m = 4 -> m <> magic -> key = Some k -> m ++ r = seal C k text ->
    text_class text c -> datagram C key (m ++ r) (check_sealed true c).

End WithTarget.

(** C67: message boundaries.

    A datagram that [read] delivers says in its first 16 bytes how long it is.
    So no delivered datagram is a proper beginning of another, and [read] takes
    one datagram per call: two messages handed over in one piece, as a byte
    stream or a shared writer would do, are not delivered. *)

From Verif.Model Require Import Complete.
From Verif.Spec Require Import Wire Trace ReadSpec Session Writers CompleteTrace.
From Verif.Proofs Require Framing.
From Verif.Instances Require Import Toy Scenario CompleteScenario.

(** Whatever two layers deliver, equal first 16 bytes mean equal lengths. *)
Theorem C67_length_announced : forall (C : Crypto) (T : target), CryptoLaws C ->
  forall s1 s2 d1 d2 m1 m2, reachable C T s1 -> reachable C T s2 ->
  snd (read C T d1 s1) = Ok (Some m1) -> snd (read C T d2 s2) = Ok (Some m2) ->
  (is_user m1 = true -> session_key s1 = session_key s2) ->
  firstn 16 d1 = firstn 16 d2 -> len d1 = len d2.
Proof. exact Framing.length_announced. Qed.
Print Assumptions C67_length_announced.

Theorem C67_prefix_free : forall (C : Crypto) (T : target), CryptoLaws C ->
  forall s1 s2 d e m1 m2, reachable C T s1 -> reachable C T s2 ->
  snd (read C T d s1) = Ok (Some m1) -> snd (read C T (d ++ e) s2) = Ok (Some m2) ->
  (is_user m1 = true -> session_key s1 = session_key s2) -> e = [].
Proof. exact Framing.prefix_free. Qed.
Print Assumptions C67_prefix_free.

(** Something glued to a CONNECT or to an ACK that would have been delivered:
    the call fails on the signature.  The layer is left as it was, but for the
    peer's key, which an unpinned layer remembers (C22). *)
Theorem C67_glued_connect : forall (C : Crypto) (T : target), CryptoLaws C ->
  forall s d a pk o e, reachable C T s -> snd (read C T d s) = Ok (Some (MConnect a pk o)) -> e <> [] ->
  exists s', read C T (d ++ e) s = (s', Err (RecvInvalidMsg InvalidHashOrSig)) /\
    (s' = s \/ peer_sig_pubkey s = None /\ s' = set_peer_sig_pubkey (Some pk) s).
Proof. exact Framing.glued_connect. Qed.
Print Assumptions C67_glued_connect.

Theorem C67_glued_ack : forall (C : Crypto) (T : target), CryptoLaws C ->
  forall s d o e, reachable C T s -> snd (read C T d s) = Ok (Some (MAck o)) -> e <> [] ->
  read C T (d ++ e) s = (s, Err (RecvInvalidMsg InvalidHashOrSig)).
Proof. exact Framing.glued_ack. Qed.
Print Assumptions C67_glued_ack.

(** Something glued to a user message: unless the whole happens to be a sealing
    under the session key, the connection is lost. *)
Theorem C67_glued_user : forall (C : Crypto) (T : target), CryptoLaws C ->
  forall s d o e k, reachable C T s -> snd (read C T d s) = Ok (Some (MMessage o)) -> session_key s = Some k ->
  (forall text, d ++ e <> seal C k text) ->
  exists s', read C T (d ++ e) s = (s', Err (FailToDecryptData DecTagMismatch)) /\ failed C s'.
Proof. exact Framing.glued_user. Qed.
Print Assumptions C67_glued_user.

(** Two messages written to one writer: the whole of it is delivered by no layer
    that has the session key. *)
Theorem C67_one_writer : forall (C : Crypto) (T : target), CryptoLaws C ->
  forall a a1 a2 w w1 w2 data1 data2 k s m, takes_all w -> output w = [] ->
  write_message C T data1 a w = (a1, w1, Ok tt) -> write_message C T data2 a1 w1 = (a2, w2, Ok tt) ->
  session_key a = Some k -> keystream_ok C k -> next_nonce_sent a < 2 ^ 64 ->
  26 + len data1 < 2 ^ usize_bits T ->
  reachable C T s -> session_key s = Some k ->
  snd (read C T (output w2) s) <> Ok (Some m).
Proof. exact Framing.one_writer. Qed.
Print Assumptions C67_one_writer.

(** The same in complete mode. *)
Theorem C67_glued_connect_complete : forall (C : Crypto) (T : target), CryptoLaws C -> forall (Z : Zip),
  forall a d cd pk l e, sreachable C Z T a -> snd (read_bin C Z T d a) = Ok (IConnect cd pk :: l) -> e <> [] ->
  snd (read_bin C Z T (d ++ e) a) = Err (RecvInvalidMsg InvalidHashOrSig).
Proof. exact Framing.glued_connect_complete. Qed.
Print Assumptions C67_glued_connect_complete.

Theorem C67_glued_ack_complete : forall (C : Crypto) (T : target), CryptoLaws C -> forall (Z : Zip),
  forall a d cd l e, sreachable C Z T a -> snd (read_bin C Z T d a) = Ok (IAck cd :: l) -> e <> [] ->
  read_bin C Z T (d ++ e) a = (a, Err (RecvInvalidMsg InvalidHashOrSig)).
Proof. exact Framing.glued_ack_complete. Qed.
Print Assumptions C67_glued_ack_complete.

Theorem C67_one_writer_complete : forall (C : Crypto) (T : target), CryptoLaws C -> forall (Z : Zip),
  forall a a1 a2 w w1 w2 data1 data2 k b i l, takes_all w -> output w = [] ->
  write_bin C Z T data1 a w = (a1, w1, Ok tt) -> write_bin C Z T data2 a1 w1 = (a2, w2, Ok tt) ->
  session_key (minimal a) = Some k -> keystream_ok C k -> next_nonce_sent (minimal a) < 2 ^ 64 ->
  26 + len (packed Z (Some data1) a) < 2 ^ usize_bits T ->
  sreachable C Z T b -> session_key (minimal b) = Some k ->
  snd (read_bin C Z T (output w2) b) <> Ok (i :: l).
Proof. exact Framing.one_writer_complete. Qed.
Print Assumptions C67_one_writer_complete.

(** Each kind of datagram, whole and with one byte more. *)
Example C67_case :
  snd (read toy T (connectB [x05]) A1) = Ok (Some (MConnect [x00; x00; x00; x00] pkB (Some [x05]))) /\
  snd (read toy T (connectB [x05] ++ [x00]) A1) = Err (RecvInvalidMsg InvalidHashOrSig) /\
  snd (read toy T (ackB []) A3) = Ok (Some (MAck None)) /\
  read toy T (ackB [] ++ [x00]) A3 = (A3, Err (RecvInvalidMsg InvalidHashOrSig)) /\
  snd (read toy T (msgA 0 [x78]) B4) = Ok (Some (MMessage (Some [x78]))) /\
  snd (read toy T (msgA 0 [x78] ++ [x00]) B4) = Err (FailToDecryptData DecTagMismatch) /\
  (forall m, snd (read toy T (msgA 0 [x78] ++ msgA 1 [x79]) B4) <> Ok (Some m)).
Proof.
  repeat split; try (vm_compute; reflexivity).
  intros m. vm_compute. discriminate.
Qed.

(** Two messages of A through one writer, and each through its own. *)
Definition two : bufwriter :=
  let '(a1, w1, _) := write_bin toy toy_zip T [x78] SA4 vec_writer in snd (fst (write_bin toy toy_zip T [x79] a1 w1)).
Example C67_case_one_writer :
  output two = msgA 0 [x00; x78] ++ msgA 1 [x00; x79] /\
  snd (read_bin toy toy_zip T (output two) SB4) = Err (FailToDecryptData DecTagMismatch) /\
  map (fun e => smsgs (snd e)) (slog SB4 [SRead (msgA 0 [x00; x78]); SRead (msgA 1 [x00; x79])]) =
    [Ok [IMessage (Some [x78])]; Ok [IMessage (Some [x79])]] /\
  takes_all vec_writer /\ output vec_writer = [] /\ session_key (minimal SA4) = Some kAB /\
  session_key (minimal SB4) = Some kAB /\ sreachable toy toy_zip T SB4.
Proof.
  split; [vm_compute; reflexivity|]. split; [vm_compute; reflexivity|]. split; [vm_compute; reflexivity|].
  split; [reflexivity|]. split; [reflexivity|]. split; [vm_compute; reflexivity|].
  split; [vm_compute; reflexivity|]. exact sreachable_SB4.
Qed.

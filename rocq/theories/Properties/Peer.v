(** C20, C21, C23, C25, C26: who the peer is. *)

From Verif.Model Require Import Minimal.
From Verif.Spec Require Import Wire Datagram Trace ReadSpec Accept Session Writers Attacks Peer.
From Verif.Proofs Require Import Keys Histories Corollaries Vocabulary.
From Verif.Instances Require Import Toy Scenario.

(** ** C20 *)
Theorem C20_pinned_key_only : forall (C : Crypto) (T : target), CryptoLaws C ->
  forall sk cfg pk s0 cs s h1 e h2 m,
  create C (RngKey sk) cfg (Some pk) = Ok s0 -> run C T s0 cs = (s, h1 ++ e :: h2) ->
  In m (delivered (snd e)) ->
  negotiation_ok C T pk (x25519_public C sk) h1 e m.
Proof. exact pinned_key_only. Qed.
Print Assumptions C20_pinned_key_only.

(** The pinned layer delivers the CONNECT and the ACK of its peer, and neither
    of a stranger. *)
Example C20_case :
  replies (log A0p callsA) = replies (log A0 callsA) /\
  delivered (nth 1 (replies (log A0p callsA)) (RMsgs (Ok []))) = [MConnect [x00; x00; x00; x00] pkB (Some [x05])] /\
  replies (log A0p [CRead (signed_connect toy [x99] epkB [x05])]) = [RMsg (Err UnexpectedRemoteSigPubKey)].
Proof. repeat split; vm_compute; reflexivity. Qed.

(** ** C21 *)
Theorem C21_one_peer_key : forall (C : Crypto) (T : target), CryptoLaws C ->
  forall sk cfg pin s0 cs s h,
  create C (RngKey sk) cfg pin = Ok s0 -> run C T s0 cs = (s, h) ->
  exists pk, (forall k, pin = Some k -> pk = k) /\
    forall h1 e h2 m, h = h1 ++ e :: h2 -> In m (delivered (snd e)) ->
      negotiation_ok C T pk (x25519_public C sk) h1 e m.
Proof. exact one_peer_key. Qed.
Print Assumptions C21_one_peer_key.

(** A history with both messages: the ACK comes first and is kept. *)
Definition callsA_early : list call :=
  [CConnect pkA None; CRead (ackB [x07]); CRead (connectB [x05]); CTakeAck; CAck None].
Example C21_case :
  run toy T A0 callsA_early = (after A0 callsA_early, log A0 callsA_early) /\
  map delivered (replies (log A0 callsA_early)) =
    [[]; []; [MConnect [x00; x00; x00; x00] pkB (Some [x05])]; [MAck (Some [x07])]; []].
Proof. split; [apply run_log|]. vm_compute. reflexivity. Qed.

(** ** C23 *)
Theorem C23_ack_fresh : forall (C : Crypto) (T : target), CryptoLaws C ->
  forall sk cfg pin s0 cs s h1 e h2 o,
  create C (RngKey sk) cfg pin = Ok s0 -> run C T s0 cs = (s, h1 ++ e :: h2) ->
  In (MAck o) (delivered (snd e)) ->
  exists d pk cd, source h1 e d /\ o = nonempty cd /\
    signed_frame C T pk [x00; x02] (sha256 C (x25519_public C sk) ++ cd) d /\
    forall epk' cd' L sig, d = frame_len L [x00; x02] (sha256 C epk' ++ cd') ++ sig ->
      sha256 C epk' = sha256 C (x25519_public C sk).
Proof. exact ack_fresh. Qed.
Print Assumptions C23_ack_fresh.

(** The same peer's ACK for another session is refused, and harmless. *)
Example C23_case :
  In (MAck None) (delivered (nth 3 (replies (log A0 callsA)) (RMsgs (Ok [])))) /\
  read toy T (signed_ack toy seedB epkB []) A3 = (A3, Err (RecvInvalidMsg InvalidChallenge)).
Proof. split; [apply nth_error_In with (n := 0%nat); vm_compute; reflexivity|]. vm_compute. reflexivity. Qed.

(** ** C25 *)
Theorem C25_kept_iff : forall (C : Crypto) (T : target), CryptoLaws C ->
  forall s d, reachable C T s -> starts_clear d = true ->
  (snd (read C T d s) = Ok None <->
   (exists L, is_datagram C T s d d L (KAck (sha256 C (ephemeral_pubkey s)))) /\
   peer_sig_pubkey s = None /\ ack_msg_recv_too_early s = None).
Proof. exact early_ack_kept_iff. Qed.
Print Assumptions C25_kept_iff.

Theorem C25_kept : forall (C : Crypto) (T : target), CryptoLaws C ->
  forall s d, reachable C T s -> starts_clear d = true -> snd (read C T d s) = Ok None ->
  fst (read C T d s) = set_ack_early (Some d) s.
Proof. exact early_ack_kept. Qed.
Print Assumptions C25_kept.

(** What is kept is given back by [take_ack_msg_recv_too_early] alone, as a
    first read of it: the signature is checked against the peer's key.  Once
    that key is known it is given back once: nothing is kept any more. *)
Theorem C25_taken : forall (C : Crypto) (T : target), CryptoLaws C ->
  forall s, reachable C T s ->
  match ack_msg_recv_too_early s with
  | Some d =>
      take_ack_msg_recv_too_early C T s = read C T d (set_ack_early None s) /\
      (forall o, snd (take_ack_msg_recv_too_early C T s) = Ok (Some (MAck o)) <->
                 exists pk cd, ack_delivery C T s d pk cd /\ o = nonempty cd) /\
      (peer_sig_pubkey s <> None -> let s' := fst (take_ack_msg_recv_too_early C T s) in
         take_ack_msg_recv_too_early C T s' = (s', Ok None))
  | None => take_ack_msg_recv_too_early C T s = (s, Ok None)
  end.
Proof. exact early_ack_taken. Qed.
Print Assumptions C25_taken.

Example C25_case :
  let s := after A0 [CConnect pkA None; CRead (ackB [x07]); CRead (connectB [x05])] in
  reachable toy T A1 /\ snd (read toy T (ackB [x07]) A1) = Ok None /\ starts_clear (ackB [x07]) = true /\
  ack_msg_recv_too_early s = Some (ackB [x07]) /\
  snd (take_ack_msg_recv_too_early toy T s) = Ok (Some (MAck (Some [x07]))) /\
  peer_sig_pubkey s = Some pkB /\
  snd (take_ack_msg_recv_too_early toy T (fst (take_ack_msg_recv_too_early toy T s))) = Ok None.
Proof. split; [exact reachable_A1|]. repeat split; vm_compute; reflexivity. Qed.

(** ** C26 *)
Theorem C26_forged_early_ack : forall (C : Crypto) (T : target), CryptoLaws C ->
  forall s cd junk cd' sig,
  reachable C T s -> peer_sig_pubkey s = None -> ack_msg_recv_too_early s = None ->
  50 + len cd < 2 ^ usize_bits T -> 50 + len cd' < 2 ^ usize_bits T ->
  let ch := sha256 C (ephemeral_pubkey s) in
  exists s1 s2,
    read C T (ack_frame ch cd ++ junk) s = (s1, Ok None) /\
    read C T (ack_frame ch cd' ++ sig) s1 = (s2, Err (RecvInvalidMsg UnexpectedAckMsg)) /\
    failed C s2.
Proof. exact forged_early_ack. Qed.
Print Assumptions C26_forged_early_ack.

(** The honest ACK, which succeeds without the forged one. *)
Example C26_case :
  reachable toy T A1 /\ peer_sig_pubkey A1 = None /\ ack_msg_recv_too_early A1 = None /\
  ephemeral_pubkey A1 = epkA /\
  replies (log A1 [CRead (ack_frame (toy_hash epkA) []); CRead (ackB [x07])]) =
    [RMsg (Ok None); RMsg (Err (RecvInvalidMsg UnexpectedAckMsg))] /\
  replies (log A1 [CRead (ackB [x07]); CRead (connectB [])]) =
    [RMsg (Ok None); RMsg (Ok (Some (MConnect [x00; x00; x00; x00] pkB None)))].
Proof. split; [exact reachable_A1|]. repeat split; vm_compute; reflexivity. Qed.

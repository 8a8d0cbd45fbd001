(** C09, C10, C15, C22, C24: what reading a datagram can do. *)

From Verif.Model Require Import Minimal.
From Verif.Spec Require Import Wire Datagram Trace ReadSpec Accept Session Writers Attacks.
From Verif.Proofs Require Import Failure Corollaries Vocabulary.
From Verif.Instances Require Import Toy Scenario.

(** ** C09 *)
Theorem C09_read_panics_iff : forall (C : Crypto) (T : target), CryptoLaws C ->
  forall s d, reachable C T s ->
  ((exists p, snd (read C T d s) = Panic p) <-> panic_cause C T s d).
Proof. exact read_panics_iff. Qed.
Print Assumptions C09_read_panics_iff.

(** "read never panics on network input" is false, on every kind of cause:
    three bytes, cut headers, an end outside of the datagram, and after a good
    signature an end inside the headers. *)
Theorem C09_never_panics_refuted :
  exists s, reachable toy T s /\
    (exists p, snd (read toy T [x01; x02; x03] s) = Panic p) /\
    (exists p, snd (read toy T (magic ++ version) s) = Panic p) /\
    (exists p, snd (read toy T (frame_len 1000 [x00; x01] (connect_content epkB pkB [])) s) = Panic p) /\
    (let pk := repeat x05 32 in
     let f := firstn 60 (frame_len 44 [x00; x01] (connect_content epkB pk [])) in
     let d := f ++ pk ++ toy_hash f in
     signed_by toy T pk d 44 /\ exists p, snd (read toy T d s) = Panic p).
Proof.
  exists A1. split; [exact reachable_A1|].
  split; [eexists; vm_compute; reflexivity|]. split; [eexists; vm_compute; reflexivity|].
  split; [eexists; vm_compute; reflexivity|]. 
  split; [split; [vm_compute; discriminate|vm_compute; reflexivity]|]. eexists. vm_compute. reflexivity.
Qed.
Print Assumptions C09_never_panics_refuted.

Example C09_case : reachable toy T A4 /\ panic_cause toy T A4 [xff; xfe].
Proof. split; [exact reachable_A4|]. apply pc_cut. apply dg_short. reflexivity. Qed.

(** ** C10 *)
Theorem C10_well_framed_total : forall (C : Crypto) (T : target), CryptoLaws C ->
  forall s d L th k rest p,
  reachable C T s ->
  d = magic ++ version ++ u64_be L ++ th -> headers th k rest ->
  headers_size k <= L -> 16 + L <= len d -> len d < 2 ^ usize_bits T ->
  snd (read C T d s) <> Panic p.
Proof. exact well_framed_total. Qed.
Print Assumptions C10_well_framed_total.

Example C10_case :
  reachable toy T B3 /\
  exists L th k rest, ackA [x06] = magic ++ version ++ u64_be L ++ th /\ headers th k rest /\
    headers_size k <= L /\ 16 + L <= len (ackA [x06]).
Proof.
  split; [exact reachable_B3|].
  exists 35, ([x00; x02] ++ toy_hash epkB ++ [x06] ++ toy_sign seedA (ack_frame (toy_hash epkB) [x06])),
    (KAck (toy_hash epkB)), ([x06] ++ toy_sign seedA (ack_frame (toy_hash epkB) [x06])).
  split; [vm_compute; reflexivity|]. split; [|split; vm_compute; discriminate].
  apply hd_ack. vm_compute. reflexivity.
Qed.

(** ** C15 *)
Theorem C15_read_fails_iff : forall (C : Crypto) (T : target), CryptoLaws C ->
  forall s d e, reachable C T s -> ~ failed C s ->
  (snd (read C T d s) = Err e /\ failed C (fst (read C T d s)) <-> failure_cause C T s d e).
Proof. exact read_fails_connection_iff. Qed.
Print Assumptions C15_read_fails_iff.

(** Any call: the reply tells whether the connection has failed; [fatal] lists
    the replies (every error of a read but wrong key, signature, challenge,
    nonce, hash and key agreement; every error of a write; a fatal error of a
    drain). *)
Theorem C15_fails_exactly : forall (C : Crypto) (T : target) s c s' r,
  reachable C T s -> ~ failed C s -> call_step C T s c = (s', r) ->
  (failed C s' <-> fatal (c, r) = true).
Proof. exact fails_exactly. Qed.
Print Assumptions C15_fails_exactly.

Example C15_case :
  reachable toy T A2 /\ ~ failed toy A2 /\
  snd (read toy T (connectB [x05]) A2) = Err (RecvInvalidMsg UnexpectedConnectMsg) /\
  failed toy (fst (read toy T (connectB [x05]) A2)) /\
  snd (read toy T (ackA []) A2) = Err (RecvInvalidMsg InvalidChallenge) /\
  ~ failed toy (fst (read toy T (ackA []) A2)).
Proof.
  split; [exact reachable_A2|]. split; [intros H; vm_compute in H; discriminate|].
  split; [vm_compute; reflexivity|]. split; [vm_compute; reflexivity|].
  split; [vm_compute; reflexivity|]. intros H; vm_compute in H; discriminate.
Qed.

(** ** C22 *)
Theorem C22_rejected_no_trace : forall (C : Crypto) (T : target), CryptoLaws C ->
  forall s d e,
  reachable C T s -> snd (read C T d s) = Err e -> harmless e = true -> e <> FailToComputeAgreement ->
  fst (read C T d s) = s \/
  (e = RecvInvalidMsg InvalidHashOrSig /\ peer_sig_pubkey s = None /\
   exists L epk pk rest, length pk = 32%nat /\
     d = magic ++ version ++ u64_be L ++ [x00; x01] ++ epk ++ [x00; x00; x00; x00] ++ pk ++ rest /\
     fst (read C T d s) = set_peer_sig_pubkey (Some pk) s).
Proof. exact rejected_no_trace. Qed.
Print Assumptions C22_rejected_no_trace.

(** The defect: a CONNECT with any bytes in the place of the signature pins its
    key... *)
Theorem C22_forged_connect_pins : forall (C : Crypto) (T : target), CryptoLaws C ->
  forall s epk pk cd junk,
  reachable C T s -> peer_sig_pubkey s = None ->
  length epk = 32%nat -> length pk = 32%nat -> 86 + len cd < 2 ^ usize_bits T ->
  ed25519_verify C pk (connect_frame epk pk cd) junk = false ->
  read C T (connect_frame epk pk cd ++ junk) s
    = (set_peer_sig_pubkey (Some pk) s, Err (RecvInvalidMsg InvalidHashOrSig)).
Proof. exact forged_connect_pins. Qed.
Print Assumptions C22_forged_connect_pins.

(** ... and from then on, whatever happens, the honest CONNECT is refused. *)
Theorem C22_forged_connect_blocks : forall (C : Crypto) (T : target), CryptoLaws C ->
  forall s epk pk cd junk cs s1 h seed epk' cd',
  reachable C T s -> peer_sig_pubkey s = None ->
  length epk = 32%nat -> length pk = 32%nat -> 86 + len cd < 2 ^ usize_bits T ->
  ed25519_verify C pk (connect_frame epk pk cd) junk = false ->
  run C T s (CRead (connect_frame epk pk cd ++ junk) :: cs) = (s1, h) ->
  length epk' = 32%nat -> 86 + len cd' < 2 ^ usize_bits T -> ed25519_public C seed <> pk ->
  let f := connect_frame epk' (ed25519_public C seed) cd' in
  read C T (f ++ ed25519_sign C seed f) s1 = (s1, Err UnexpectedRemoteSigPubKey).
Proof. exact forged_connect_blocks. Qed.
Print Assumptions C22_forged_connect_blocks.

(** "A rejected datagram leaves no trace" is false. *)
Theorem C22_no_trace_refuted :
  exists s d, reachable toy T s /\ snd (read toy T d s) = Err (RecvInvalidMsg InvalidHashOrSig) /\
    snd (read toy T (connectB []) s) = Ok (Some (MConnect [x00; x00; x00; x00] pkB None)) /\
    snd (read toy T (connectB []) (fst (read toy T d s))) = Err UnexpectedRemoteSigPubKey.
Proof.
  exists A1, (connect_frame epkA (repeat x00 32) [] ++ [x00]). split; [exact reachable_A1|].
  repeat split; vm_compute; reflexivity.
Qed.
Print Assumptions C22_no_trace_refuted.

Example C22_case :
  reachable toy T A1 /\ peer_sig_pubkey A1 = None /\
  ed25519_verify toy pkA (connect_frame epkA pkA []) [x00] = false /\
  reachable toy T A2 /\
  snd (read toy T (connectA []) A2) = Err UnexpectedRemoteSigPubKey /\
  fst (read toy T (connectA []) A2) = A2.
Proof.
  split; [exact reachable_A1|]. split; [vm_compute; reflexivity|]. split; [vm_compute; reflexivity|].
  split; [exact reachable_A2|]. split; vm_compute; reflexivity.
Qed.

(** ** C24 *)
Theorem C24_encryption_state : forall (C : Crypto) (T : target), CryptoLaws C ->
  forall s d m,
  reachable C T s -> snd (read C T d s) = Ok (Some m) ->
  (is_user m = true <-> starts_clear d = false).
Proof. exact sealed_user_only. Qed.
Print Assumptions C24_encryption_state.

Example C24_case :
  reachable toy T A4 /\ snd (read toy T (msgA 0 []) A4) = Ok (Some (MMessage None)) /\
  starts_clear (msgA 0 []) = false /\
  snd (read toy T (user_frame 0 [x01] ++ toy_hash (user_frame 0 [x01])) A4)
    = Err (RecvInvalidMsg UnexpectedEncryptionState) /\
  snd (read toy T (seal toy kAB (connectB [])) A4) = Err (RecvInvalidMsg UnexpectedEncryptionState).
Proof. split; [exact reachable_A4|]. repeat split; vm_compute; reflexivity. Qed.

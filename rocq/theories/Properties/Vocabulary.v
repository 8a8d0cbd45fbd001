(** What the state vocabulary of Spec/ReadSpec.v means in terms of histories.

    The other property theorems speak of layers that "want" a message, "know"
    a key or have "received" a nonce; these theorems say from the calls and
    their replies alone when that is so. *)

From Verif.Model Require Import Minimal.
From Verif.Spec Require Import Wire Datagram Trace ReadSpec Accept Session Writers Peer.
From Verif.Proofs Require Import Failure Vocabulary.
From Verif.Instances Require Import Toy Scenario.

Theorem V_failed : forall (C : Crypto) (T : target) r0 cfg pin s0 cs s h,
  create C r0 cfg pin = Ok s0 -> run C T s0 cs = (s, h) -> (failed C s <-> happened fatal h).
Proof. exact failed_iff_fatal. Qed.
Print Assumptions V_failed.

Theorem V_wants_connect : forall (C : Crypto) (T : target) r0 cfg pin s0 cs s h,
  create C r0 cfg pin = Ok s0 -> run C T s0 cs = (s, h) -> panic_free h ->
  (wants_connect s <-> ~ happened connect_accepted h /\ ~ happened fatal h).
Proof. exact wants_connect_history. Qed.
Print Assumptions V_wants_connect.

Theorem V_wants_ack : forall (C : Crypto) (T : target) r0 cfg pin s0 cs s h,
  create C r0 cfg pin = Ok s0 -> run C T s0 cs = (s, h) -> panic_free h ->
  (wants_ack s <-> happened connect_created h /\ ~ happened ack_accepted h /\ ~ happened fatal h).
Proof. exact wants_ack_history. Qed.
Print Assumptions V_wants_ack.

Theorem V_wants_only_ack : forall (C : Crypto) (T : target) r0 cfg pin s0 cs s h,
  create C r0 cfg pin = Ok s0 -> run C T s0 cs = (s, h) -> panic_free h ->
  (wants_only_ack s <->
   happened connect_created h /\ happened connect_accepted h /\ happened ack_created h /\
   ~ happened ack_accepted h /\ ~ happened fatal h).
Proof. exact wants_only_ack_history. Qed.
Print Assumptions V_wants_only_ack.

Theorem V_own_key : forall (C : Crypto) (T : target), CryptoLaws C -> forall sk cfg pin s0 cs s h,
  create C (RngKey sk) cfg pin = Ok s0 -> run C T s0 cs = (s, h) ->
  ephemeral_pubkey s = x25519_public C sk /\
  forall epk, wants_connect s -> (agreement_possible C s epk <-> x25519_agree C sk epk <> None).
Proof. exact own_key_history. Qed.
Print Assumptions V_own_key.

Theorem V_known_key : forall (C : Crypto) (T : target), CryptoLaws C -> forall sk cfg pin s0 cs s h pk,
  create C (RngKey sk) cfg pin = Ok s0 -> run C T s0 cs = (s, h) ->
  (peer_sig_pubkey s = Some pk <-> known_key C T pin h pk).
Proof. exact known_key_history. Qed.
Print Assumptions V_known_key.

Theorem V_sent : forall (C : Crypto) (T : target) r cfg pin s0 cs s h,
  create C r cfg pin = Ok s0 -> run C T s0 cs = (s, h) -> N.of_nat (count written h) < 2 ^ 64 ->
  next_nonce_sent s = N.of_nat (count written h).
Proof. exact sent_history. Qed.
Print Assumptions V_sent.

Theorem V_received : forall (C : Crypto) (T : target), CryptoLaws C -> forall r cfg pin s0 cs s h,
  create C r cfg pin = Ok s0 -> run C T s0 cs = (s, h) -> len h < 2 ^ 64 -> lossless h ->
  exists l, accounts C T s (submitted h) h l /\
    forall n, received s n <-> In n (map (fun e => snd (fst e)) l).
Proof. exact received_history. Qed.
Print Assumptions V_received.

(** A history that meets all the hypotheses: a negotiation, two user messages
    received out of order and one written. *)
Example V_case :
  create toy (RngKey skA) config_default None = Ok A0 /\
  run toy T A0 chatA = (after A0 chatA, log A0 chatA) /\
  lossless (log A0 chatA) /\ count written (log A0 chatA) = 1%nat /\
  user_deliveries (log A0 chatA) = [Some [x77]; Some [x78; x79]].
Proof.
  split; [reflexivity|]. split; [apply run_log|].
  split; [|split; vm_compute; reflexivity].
  assert (forallb (fun e => negb (panics (snd e)) && match snd e with RMsgs _ => false | _ => true end)
            (log A0 chatA) = true) as H by (vm_compute; reflexivity).
  rewrite forallb_forall in H. split.
  - intros e He. apply H, andb_prop in He as [He _]. destruct (panics (snd e)); [discriminate|reflexivity].
  - intros e er He E. apply H in He. rewrite E in He. apply andb_prop in He as [_ He]. discriminate.
Qed.

(** C57, C58: what ends a connection. *)

From Verif.Model Require Import Minimal.
From Verif.Spec Require Import Wire Datagram Trace ReadSpec Accept Session Writers.
From Verif.Proofs Require Import Negotiation Fragile.
From Verif.Instances Require Import Toy Scenario.
From Verif.Properties Require Import Nonces.

(** ** C57 *)

(** [l] accounts for the delivered messages (nonces: [map (fun e => snd (fst e)) l]).
    While message [j] is missing, at most 10000 later ones are delivered; with
    10000 of them, any new message but [j] fails the connection. *)
Theorem C57_lost_message : forall (C : Crypto) (T : target), CryptoLaws C ->
  forall r cfg pin s0 cs s h,
  create C r cfg pin = Ok s0 -> run C T s0 cs = (s, h) -> len h < 2 ^ 64 -> lossless h ->
  exists l, accounts C T s (submitted h) h l /\
    let ns := map (fun e => snd (fst e)) l in
    (forall k d o n data, session_key s = Some k -> opens C T k d n data ->
       In (CRead d, RMsg (Ok (Some (MMessage o)))) h -> In n ns) /\
    (forall j, ~ In j ns -> len (filter (fun n => j <? n) ns) <= 10000) /\
    (established s -> forall k j, session_key s = Some k ->
       ~ In j ns -> (forall m, m < j -> In m ns) -> len (filter (fun n => j <? n) ns) = 10000 ->
       forall d n data, opens C T k d n data -> ~ In n ns -> n <> j ->
         snd (read C T d s) = Err TooManyUnorderedMsgs /\ failed C (fst (read C T d s))).
Proof. exact lost_message. Qed.
Print Assumptions C57_lost_message.

(** When the first message is lost, the next 10000 are delivered, and the first
    of the following ones to arrive fails the connection. *)
Theorem C57_first_message_lost : forall (C : Crypto) (T : target), CryptoLaws C ->
  forall r cfg pin s0 s cs h k data,
  create C r cfg pin = Ok s0 -> run C T s0 cs = (s, h) -> len h + 10002 < 2 ^ 64 -> lossless h ->
  established s -> session_key s = Some k -> keystream_ok C k -> user_deliveries h = [] ->
  (forall i, 26 + len (data i) < 2 ^ usize_bits T) ->
  let message i := user_datagram C k (N.of_nat i + 1) (data i) in
  exists s',
    run C T s (map (fun i => CRead (message i)) (seq 0 (N.to_nat 10000))) =
      (s', map (fun i => (CRead (message i), RMsg (Ok (Some (MMessage (nonempty (data i)))))))
               (seq 0 (N.to_nat 10000))) /\
    established s' /\
    forall n d, 10000 < n -> n < 2 ^ 64 -> 26 + len d < 2 ^ usize_bits T ->
      snd (read C T (user_datagram C k n d) s') = Err TooManyUnorderedMsgs /\
      failed C (fst (read C T (user_datagram C k n d) s')).
Proof. exact first_message_lost. Qed.
Print Assumptions C57_first_message_lost.

(** The same happens in minimal mode when the first message arrived early and
    the application does not ask for it; asking for it at the last moment still
    saves the connection. *)
Theorem C57_first_message_waits : forall (C : Crypto) (T : target), CryptoLaws C ->
  forall r cfg pin s0 s cs h k data d0 x0,
  create C r cfg pin = Ok s0 -> run C T s0 cs = (s, h) -> len h + 10002 < 2 ^ 64 -> lossless h ->
  established s -> session_key s = Some k -> keystream_ok C k -> user_deliveries h = [] ->
  (forall i, 26 + len (data i) < 2 ^ usize_bits T) ->
  early_messages h = [d0] -> opens C T k d0 0 x0 ->
  let message i := user_datagram C k (N.of_nat i + 1) (data i) in
  exists s',
    run C T s (map (fun i => CRead (message i)) (seq 0 (N.to_nat 10000))) =
      (s', map (fun i => (CRead (message i), RMsg (Ok (Some (MMessage (nonempty (data i)))))))
               (seq 0 (N.to_nat 10000))) /\
    established s' /\
    (forall n d, 10000 < n -> n < 2 ^ 64 -> 26 + len d < 2 ^ usize_bits T ->
      snd (read C T (user_datagram C k n d) s') = Err TooManyUnorderedMsgs /\
      failed C (fst (read C T (user_datagram C k n d) s'))) /\
    exists s'', drain_tmp_stack_user_msgs C T s' = (s'', Ok [MMessage (nonempty x0)]) /\ established s''.
Proof. intros. eapply first_message_waits; eassumption. Qed.
Print Assumptions C57_first_message_waits.

Example C57_case :
  run toy T A0 callsA = (after A0 callsA, log A0 callsA) /\ len (log A0 callsA) + 10002 < 2 ^ 64 /\
  lossless (log A0 callsA) /\ established (after A0 callsA) /\ session_key (after A0 callsA) = Some kAB /\
  keystream_ok toy kAB /\ user_deliveries (log A0 callsA) = [] /\
  (forall i : nat, 26 + len [byte_of_N (N.of_nat i)] < 2 ^ usize_bits T).
Proof.
  split; [apply run_log|]. split; [vm_compute; reflexivity|].
  split; [apply lossless_check; vm_compute; reflexivity|]. split; [eexists; vm_compute; reflexivity|].
  split; [vm_compute; reflexivity|]. split; [apply toy_keystream_ok|]. split; [vm_compute; reflexivity|].
  intros i. vm_compute. reflexivity.
Qed.

Definition waiting_calls : list call :=
  [CConnect pkA None; CRead (connectB [x05]); CAck (Some [x06]); CRead (msgA 0 [x40]); CRead (ackB [])].
Example C57_waits_case :
  let h := log A0 waiting_calls in
  run toy T A0 waiting_calls = (after A0 waiting_calls, h) /\ len h + 10002 < 2 ^ 64 /\
  lossless h /\ established (after A0 waiting_calls) /\ session_key (after A0 waiting_calls) = Some kAB /\
  user_deliveries h = [] /\ early_messages h = [msgA 0 [x40]] /\ opens toy T kAB (msgA 0 [x40]) 0 [x40].
Proof.
  split; [apply run_log|]. split; [vm_compute; reflexivity|].
  split; [apply lossless_check; vm_compute; reflexivity|]. split; [eexists; vm_compute; reflexivity|].
  split; [vm_compute; reflexivity|]. split; [vm_compute; reflexivity|]. split; [vm_compute; reflexivity|].
  apply opens_msgA; vm_compute; reflexivity.
Qed.

(** ** C58 *)

(** One datagram with the magic value and another version number, which anyone
    can send, fails any connection. *)
Theorem C58_junk : forall (C : Crypto) (T : target), CryptoLaws C ->
  forall s v r, reachable C T s -> ~ failed C s -> len v = 4 -> v <> version ->
  snd (read C T (magic ++ v ++ r) s) = Err (RecvInvalidMsg UnsupportedVersion) /\
  failed C (fst (read C T (magic ++ v ++ r) s)).
Proof. exact junk_fails. Qed.
Print Assumptions C58_junk.

(** The CONNECT delivered before, once more. *)
Theorem C58_repeated_connect : forall (C : Crypto) (T : target), CryptoLaws C ->
  forall sk cfg pin s0 cs s h d al pk o,
  create C (RngKey sk) cfg pin = Ok s0 -> run C T s0 cs = (s, h) -> ~ failed C s ->
  In (CRead d, RMsg (Ok (Some (MConnect al pk o)))) h ->
  snd (read C T d s) = Err (RecvInvalidMsg UnexpectedConnectMsg) /\ failed C (fst (read C T d s)).
Proof. exact repeated_connect_fails. Qed.
Print Assumptions C58_repeated_connect.

(** The ACK delivered before, by a read or by [take_ack_msg_recv_too_early]. *)
Theorem C58_repeated_ack : forall (C : Crypto) (T : target), CryptoLaws C ->
  forall sk cfg pin s0 cs s h1 e h2 o,
  create C (RngKey sk) cfg pin = Ok s0 -> run C T s0 cs = (s, h1 ++ e :: h2) -> ~ failed C s ->
  In (MAck o) (delivered (snd e)) ->
  exists d, source h1 e d /\
    snd (read C T d s) = Err (RecvInvalidMsg UnexpectedAckMsg) /\ failed C (fst (read C T d s)).
Proof. exact repeated_ack_fails. Qed.
Print Assumptions C58_repeated_ack.

(** An established connection, and the three datagrams. *)
Example C58_case :
  run toy T A0 callsA = (after A0 callsA, log A0 callsA) /\ ~ failed toy (after A0 callsA) /\
  established (after A0 callsA) /\
  In (CRead (connectB [x05]), RMsg (Ok (Some (MConnect [x00; x00; x00; x00] pkB (Some [x05]))))) (log A0 callsA) /\
  In (CRead (ackB []), RMsg (Ok (Some (MAck None)))) (log A0 callsA) /\
  snd (read toy T (connectB [x05]) (after A0 callsA)) = Err (RecvInvalidMsg UnexpectedConnectMsg) /\
  snd (read toy T (ackB []) (after A0 callsA)) = Err (RecvInvalidMsg UnexpectedAckMsg) /\
  snd (read toy T (magic ++ [x00; x00; x00; x02]) (after A0 callsA)) = Err (RecvInvalidMsg UnsupportedVersion).
Proof.
  split; [apply run_log|]. split; [intros H; vm_compute in H; discriminate|].
  split; [eexists; vm_compute; reflexivity|].
  split; [vm_compute; right; left; reflexivity|].
  split; [vm_compute; do 3 right; left; reflexivity|].
  split; [vm_compute; reflexivity|]. split; vm_compute; reflexivity.
Qed.

(** C62: what a layer answers to any sequence of the peer's messages. *)

From Verif.Model Require Import Minimal.
From Verif.Spec Require Import Wire Datagram Trace ReadSpec Accept Session Writers Receiver.
From Verif.Proofs Require Import Negotiation Fragile Receiver.
From Verif.Instances Require Import Toy Scenario.
From Verif.Properties Require Import Nonces.

(** ** C62 *)

(** Whatever the order, the losses and the repetitions, the answers are those of
    the receiver of Spec/Receiver.v, started with the numbers delivered so far. *)
Theorem C62_receiver : forall (C : Crypto) (T : target), CryptoLaws C ->
  forall r cfg pin s0 cs s h k,
  create C r cfg pin = Ok s0 -> run C T s0 cs = (s, h) -> len h < 2 ^ 64 -> lossless h ->
  established s -> session_key s = Some k ->
  exists l, accounts C T s (submitted h) h l /\
    forall ds ms, Forall2 (fun d m => opens C T k d (fst m) (snd m)) ds ms -> len h + len ds < 2 ^ 64 ->
    exists os s' R', answers C T s ds os s' /\
      receives {| taken := map (fun e => snd (fst e)) l; dead := false |} ms os R' /\
      (failed C s' <-> dead R' = true) /\ (established s' <-> dead R' = false).
Proof. exact receiver_refinement. Qed.
Print Assumptions C62_receiver.

(** The receiver has one answer to each sequence. *)
Theorem C62_deterministic : forall R ms os R1 os' R1',
  receives R ms os R1 -> receives R ms os' R1' -> os = os' /\ R1 = R1'.
Proof. exact receives_det. Qed.
Print Assumptions C62_deterministic.

(** When no message overtakes another by more than 10000, or there are at most
    10000 of them, each is delivered the first time it comes, each repetition is
    refused, and the connection stays up. *)
Theorem C62_delivered_once : forall (C : Crypto) (T : target), CryptoLaws C ->
  forall r cfg pin s0 cs s h k,
  create C r cfg pin = Ok s0 -> run C T s0 cs = (s, h) -> lossless h -> user_deliveries h = [] ->
  established s -> session_key s = Some k ->
  forall ds ms, Forall2 (fun d m => opens C T k d (fst m) (snd m)) ds ms -> len h + len ds < 2 ^ 64 ->
    in_window ms \/ len (nodup N.eq_dec (map fst ms)) <= 10000 ->
    exists s', answers C T s ds (once [] ms) s' /\ established s'.
Proof. exact window_delivers. Qed.
Print Assumptions C62_delivered_once.

(** The numbers 2, 0, 2, 1, out of order and with a repetition. *)
Definition out_of_order : list (N * bytes) := [(2, [x43]); (0, [x41]); (2, [x43]); (1, [])].
Example C62_case :
  create toy (RngKey skA) config_default None = Ok A0 /\
  run toy T A0 callsA = (after A0 callsA, log A0 callsA) /\ lossless (log A0 callsA) /\
  user_deliveries (log A0 callsA) = [] /\ established (after A0 callsA) /\
  session_key (after A0 callsA) = Some kAB /\
  Forall2 (fun d m => opens toy T kAB d (fst m) (snd m))
    (map (fun m => user_datagram toy kAB (fst m) (snd m)) out_of_order) out_of_order /\
  in_window out_of_order /\ len (nodup N.eq_dec (map fst out_of_order)) <= 10000 /\
  once [] out_of_order =
    [Ok (Some (MMessage (Some [x43]))); Ok (Some (MMessage (Some [x41])));
     Err (RecvInvalidMsg InvalidNonce); Ok (Some (MMessage None))].
Proof.
  split; [exact created_A0|]. split; [apply run_log|].
  split; [apply lossless_check; vm_compute; reflexivity|]. split; [vm_compute; reflexivity|].
  split; [eexists; vm_compute; reflexivity|]. split; [vm_compute; reflexivity|].
  split; [|split; [|split; [vm_compute; discriminate|vm_compute; reflexivity]]].
  - unfold out_of_order. cbn [map fst snd].
    repeat (apply Forall2_cons; [apply user_opens; [vm_compute; reflexivity|apply toy_keystream_ok|vm_compute; reflexivity]|]).
    apply Forall2_nil.
  - intros a n data b E m Hm. exfalso.
    assert (In (n, data) out_of_order) as Hin by (rewrite E; apply in_app_iff; right; left; reflexivity).
    unfold out_of_order in Hin. cbn [In] in Hin. intuition (match goal with H : (_, _) = _ |- _ => injection H as <- _ end; lia).
Qed.

(** A receiver that gives up: 10000 numbers wait for number 0. *)
Example C62_dead :
  let R := {| taken := map N.of_nat (seq 1 (N.to_nat 10000)); dead := false |} in
  receive R 10001 [x41] (Err TooManyUnorderedMsgs) {| taken := taken R; dead := true |}.
Proof.
  intros R.
  assert (forall m, In m (taken R) <-> 1 <= m <= 10000) as Hin.
  { intros m. unfold R. cbn [taken]. rewrite in_map_iff. split.
    - intros (i & <- & Hi). apply in_seq in Hi. lia.
    - intros H. exists (N.to_nat m). split; [lia|]. apply in_seq. lia. }
  apply rc_too_many; [reflexivity|rewrite Hin; lia|].
  intros [_ [H|(least & H1 & H2 & H3)]].
  - specialize (H 0 ltac:(lia)). rewrite Hin in H. lia.
  - assert (least = 0) as ->.
    { destruct (N.eq_dec least 0) as [|Hne]; [assumption|]. specialize (H2 0 ltac:(lia)). rewrite Hin in H2. lia. }
    assert (forall m, In m (taken R) -> 0 < m) as Hpos by (intros m Hm; apply Hin in Hm; lia).
    unfold len in H3. rewrite (filter_all_len (taken R) Hpos) in H3.
    unfold R in H3. cbn [taken] in H3. rewrite map_length, seq_length in H3. lia.
Qed.

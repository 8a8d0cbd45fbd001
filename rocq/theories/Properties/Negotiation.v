(** C11-C14, C16-C19, C35: the negotiation as seen through histories. *)

From Verif.Model Require Import Minimal.
From Verif.Spec Require Import Wire Datagram Trace ReadSpec Accept Session Writers Attacks Peer.
From Verif.Proofs Require Import Failure Histories DevErrors Vocabulary.
From Verif.Instances Require Import Toy Scenario.

Lemma panic_free_check h : forallb (fun e => negb (panics (snd e))) h = true -> panic_free h.
Proof.
  intros H e He. rewrite forallb_forall in H. apply H in He. destruct (panics (snd e)); [discriminate|reflexivity].
Qed.

(** ** C11 *)
Theorem C11_negotiation_iff : forall (C : Crypto) (T : target) r0 cfg pin s0 cs s h,
  create C r0 cfg pin = Ok s0 -> run C T s0 cs = (s, h) -> panic_free h ->
  (established s <-> negotiated h).
Proof. exact negotiation_iff. Qed.
Print Assumptions C11_negotiation_iff.

Example C11_case :
  run toy T A0 callsA = (after A0 callsA, log A0 callsA) /\ panic_free (log A0 callsA) /\
  established (after A0 callsA) /\
  ~ established (after A0 (firstn 3 callsA)) /\ panic_free (log A0 (firstn 3 callsA)).
Proof.
  split; [apply run_log|]. split; [apply panic_free_check; vm_compute; reflexivity|].
  split; [eexists; vm_compute; reflexivity|].
  split; [intros [c H]; vm_compute in H; discriminate|apply panic_free_check; vm_compute; reflexivity].
Qed.

(** The panic-free hypothesis is needed: a read that panics (and is caught) can
    have taken the CONNECT; the negotiation then completes although the
    application has never seen a CONNECT. *)
Theorem C11_after_caught_panic_refuted :
  exists cs, (exists p, In (RMsg (Panic p)) (replies (log A0 cs))) /\
    established (after A0 cs) /\ count connect_accepted (log A0 cs) = 0%nat.
Proof.
  pose (pk := repeat x05 32).
  pose (f := firstn 60 (frame_len 44 [x00; x01] (connect_content epkB pk []))).
  exists [CConnect pkA None; CRead (f ++ pk ++ toy_hash f); CAck None;
          CRead (signed_ack toy pk epkA [])].
  split; [exists PSliceRange; apply nth_error_In with (n := 1%nat); vm_compute; reflexivity|].
  split; [eexists; vm_compute; reflexivity|]. vm_compute. reflexivity.
Qed.
Print Assumptions C11_after_caught_panic_refuted.

(** ** C12 *)
Theorem C12_at_most_once : forall (C : Crypto) (T : target) r0 cfg pin s0 cs s h,
  create C r0 cfg pin = Ok s0 -> run C T s0 cs = (s, h) ->
  (count connect_created h <= 1)%nat /\ (count ack_created h <= 1)%nat /\
  (length (deliveries is_connect h) <= 1)%nat /\ (length (deliveries is_ack h) <= 1)%nat.
Proof. exact negotiation_at_most_once. Qed.
Print Assumptions C12_at_most_once.

(** Repeating every call of the negotiation is possible; it is the replies that
    are at most one. *)
Example C12_case :
  let cs := [CConnect pkA None; CConnect pkA None; CRead (connectB [x05]); CAck None; CAck None] in
  run toy T A0 cs = (after A0 cs, log A0 cs) /\
  count connect_created (log A0 cs) = 1%nat /\ count ack_created (log A0 cs) = 1%nat /\
  length (deliveries is_connect (log A0 cs)) = 1%nat.
Proof. split; [apply run_log|]. vm_compute. auto. Qed.

(** ** C13 *)
Theorem C13_negotiation_order : forall (C : Crypto) (T : target) r0 cfg pin s0 cs s h h1 e h2,
  create C r0 cfg pin = Ok s0 -> run C T s0 cs = (s, h) -> h = h1 ++ e :: h2 -> panic_free h1 ->
  (ack_created e = true -> happened connect_accepted h1) /\
  (ack_accepted e = true -> happened connect_created h1) /\
  (uses_session e -> negotiated h1).
Proof. exact negotiation_order. Qed.
Print Assumptions C13_negotiation_order.

Example C13_case :
  exists h1 e h2, log A0 chatA = h1 ++ e :: h2 /\ panic_free h1 /\ uses_session e /\ length h1 = 6%nat.
Proof.
  exists (firstn 6 (log A0 chatA)), (nth 6 (log A0 chatA) (CDrain, RMsgs (Ok []))), [].
  split; [vm_compute; reflexivity|]. split; [apply panic_free_check; vm_compute; reflexivity|].
  split; [right; left; eexists; vm_compute; reflexivity|vm_compute; reflexivity].
Qed.

(** ** C14 *)
Theorem C14_failure_is_permanent : forall (C : Crypto) (T : target) s cs s' h h1 h2,
  reachable C T s -> run C T s cs = (s', h) -> h = h1 ++ h2 -> happened fatal h1 ->
  failed C s' /\ (forall e, In e h2 -> inert e).
Proof. exact failure_is_permanent. Qed.
Print Assumptions C14_failure_is_permanent.

Theorem C14_failed_layer_is_inert : forall (C : Crypto) (T : target) s c s' r,
  reachable C T s -> failed C s -> call_step C T s c = (s', r) -> inert (c, r) /\ failed C s'.
Proof. exact failed_layer_is_inert. Qed.
Print Assumptions C14_failed_layer_is_inert.

Example C14_case :
  let cs := CRead [x01; x02; x03; x04] :: callsA in
  run toy T A0 cs = (after A0 cs, log A0 cs) /\ happened fatal (firstn 1 (log A0 cs)) /\
  failed toy (after A0 cs) /\ length (log A0 cs) = 5%nat.
Proof.
  split; [apply run_log|]. split; [|split; vm_compute; reflexivity].
  eexists. split; [apply nth_error_In with (n := 0%nat); vm_compute; reflexivity|]. vm_compute. reflexivity.
Qed.

(** ** C16 *)
Theorem C16_refused_calls : forall (C : Crypto) (T : target) s c s' r,
  reachable C T s -> call_step C T s c = (s', r) ->
  (exists e, r = RBytes (Err e) \/ r = RClone (Err e) \/ r = RUnit (Err e)) -> s' = s.
Proof. exact refused_calls_no_effect. Qed.
Print Assumptions C16_refused_calls.

Example C16_case :
  reachable toy T A1 /\
  snd (call_step toy T A1 (CConnect pkA None)) = RBytes (Err ConnectMsgAlreadyWritten) /\
  snd (call_step toy T A1 (CAck None)) = RBytes (Err ForbidWriteAckMsgNow) /\
  snd (call_step toy T A1 CClone) = RClone (Err NegoMustHaveBeenSuccessful) /\
  snd (call_step toy T (after A4 [CClone]) (CConfig config_default)) = RUnit (Err ForbidChangeConfAfterClone).
Proof. split; [exact reachable_A1|]. repeat split; vm_compute; reflexivity. Qed.

(** ** C17 *)
Theorem C17_write_too_early : forall (C : Crypto) (T : target) s data w s' w' o,
  ~ established s -> write_message C T data s w = (s', w', o) ->
  w' = w /\ failed C s' /\
  (failed C s -> o = Err ConnectionHadFail) /\
  (~ failed C s -> o = Err NegoMustHaveBeenSuccessful).
Proof. exact write_too_early. Qed.
Print Assumptions C17_write_too_early.

Example C17_case :
  ~ established A3 /\ ~ failed toy A3 /\
  snd (write_message toy T [x01] A3 vec_writer) = Err NegoMustHaveBeenSuccessful.
Proof.
  split; [intros [c H]; vm_compute in H; discriminate|].
  split; [intros H; vm_compute in H; discriminate|]. vm_compute. reflexivity.
Qed.

(** ** C18 *)
Theorem C18_internal_panics : forall (C : Crypto) (T : target) s c s' r p,
  reachable C T s -> call_step C T s c = (s', r) -> panic_of r = Some p ->
  p = PSliceRange \/ p = POverflow \/
  (p = PNoSecret /\ (exists data w, c = CWrite data w) /\ established s /\ session_key s = None).
Proof. exact internal_panics. Qed.
Print Assumptions C18_internal_panics.

Theorem C18_missing_secret_iff : forall (C : Crypto) (T : target), CryptoLaws C ->
  forall sk cfg pin s0 cs s h data w,
  create C (RngKey sk) cfg pin = Ok s0 -> run C T s0 cs = (s, h) -> established s ->
  ((exists s' w', write_message C T data s w = (s', w', Panic PNoSecret)) <->
   exists d, In (CRead d, RMsg (Err FailToComputeAgreement)) h).
Proof. exact missing_secret_iff. Qed.
Print Assumptions C18_missing_secret_iff.

(** The panic is reachable: a CONNECT whose key agreement is refused. *)
Theorem C18_no_dev_panic_refuted :
  exists cs, established (after A0 cs) /\
    snd (write_message toy T [x01] (after A0 cs) vec_writer) = Panic PNoSecret.
Proof.
  exists [CConnect pkA None; CRead (signed_connect toy seedB zero32 []); CAck None; CRead (ackB [])].
  split; [eexists; vm_compute; reflexivity|]. vm_compute. reflexivity.
Qed.
Print Assumptions C18_no_dev_panic_refuted.

Example C18_case :
  let cs := [CConnect pkA None; CRead (signed_connect toy seedB zero32 []); CAck None; CRead (ackB [])] in
  established (after A0 cs) /\
  nth 1 (log A0 cs) (CDrain, RMsgs (Ok [])) =
    (CRead (signed_connect toy seedB zero32 []), RMsg (Err FailToComputeAgreement)) /\
  established A4.
Proof.
  split; [eexists; vm_compute; reflexivity|]. split; [vm_compute; reflexivity|].
  eexists; vm_compute; reflexivity.
Qed.

(** ** C19 *)
Theorem C19_secret_is_final : forall (C : Crypto) (T : target), CryptoLaws C -> forall s cs s' h k,
  reachable C T s -> run C T s cs = (s', h) -> session_key s = Some k -> session_key s' = Some k.
Proof. exact secret_is_final. Qed.
Print Assumptions C19_secret_is_final.

Theorem C19_secret_origin : forall (C : Crypto) (T : target), CryptoLaws C ->
  forall sk cfg pin s0 cs s h k,
  create C (RngKey sk) cfg pin = Ok s0 -> run C T s0 cs = (s, h) -> session_key s = Some k ->
  ephemeral s = None /\
  exists d epk r, In (CRead d, r) h /\ carries_epk d epk /\
    (connect_accepted (CRead d, r) = true \/ panics r = true) /\
    derived_secret C sk epk = Some k.
Proof. exact secret_origin. Qed.
Print Assumptions C19_secret_origin.

Theorem C19_accepted_connect_decides : forall (C : Crypto) (T : target), CryptoLaws C ->
  forall sk cfg pin s0 cs s h d r epk,
  create C (RngKey sk) cfg pin = Ok s0 -> run C T s0 cs = (s, h) ->
  In (CRead d, r) h -> connect_accepted (CRead d, r) = true -> carries_epk d epk ->
  session_key s = derived_secret C sk epk /\ ephemeral s = None.
Proof. exact accepted_connect_decides. Qed.
Print Assumptions C19_accepted_connect_decides.

Example C19_case :
  run toy T A0 chatA = (after A0 chatA, log A0 chatA) /\
  connect_accepted (nth 1 (log A0 chatA) (CDrain, RMsgs (Ok []))) = true /\
  carries_epk (connectB [x05]) epkB /\
  session_key (after A0 chatA) = Some kAB /\ derived_secret toy skA epkB = Some kAB.
Proof.
  split; [apply run_log|]. split; [vm_compute; reflexivity|].
  split; [|split; vm_compute; reflexivity]. split; [vm_compute; reflexivity|].
  exists 71, pkB, ([x05] ++ toy_sign seedB (connect_frame epkB pkB [x05])).
  split; vm_compute; reflexivity.
Qed.

(** ** C35 *)
Theorem C35_drain_too_early : forall (C : Crypto) (T : target) s s' o,
  reachable C T s -> ~ established s -> ~ failed C s ->
  drain_tmp_stack_user_msgs C T s = (s', o) -> s' = s /\ o = Ok [].
Proof. exact drain_too_early. Qed.
Print Assumptions C35_drain_too_early.

Example C35_case :
  let s := after A3 [CRead (msgA 1 [x41]); CRead (msgA 0 [x40])] in
  reachable toy T s /\ ~ established s /\ ~ failed toy s /\ length (tmp_stack_user_msgs s) = 2%nat.
Proof.
  split; [apply reachable_after, reachable_A3|].
  split; [intros [c H]; vm_compute in H; discriminate|].
  split; [intros H; vm_compute in H; discriminate|]. vm_compute. reflexivity.
Qed.

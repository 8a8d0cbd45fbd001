(** C65: sharing the work of a connection between a layer and its clone. *)

From Verif.Model Require Import Complete.
From Verif.Spec Require Import Wire Datagram Trace ReadSpec Accept Session Writers CompleteTrace Split.
From Verif.Proofs Require Import Negotiation Failure Split.
From Verif.Instances Require Import Toy Scenario CompleteScenario.

(** ** C65 *)

(** Take any run that receives and sends on an established layer without
    failing.  Instead, clone the layer first, receive with the original and send
    with the clone: every call answers what it answered in the one run, however
    the receiving and the sending calls were interleaved. *)
Theorem C65_receive_and_send_apart : forall (C : Crypto) (T : target) s s0 c cs s' h,
  reachable C T s -> try_clone s = (s0, Ok c) ->
  Forall (fun a => receiving a = true \/ sending a = true) cs ->
  run C T s cs = (s', h) -> ~ happened fatal h ->
  snd (run C T s0 (filter receiving cs)) = only receiving h /\
  snd (run C T c (filter sending cs)) = only sending h.
Proof. exact split_by_clone. Qed.
Print Assumptions C65_receive_and_send_apart.

(** The other way round, as long as the clone is not given anything that looks
    like a negotiation message. *)
Theorem C65_send_and_receive_apart : forall (C : Crypto) (T : target) s s0 c cs s' h,
  reachable C T s -> try_clone s = (s0, Ok c) ->
  Forall (fun a => receiving_messages a = true \/ sending a = true) cs ->
  run C T s cs = (s', h) -> ~ happened fatal h ->
  snd (run C T s0 (filter sending cs)) = only sending h /\
  snd (run C T c (filter receiving_messages cs)) = only receiving_messages h.
Proof. exact split_by_clone_swapped. Qed.
Print Assumptions C65_send_and_receive_apart.

(** In complete mode: [read_bin] on the original, [write_bin] on the clone. *)
Theorem C65_complete_mode : forall (C : Crypto) (Z : Zip) (T : target) s s0 c cs s' h,
  sreachable C Z T s -> sl_try_clone s = (s0, Ok c) ->
  Forall (fun a => sreceiving a = true \/ ssending a = true) cs ->
  srun C Z T s cs = (s', h) -> sestablished s' ->
  snd (srun C Z T s0 (filter sreceiving cs)) = sonly sreceiving h /\
  snd (srun C Z T c (filter ssending cs)) = sonly ssending h.
Proof. exact ssplit_by_clone. Qed.
Print Assumptions C65_complete_mode.

Lemma unhappened_check p h : forallb (fun e => negb (p e)) h = true -> ~ happened p h.
Proof.
  intros H (e & He & Hp). rewrite forallb_forall in H. apply H in He. rewrite Hp in He. discriminate.
Qed.

(** Two messages received out of order and one refused, two sent. *)
Definition mixed : list call :=
  [CWrite [x01] vec_writer; CRead (msgA 1 [x77]); CRead (msgA 1 [x77]); CWrite [x02] vec_writer; CRead (msgA 0 [x78]);
   CDrain].
Example C65_case :
  reachable toy T A4 /\ (exists s0 c, try_clone A4 = (s0, Ok c)) /\
  Forall (fun a => receiving a = true \/ sending a = true) mixed /\
  Forall (fun a => receiving_messages a = true \/ sending a = true) mixed /\
  run toy T A4 mixed = (after A4 mixed, log A4 mixed) /\ ~ happened fatal (log A4 mixed) /\
  replies (only receiving (log A4 mixed)) =
    [RMsg (Ok (Some (MMessage (Some [x77])))); RMsg (Err (RecvInvalidMsg InvalidNonce));
     RMsg (Ok (Some (MMessage (Some [x78])))); RMsgs (Ok [])].
Proof.
  split; [exact reachable_A4|].
  split; [exists (fst (try_clone A4)); eexists; vm_compute; reflexivity|].
  split; [unfold mixed; repeat (apply Forall_cons; [cbn; tauto|]); apply Forall_nil|].
  split; [unfold mixed; repeat (apply Forall_cons; [vm_compute; tauto|]); apply Forall_nil|].
  split; [apply run_log|]. split; [apply unhappened_check; vm_compute; reflexivity|]. vm_compute. reflexivity.
Qed.

Definition smixed : list scall :=
  [SWrite [x01] vec_writer; SRead (msgA 1 [x00; x77]); SRead (msgA 1 [x00; x77]); SWrite [x02] vec_writer].
Example C65_complete_case :
  sreachable toy toy_zip T SA4 /\ (exists s0 c, sl_try_clone SA4 = (s0, Ok c)) /\
  Forall (fun a => sreceiving a = true \/ ssending a = true) smixed /\
  srun toy toy_zip T SA4 smixed = (safter SA4 smixed, slog SA4 smixed) /\ sestablished (safter SA4 smixed) /\
  map snd (sonly sreceiving (slog SA4 smixed)) =
    [SMsgs (Ok [IMessage (Some [x77])]); SMsgs (Err (RecvInvalidMsg InvalidNonce))].
Proof.
  split; [exact sreachable_SA4|].
  split; [exists (fst (sl_try_clone SA4)); eexists; vm_compute; reflexivity|].
  split; [unfold smixed; repeat (apply Forall_cons; [cbn; tauto|]); apply Forall_nil|].
  split; [apply srun_log|]. split; [eexists; vm_compute; reflexivity|]. vm_compute. reflexivity.
Qed.

(** A clone does not receive like its original: it has forgotten the peer's
    signature key.  An ACK with a wrong signature, which the original refuses
    with an error that changes nothing, is taken in by the clone without a word;
    a second one fails the clone. *)
Definition forged_ack : bytes := ack_frame (toy_hash epkA) [] ++ repeat x00 64.
Theorem C65_clone_receives_alike_refuted :
  exists (C : Crypto) (T : target) s s0 c cs, CryptoLaws C /\ reachable C T s /\ try_clone s = (s0, Ok c) /\
    Forall (fun a => receiving a = true) cs /\
    ~ happened fatal (snd (run C T s cs)) /\ ~ happened fatal (snd (run C T s0 cs)) /\
    snd (run C T c cs) <> snd (run C T s cs) /\ failed C (fst (run C T c cs)).
Proof.
  exists toy, T, A4, (fst (try_clone A4)). eexists. exists [CRead forged_ack; CRead forged_ack].
  split; [exact toy_laws|]. split; [exact reachable_A4|]. split; [vm_compute; reflexivity|].
  split; [repeat (apply Forall_cons; [reflexivity|]); apply Forall_nil|].
  split; [apply unhappened_check; vm_compute; reflexivity|].
  split; [apply unhappened_check; vm_compute; reflexivity|].
  split; [|vm_compute; reflexivity].
  intros H. apply (f_equal (map (fun e => match snd e with RMsg (Ok None) => true | _ => false end))) in H.
  vm_compute in H. discriminate.
Qed.
Print Assumptions C65_clone_receives_alike_refuted.

(** Nor do the halves fail together: after a receiving failure the one layer
    refuses to write, the clone goes on. *)
Theorem C65_fail_together_refuted :
  exists (C : Crypto) (T : target) s s0 c d data w, CryptoLaws C /\ reachable C T s /\ try_clone s = (s0, Ok c) /\
    failed C (fst (read C T d s)) /\ failed C (fst (read C T d s0)) /\
    snd (write_message C T data (fst (read C T d s)) w) = Err ConnectionHadFail /\
    snd (write_message C T data c w) = Ok tt.
Proof.
  exists toy, T, A4, (fst (try_clone A4)). eexists. exists (ackB []), [x01], vec_writer.
  split; [exact toy_laws|]. split; [exact reachable_A4|]. split; [vm_compute; reflexivity|].
  split; [vm_compute; reflexivity|]. split; [vm_compute; reflexivity|]. split; vm_compute; reflexivity.
Qed.
Print Assumptions C65_fail_together_refuted.

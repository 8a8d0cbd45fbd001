(** C76: how much a layer holds. *)

From Verif.Model Require Import Minimal Complete.
From Verif.Spec Require Import Wire Datagram Trace ReadSpec Accept Session CompleteTrace Memory.
From Verif.Proofs Require Import Memory.
From Verif.Instances Require Import Toy Scenario CompleteScenario.
From Verif.Properties Require Import Nonces.

(** ** C76 *)

(** Over any history, what a layer holds apart from its replay memory grows by
    at most three keys and the datagrams it put aside: the reads it answered "no
    message yet".  Messages written, messages delivered and datagrams refused
    leave nothing behind. *)
Theorem C76_memory : forall (C : Crypto) (T : target) s cs s' h,
  run C T s cs = (s', h) -> held s' <= held s + new_keys + total (put_aside h).
Proof. exact memory. Qed.
Print Assumptions C76_memory.

Theorem C76_complete : forall (C : Crypto) (T : target) (Z : Zip) s cs s' h,
  srun C Z T s cs = (s', h) -> held (minimal s') <= held (minimal s) + new_keys + total (sput_aside h).
Proof. exact smemory. Qed.
Print Assumptions C76_complete.

(** The replay memory has a limit of its own. *)
Theorem C76_replay : forall (C : Crypto) (T : target) s, reachable C T s -> replay_bytes s <= 80000.
Proof. exact replay_memory. Qed.
Print Assumptions C76_replay.

(** What a layer starts with: its key pair and the peer key it was given. *)
Theorem C76_created : forall (C : Crypto) r cfg pin s,
  CryptoLaws C -> create C r cfg pin = Ok s ->
  exists sk, r = RngKey sk /\ held s = len sk + 64 + opt_len pin /\ replay_bytes s = 0.
Proof. exact created_memory. Qed.
Print Assumptions C76_created.

Theorem C76_clone : forall s c, snd (try_clone s) = Ok c -> held c <= held s /\ replay_bytes c = replay_bytes s.
Proof. exact cloned_memory. Qed.
Print Assumptions C76_clone.

(** Once a created layer is established it puts nothing aside any more and only
    its replay memory can grow. *)
Theorem C76_settled : forall (C : Crypto) (T : target) r cfg pin s0 cs0 s h0 cs s' h,
  create C r cfg pin = Ok s0 -> run C T s0 cs0 = (s, h0) -> established s -> run C T s cs = (s', h) ->
  put_aside h = [] /\ held s' <= held s.
Proof. exact settled_memory. Qed.
Print Assumptions C76_settled.

Theorem C76_complete_settled : forall (C : Crypto) (T : target) (Z : Zip) r rs cfg seed pin s0 cs0 s h0 cs s' h,
  sl_create C r rs cfg seed pin = Ok s0 -> srun C Z T s0 cs0 = (s, h0) -> sestablished s ->
  srun C Z T s cs = (s', h) ->
  sput_aside h = [] /\ held (minimal s') <= held (minimal s).
Proof. exact ssettled_memory. Qed.
Print Assumptions C76_complete_settled.

(** Draining the queue and taking the early ACK release everything put aside,
    whatever they answer: from then on the layer holds at most three keys more
    than it was created with. *)
Theorem C76_released : forall (C : Crypto) (T : target) r cfg pin s0 cs0 s h0 cs s' h,
  create C r cfg pin = Ok s0 -> run C T s0 cs0 = (s, h0) -> established s ->
  run C T s (CDrain :: CTakeAck :: cs) = (s', h) ->
  held s' <= held s0 + new_keys.
Proof. exact released_memory. Qed.
Print Assumptions C76_released.

(** Before that there is no limit: while the peer's ACK is missing, one user
    message of the session, sent again and again, is kept each time. *)
Theorem C76_queue : forall (C : Crypto) (T : target) s k d n data m,
  CryptoLaws C -> reachable C T s -> wants_only_ack s -> session_key s = Some k -> opens C T k d n data ->
  exists s', run C T s (repeat (CRead d) m) = (s', repeat (CRead d, RMsg (Ok None)) m) /\
    held s' = held s + N.of_nat m * (len d - 16).
Proof. exact queue_memory. Qed.
Print Assumptions C76_queue.

Definition early_calls : list call :=
  [CConnect pkA None; CRead (connectB [x05]); CAck (Some [x06]); CRead (msgA 0 [x40]); CRead (msgA 0 [x40]); CRead (ackB [])].

Theorem C76_bounded_refuted :
  ~ exists B, forall s cs s' h, reachable toy T s -> run toy T s cs = (s', h) -> held s' <= B.
Proof.
  intros [B H].
  assert (opens toy T kAB (msgA 0 [x40]) 0 [x40]) as Ho by (apply opens_msgA; vm_compute; reflexivity).
  assert (session_key A3 = Some kAB) as Hk by (vm_compute; reflexivity).
  assert (wants_only_ack A3) as Hw by (vm_compute; reflexivity).
  destruct (C76_queue toy T A3 kAB _ _ _ (S (N.to_nat B)) toy_laws reachable_A3 Hw Hk Ho) as (s' & Hr & Hf).
  specialize (H _ _ _ _ reachable_A3 Hr). rewrite Hf in H.
  assert (exists y, len (msgA 0 [x40]) - 16 = N.succ y) as [y Hy]
    by (exists 58; vm_compute; reflexivity).
  rewrite Hy, Nnat.Nat2N.inj_succ, Nnat.N2Nat.id, N.mul_succ_r in H. clear Hf Hr.
  generalize dependent (held A3). intros f H. lia.
Qed.
Print Assumptions C76_bounded_refuted.

Example C76_case :
  reachable toy T A0 /\ run toy T A0 early_calls = (after A0 early_calls, log A0 early_calls) /\
  established (after A0 early_calls) /\
  put_aside (log A0 early_calls) = [msgA 0 [x40]; msgA 0 [x40]] /\
  held A0 = 68 /\ held (after A0 early_calls) = 262 /\
  held (after A0 (early_calls ++ [CDrain; CTakeAck; CRead (msgA 5 [x41])])) = 144 /\
  replay_bytes (after A0 (early_calls ++ [CDrain; CTakeAck; CRead (msgA 5 [x41])])) = 8.
Proof.
  split; [exact reachable_A0|]. split; [apply run_log|]. split; [eexists; vm_compute; reflexivity|].
  vm_compute. exact (conj eq_refl (conj eq_refl (conj eq_refl (conj eq_refl eq_refl)))).
Qed.

Example C76_complete_case :
  sreachable toy toy_zip T SA0 /\ srun toy toy_zip T SA0 scallsA = (safter SA0 scallsA, slog SA0 scallsA) /\
  sestablished (safter SA0 scallsA) /\ sput_aside (slog SA0 scallsA) = [].
Proof.
  split; [exact sreachable_SA0|]. split; [apply srun_log|]. split; [eexists; vm_compute; reflexivity|].
  vm_compute. reflexivity.
Qed.

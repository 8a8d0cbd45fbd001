(** C27-C34, C36: nonces, replays, clones and early messages. *)

From Coq Require Import ZifyBool ZifyNat ZifyN.
From Verif.Model Require Import Minimal.
From Verif.Spec Require Import Wire Datagram Trace ReadSpec Accept Session Writers.
From Verif.Proofs Require Import Nonces Sending Early Histories Counters Vocabulary.
From Verif.Instances Require Import Toy Scenario.

Lemma opens_msgA n data : n < 2 ^ 64 -> 26 + len data < 2 ^ 64 -> opens toy T kAB (msgA n data) n data.
Proof. intros H1 H2. apply opens_user_datagram; [exact H1|apply toy_keystream_ok|exact H2]. Qed.

(** ** C27 *)
Theorem C27_replay_free : forall (C : Crypto) (T : target), CryptoLaws C ->
  forall r cfg pin s0 cs s h,
  create C r cfg pin = Ok s0 -> run C T s0 cs = (s, h) -> len h < 2 ^ 64 ->
  exists l, accounts C T s (submitted h) h l.
Proof. exact replay_free. Qed.
Print Assumptions C27_replay_free.

(** The same for a handle in use or a clone: what it had queued counts too. *)
Theorem C27_replay_free_handle : forall (C : Crypto) (T : target), CryptoLaws C ->
  forall s0 cs s h,
  reachable C T s0 -> run C T s0 cs = (s, h) ->
  next_nonce_expected s0 + len (orphan_nonce_list s0) + len (tmp_stack_user_msgs s0) + len h < 2 ^ 64 ->
  exists ds0 l, length ds0 = length (tmp_stack_user_msgs s0) /\ accounts C T s (ds0 ++ submitted h) h l.
Proof. exact replay_free_handle. Qed.
Print Assumptions C27_replay_free_handle.

(** Two messages out of order, each also replayed: two deliveries. *)
Example C27_case :
  let cs := callsA ++ [CRead (msgA 1 [x77]); CRead (msgA 1 [x77]); CRead (msgA 0 [x78]); CRead (msgA 0 [x78])] in
  run toy T A0 cs = (after A0 cs, log A0 cs) /\ len (log A0 cs) < 2 ^ 64 /\
  user_deliveries (log A0 cs) = [Some [x77]; Some [x78]].
Proof. split; [apply run_log|]. split; vm_compute; reflexivity. Qed.

(** ** C28 *)
Theorem C28_acceptance_rule : forall (C : Crypto) (T : target), CryptoLaws C ->
  forall r cfg pin s0 cs s h,
  create C r cfg pin = Ok s0 -> run C T s0 cs = (s, h) -> len h + 1 < 2 ^ 64 -> lossless h ->
  established s ->
  exists l, accounts C T s (submitted h) h l /\
    forall k, session_key s = Some k ->
      (forall d o n data, In (CRead d, RMsg (Ok (Some (MMessage o)))) h -> opens C T k d n data ->
         In n (map (fun e => snd (fst e)) l)) /\
      (forall d n data, opens C T k d n data ->
         (snd (read C T d s) = Ok (Some (MMessage (nonempty data))) <->
          nonce_acceptable (map (fun e => snd (fst e)) l) n)).
Proof. exact acceptance_rule. Qed.
Print Assumptions C28_acceptance_rule.

Lemma lossless_check h :
  forallb (fun e => negb (panics (snd e)) && match snd e with RMsgs (Err _) => false | _ => true end) h = true ->
  lossless h.
Proof.
  intros H. rewrite forallb_forall in H. split.
  - intros e He. apply H in He. destruct (panics (snd e)); [discriminate|reflexivity].
  - intros e er He E. apply H in He. rewrite E in He. discriminate.
Qed.

Example C28_case :
  let cs := callsA ++ [CRead (msgA 1 [x77]); CRead (msgA 5 [x78])] in
  run toy T A0 cs = (after A0 cs, log A0 cs) /\ lossless (log A0 cs) /\ established (after A0 cs) /\
  session_key (after A0 cs) = Some kAB /\ opens toy T kAB (msgA 3 [x79]) 3 [x79] /\
  snd (read toy T (msgA 3 [x79]) (after A0 cs)) = Ok (Some (MMessage (Some [x79]))) /\
  snd (read toy T (msgA 5 [x78]) (after A0 cs)) = Err (RecvInvalidMsg InvalidNonce).
Proof.
  split; [apply run_log|]. split; [apply lossless_check; vm_compute; reflexivity|].
  split; [eexists; vm_compute; reflexivity|]. split; [vm_compute; reflexivity|].
  split; [apply opens_msgA; vm_compute; reflexivity|]. split; vm_compute; reflexivity.
Qed.

(** ** C29 *)
Theorem C29_replay_memory_bounded : forall (C : Crypto) (T : target) s,
  reachable C T s ->
  len (orphan_nonce_list s) <= 10000 /\ NoDup (orphan_nonce_list s) /\
  Forall (fun m => next_nonce_expected s < m) (orphan_nonce_list s).
Proof. exact replay_memory_bounded. Qed.
Print Assumptions C29_replay_memory_bounded.

Example C29_case :
  let s := after A4 [CRead (msgA 1 []); CRead (msgA 4 []); CRead (msgA 2 [])] in
  reachable toy T s /\ len (orphan_nonce_list s) = 3 /\ next_nonce_expected s = 0.
Proof. split; [apply reachable_after, reachable_A4|]. split; vm_compute; reflexivity. Qed.

(** ** C30 *)
Theorem C30_sent_nonces : forall (C : Crypto) (T : target), CryptoLaws C ->
  forall r cfg pin s0 cs s h1 h2 data w w',
  create C r cfg pin = Ok s0 ->
  run C T s0 cs = (s, h1 ++ (CWrite data w, RWritten (Ok tt) w') :: h2) ->
  takes_all w \/ 16 < bw_cap w -> N.of_nat (count written h1) < 2 ^ 64 ->
  exists k, session_key s = Some k /\
    output w' = output w ++ user_datagram C k (N.of_nat (count written h1)) data.
Proof. exact sent_nonces_count. Qed.
Print Assumptions C30_sent_nonces.

Theorem C30_sent_nonces_handle : forall (C : Crypto) (T : target), CryptoLaws C ->
  forall s0 cs s h1 h2 data w w',
  reachable C T s0 ->
  run C T s0 cs = (s, h1 ++ (CWrite data w, RWritten (Ok tt) w') :: h2) ->
  takes_all w \/ 16 < bw_cap w -> next_nonce_sent s0 + N.of_nat (count written h1) < 2 ^ 64 ->
  exists k, session_key s = Some k /\
    output w' = output w ++ user_datagram C k (next_nonce_sent s0 + N.of_nat (count written h1)) data.
Proof. exact sent_nonces_handle. Qed.
Print Assumptions C30_sent_nonces_handle.

Example C30_case :
  let cs := callsA ++ [CWrite [x01] vec_writer; CRead (msgA 0 []); CWrite [x02] vec_writer] in
  exists h1 w',
    run toy T A0 cs = (after A0 cs, h1 ++ (CWrite [x02] vec_writer, RWritten (Ok tt) w') :: []) /\
    count written h1 = 1%nat /\ takes_all vec_writer /\ output w' = msgA 1 [x02].
Proof.
  cbv zeta. exists (firstn 6 (log A0 (callsA ++ [CWrite [x01] vec_writer; CRead (msgA 0 []); CWrite [x02] vec_writer]))).
  eexists. split; [rewrite run_log; apply (f_equal (pair _)); vm_compute; reflexivity|].
  split; [vm_compute; reflexivity|]. split; [reflexivity|]. vm_compute. reflexivity.
Qed.

(** ** C31 *)
Theorem C31_failed_write_no_reuse : forall (C : Crypto) (T : target) s cs s' h1 h2 data w er w',
  reachable C T s ->
  run C T s cs = (s', h1 ++ (CWrite data w, RWritten (Err er) w') :: h2) ->
  failed C s' /\ (forall e, In e h2 -> inert e).
Proof. exact failed_write_no_reuse. Qed.
Print Assumptions C31_failed_write_no_reuse.

(** What the failed write has output is a prefix of its own datagram. *)
Theorem C31_failed_write_prefix : forall (C : Crypto) (T : target) s data w s' w' er,
  write_message C T data s w = (s', w', Err er) ->
  w' = w \/
  exists k j, session_key s = Some k /\
    output w' = output w ++ firstn j (user_datagram C k (next_nonce_sent s) data).
Proof. exact failed_write_prefix. Qed.
Print Assumptions C31_failed_write_prefix.

(** A sink that takes ten bytes and then fails; the writer has a capacity of 8. *)
Definition broken_writer : bufwriter :=
  {| bw_cap := 8; bw_buf := []; bw_sink := {| sink_data := []; sink_script := [WAccept 10; WFail (IoOther 7)] |} |}.
Example C31_case :
  reachable toy T A4 /\
  exists w', log A4 [CWrite [x01] broken_writer; CWrite [x01] vec_writer] =
    [] ++ (CWrite [x01] broken_writer, RWritten (Err (FailToEncryptData (IoOther 7))) w') ::
    [(CWrite [x01] vec_writer, RWritten (Err ConnectionHadFail) vec_writer)] /\
    output w' = firstn 10 (msgA 0 [x01]).
Proof.
  split; [exact reachable_A4|]. eexists. split; vm_compute; reflexivity.
Qed.

(** ** C32 *)
Theorem C32_clone_sends_same_nonce : forall (C : Crypto) (T : target) s s1 c k data1 data2 w1 w2,
  try_clone s = (s1, Ok c) -> session_key s = Some k -> next_nonce_sent s + 1 < 2 ^ 64 ->
  takes_all w1 -> takes_all w2 ->
  exists s1' w1' c' w2' n,
    write_message C T data1 s1 w1 = (s1', w1', Ok tt) /\
    write_message C T data2 c w2 = (c', w2', Ok tt) /\
    output w1' = output w1 ++ user_datagram C k n data1 /\
    output w2' = output w2 ++ user_datagram C k n data2.
Proof. exact clone_sends_same_nonce. Qed.
Print Assumptions C32_clone_sends_same_nonce.

Theorem C32_clone_replays : forall (C : Crypto) (T : target), CryptoLaws C ->
  forall s s1 c d o,
  reachable C T s -> try_clone s = (s1, Ok c) ->
  (snd (read C T d s1) = Ok (Some (MMessage o)) <-> snd (read C T d c) = Ok (Some (MMessage o))).
Proof. exact clone_replays. Qed.
Print Assumptions C32_clone_replays.

Example C32_case :
  reachable toy T A4 /\ (exists s1 c, try_clone A4 = (s1, Ok c)) /\ session_key A4 = Some kAB /\
  (forall s1 c, try_clone A4 = (s1, Ok c) ->
     snd (read toy T (msgA 0 [x41]) s1) = Ok (Some (MMessage (Some [x41])))).
Proof.
  split; [exact reachable_A4|].
  split; [exists (fst (try_clone A4)); eexists; vm_compute; reflexivity|]. split; [vm_compute; reflexivity|].
  intros s1 c H. replace s1 with (fst (try_clone A4)) by (rewrite H; reflexivity). vm_compute. reflexivity.
Qed.

(** ** C33 *)
Theorem C33_send_panics : forall (C : Crypto) (T : target) s data w k,
  established s -> session_key s = Some k -> takes_all w -> next_nonce_sent s = 2 ^ 64 - 1 ->
  overflow_checks T = true ->
  exists w', write_message C T data s w = (s, w', Panic POverflow) /\
    output w' = output w ++ user_datagram C k (2 ^ 64 - 1) data.
Proof. exact send_overflow_panics. Qed.
Print Assumptions C33_send_panics.

Theorem C33_send_wraps : forall (C : Crypto) (T : target) s data w k data2 w2,
  established s -> session_key s = Some k -> takes_all w -> takes_all w2 ->
  next_nonce_sent s = 2 ^ 64 - 1 -> overflow_checks T = false ->
  exists s' w' s2 w2',
    write_message C T data s w = (s', w', Ok tt) /\
    output w' = output w ++ user_datagram C k (2 ^ 64 - 1) data /\
    write_message C T data2 s' w2 = (s2, w2', Ok tt) /\
    output w2' = output w2 ++ user_datagram C k 0 data2.
Proof. exact send_overflow_wraps. Qed.
Print Assumptions C33_send_wraps.

Theorem C33_receive_panics : forall (C : Crypto) (T : target), CryptoLaws C ->
  forall s k d data,
  reachable C T s -> established s -> session_key s = Some k -> next_nonce_expected s = 2 ^ 64 - 1 ->
  opens C T k d (2 ^ 64 - 1) data -> overflow_checks T = true ->
  read C T d s = (s, Panic POverflow).
Proof. exact receive_overflow_panics. Qed.
Print Assumptions C33_receive_panics.

Theorem C33_receive_wraps : forall (C : Crypto) (T : target), CryptoLaws C ->
  forall s k d data,
  reachable C T s -> established s -> session_key s = Some k -> next_nonce_expected s = 2 ^ 64 - 1 ->
  opens C T k d (2 ^ 64 - 1) data -> overflow_checks T = false ->
  exists s', read C T d s = (s', Ok (Some (MMessage (nonempty data)))) /\
    forall d' n' data', opens C T k d' n' data' ->
      snd (read C T d' s') = Ok (Some (MMessage (nonempty data'))).
Proof. exact receive_overflow_replays. Qed.
Print Assumptions C33_receive_wraps.

(** Both counters reach their end. *)
Theorem C33_send_counter_reaches : forall (C : Crypto) (T : target) s k n,
  reachable C T s -> established s -> session_key s = Some k -> next_nonce_sent s <= n -> n < 2 ^ 64 ->
  exists s', reachable C T s' /\ established s' /\ session_key s' = Some k /\ next_nonce_sent s' = n.
Proof. exact send_counter_reaches. Qed.
Print Assumptions C33_send_counter_reaches.

Theorem C33_receive_counter_reaches : forall (C : Crypto) (T : target), CryptoLaws C ->
  forall s k n,
  reachable C T s -> established s -> session_key s = Some k -> keystream_ok C k ->
  orphan_nonce_list s = [] -> next_nonce_expected s <= n -> n < 2 ^ 64 ->
  exists s', reachable C T s' /\ established s' /\ session_key s' = Some k /\
    orphan_nonce_list s' = [] /\ next_nonce_expected s' = n.
Proof. exact receive_counter_reaches. Qed.
Print Assumptions C33_receive_counter_reaches.

(** Not in fewer than 2^64 calls. *)
Theorem C33_counters_safe : forall (C : Crypto) (T : target), CryptoLaws C ->
  forall r cfg pin s0 cs s h,
  create C r cfg pin = Ok s0 -> run C T s0 cs = (s, h) -> len h + 1 < 2 ^ 64 ->
  (forall data w, snd (write_message C T data s w) <> Panic POverflow) /\
  (forall k d n data p, session_key s = Some k -> opens C T k d n data -> snd (read C T d s) <> Panic p).
Proof. exact counters_safe. Qed.
Print Assumptions C33_counters_safe.

Example C33_case :
  exists s, reachable toy T s /\ established s /\ session_key s = Some kAB /\
    next_nonce_expected s = 2 ^ 64 - 1 /\
    opens toy T kAB (msgA (2 ^ 64 - 1) [x01]) (2 ^ 64 - 1) [x01].
Proof.
  destruct (receive_counter_reaches toy T toy_laws A4 kAB (2 ^ 64 - 1)) as (s & H1 & H2 & H3 & _ & H5).
  - exact reachable_A4.
  - eexists; vm_compute; reflexivity.
  - vm_compute; reflexivity.
  - apply toy_keystream_ok.
  - vm_compute; reflexivity.
  - vm_compute; discriminate.
  - vm_compute; reflexivity.
  - exists s. repeat (split; [assumption|]). apply opens_msgA; vm_compute; reflexivity.
Qed.

(** ** C34 *)
Theorem C34_early_messages : forall (C : Crypto) (T : target), CryptoLaws C ->
  forall r cfg pin s0 cs s h k xs,
  create C r cfg pin = Ok s0 -> run C T s0 cs = (s, h) -> lossless h -> user_deliveries h = [] ->
  established s -> session_key s = Some k ->
  Forall2 (fun d x => opens C T k d (fst x) (snd x)) (early_messages h) xs ->
  NoDup (map fst xs) -> len xs <= 10000 -> len h < 2 ^ 64 ->
  exists s', drain_tmp_stack_user_msgs C T s =
      (s', Ok (map (fun x => MMessage (nonempty (snd x))) xs)) /\
    established s' /\ drain_tmp_stack_user_msgs C T s' = (s', Ok []).
Proof. exact early_messages_delivered. Qed.
Print Assumptions C34_early_messages.

Definition early_calls : list call :=
  [CConnect pkA None; CRead (connectB [x05]); CAck (Some [x06]);
   CRead (msgA 1 [x41]); CRead (msgA 0 [x40]); CRead (ackB [])].
Example C34_case :
  run toy T A0 early_calls = (after A0 early_calls, log A0 early_calls) /\ lossless (log A0 early_calls) /\
  user_deliveries (log A0 early_calls) = [] /\ established (after A0 early_calls) /\
  session_key (after A0 early_calls) = Some kAB /\
  early_messages (log A0 early_calls) = [msgA 1 [x41]; msgA 0 [x40]] /\
  Forall2 (fun d x => opens toy T kAB d (fst x) (snd x)) [msgA 1 [x41]; msgA 0 [x40]]
    [(1, [x41]); (0, [x40])] /\
  snd (drain_tmp_stack_user_msgs toy T (after A0 early_calls)) =
    Ok [MMessage (Some [x41]); MMessage (Some [x40])].
Proof.
  split; [apply run_log|]. split; [apply lossless_check; vm_compute; reflexivity|].
  split; [vm_compute; reflexivity|]. split; [eexists; vm_compute; reflexivity|].
  split; [vm_compute; reflexivity|]. split; [vm_compute; reflexivity|].
  split; [|vm_compute; reflexivity].
  constructor; [|constructor; [|constructor]]; apply opens_msgA; vm_compute; reflexivity.
Qed.

(** ** C36 *)
Theorem C36_early_replay_loses_all : forall (C : Crypto) (T : target), CryptoLaws C ->
  forall r cfg pin s0 cs s h k xs,
  create C r cfg pin = Ok s0 -> run C T s0 cs = (s, h) -> lossless h -> user_deliveries h = [] ->
  established s -> session_key s = Some k ->
  Forall2 (fun d x => opens C T k d (fst x) (snd x)) (early_messages h) xs ->
  ~ NoDup (map fst xs) -> len xs <= 10000 -> len h < 2 ^ 64 ->
  exists s', drain_tmp_stack_user_msgs C T s = (s', Err (RecvInvalidMsg InvalidNonce)) /\
    established s' /\ drain_tmp_stack_user_msgs C T s' = (s', Ok []) /\
    exists pre x suf, xs = pre ++ x :: suf /\ pre <> [] /\ NoDup (map fst pre) /\ In (fst x) (map fst pre) /\
      forall d n data, opens C T k d n data -> In n (map fst pre) ->
        read C T d s' = (s', Err (RecvInvalidMsg InvalidNonce)).
Proof. exact early_replay_loses_all. Qed.
Print Assumptions C36_early_replay_loses_all.

Theorem C36_early_queue_grows : forall (C : Crypto) (T : target), CryptoLaws C ->
  forall s k d n data m,
  reachable C T s -> wants_only_ack s -> session_key s = Some k -> opens C T k d n data ->
  exists s', run C T s (repeat (CRead d) m) = (s', repeat (CRead d, RMsg (Ok None)) m) /\
    length (tmp_stack_user_msgs s') = (length (tmp_stack_user_msgs s) + m)%nat.
Proof. exact early_queue_grows. Qed.
Print Assumptions C36_early_queue_grows.

Example C36_case :
  let cs := [CConnect pkA None; CRead (connectB [x05]); CAck (Some [x06]);
             CRead (msgA 0 [x40]); CRead (msgA 0 [x40]); CRead (msgA 1 [x41]); CRead (ackB [])] in
  run toy T A0 cs = (after A0 cs, log A0 cs) /\ lossless (log A0 cs) /\ user_deliveries (log A0 cs) = [] /\
  early_messages (log A0 cs) = [msgA 0 [x40]; msgA 0 [x40]; msgA 1 [x41]] /\
  snd (drain_tmp_stack_user_msgs toy T (after A0 cs)) = Err (RecvInvalidMsg InvalidNonce) /\
  reachable toy T A3 /\ wants_only_ack A3 /\ session_key A3 = Some kAB.
Proof.
  split; [apply run_log|]. split; [apply lossless_check; vm_compute; reflexivity|].
  split; [vm_compute; reflexivity|]. split; [vm_compute; reflexivity|].
  split; [vm_compute; reflexivity|]. split; [exact reachable_A3|]. split; vm_compute; reflexivity.
Qed.

(** Sharing the work of a connection between a layer and its clone. *)

From Coq Require Import Arith ZifyBool ZifyNat ZifyN.
From Verif.Model Require Import Complete.
From Verif.Spec Require Import Wire Datagram Trace ReadSpec Accept Session Writers CompleteTrace Split.
From Verif.Proofs Require Import BaseFacts CipherFacts ReaderFacts ReadCases WindowFacts Invariant
  Negotiation Failure Sending CompleteFacts.

Section WithEnv.
Context (C : Crypto) (T : target).

(** ** Receiving does not look at what sending uses *)

(** [s] with another sending counter and clone mark. *)
Definition mask (x : N * bool) (s : msl) : msl := set_next_nonce_sent (fst x) (set_cloned (snd x) s).

Definition lift {A} (x : N * bool) (y : msl * A) : msl * A := (mask x (fst y), snd y).

Ltac split_all := repeat match goal with
  | |- context [match ?x with _ => _ end] => destruct x; try reflexivity
  end.
Ltac fields := cbn [mask set_next_nonce_sent set_cloned conf ephemeral encrypt_algo_with_secret next_nonce_expected
  orphan_nonce_list peer_sig_pubkey msl_status set_peer_sig_pubkey ephemeral_pubkey ack_msg_recv_too_early
  tmp_stack_user_msgs].

Lemma compute_mask x epk s :
  compute_shared_secret C epk (mask x s) = lift x (compute_shared_secret C epk s).
Proof. unfold compute_shared_secret. fields. split_all. Qed.

Lemma window_mask x n s : update_window T n (mask x s) = lift x (update_window T n s).
Proof. unfold update_window. fields. split_all. Qed.

Lemma read_connect_mask x d epk pk s :
  read_connect C d epk pk (mask x s) = lift x (read_connect C d epk pk s).
Proof.
  unfold read_connect. fields.
  destruct (peer_sig_pubkey s) as [k|].
  - destruct (negb _); [reflexivity|]. destruct (verify_sig C _ _ _) as [[]| |]; try reflexivity.
    fields. destruct (apply_action (msl_status s) (Receive TConnect)) as [st [r|e|p]]; try reflexivity.
    match goal with |- context [compute_shared_secret C epk ?y] =>
      change y with (mask x (set_peer_epk (Some epk) (set_status st s))) end.
    rewrite compute_mask. destruct (compute_shared_secret C epk _) as [s1 [|e|p]]; reflexivity.
  - destruct (verify_sig C _ _ _) as [[]| |]; try reflexivity.
    fields.
    destruct (apply_action (msl_status s) (Receive TConnect)) as [st [r|e|p]]; try reflexivity.
    match goal with |- context [compute_shared_secret C epk ?y] =>
      change y with (mask x (set_peer_epk (Some epk) (set_status st (set_peer_sig_pubkey (Some pk) s)))) end.
    rewrite compute_mask. destruct (compute_shared_secret C epk _) as [s1 [|e|p]]; reflexivity.
Qed.

Lemma read_ack_mask x b d ch s : read_ack C b d ch (mask x s) = lift x (read_ack C b d ch s).
Proof. unfold read_ack. fields. split_all. Qed.

Lemma read_user_mask x d n s : read_user C T d n (mask x s) = lift x (read_user C T d n s).
Proof.
  unfold read_user. fields.
  destruct (_ || _); [reflexivity|].
  destruct (apply_action (msl_status s) (Receive TUserMsg)) as [st [[[]|]|e|p]]; try reflexivity.
  destruct (obind _ _) as [[]|e|p]; try reflexivity.
  change (set_status st (mask x s)) with (mask x (set_status st s)).
  rewrite window_mask. destruct (update_window T n _) as [s1 [|e|p]]; reflexivity.
Qed.

Lemma read_inner_mask x chk d s :
  read_inner C T chk d (mask x s) = lift x (read_inner C T chk d s).
Proof.
  unfold read_inner. fields.
  destruct (reader_read C T (encrypt_algo_with_secret s) d chk) as [dd|e|p]; try reflexivity.
  destruct (dd_headers dd); [apply read_connect_mask|apply read_ack_mask|apply read_user_mask].
Qed.

Lemma drain_loop_mask x bs acc s :
  drain_loop C T bs acc (mask x s) = lift x (drain_loop C T bs acc s).
Proof.
  revert acc s. induction bs as [|b bs IH]; intros acc s; cbn [drain_loop]; [reflexivity|].
  rewrite read_inner_mask. destruct (read_inner C T false b s) as [s1 [[m|]|e|p]]; cbn [lift fst snd]; try reflexivity; apply IH.
Qed.

Lemma receiving_mask x s c :
  receiving c = true ->
  call_step C T (mask x s) c = (mask x (fst (call_step C T s c)), snd (call_step C T s c)).
Proof.
  destruct c as [d| | |pk cd|cd|data w| |cfg]; try discriminate; intros _; cbn [call_step].
  - unfold read. rewrite read_inner_mask. destruct (read_inner C T true d s); reflexivity.
  - unfold take_ack_msg_recv_too_early. fields.
    destruct (ack_msg_recv_too_early s) as [b|]; [|reflexivity].
    change (set_ack_early None (mask x s)) with (mask x (set_ack_early None s)).
    unfold read. rewrite read_inner_mask. destruct (read_inner C T true b _); reflexivity.
  - unfold drain_tmp_stack_user_msgs. fields.
    change (set_stack [] (mask x s)) with (mask x (set_stack [] s)).
    rewrite drain_loop_mask. destruct (drain_loop C T _ _ _); reflexivity.
Qed.

(** ** What receiving keeps *)
Lemma read_inner_keeps chk d s s' o :
  msl_status s = NegotiationSuccessful -> read_inner C T chk d s = (s', o) ->
  encrypt_algo_with_secret s' = encrypt_algo_with_secret s /\
  (msl_status s' = Fail \/ msl_status s' = NegotiationSuccessful) /\
  (forall m, o = Ok m -> msl_status s' = NegotiationSuccessful).
Proof.
  intros Hst. unfold read_inner.
  destruct (reader_read C T (encrypt_algo_with_secret s) d chk) as [dd|e|p].
  - destruct (dd_headers dd).
    + unfold read_connect. destruct (peer_sig_pubkey s) as [k|]; [destruct (negb _)|];
        [intros [= <- <-]; repeat split; auto; discriminate| |];
        destruct (verify_sig C _ _ _) as [[]| |];
          cbn [msl_status set_peer_sig_pubkey]; rewrite ?Hst; cbn [apply_action];
          intros [= <- <-]; repeat split; auto; discriminate.
    + unfold read_ack. destruct (negb _); [intros [= <- <-]; repeat split; auto; discriminate|].
      destruct (peer_sig_pubkey s) as [k|].
      * destruct (verify_sig C _ _ _) as [[]| |]; rewrite ?Hst; cbn [apply_action];
          intros [= <- <-]; repeat split; auto; discriminate.
      * destruct (ack_msg_recv_too_early s); intros [= <- <-]; repeat split; auto; discriminate.
    + unfold read_user. destruct (_ || _); [intros [= <- <-]; repeat split; auto; discriminate|].
      rewrite Hst. cbn [apply_action].
      destruct (obind _ _) as [[]|e|p]; try (intros [= <- <-]; repeat split; auto; discriminate).
      unfold update_window. cbn [set_status next_nonce_expected orphan_nonce_list].
      destruct (_ =? _).
      * destruct (u64_incr T _) as [n|e|p]; try (intros [= <- <-]; repeat split; auto; discriminate).
        destruct (absorb_orphans _ _ _ _) as [[n' l] [p|]]; intros [= <- <-]; repeat split; auto; discriminate.
      * destruct (_ <=? _); intros [= <- <-]; repeat split; auto; discriminate.
  - intros [= <- <-]. repeat split; auto; discriminate.
  - intros [= <- <-]. repeat split; auto; discriminate.
Qed.

Lemma drain_loop_keeps bs acc s s' o :
  msl_status s = NegotiationSuccessful -> drain_loop C T bs acc s = (s', o) ->
  encrypt_algo_with_secret s' = encrypt_algo_with_secret s /\
  (msl_status s' = Fail \/ msl_status s' = NegotiationSuccessful).
Proof.
  revert acc s. induction bs as [|b bs IH]; intros acc s Hst; cbn [drain_loop].
  - intros [= <- <-]. auto.
  - destruct (read_inner C T false b s) as [s1 o1] eqn:E.
    destruct (read_inner_keeps _ _ _ _ _ Hst E) as (H1 & H2 & H3).
    destruct o1 as [[m|]|e|p]; intros H; try (injection H as <- <-; auto; fail);
      apply IH in H as [H4 H5]; eauto; rewrite H4, H1; auto.
Qed.

Lemma receiving_keeps s c s' r :
  receiving c = true -> msl_status s = NegotiationSuccessful -> call_step C T s c = (s', r) ->
  encrypt_algo_with_secret s' = encrypt_algo_with_secret s /\ next_nonce_sent s' = next_nonce_sent s /\
  (msl_status s' = Fail \/ msl_status s' = NegotiationSuccessful).
Proof.
  intros Hc Hst. destruct c as [d| | |pk cd|cd|data w| |cfg]; try discriminate; cbn [call_step].
  - destruct (read C T d s) as [s1 o] eqn:E. intros [= <- <-].
    pose proof (read_inner_sendside C T _ _ _ _ _ E) as Hs. injection Hs as Hs _ _.
    apply read_inner_keeps in E as (H1 & H2 & _); auto.
  - destruct (take_ack_msg_recv_too_early C T s) as [s1 o] eqn:E. intros [= <- <-].
    unfold take_ack_msg_recv_too_early in E. destruct (ack_msg_recv_too_early s) as [b|]; [|injection E as <- _; auto].
    pose proof (read_inner_sendside C T _ _ _ _ _ E) as Hs. injection Hs as Hs _ _.
    apply read_inner_keeps in E as (H1 & H2 & _); auto.
  - destruct (drain_tmp_stack_user_msgs C T s) as [s1 o] eqn:E. intros [= <- <-].
    unfold drain_tmp_stack_user_msgs in E.
    pose proof (drain_loop_sendside C T _ _ _ _ _ E) as Hs. injection Hs as Hs _ _.
    apply drain_loop_keeps in E as (H1 & H2); auto.
Qed.

(** ** Sending only uses the session key and the counter *)
Definition sender (s : msl) := (msl_status s, encrypt_algo_with_secret s, next_nonce_sent s).

Lemma sending_same s1 s2 c :
  sending c = true -> sender s1 = sender s2 ->
  sender (fst (call_step C T s1 c)) = sender (fst (call_step C T s2 c)) /\
  snd (call_step C T s1 c) = snd (call_step C T s2 c).
Proof.
  unfold sender. intros Hc [= H1 H2 H3]. destruct c as [d| | |pk cd|cd|data w| |cfg]; try discriminate; cbn [call_step].
  unfold write_message, encapsulate_and_encrypt_and_write_message, encapsulate_message, encrypt_and_write, message_to_bytes.
  cbn [prepare_message obind set_status next_nonce_sent encrypt_algo_with_secret]. rewrite H1, H2, H3.
  destruct (apply_action (msl_status s2) (Create TUserMsg)) as [st [r|e|p]];
    try (cbn; rewrite H2, H3; split; reflexivity).
  destruct (encrypt_algo_with_secret s2) as [a|] eqn:E2; [|cbn; rewrite H2, H3, E2; split; reflexivity].
  destruct (encrypt C _ a w) as [w' [u|e|p]];
    [destruct (u64_incr T (next_nonce_sent s2))|..]; cbn; rewrite ?H2, ?H3, ?E2; split; reflexivity.
Qed.

Lemma sending_keeps s c :
  sending c = true ->
  exists st n, fst (call_step C T s c) = set_next_nonce_sent n (set_status st s).
Proof.
  intros Hc. destruct c as [d| | |pk cd|cd|data w| |cfg]; try discriminate; cbn [call_step].
  destruct (write_message C T data s w) as [[s1 w1] o] eqn:E. cbn [fst].
  apply write_message_cases in E
    as [(_ & -> & _)|[(_ & _ & -> & _)|(Hst & k & o1 & _ & _ &
        [(e & _ & _ & ->)|[(_ & n & Hn & -> & _)|(_ & p & _ & -> & _)]])]].
  - exists Fail, (next_nonce_sent s). destruct s; reflexivity.
  - exists (msl_status s), (next_nonce_sent s). destruct s; reflexivity.
  - exists Fail, (next_nonce_sent s). destruct s; reflexivity.
  - exists (msl_status s), n. destruct s; reflexivity.
  - exists (msl_status s), (next_nonce_sent s). destruct s; reflexivity.
Qed.
(** ** The original receives, the clone sends *)
Lemma receiving_sender s c s' r :
  receiving c = true -> msl_status s = NegotiationSuccessful -> call_step C T s c = (s', r) ->
  msl_status s' = NegotiationSuccessful -> sender s' = sender s.
Proof.
  intros Hc Hst E Hst'. destruct (receiving_keeps _ _ _ _ Hc Hst E) as (H1 & H2 & _).
  unfold sender. congruence.
Qed.

Lemma kinds_apart c : sending c = true -> receiving c = false.
Proof. destruct c; try discriminate; reflexivity. Qed.

Lemma mask_sending x s st n : mask x (set_next_nonce_sent n (set_status st s)) = set_status st (mask x s).
Proof. reflexivity. Qed.

Lemma nofatal_ok s c s1 r cs s2 h :
  Inv C T s -> call_step C T s c = (s1, r) -> run C T s1 cs = (s2, h) ->
  msl_status s = NegotiationSuccessful -> receiving c = true \/ sending c = true ->
  ~ happened fatal ((c, r) :: h) ->
  Inv C T s1 /\ msl_status s1 = NegotiationSuccessful /\ ~ happened fatal h.
Proof.
  intros HI E E2 Hst Hk Hf.
  assert (Inv C T s1) as HI1.
  { pose proof (inv_run C T s [c] HI) as H. cbn [run] in H. rewrite E in H. exact H. }
  split; [exact HI1|]. split.
  - assert (msl_status s1 = Fail \/ msl_status s1 = NegotiationSuccessful) as [H|H].
    { destruct Hk as [Hk|Hk]; [apply (receiving_keeps _ _ _ _ Hk Hst E)|].
      destruct c as [d| | |pk cd|cd|data w| |cfg]; try discriminate. cbn [call_step] in E.
      destruct (write_message C T data s w) as [[s3 w1] o] eqn:E3. injection E as <- <-.
      apply write_message_cases in E3
        as [(H & _)|[(_ & _ & -> & _)|(_ & k & o1 & _ & _ &
            [(e & _ & _ & ->)|[(_ & n & Hn & -> & _)|(_ & p & _ & -> & _)]])]]; auto. congruence. }
    + exfalso. apply Hf. exists (c, r). split; [left; reflexivity|].
      apply (step_fatal_iff C T _ _ _ _ HI E) in H as [H|H]; [congruence|exact H].
    + exact H.
  - intros (e & He & Hx). apply Hf. exists e. split; [right; exact He|exact Hx].
Qed.

Lemma split_run x s c cs s' h :
  Inv C T s -> msl_status s = NegotiationSuccessful -> sender c = sender s ->
  Forall (fun a => receiving a = true \/ sending a = true) cs ->
  run C T s cs = (s', h) -> ~ happened fatal h ->
  snd (run C T (mask x s) (filter receiving cs)) = only receiving h /\
  snd (run C T c (filter sending cs)) = only sending h.
Proof.
  revert s c h. induction cs as [|a cs IH]; intros s c h HI Hst Hs Hk E Hf.
  - injection E as <- <-. auto.
  - inversion Hk as [|? ? Ha Hk']; subst. cbn [run] in E.
    destruct (call_step C T s a) as [s1 r] eqn:E1. destruct (run C T s1 cs) as [s2 h2] eqn:E2.
    injection E as <- <-.
    destruct (nofatal_ok _ _ _ _ _ _ _ HI E1 E2 Hst Ha Hf) as (HI1 & Hst1 & Hf1).
    destruct Ha as [Ha|Ha].
    + assert (sending a = false) as Hb by (destruct a; try discriminate; reflexivity).
      cbn [filter only]. cbn [fst]. rewrite Ha, Hb. cbn [run].
      rewrite (receiving_mask x s a Ha), E1. cbn [fst snd].
      pose proof (receiving_sender _ _ _ _ Ha Hst E1 Hst1) as Hs1.
      destruct (IH s1 c h2 HI1 Hst1 (eq_trans Hs (eq_sym Hs1)) Hk' E2 Hf1) as [A B].
      destruct (run C T (mask x s1) (filter receiving cs)) as [s3 h3]. cbn [snd] in *. rewrite A. split; [reflexivity|exact B].
    + pose proof (kinds_apart a Ha) as Hb.
      cbn [filter only]. cbn [fst]. rewrite Ha, Hb. cbn [run].
      destruct (sending_same c s a Ha Hs) as [Hs1 Hr]. rewrite E1 in Hs1, Hr. cbn [fst snd] in Hs1, Hr.
      destruct (call_step C T c a) as [c1 r1]. cbn [fst snd] in Hs1, Hr. subst r1.
      destruct (sending_keeps s a Ha) as (st & n & Hst2). rewrite E1 in Hst2. cbn [fst] in Hst2.
      destruct (IH s1 c1 h2 HI1 Hst1 Hs1 Hk' E2 Hf1) as [A B].
      assert (mask x s1 = mask x s) as Hm.
      { rewrite Hst2, mask_sending. rewrite Hst2 in Hst1. cbn in Hst1. subst st. rewrite <- Hst.
        destruct s; reflexivity. }
      rewrite Hm in A.
      destruct (run C T c1 (filter sending cs)) as [c2 h3]. cbn [snd] in *. rewrite B. split; [exact A|reflexivity].
Qed.

Theorem split_by_clone s s0 c cs s' h :
  reachable C T s -> try_clone s = (s0, Ok c) ->
  Forall (fun a => receiving a = true \/ sending a = true) cs ->
  run C T s cs = (s', h) -> ~ happened fatal h ->
  snd (run C T s0 (filter receiving cs)) = only receiving h /\
  snd (run C T c (filter sending cs)) = only sending h.
Proof.
  intros HR Ec Hk E Hf. unfold try_clone in Ec. destruct (msl_status s) eqn:Hst; try discriminate.
  injection Ec as <- <-.
  replace (set_cloned true s) with (mask (next_nonce_sent s, true) s) by (destruct s; reflexivity).
  eapply split_run; try eassumption.
  - apply inv_reachable; exact HR.
  - unfold sender. cbn. rewrite Hst. reflexivity.
Qed.

(** ** The original sends, the clone receives *)
Definition receiver (s : msl) :=
  (msl_status s, encrypt_algo_with_secret s, next_nonce_expected s, orphan_nonce_list s, tmp_stack_user_msgs s).

Lemma set_status_receiver st s1 s2 : receiver s1 = receiver s2 -> receiver (set_status st s1) = receiver (set_status st s2).
Proof. unfold receiver. intros [= H1 H2 H3 H4 H5]. cbn. congruence. Qed.

Lemma window_same n s1 s2 : receiver s1 = receiver s2 ->
  receiver (fst (update_window T n s1)) = receiver (fst (update_window T n s2)) /\
  snd (update_window T n s1) = snd (update_window T n s2).
Proof.
  intros H. pose proof (set_status_receiver Fail _ _ H) as HF. revert HF. injection H as H1 H2 H3 H4 H5. intros HF.
  unfold update_window. rewrite H3, H4. destruct (_ =? _).
  - destruct (u64_incr T _) as [m|e|p]; [destruct (absorb_orphans _ _ _ _) as [[m' l] [p|]]|..];
      cbn [fst snd]; unfold receiver; cbn; split; congruence.
  - destruct (_ <=? _); cbn [fst snd]; [split; [exact HF|reflexivity]|]. unfold receiver; cbn; split; congruence.
Qed.

Lemma read_user_same d n s1 s2 : receiver s1 = receiver s2 ->
  receiver (fst (read_user C T d n s1)) = receiver (fst (read_user C T d n s2)) /\
  snd (read_user C T d n s1) = snd (read_user C T d n s2).
Proof.
  intros H. pose proof H as H'. injection H' as H1 H2 H3 H4 H5.
  unfold read_user. rewrite H1, H3, H4. destruct (_ || _); [auto|].
  destruct (apply_action (msl_status s2) (Receive TUserMsg)) as [st [[[]|]|e|p]];
    pose proof (set_status_receiver st _ _ H) as Hs; cbn [fst snd]; auto.
  - split; [|reflexivity]. unfold receiver. cbn. congruence.
  - destruct (obind _ _) as [[]|e|p]; cbn [fst snd]; auto.
    destruct (window_same n _ _ Hs) as [A B].
    destruct (update_window T n (set_status st s1)) as [s3 o3], (update_window T n (set_status st s2)) as [s4 o4].
    cbn [fst snd] in A, B. subst o4. destruct o3; cbn [fst snd]; auto.
Qed.

Lemma read_inner_same chk d s1 s2 : receiver s1 = receiver s2 ->
  (forall dd, reader_read C T (encrypt_algo_with_secret s2) d chk = Ok dd -> exists n, dd_headers dd = HUserMsg n) ->
  receiver (fst (read_inner C T chk d s1)) = receiver (fst (read_inner C T chk d s2)) /\
  snd (read_inner C T chk d s1) = snd (read_inner C T chk d s2).
Proof.
  intros H Hd. pose proof H as H'. injection H' as H1 H2 H3 H4 H5.
  unfold read_inner. rewrite H2. destruct (reader_read C T _ d chk) as [dd|e|p]; [|split; [apply set_status_receiver; exact H|reflexivity]|auto].
  destruct (Hd dd eq_refl) as [n ->]. apply read_user_same. exact H.
Qed.

Lemma sealed_is_user sec d dd :
  starts_clear d = false -> reader_read C T sec d true = Ok dd -> exists n, dd_headers dd = HUserMsg n.
Proof.
  intros Hd H. apply reader_read_inv in H as (enc & plain & L & th & h & l & ue & HL & Hp & Hue & Ht & Hc & -> & Hx).
  cbn [dd_headers]. specialize (Hc eq_refl). destruct Hx as [(-> & ->)|(-> & _)].
  - subst d. exfalso. clear -Hd. cbn in Hd. discriminate.
  - destruct h; try discriminate. eauto.
Qed.

Lemma drain_loop_same bs acc s1 s2 : Forall (queued T) bs -> receiver s1 = receiver s2 ->
  receiver (fst (drain_loop C T bs acc s1)) = receiver (fst (drain_loop C T bs acc s2)) /\
  snd (drain_loop C T bs acc s1) = snd (drain_loop C T bs acc s2).
Proof.
  intros HQ. revert acc s1 s2. induction HQ as [|b bs Hb HQ IH]; intros acc s1 s2 H; cbn [drain_loop]; [auto|].
  destruct (read_inner_same false b s1 s2 H) as [A B].
  { intros dd Hdd. destruct (reader_read_queued C T b (encrypt_algo_with_secret s2) Hb) as (L & n & rest & ue & _ & _ & _ & _ & Hr).
    rewrite Hr in Hdd. injection Hdd as <-. exists n. reflexivity. }
  destruct (read_inner C T false b s1) as [s3 o3], (read_inner C T false b s2) as [s4 o4]. cbn [fst snd] in A, B. subst o4.
  destruct o3 as [[m|]|e|p]; cbn [fst snd]; auto.
Qed.

Lemma receiving_same s1 s2 c :
  Inv C T s2 -> receiving_messages c = true -> receiver s1 = receiver s2 ->
  receiver (fst (call_step C T s1 c)) = receiver (fst (call_step C T s2 c)) /\
  snd (call_step C T s1 c) = snd (call_step C T s2 c).
Proof.
  intros HI Hc H. destruct c as [d| | |pk cd|cd|data w| |cfg]; try discriminate; cbn [call_step].
  - cbn [receiving_messages] in Hc. apply negb_true_iff in Hc.
    destruct (read_inner_same true d s1 s2 H) as [A B]; [intros dd; apply sealed_is_user; exact Hc|].
    unfold read. destruct (read_inner C T true d s1) as [s3 o3], (read_inner C T true d s2) as [s4 o4].
    cbn [fst snd] in *. subst o4. auto.
  - unfold drain_tmp_stack_user_msgs. pose proof H as H'. injection H' as H1 H2 H3 H4 H5. rewrite H5.
    destruct (drain_loop_same (tmp_stack_user_msgs s2) [] (set_stack [] s1) (set_stack [] s2)) as [A B].
    + apply inv_queue with (C := C). exact HI.
    + unfold receiver. cbn. congruence.
    + destruct (drain_loop C T _ _ (set_stack [] s1)) as [s3 o3], (drain_loop C T _ _ (set_stack [] s2)) as [s4 o4].
      cbn [fst snd] in *. subst o4. auto.
Qed.

Lemma receiving_messages_receiving c : receiving_messages c = true -> receiving c = true.
Proof. destruct c; try discriminate; reflexivity. Qed.

(** What a receiving call leaves alone beyond the sending side is not needed;
    sending leaves the receiving side alone. *)
Lemma sending_receiver s c s1 r :
  sending c = true -> call_step C T s c = (s1, r) -> msl_status s1 = msl_status s -> receiver s1 = receiver s.
Proof.
  intros Hc E Hst. destruct (sending_keeps s c Hc) as (st & n & H). rewrite E in H. cbn [fst] in H. subst s1.
  cbn in Hst. subst st. destruct s; reflexivity.
Qed.

Lemma split_run_swapped s o c cs s' h :
  Inv C T s -> msl_status s = NegotiationSuccessful -> sender o = sender s -> receiver c = receiver s ->
  Forall (fun a => receiving_messages a = true \/ sending a = true) cs ->
  run C T s cs = (s', h) -> ~ happened fatal h ->
  snd (run C T o (filter sending cs)) = only sending h /\
  snd (run C T c (filter receiving_messages cs)) = only receiving_messages h.
Proof.
  revert s o c h. induction cs as [|a cs IH]; intros s o c h HI Hst Hs Hr Hk E Hf.
  - injection E as <- <-. auto.
  - inversion Hk as [|? ? Ha Hk']; subst. cbn [run] in E.
    destruct (call_step C T s a) as [s1 r] eqn:E1. destruct (run C T s1 cs) as [s2 h2] eqn:E2.
    injection E as <- <-.
    assert (receiving a = true \/ sending a = true) as Ha'.
    { destruct Ha as [Ha|Ha]; [left; apply receiving_messages_receiving; exact Ha|right; exact Ha]. }
    destruct (nofatal_ok _ _ _ _ _ _ _ HI E1 E2 Hst Ha' Hf) as (HI1 & Hst1 & Hf1).
    destruct Ha as [Ha|Ha].
    + pose proof (receiving_messages_receiving a Ha) as Ha2.
      assert (sending a = false) as Hb by (destruct a; try discriminate; reflexivity).
      cbn [filter only]. cbn [fst]. rewrite Ha, Hb. cbn [run].
      pose proof (receiving_sender _ _ _ _ Ha2 Hst E1 Hst1) as Hs1.
      destruct (receiving_same c s a HI Ha Hr) as [Hr1 Hx]. rewrite E1 in Hr1, Hx. cbn [fst snd] in Hr1, Hx.
      destruct (call_step C T c a) as [c1 r1]. cbn [fst snd] in Hr1, Hx. subst r1.
      destruct (IH s1 o c1 h2 HI1 Hst1 (eq_trans Hs (eq_sym Hs1)) Hr1 Hk' E2 Hf1) as [A B].
      destruct (run C T c1 (filter receiving_messages cs)) as [s3 h3]. cbn [snd] in *. rewrite B. split; [exact A|reflexivity].
    + assert (receiving_messages a = false) as Hb by (destruct a; try discriminate; reflexivity).
      cbn [filter only]. cbn [fst]. rewrite Ha, Hb. cbn [run].
      destruct (sending_same o s a Ha Hs) as [Hs1 Hx]. rewrite E1 in Hs1, Hx. cbn [fst snd] in Hs1, Hx.
      destruct (call_step C T o a) as [o1 r1]. cbn [fst snd] in Hs1, Hx. subst r1.
      assert (receiver s1 = receiver s) as Hr1 by (eapply sending_receiver; [exact Ha|exact E1|congruence]).
      destruct (IH s1 o1 c h2 HI1 Hst1 Hs1 (eq_trans Hr (eq_sym Hr1)) Hk' E2 Hf1) as [A B].
      destruct (run C T o1 (filter sending cs)) as [c2 h3]. cbn [snd] in *. rewrite A. split; [reflexivity|exact B].
Qed.

Theorem split_by_clone_swapped s s0 c cs s' h :
  reachable C T s -> try_clone s = (s0, Ok c) ->
  Forall (fun a => receiving_messages a = true \/ sending a = true) cs ->
  run C T s cs = (s', h) -> ~ happened fatal h ->
  snd (run C T s0 (filter sending cs)) = only sending h /\
  snd (run C T c (filter receiving_messages cs)) = only receiving_messages h.
Proof.
  intros HR Ec Hk E Hf. unfold try_clone in Ec. destruct (msl_status s) eqn:Hst; try discriminate.
  injection Ec as <- <-.
  eapply split_run_swapped; try eassumption.
  - apply inv_reachable; exact HR.
  - reflexivity.
  - unfold receiver. cbn. rewrite Hst. reflexivity.
Qed.
End WithEnv.

(** ** Complete mode *)
Section Complete.
Context (C : Crypto) (Z : Zip) (T : target).

Definition smask (x : N * bool) (s : secure_layer) : secure_layer := set_minimal (mask x (minimal s)) s.

Lemma take_ack_mask x s :
  take_ack_msg_recv_too_early C T (mask x s) = lift x (take_ack_msg_recv_too_early C T s).
Proof.
  unfold take_ack_msg_recv_too_early. cbn [mask set_next_nonce_sent set_cloned ack_msg_recv_too_early].
  destruct (ack_msg_recv_too_early s) as [b|]; [|reflexivity].
  change (set_ack_early None (mask x s)) with (mask x (set_ack_early None s)). apply read_inner_mask.
Qed.

Lemma drain_mask x s :
  drain_tmp_stack_user_msgs C T (mask x s) = lift x (drain_tmp_stack_user_msgs C T s).
Proof.
  unfold drain_tmp_stack_user_msgs. cbn [mask set_next_nonce_sent set_cloned tmp_stack_user_msgs].
  change (set_stack [] (mask x s)) with (mask x (set_stack [] s)). apply drain_loop_mask.
Qed.

Lemma sreceiving_mask x d s :
  read_bin C Z T d (smask x s) = (smask x (fst (read_bin C Z T d s)), snd (read_bin C Z T d s)).
Proof.
  unfold read_bin, smask. cbn [minimal set_minimal]. unfold read. rewrite read_inner_mask.
  destruct (read_inner C T true d (minimal s)) as [m [[[a pk y|y|y]|]|e|p]]; cbn [lift fst snd]; try reflexivity.
  - destruct (uncompress_opt Z y); try reflexivity. rewrite take_ack_mask.
    destruct (take_ack_msg_recv_too_early C T m) as [m2 [[[]|]|e|p]]; reflexivity.
  - destruct (uncompress_opt Z y); try reflexivity. rewrite drain_mask.
    destruct (drain_tmp_stack_user_msgs C T m) as [m2 [l|e|p]]; reflexivity.
Qed.

Lemma run_fail s cs s' h : Inv C T s -> run C T s cs = (s', h) -> msl_status s = Fail -> msl_status s' = Fail.
Proof. intros HI E H. apply (run_fatal_iff C T s cs s' h HI E). left. exact H. Qed.

Lemma run_receiving s cs s' h :
  Inv C T s -> Forall (fun c => receiving c = true) cs -> run C T s cs = (s', h) ->
  msl_status s = NegotiationSuccessful -> msl_status s' = NegotiationSuccessful -> sender s' = sender s.
Proof.
  revert s h. induction cs as [|c cs IH]; intros s h HI Hc E Hst Hst'.
  - injection E as <- _. reflexivity.
  - inversion Hc as [|? ? H1 H2]; subst. cbn [run] in E.
    destruct (call_step C T s c) as [s1 r] eqn:E1. destruct (run C T s1 cs) as [s2 h2] eqn:E2. injection E as <- <-.
    assert (Inv C T s1) as HI1.
    { pose proof (inv_run C T s [c] HI) as H. cbn [run] in H. rewrite E1 in H. exact H. }
    assert (msl_status s1 = NegotiationSuccessful) as Hst1.
    { destruct (receiving_keeps C T _ _ _ _ H1 Hst E1) as (_ & _ & [Hf|Hf]); [|exact Hf].
      rewrite (run_fail _ _ _ _ HI1 E2 Hf) in Hst'. discriminate. }
    rewrite (IH s1 h2 HI1 H2 E2 Hst1 Hst'). eapply receiving_sender; eassumption.
Qed.

Lemma read_bin_conf d s : conf (minimal (fst (read_bin C Z T d s))) = conf (minimal s).
Proof.
  unfold read_bin, read. destruct (read_inner C T true d (minimal s)) as [m o] eqn:E.
  pose proof (read_inner_sendside C T _ _ _ _ _ E) as Hs. injection Hs as _ _ Hs.
  destruct o as [[[a pk y|y|y]|]|e|p]; cbn [fst set_minimal minimal]; try exact Hs.
  - destruct (uncompress_opt Z y); cbn [fst set_minimal minimal]; try exact Hs.
    unfold take_ack_msg_recv_too_early. destruct (ack_msg_recv_too_early m) as [b|]; [|exact Hs].
    destruct (read C T b (set_ack_early None m)) as [m2 o2] eqn:E2.
    pose proof (read_inner_sendside C T _ _ _ _ _ E2) as Hs2. injection Hs2 as _ _ Hs2. rewrite <- Hs.
    destruct o2 as [[[]|]|e|p]; exact Hs2.
  - destruct (uncompress_opt Z y); cbn [fst set_minimal minimal]; try exact Hs.
    destruct (drain_tmp_stack_user_msgs C T m) as [m2 o2] eqn:E2.
    pose proof (drain_loop_sendside C T _ _ _ _ _ E2) as Hs2. injection Hs2 as _ _ Hs2. rewrite <- Hs.
    destruct o2 as [l|e|p]; exact Hs2.
Qed.

Lemma write_bin_step data w s :
  scall_step C Z T s (SWrite data w) =
    (set_minimal (fst (call_step C T (minimal s) (CWrite (compress Z data s) w))) s,
     match snd (call_step C T (minimal s) (CWrite (compress Z data s) w)) with
     | RWritten o w' => SWritten o w'
     | _ => SUnit (Ok tt)
     end).
Proof.
  cbn [scall_step call_step]. unfold write_bin, writer_write_bin_message.
  destruct (write_message C T _ (minimal s) w) as [[m w'] o]. reflexivity.
Qed.

Lemma ssplit_run x s c cs s' h :
  sreachable C Z T s -> sestablished s -> sender (minimal c) = sender (minimal s) -> conf (minimal c) = conf (minimal s) ->
  Forall (fun a => sreceiving a = true \/ ssending a = true) cs ->
  srun C Z T s cs = (s', h) -> sestablished s' ->
  snd (srun C Z T (smask x s) (filter sreceiving cs)) = sonly sreceiving h /\
  snd (srun C Z T c (filter ssending cs)) = sonly ssending h.
Proof.
  assert (forall s, sestablished s <-> msl_status (minimal s) = NegotiationSuccessful) as Hest.
  { intros s1. unfold sestablished, sl_try_clone, try_clone. destruct (msl_status (minimal s1)); split; try (intros [? ?]; discriminate); try discriminate; intros; try reflexivity; eexists; reflexivity. }
  revert s c h. induction cs as [|a cs IH]; intros s c h HR Hst Hs Hcf Hk E Hst'.
  - injection E as <- <-. auto.
  - inversion Hk as [|? ? Ha Hk']; subst. cbn [srun] in E.
    destruct (scall_step C Z T s a) as [s1 r] eqn:E1. destruct (srun C Z T s1 cs) as [s2 h2] eqn:E2.
    injection E as <- <-.
    assert (sreachable C Z T s1) as HR1.
    { pose proof (sreach_step C Z T s a HR) as H. rewrite E1 in H. exact H. }
    pose proof (inv_reachable C T _ (sreachable_minimal C Z T s HR)) as HI.
    pose proof (inv_reachable C T _ (sreachable_minimal C Z T s1 HR1)) as HI1.
    assert (sestablished s1) as Hst1.
    { apply Hest. destruct (msl_status (minimal s1)) eqn:Hx; [exfalso|exfalso|reflexivity].
      - destruct (srun_sub C Z T _ _ _ _ E2) as (css & hm & _ & Hrun).
        apply Hest in Hst'. rewrite (run_fail _ _ _ _ HI1 Hrun Hx) in Hst'. discriminate.
      - destruct (scall_sub C Z T s a s1 r E1) as (cs1 & h1 & Hsub & Hrun).
        apply Hest in Hst. clear -HI Hst Hx Hrun.
        assert (forall cs s s' h, Inv C T s -> run C T s cs = (s', h) ->
          msl_status s = NegotiationSuccessful \/ msl_status s = Fail ->
          msl_status s' = NegotiationSuccessful \/ msl_status s' = Fail) as G.
        { clear. induction cs as [|c cs IH]; intros s s' h HI E H.
          - injection E as <- _. exact H.
          - cbn [run] in E. destruct (call_step C T s c) as [s1 r] eqn:E1. destruct (run C T s1 cs) as [s2 h2] eqn:E2.
            injection E as <- _. apply (IH s1 s2 h2); [|exact E2|].
            + pose proof (inv_run C T s [c] HI) as G. cbn [run] in G. rewrite E1 in G. exact G.
            + pose proof (step_evolves C T _ _ _ _ HI E1) as Hev.
              inversion Hev; subst; auto; destruct H as [H|H]; congruence. }
        destruct (G _ _ _ _ HI Hrun (or_introl Hst)) as [H|H]; congruence. }
    destruct Ha as [Ha|Ha]; destruct a as [d|? ?|? ?|data w| |?]; try discriminate; clear Ha.
    + cbn [filter sonly sreceiving ssending fst srun scall_step]. cbn [scall_step] in E1.
      rewrite (sreceiving_mask x d s). pose proof (read_bin_conf d s) as Hc1.
      destruct (read_bin C Z T d s) as [s3 o] eqn:E3. injection E1 as <- <-. cbn [fst snd] in *.
      assert (sender (minimal s3) = sender (minimal s)) as Hs1.
      { destruct (scall_sub C Z T s (SRead d) s3 (SMsgs o)) as (cs1 & h1 & Hsub & Hrun).
        { cbn [scall_step]. rewrite E3. reflexivity. }
        eapply run_receiving; [exact HI| |exact Hrun| |].
        - inversion Hsub; subst; repeat constructor.
        - apply Hest; exact Hst.
        - apply Hest; exact Hst1. }
      destruct (IH s3 c h2 HR1 Hst1 (eq_trans Hs (eq_sym Hs1)) (eq_trans Hcf (eq_sym Hc1)) Hk' E2 Hst') as [A B].
      destruct (srun C Z T (smask x s3) (filter sreceiving cs)) as [s4 h4]. cbn [snd] in *. rewrite A. split; [reflexivity|exact B].
    + cbn [filter sonly sreceiving ssending fst srun].
      rewrite (write_bin_step data w c). rewrite (write_bin_step data w s) in E1.
      assert (compress Z data c = compress Z data s) as Hz by (unfold compress; rewrite Hcf; reflexivity).
      rewrite Hz. set (a := CWrite (compress Z data s) w) in *.
      destruct (sending_same C T (minimal c) (minimal s) a eq_refl Hs) as [Hs1 Hx].
      destruct (sending_keeps C T (minimal s) a eq_refl) as (st & n & Hst2).
      destruct (sending_keeps C T (minimal c) a eq_refl) as (st' & n' & Hst2').
      destruct (call_step C T (minimal s) a) as [m1 r1]. destruct (call_step C T (minimal c) a) as [m2 r2].
      cbn [fst snd] in *. subst r2. injection E1 as <- <-.
      destruct (IH (set_minimal m1 s) (set_minimal m2 c) h2 HR1 Hst1) as [A B]; auto.
      { cbn [set_minimal minimal]. rewrite Hst2, Hst2'. exact Hcf. }
      assert (smask x (set_minimal m1 s) = smask x s) as Hm.
      { apply Hest in Hst1. apply Hest in Hst. cbn [set_minimal minimal] in Hst1. rewrite Hst2 in Hst1. cbn in Hst1. subst st.
        unfold smask. cbn [set_minimal minimal sig_key_pair]. rewrite Hst2, mask_sending, <- Hst.
        destruct s as [m kp]. destruct m; reflexivity. }
      rewrite Hm in A.
      destruct (srun C Z T (set_minimal m2 c) (filter ssending cs)) as [c2 h3]. cbn [snd] in *. rewrite B. split; [exact A|reflexivity].
Qed.

Theorem ssplit_by_clone s s0 c cs s' h :
  sreachable C Z T s -> sl_try_clone s = (s0, Ok c) ->
  Forall (fun a => sreceiving a = true \/ ssending a = true) cs ->
  srun C Z T s cs = (s', h) -> sestablished s' ->
  snd (srun C Z T s0 (filter sreceiving cs)) = sonly sreceiving h /\
  snd (srun C Z T c (filter ssending cs)) = sonly ssending h.
Proof.
  intros HR Ec Hk E Hst'. assert (sestablished s) as Hst by (exists c; rewrite Ec; reflexivity).
  unfold sl_try_clone, try_clone in Ec. destruct (msl_status (minimal s)) eqn:Hx; try discriminate.
  injection Ec as <- <-.
  replace (set_minimal (set_cloned true (minimal s)) s) with (smask (next_nonce_sent (minimal s), true) s)
    by (destruct s as [m kp]; destruct m; reflexivity).
  eapply ssplit_run; try eassumption.
  - unfold sender. cbn. rewrite Hx. reflexivity.
  - reflexivity.
Qed.
End Complete.

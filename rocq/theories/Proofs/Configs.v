(** Changing the configuration. *)

From Coq Require Import Arith ZifyBool ZifyNat ZifyN.
From Verif.Model Require Import Complete.
From Verif.Spec Require Import Wire Datagram Trace ReadSpec Accept Session Writers Attacks CompleteTrace.
From Verif.Proofs Require Import BaseFacts IoFacts CipherFacts ReaderFacts ReadCases WindowFacts Invariant
  Negotiation Sending CompleteFacts.

Section WithEnv.
Context (C : Crypto) (Z : Zip) (T : target).

(** ** The configuration does not influence the layer inside *)
Ltac split_all := repeat match goal with
  | |- context [match ?x with _ => _ end] => destruct x; try reflexivity
  end.

Definition lift {A} (cfg : config) (x : msl * A) : msl * A := (set_conf cfg (fst x), snd x).

Lemma compute_conf cfg epk s :
  compute_shared_secret C epk (set_conf cfg s) = lift cfg (compute_shared_secret C epk s).
Proof.
  unfold compute_shared_secret. cbn [set_conf conf ephemeral encrypt_algo_with_secret].
  destruct (cfg_encrypt_algo cfg), (cfg_encrypt_algo (conf s)). split_all.
Qed.

Lemma window_conf cfg n s : update_window T n (set_conf cfg s) = lift cfg (update_window T n s).
Proof.
  unfold update_window. cbn [set_conf next_nonce_expected orphan_nonce_list]. split_all.
Qed.

Lemma read_connect_conf cfg d epk pk s :
  read_connect C d epk pk (set_conf cfg s) = lift cfg (read_connect C d epk pk s).
Proof.
  unfold read_connect. cbn [set_conf peer_sig_pubkey].
  destruct (peer_sig_pubkey s) as [k|].
  - destruct (negb _); [reflexivity|]. destruct (verify_sig C _ _ _) as [[]| |]; try reflexivity.
    cbn [set_conf msl_status]. destruct (apply_action (msl_status s) (Receive TConnect)) as [st [r|e|p]]; try reflexivity.
    change (set_peer_epk (Some epk) (set_status st (set_conf cfg s)))
      with (set_conf cfg (set_peer_epk (Some epk) (set_status st s))).
    rewrite compute_conf. destruct (compute_shared_secret C epk _) as [s1 [|e|p]]; reflexivity.
  - destruct (verify_sig C _ _ _) as [[]| |]; try reflexivity.
    cbn [set_conf msl_status set_peer_sig_pubkey].
    destruct (apply_action (msl_status s) (Receive TConnect)) as [st [r|e|p]]; try reflexivity.
    match goal with |- context [compute_shared_secret C epk ?x] =>
      change x with (set_conf cfg (set_peer_epk (Some epk) (set_status st (set_peer_sig_pubkey (Some pk) s)))) end.
    rewrite compute_conf. destruct (compute_shared_secret C epk _) as [s1 [|e|p]]; reflexivity.
Qed.

Lemma read_ack_conf cfg b d ch s : read_ack C b d ch (set_conf cfg s) = lift cfg (read_ack C b d ch s).
Proof.
  unfold read_ack. cbn [set_conf peer_sig_pubkey ephemeral_pubkey ack_msg_recv_too_early msl_status]. split_all.
Qed.

Lemma read_user_conf cfg d n s : read_user C T d n (set_conf cfg s) = lift cfg (read_user C T d n s).
Proof.
  unfold read_user. cbn [set_conf next_nonce_expected orphan_nonce_list msl_status tmp_stack_user_msgs].
  destruct (_ || _); [reflexivity|].
  destruct (apply_action (msl_status s) (Receive TUserMsg)) as [st [[[]|]|e|p]]; try reflexivity.
  destruct (obind _ _) as [[]|e|p]; try reflexivity.
  change (set_status st (set_conf cfg s)) with (set_conf cfg (set_status st s)).
  rewrite window_conf. destruct (update_window T n _) as [s1 [|e|p]]; reflexivity.
Qed.

Lemma read_inner_conf cfg chk d s :
  read_inner C T chk d (set_conf cfg s) = lift cfg (read_inner C T chk d s).
Proof.
  unfold read_inner. cbn [set_conf encrypt_algo_with_secret].
  destruct (reader_read C T (encrypt_algo_with_secret s) d chk) as [dd|e|p]; try reflexivity.
  destruct (dd_headers dd); [apply read_connect_conf|apply read_ack_conf|apply read_user_conf].
Qed.

Lemma take_ack_conf cfg s :
  take_ack_msg_recv_too_early C T (set_conf cfg s) = lift cfg (take_ack_msg_recv_too_early C T s).
Proof.
  unfold take_ack_msg_recv_too_early. cbn [set_conf ack_msg_recv_too_early].
  destruct (ack_msg_recv_too_early s) as [b|]; [|reflexivity].
  change (set_ack_early None (set_conf cfg s)) with (set_conf cfg (set_ack_early None s)).
  apply read_inner_conf.
Qed.

Lemma drain_loop_conf cfg bs acc s :
  drain_loop C T bs acc (set_conf cfg s) = lift cfg (drain_loop C T bs acc s).
Proof.
  revert acc s. induction bs as [|b bs IH]; intros acc s; cbn [drain_loop]; [reflexivity|].
  rewrite read_inner_conf. destruct (read_inner C T false b s) as [s1 [[m|]|e|p]]; cbn [lift fst snd]; try reflexivity; apply IH.
Qed.

Lemma drain_conf cfg s :
  drain_tmp_stack_user_msgs C T (set_conf cfg s) = lift cfg (drain_tmp_stack_user_msgs C T s).
Proof.
  unfold drain_tmp_stack_user_msgs. cbn [set_conf tmp_stack_user_msgs].
  change (set_stack [] (set_conf cfg s)) with (set_conf cfg (set_stack [] s)). apply drain_loop_conf.
Qed.

(** Calls of the layer inside, other than cloning and configuring. *)
Theorem minimal_ignores_config cfg s c :
  c <> CClone -> (forall x, c <> CConfig x) ->
  call_step C T (set_conf cfg s) c = (set_conf cfg (fst (call_step C T s c)), snd (call_step C T s c)).
Proof.
  intros H1 H2. destruct c as [d| | |pk cd|cd|data w| |x]; try congruence; try (exfalso; eapply H2; reflexivity); cbn [call_step].
  - unfold read. rewrite read_inner_conf. destruct (read_inner C T true d s); reflexivity.
  - rewrite take_ack_conf. destruct (take_ack_msg_recv_too_early C T s); reflexivity.
  - rewrite drain_conf. destruct (drain_tmp_stack_user_msgs C T s); reflexivity.
  - unfold create_connect_message, encapsulate_message. cbn [set_conf msl_status set_status ephemeral_pubkey peer_epk].
    destruct (apply_action (msl_status s) (Create TConnect)) as [st [r|e|p]]; try reflexivity;
      destruct (message_to_bytes C _ _ _); reflexivity.
  - unfold create_ack_message, encapsulate_message. cbn [set_conf msl_status set_status ephemeral_pubkey peer_epk].
    destruct (apply_action (msl_status s) (Create TAck)) as [st [r|e|p]]; try reflexivity;
      destruct (message_to_bytes C _ _ _); reflexivity.
  - unfold write_message, encapsulate_and_encrypt_and_write_message, encapsulate_message, encrypt_and_write.
    cbn [set_conf msl_status set_status ephemeral_pubkey peer_epk next_nonce_sent encrypt_algo_with_secret].
    destruct (apply_action (msl_status s) (Create TUserMsg)) as [st [r|e|p]]; try reflexivity.
    cbn [set_status next_nonce_sent ephemeral_pubkey peer_epk set_conf encrypt_algo_with_secret].
    destruct (message_to_bytes C _ _ _) as [m|e|p]; try reflexivity.
    destruct (encrypt_algo_with_secret s) as [a|]; try reflexivity.
    destruct (encrypt C _ a w) as [w' [u|e|p]]; try reflexivity.
    destruct (u64_incr T (next_nonce_sent s)); reflexivity.
Qed.

(** ** Reading in complete mode *)
Theorem read_ignores_config cfg d s :
  read_bin C Z T d (with_conf cfg s) = (with_conf cfg (fst (read_bin C Z T d s)), snd (read_bin C Z T d s)).
Proof.
  unfold read_bin, with_conf. cbn [minimal set_minimal]. unfold read. rewrite read_inner_conf.
  destruct (read_inner C T true d (minimal s)) as [m [[[a pk x|x|x]|]|e|p]]; cbn [lift fst snd]; try reflexivity.
  - destruct (uncompress_opt Z x); try reflexivity. rewrite take_ack_conf.
    destruct (take_ack_msg_recv_too_early C T m) as [m2 [[[]|]|e|p]]; reflexivity.
  - destruct (uncompress_opt Z x); try reflexivity. rewrite drain_conf.
    destruct (drain_tmp_stack_user_msgs C T m) as [m2 [l|e|p]]; reflexivity.
Qed.

(** ** When a change is allowed *)
Lemma scall_cloned s c s' r :
  sreachable C Z T s -> scall_step C Z T s c = (s', r) ->
  cloned (minimal s') = cloned (minimal s) || clone_made (c, r).
Proof.
  intros HR. pose proof (inv_reachable C T _ (sreachable_minimal C Z T s HR)) as HI.
  destruct c as [d|cd w|cd w|data w| |cfg]; cbn [scall_step].
  - destruct (read_bin C Z T d s) as [s1 o] eqn:E. intros [= <- <-]. cbn [clone_made snd]. rewrite orb_false_r.
    unfold read_bin in E.
    destruct (read C T d (minimal s)) as [m [[[a pk x|x|x]|]|e|p]] eqn:Er;
      apply read_inner_sendside in Er; injection Er as _ Er _; rewrite <- Er;
      try (injection E as <- _; reflexivity).
    + destruct (uncompress_opt Z x); try (injection E as <- _; reflexivity).
      unfold take_ack_msg_recv_too_early in E. destruct (ack_msg_recv_too_early m) as [b|]; [|injection E as <- _; reflexivity].
      destruct (read C T b (set_ack_early None m)) as [m2 o2] eqn:Et.
      apply read_inner_sendside in Et. injection Et as _ Et _. cbn [set_ack_early cloned] in Et. rewrite <- Et.
      destruct o2 as [[[]|]|e|p]; injection E as <- _; reflexivity.
    + destruct (uncompress_opt Z x); try (injection E as <- _; reflexivity).
      destruct (drain_tmp_stack_user_msgs C T m) as [m2 o2] eqn:Et.
      apply drain_loop_sendside in Et. injection Et as _ Et _. cbn [set_stack cloned] in Et. rewrite <- Et.
      destruct o2 as [l|e|p]; injection E as <- _; reflexivity.
  - unfold write_connect_msg_bin, writer_write_connect_msg.
    destruct (sig_key_pair s) as [seed|]; [|intros [= <- <-]; cbn; rewrite orb_false_r; reflexivity].
    destruct (create_connect_message C _ _ (minimal s)) as [m o] eqn:Er.
    assert (cloned m = cloned (minimal s)) as <-.
    { apply create_connect_cases in Er as [(r0 & _ & -> & _)|(-> & _)]; reflexivity. }
    destruct o as [b|e|p]; [destruct (write_signed C seed b w)|..]; intros [= <- <-]; cbn; rewrite orb_false_r; reflexivity.
  - unfold write_ack_msg_bin, writer_write_ack_msg.
    destruct (sig_key_pair s) as [seed|]; [|intros [= <- <-]; cbn; rewrite orb_false_r; reflexivity].
    destruct (create_ack_message C _ (minimal s)) as [m o] eqn:Er.
    assert (cloned m = cloned (minimal s)) as <-.
    { apply (create_ack_cases C T) in Er as [(st & epk & _ & -> & _)|(-> & _)]; try exact HI; reflexivity. }
    destruct o as [b|e|p]; [destruct (write_signed C seed b w)|..]; intros [= <- <-]; cbn; rewrite orb_false_r; reflexivity.
  - unfold write_bin, writer_write_bin_message.
    destruct (write_message C T _ (minimal s) w) as [[m w'] o] eqn:Er. intros [= <- <-]. cbn. rewrite orb_false_r.
    apply write_message_cases in Er
        as [(_ & -> & _ & [(l & r & _ & ->)|(_ & ->)])|[(_ & _ & -> & _ & ->)|(Hst & k & o1 & _ & _ &
            [(e & _ & -> & ->)|[(_ & n & Hn & -> & ->)|(_ & p & _ & -> & ->)]])]]; reflexivity.
  - unfold sl_try_clone, try_clone. destruct (msl_status (minimal s)); intros [= <- <-]; cbn;
      rewrite ?orb_false_r, ?orb_true_r; reflexivity.
  - unfold sl_change_config, change_config. destruct (cloned (minimal s)) eqn:Ec; intros [= <- <-]; cbn; rewrite Ec; reflexivity.
Qed.

Lemma srun_cloned s cs s' h :
  sreachable C Z T s -> srun C Z T s cs = (s', h) ->
  cloned (minimal s') = cloned (minimal s) || existsb clone_made h.
Proof.
  revert s h. induction cs as [|c cs IH]; intros s h HR; cbn [srun].
  - intros [= -> <-]. cbn. rewrite orb_false_r. reflexivity.
  - destruct (scall_step C Z T s c) as [s1 r] eqn:E. destruct (srun C Z T s1 cs) as [s2 h2] eqn:E2.
    intros [= -> <-]. cbn [existsb].
    assert (sreachable C Z T s1) as HR1.
    { pose proof (sreach_step C Z T s c HR) as H. rewrite E in H. exact H. }
    rewrite (IH s1 h2 HR1 E2), (scall_cloned s c s1 r HR E), orb_assoc. reflexivity.
Qed.

Lemma change_refused cfg s :
  cloned (minimal s) = true -> sl_change_config cfg s = (s, Err ForbidChangeConfAfterClone).
Proof.
  intros H. unfold sl_change_config, change_config. rewrite H. cbn [negb]. rewrite set_minimal_same. reflexivity.
Qed.

Theorem config_unless_cloned r rs cfg0 seed pin s0 cs s h :
  sl_create C r rs cfg0 seed pin = Ok s0 -> srun C Z T s0 cs = (s, h) ->
  forall cfg,
  sl_change_config cfg s =
    (if existsb clone_made h then (s, Err ForbidChangeConfAfterClone) else (with_conf cfg s, Ok tt)).
Proof.
  intros E0 E cfg. pose proof (sreach_create C Z T r rs cfg0 seed pin s0 E0) as HR.
  pose proof (srun_cloned s0 cs s h HR E) as H.
  assert (cloned (minimal s0) = false) as H0.
  { unfold sl_create, create in E0.
    destruct seed as [sd|]; [|destruct rs as [sd|]]; cbn [obind] in E0; try discriminate;
      destruct (ekp_generate C r); try discriminate; injection E0 as <-; reflexivity. }
  rewrite H0 in H. cbn [orb] in H.
  destruct (existsb clone_made h); [apply change_refused; exact H|].
  unfold sl_change_config, change_config. rewrite H. reflexivity.
Qed.

Theorem config_never_on_clone s c cs c' h :
  sreachable C Z T s -> snd (sl_try_clone s) = Ok c -> srun C Z T c cs = (c', h) ->
  forall cfg, sl_change_config cfg c' = (c', Err ForbidChangeConfAfterClone).
Proof.
  intros HR Ec E cfg. apply change_refused.
  rewrite (srun_cloned c cs c' h (sreach_clone C Z T s c HR Ec) E).
  unfold sl_try_clone, try_clone in Ec. destruct (msl_status (minimal s)); try discriminate.
  injection Ec as <-. reflexivity.
Qed.

End WithEnv.

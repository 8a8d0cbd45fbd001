(** Peer keys, secrets and early ACKs along a history. *)

From Coq Require Import Arith ZifyBool ZifyNat ZifyN.
From Verif.Model Require Import Minimal.
From Verif.Spec Require Import Wire Datagram Trace ReadSpec Accept Session.
From Verif.Proofs Require Import BaseFacts CipherFacts ReaderFacts ReadCases WindowFacts Invariant
  Negotiation Failure DatagramFacts ReadSpecFacts Accept.

(** The fields no call but the two reading ones changes. *)
Definition keys (s : msl) :=
  (ephemeral s, ephemeral_pubkey s, peer_epk s, peer_sig_pubkey s,
   encrypt_algo_with_secret s, ack_msg_recv_too_early s).

Section WithEnv.
Context (C : Crypto) (T : target).

Lemma bytes_gtb_decode a b :
  length a = length b -> bytes_gtb a b = (be_decode b <? be_decode a).
Proof.
  revert b. induction a as [|x a IH]; intros [|y b] H; cbn [length bytes_gtb] in *; try discriminate.
  - reflexivity.
  - injection H as H.
    change (x :: a) with ([x] ++ a). change (y :: b) with ([y] ++ b).
    rewrite !be_decode_app, !be_decode_single.
    assert (len a = len b) as Hl by (unfold len; lia). rewrite Hl.
    pose proof (be_decode_lt a) as Ha. pose proof (be_decode_lt b) as Hb. rewrite Hl in Ha.
    set (w := 256 ^ len b) in *.
    destruct (N.eqb_spec (Byte.to_N x) (Byte.to_N y)) as [->|Hne].
    + rewrite IH by exact H.
      destruct (N.ltb_spec (be_decode b) (be_decode a)), 
        (N.ltb_spec (Byte.to_N y * w + be_decode b) (Byte.to_N y * w + be_decode a)); lia.
    + destruct (N.ltb_spec (Byte.to_N y) (Byte.to_N x)) as [Hlt|Hge];
        destruct (N.ltb_spec (Byte.to_N y * w + be_decode b) (Byte.to_N x * w + be_decode a)); try reflexivity; nia.
Qed.

Lemma larger_gtb a b : len a = len b -> (if bytes_gtb a b then a else b) = larger a b.
Proof. intros H. unfold larger. rewrite bytes_gtb_decode by (unfold len in H; lia). reflexivity. Qed.

Lemma window_keys n s s' o : update_window T n s = (s', o) -> keys s' = keys s.
Proof. intros H. apply update_window_shape in H as [(v & l & -> & _)|[-> _]]; reflexivity. Qed.

Lemma rcase_queued_keys d s s' o :
  queued T d -> rcase C T false d s s' o -> keys s' = keys s.
Proof.
  intros Hq H.
  destruct (reader_read_queued C T d (encrypt_algo_with_secret s) Hq)
    as (L & n0 & rest & ue & HL & Hn & Hd & Hue & Hr).
  destruct H;
    match goal with
    | H1 : reader_read _ _ _ _ _ = Ok ?dd |- _ =>
        rewrite Hr in H1; injection H1 as <-; cbn [dd_headers] in *; try discriminate
    | H1 : reader_read _ _ _ _ _ = _ |- _ => rewrite Hr in H1; discriminate
    end; try reflexivity.
  eapply window_keys; eassumption.
Qed.

Lemma drain_loop_keys bs acc s s' o :
  Forall (queued T) bs -> drain_loop C T bs acc s = (s', o) -> keys s' = keys s.
Proof.
  revert acc s. induction bs as [|b bs IH]; intros acc s Hq E; cbn [drain_loop] in E.
  - injection E as <- <-. reflexivity.
  - destruct (read_inner C T false b s) as [s1 o1] eqn:E1.
    apply read_inner_cases in E1. apply rcase_queued_keys in E1; [|exact (Forall_inv Hq)].
    apply Forall_inv_tail in Hq.
    destruct o1 as [[m|]|e|p].
    + apply IH in E; congruence.
    + apply IH in E; congruence.
    + injection E as <- <-. exact E1.
    + injection E as <- <-. exact E1.
Qed.

Lemma step_keys s c s' r :
  Inv C T s -> call_step C T s c = (s', r) ->
  (forall d, c <> CRead d) -> c <> CTakeAck -> keys s' = keys s.
Proof.
  intros HI E Hc1 Hc2. destruct c; cbn [call_step] in E; try congruence.
  - destruct (drain_tmp_stack_user_msgs C T s) as [s1 o] eqn:Er. injection E as <- <-.
    unfold drain_tmp_stack_user_msgs in Er. apply drain_loop_keys in Er; [exact Er|].
    apply (inv_queue C T s HI).
  - destruct (create_connect_message C public_key cd s) as [s1 o] eqn:Er. injection E as <- <-.
    apply create_connect_cases in Er as [(r & _ & -> & _)|(-> & _)]; reflexivity.
  - destruct (create_ack_message C cd s) as [s1 o] eqn:Er. injection E as <- <-.
    apply (create_ack_cases C T) in Er as [(st & epk & _ & -> & _)|(-> & _)]; try reflexivity; exact HI.
  - destruct (write_message C T data s w) as [[s1 w'] o] eqn:Er. injection E as <- <-.
    apply write_message_cases in Er
      as [(_ & -> & _)|[(_ & _ & -> & _)|(Hst & k & o1 & _ & _ &
          [(e & _ & _ & ->)|[(_ & n & Hn & -> & _)|(_ & p & _ & -> & _)]])]]; reflexivity.
  - unfold try_clone in E. destruct (msl_status s); injection E as <- <-; reflexivity.
  - unfold change_config in E. destruct (cloned s); injection E as <- <-; reflexivity.
Qed.

(** What a read does to these fields. *)
Section Read.
Context (HL : CryptoLaws C).

Lemma pin_keys pk s k : peer_sig_pubkey s = Some k -> peer_sig_pubkey (pin pk s) = Some k.
Proof. intros H. unfold pin. rewrite H. exact H. Qed.
Lemma pin_other pk s :
  ephemeral (pin pk s) = ephemeral s /\ ephemeral_pubkey (pin pk s) = ephemeral_pubkey s /\
  peer_epk (pin pk s) = peer_epk s /\
  encrypt_algo_with_secret (pin pk s) = encrypt_algo_with_secret s /\
  ack_msg_recv_too_early (pin pk s) = ack_msg_recv_too_early s.
Proof. destruct (pin_fields pk s) as [v ->]. repeat split. Qed.

Definition clear_ack (s : msl) (d : bytes) : Prop :=
  exists L, forall key, datagram T C key d (DFrame d L (KAck (sha256 C (ephemeral_pubkey s)))).

Lemma clear_datagram_any key1 key2 d text L k :
  datagram T C key1 d (DFrame text L k) -> must_be_sealed k = false ->
  d = text /\ datagram T C key2 d (DFrame d L k).
Proof.
  intros H Hk.
  apply datagram_frame in H as (H1 & H2 & (th & rest & Ht & Hh) & [[_ ->]|[Hk' _]]); [|congruence].
  split; [reflexivity|]. apply clear_datagram; [|exact Hk].
  rewrite Ht. eapply tx_frame; eassumption.
Qed.

Definition read_effect (s : msl) (d : bytes) (s' : msl) (o : outcome (option message)) : Prop :=
  ephemeral_pubkey s' = ephemeral_pubkey s /\
  (forall k, peer_sig_pubkey s = Some k -> peer_sig_pubkey s' = Some k) /\
  (peer_sig_pubkey s = None -> peer_sig_pubkey s' <> None -> exists L epk pk rest,
     len pk = 32 /\ len epk = 32 /\ peer_sig_pubkey s' = Some pk /\
     d = magic ++ version ++ u64_be L ++ [x00; x01] ++ epk ++ [x00; x00; x00; x00] ++ pk ++ rest) /\
  ((peer_epk s' = peer_epk s /\ encrypt_algo_with_secret s' = encrypt_algo_with_secret s /\
    ephemeral s' = ephemeral s /\ connect_accepted (CRead d, RMsg o) = false) \/
   (exists epk pk, carries_epk d epk /\ connected C s epk pk s' /\
      key_acceptable s pk /\
      (connect_accepted (CRead d, RMsg o) = true \/ panics (RMsg o) = true))) /\
  (ack_msg_recv_too_early s' = ack_msg_recv_too_early s \/
   (ack_msg_recv_too_early s = None /\ o = Ok None /\ ack_msg_recv_too_early s' = Some d /\
    peer_sig_pubkey s = None /\ clear_ack s d)).

Lemma read_keys s d s' o :
  Inv C T s -> read C T d s = (s', o) -> read_effect s d s' o.
Proof.
  intros HI E.
  assert (forall s1 o1, s1 = s \/ s1 = set_status Fail s -> s' = s1 -> o = o1 ->
     connect_accepted (CRead d, RMsg o1) = false ->
     read_effect s d s' o) as Hsame.
  { intros s1 o1 [-> | ->] -> -> Ha; (split; [reflexivity|]);
      (split; [auto|]); (split; [intros H1 H2; contradiction|]); (split; [left|left; reflexivity]);
      repeat split; exact Ha. }
  destruct (datagram_total C T HL (session_key s) d) as [c Hc].
  destruct c as [|e| |text L k].
  { destruct (read_of_panic C T HL s d Hc) as [p Hp]. rewrite Hp in E. injection E as <- <-.
    eapply Hsame; [left| | |]; reflexivity. }
  { rewrite (read_of_reject C T HL s d e Hc) in E. injection E as <- <-.
    eapply Hsame; [right| | |]; reflexivity. }
  { rewrite (read_of_undecryptable C T HL s d Hc) in E. injection E as <- <-.
    eapply Hsame; [right| | |]; reflexivity. }
  pose proof (datagram_frame C T _ _ _ _ _ Hc) as (HL64 & _ & (th & rest & Ht & Hh) & Hd).
  pose proof (get_message_exact T text L k) as Hg.
  destruct k as [epk pk|ch|n]; cbn [must_be_sealed headers_size] in Hd, Hg.
  - destruct Hd as [[_ Hd]|[Hd _]]; [|discriminate].
    inversion Hh as [|epk0 pk0 rest0 Le Lp E1 E2 E3|]; subst epk0 pk0 rest0 th. rewrite <- Hd in Ht.
    destruct (pin_other pk s) as (P1 & P2 & P3 & P4 & P5).
    assert (carries_epk d epk) as Hcar by (split; [assumption|]; eauto).
    assert (forall s1, s1 = pin pk s \/ s1 = set_status Fail (pin pk s) -> s' = s1 ->
       connect_accepted (CRead d, RMsg o) = false -> read_effect s d s' o) as Hpin.
    { intros s1 [-> | ->] -> Ha;
        (split; [exact P2|]);
        (split; [intros k Hk; apply pin_keys, Hk|]);
        (split; [intros H1 _; exists L, epk, pk, rest; cbn [set_status peer_sig_pubkey]; unfold pin; rewrite H1; auto|]);
        (split; [left; auto|left; exact P5]). }
    apply (read_connect_result C T HL s HI d text L epk pk) in E; [|exact Hc].
    assert (forall s2, connected C s epk pk s2 -> s' = s2 -> key_acceptable s pk ->
       connect_accepted (CRead d, RMsg o) = true \/ panics (RMsg o) = true -> read_effect s d s' o) as Hcon.
    { intros s2 Hs2 -> Hk Ha. pose proof Hs2 as (l & kp & Hst & Hkp & Es2).
      split; [rewrite Es2; exact P2|].
      split; [intros k H1; rewrite Es2; apply pin_keys, H1|].
      split; [intros H1 _; exists L, epk, pk, rest; rewrite Es2; cbn [set_status set_peer_epk set_ephemeral set_secret peer_sig_pubkey]; unfold pin; rewrite H1; auto|].
      split; [right; exists epk, pk; auto|left; rewrite Es2; exact P5]. }
    destruct E as [|?|?|e ? ? ? He|s' ? ? ? ? ? Hcn|s' ? ? ? ? ? Hcn].
    + eapply Hsame; [left| | |]; reflexivity.
    + eapply Hpin; [left| |]; reflexivity.
    + eapply Hpin; [left| |]; reflexivity.
    + eapply Hpin; [right| |]; try reflexivity. destruct He as [[_ ->]|[_ ->]]; reflexivity.
    + eapply Hcon; try eassumption; auto.
    + eapply Hcon; try eassumption; auto.
      destruct Hg as [(_ & _ & ->)|[_ ->]]; [left; reflexivity|right; reflexivity].
  - destruct Hd as [[_ Hd]|[Hd _]]; [|discriminate].
    apply (read_ack_result C T HL s d text L ch) in E; [|exact Hc].
    destruct E as [| | | | |k e ? ? ? ? He|k st]; try (eapply Hsame; [left| | |]; reflexivity);
      try (eapply Hsame; [right| | |]; reflexivity).
    + subst ch. split; [reflexivity|]. split; [auto|]. split; [intros ? ?; contradiction|].
      split; [left; auto|]. right. repeat split; auto.
      exists L. intros key. apply (clear_datagram_any (session_key s) key) in Hc as [_ Hc]; [exact Hc|reflexivity].
    + eapply Hsame; [right| | |]; try reflexivity. destruct He as [[_ ->]|[_ ->]]; reflexivity.
    + split; [reflexivity|]. split; [auto|]. split; [intros ? ?; contradiction|].
      split; [left; repeat split|left; reflexivity].
      destruct Hg as [(_ & _ & ->)|[_ ->]]; reflexivity.
  - apply (read_user_result C T HL s HI d text L n) in E; [|exact Hc].
    destruct E as [|e ? ? ? He| | | | |s' p ? ? ? ? ? ? Hw|s' ? ? ? ? ? Hw]; try (eapply Hsame; [left| | |]; reflexivity);
      try (eapply Hsame; [right| | |]; reflexivity).
    + eapply Hsame; [right| | |]; try reflexivity. destruct He as [[_ ->]|[_ ->]]; reflexivity.
    + split; [reflexivity|]. split; [auto|]. split; [intros ? ?; contradiction|].
      split; [left; repeat split|left; reflexivity].
    + apply window_keys in Hw. unfold keys in Hw. injection Hw as W1 W2 W3 W4 W5 W6.
      split; [assumption|]. split; [congruence|]. split; [intros ? ?; congruence|].
      split; [left; repeat split; auto|left; assumption].
    + apply window_keys in Hw. unfold keys in Hw. injection Hw as W1 W2 W3 W4 W5 W6.
      split; [assumption|]. split; [congruence|]. split; [intros ? ?; congruence|].
      split; [left; repeat split; auto|left; assumption].
      destruct Hg as [(_ & _ & ->)|[_ ->]]; reflexivity.
Qed.
End Read.
End WithEnv.

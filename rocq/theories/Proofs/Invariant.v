(** The invariant of every reachable layer. *)

From Coq Require Import Arith ZifyBool ZifyNat ZifyN.
From Verif.Model Require Import Minimal.
From Verif.Spec Require Import Wire Trace.
From Verif.Proofs Require Import BaseFacts CipherFacts ReaderFacts ReadCases WindowFacts.

Section WithEnv.
Context (C : Crypto) (T : target).

(** Everything the reader checked, put back together. *)
Lemma reader_read_inv sec d chk dd :
  reader_read C T sec d chk = Ok dd ->
  exists enc plain L th h l ue,
    L < 2 ^ 64 /\ plain = magic ++ version ++ u64_be L ++ th /\
    usize_add T 16 (L mod 2 ^ usize_bits T) = Ok ue /\
    headers_of th h l /\ (chk = true -> enc = must_be_encrypted h) /\
    dd = {| dd_data := plain; dd_user_msg_begin := 16 + l; dd_user_msg_end := ue;
            dd_headers := h |} /\
    ((enc = false /\ plain = d) \/
     (enc = true /\ (forall rest, d <> magic ++ rest) /\
      exists k, sec = Some (WithChacha k) /\ d = seal C k plain)).
Proof.
  unfold reader_read. intros H. apply obind_Ok in H as ([enc plain] & Hd & H).
  apply read_parse_inv in H as (L & th & h & l & ue & H1 & H2 & H3 & H4 & H5 & H6).
  exists enc, plain, L, th, h, l, ue. repeat (split; [assumption|]).
  apply read_decrypt_inv in Hd as [(A & B & _)|(A & B & D)]; auto.
Qed.

(** A clear text waiting in the early queue. *)
Definition queued (b : bytes) : Prop :=
  exists L n rest ue, L < 2 ^ 64 /\ n < 2 ^ 64 /\
    b = magic ++ version ++ u64_be L ++ [x00; x00] ++ u64_be n ++ rest /\
    usize_add T 16 (L mod 2 ^ usize_bits T) = Ok ue.

Lemma reader_read_queued b sec :
  queued b ->
  exists L n rest ue, L < 2 ^ 64 /\ n < 2 ^ 64 /\
    b = magic ++ version ++ u64_be L ++ [x00; x00] ++ u64_be n ++ rest /\
    usize_add T 16 (L mod 2 ^ usize_bits T) = Ok ue /\
    reader_read C T sec b false =
      Ok {| dd_data := b; dd_user_msg_begin := 26; dd_user_msg_end := ue;
            dd_headers := HUserMsg n |}.
Proof.
  intros (L & n & rest & ue & HL & Hn & -> & Hue).
  exists L, n, rest, ue. repeat (split; [auto; fail|]).
  unfold reader_read. rewrite read_decrypt_clear. cbn [obind].
  rewrite (read_parse_fwd T false false L _ (HUserMsg n) 10 ue);
    [reflexivity|exact HL|exact Hue|constructor; exact Hn|discriminate].
Qed.

(** A user message that passed the reader can be queued. *)
Lemma reader_read_user sec d chk dd n :
  reader_read C T sec d chk = Ok dd -> dd_headers dd = HUserMsg n ->
  queued (dd_data dd) /\ n < 2 ^ 64 /\
  (chk = true -> exists k, sec = Some (WithChacha k) /\ d = seal C k (dd_data dd)).
Proof.
  intros H Hh.
  apply reader_read_inv in H as (enc & plain & L & th & h & l & ue & HL & Hp & Hue & Ht & Hc & -> & Hd).
  cbn [dd_headers dd_data] in *. subst h.
  inversion Ht; subst.
  split; [|split].
  - do 4 eexists. repeat split; try eassumption; reflexivity.
  - assumption.
  - intros E. specialize (Hc E). cbn in Hc. subst enc.
    destruct Hd as [[A _]|(_ & _ & D)]; [discriminate|exact D].
Qed.

Record Inv (s : msl) : Prop := {
  inv_wait : forall l, msl_status s = OngoingNegotiation l WaitConnectMsg ->
    ephemeral s <> None /\ peer_epk s = None /\ encrypt_algo_with_secret s = None;
  inv_peer : forall l r, msl_status s = OngoingNegotiation l r -> r <> WaitConnectMsg ->
    ephemeral s = None /\ peer_epk s <> None;
  inv_succ : msl_status s = NegotiationSuccessful -> ephemeral s = None;
  inv_secret : encrypt_algo_with_secret s <> None -> ephemeral s = None;
  inv_kp : forall kp, ephemeral s = Some kp ->
    ekp_pub kp = ephemeral_pubkey s /\ ephemeral_pubkey s = x25519_public C (ekp_priv kp);
  inv_pub : exists sk, ephemeral_pubkey s = x25519_public C sk;
  inv_nego : forall l r, msl_status s = OngoingNegotiation l r ->
    next_nonce_expected s = 0 /\ orphan_nonce_list s = [] /\ next_nonce_sent s = 0 /\
    cloned s = false;
  inv_queue_status : tmp_stack_user_msgs s <> [] ->
    msl_status s = OngoingNegotiation ConnectMsgSent AckMsgSent \/
    msl_status s = NegotiationSuccessful \/ msl_status s = Fail;
  inv_queue_secret : tmp_stack_user_msgs s <> [] -> encrypt_algo_with_secret s <> None;
  inv_queue : Forall queued (tmp_stack_user_msgs s);
  inv_window : window_ok (next_nonce_expected s) (orphan_nonce_list s);
  inv_sent : next_nonce_sent s < 2 ^ 64
}.

Lemma inv_fail s : Inv s -> Inv (set_status Fail s).
Proof.
  intros [H1 H2 H3 H4 H5 H6 H7 H8 H9 H10 H11 H12].
  constructor; cbn [set_status ack_msg_recv_too_early cloned conf encrypt_algo_with_secret
    ephemeral ephemeral_pubkey next_nonce_expected next_nonce_sent orphan_nonce_list peer_epk
    peer_sig_pubkey msl_status tmp_stack_user_msgs]; auto; discriminate.
Qed.

Lemma pin_fields pk s :
  exists v, pin pk s = set_peer_sig_pubkey v s.
Proof.
  unfold pin. destruct (peer_sig_pubkey s) as [k|] eqn:E.
  - exists (Some k). rewrite <- E. destruct s; reflexivity.
  - eauto.
Qed.

Lemma inv_set_pin v s : Inv s -> Inv (set_peer_sig_pubkey v s).
Proof. intros []. constructor; assumption. Qed.
Lemma inv_set_ack v s : Inv s -> Inv (set_ack_early v s).
Proof. intros []. constructor; assumption. Qed.
Lemma inv_set_conf v s : Inv s -> Inv (set_conf v s).
Proof. intros []. constructor; assumption. Qed.
Lemma inv_pin pk s : Inv s -> Inv (pin pk s).
Proof. intros H. destruct (pin_fields pk s) as [v ->]. apply inv_set_pin; exact H. Qed.

Lemma inv_set_stack_nil s : Inv s -> Inv (set_stack [] s).
Proof.
  intros []. constructor; try assumption; cbn [set_stack tmp_stack_user_msgs]; try congruence.
  constructor.
Qed.

Lemma inv_user_window s n s' o :
  Inv s -> msl_status s = NegotiationSuccessful -> n < 2 ^ 64 ->
  next_nonce_expected s <= n -> ~ In n (orphan_nonce_list s) ->
  update_window T n s = (s', o) -> Inv s'.
Proof.
  intros HI Hst Hn Hle Hni E.
  pose proof (update_window_ok T n s s' o E Hn Hle Hni (inv_window s HI)) as Hw.
  apply update_window_shape in E as [(v & l & -> & _)|[-> _]].
  - destruct HI. constructor; try assumption.
    cbn [set_window msl_status]. rewrite Hst. discriminate.
  - apply inv_fail; exact HI.
Qed.

(** The accepted CONNECT. *)
Lemma inv_connect s epk pk st se s' o :
  Inv s -> apply_action (msl_status s) (Receive TConnect) = (st, Ok se) ->
  compute_shared_secret C epk (set_peer_epk (Some epk) (set_status st (pin pk s))) = (s', o) ->
  exists l kp, msl_status s = OngoingNegotiation l WaitConnectMsg /\
    st = OngoingNegotiation l ValidConnectMsgReceived /\
    ephemeral s = Some kp /\ Inv s' /\ msl_status s' = st /\
    peer_epk s' = Some epk /\ ephemeral s' = None /\
    ((o = Ok tt /\ exists key, x25519_agree C (ekp_priv kp) epk = Some key /\
        s' = set_secret (Some (WithChacha (secret_key_new
            (pbkdf2 C PBKDF2_HMAC_SHA384 3
               (if bytes_gtb (ephemeral_pubkey s) epk then ephemeral_pubkey s else epk) key 48))))
            (set_ephemeral None (set_peer_epk (Some epk) (set_status st (pin pk s)))))
     \/ (o = Err FailToComputeAgreement /\ x25519_agree C (ekp_priv kp) epk = None /\
         s' = set_ephemeral None (set_peer_epk (Some epk) (set_status st (pin pk s))))).
Proof.
  intros HI Ha Hc.
  destruct (msl_status s) as [|l r|] eqn:Est; cbn [apply_action] in Ha; try discriminate.
  destruct r; try discriminate. injection Ha as <- <-.
  destruct (inv_wait s HI l Est) as (He & Hp & Hs).
  destruct (ephemeral s) as [kp|] eqn:Ek; [|congruence].
  destruct (inv_kp s HI kp Ek) as [Hk1 Hk2].
  destruct (pin_fields pk s) as [v Hpin]. rewrite Hpin in *.
  apply compute_shared_secret_cases in Hc.
  cbn [set_peer_epk set_status set_peer_sig_pubkey ephemeral encrypt_algo_with_secret] in Hc.
  exists l, kp. split; [reflexivity|]. split; [reflexivity|]. split; [reflexivity|].
  destruct Hc as [(kp' & key & E1 & Hag & -> & ->)|[(kp' & E1 & Hag & -> & ->)|[(E1 & _)|(E1 & _)]]];
    try (rewrite Ek in E1; discriminate); rewrite Ek in E1; injection E1 as <-.
  - split.
    { destruct HI as [H1 H2 H3 H4 H5 H6 H7 H8 H9 H10 H11 H12].
      constructor; cbn [set_secret set_ephemeral set_peer_epk set_status set_peer_sig_pubkey
        ack_msg_recv_too_early cloned conf encrypt_algo_with_secret
        ephemeral ephemeral_pubkey next_nonce_expected next_nonce_sent orphan_nonce_list peer_epk
        peer_sig_pubkey msl_status tmp_stack_user_msgs]; auto; try discriminate; try congruence.
      - intros l' r' E Hr; injection E as <- <-. split; [reflexivity|discriminate].
      - intros l' r' E; injection E as <- <-. apply (H7 l WaitConnectMsg Est).
      - intros Hq. destruct (H8 Hq) as [E|[E|E]]; congruence. }
    repeat split. left. split; [reflexivity|]. exists key. split; [exact Hag|].
    rewrite <- Hk1. reflexivity.
  - split.
    { destruct HI as [H1 H2 H3 H4 H5 H6 H7 H8 H9 H10 H11 H12].
      constructor; cbn [set_secret set_ephemeral set_peer_epk set_status set_peer_sig_pubkey
        ack_msg_recv_too_early cloned conf encrypt_algo_with_secret
        ephemeral ephemeral_pubkey next_nonce_expected next_nonce_sent orphan_nonce_list peer_epk
        peer_sig_pubkey msl_status tmp_stack_user_msgs]; auto; try discriminate; try congruence.
      - intros l' r' E Hr; injection E as <- <-. split; [reflexivity|discriminate].
      - intros l' r' E; injection E as <- <-. apply (H7 l WaitConnectMsg Est).
      - intros Hq. destruct (H8 Hq) as [E|[E|E]]; congruence. }
    repeat split. right. auto.
Qed.

(** Status changes that only move the negotiation forward, without a key
    change: our own CONNECT, our own ACK, the peer's ACK. *)
Lemma inv_advance s a st se :
  Inv s -> a = Create TConnect \/ a = Create TAck \/ a = Receive TAck ->
  apply_action (msl_status s) a = (st, Ok se) -> Inv (set_status st s).
Proof.
  intros HI Ha E.
  assert (HI' := HI). destruct HI' as [H1 H2 H3 H4 H5 H6 H7 H8 H9 H10 H11 H12].
  destruct (msl_status s) as [|l r|] eqn:Est;
    [destruct Ha as [-> |[-> | ->]]; discriminate| |
     destruct Ha as [-> |[-> | ->]]; discriminate].
  pose proof (H7 l r eq_refl) as Hn.
  constructor; cbn [set_status
        ack_msg_recv_too_early cloned conf encrypt_algo_with_secret
        ephemeral ephemeral_pubkey next_nonce_expected next_nonce_sent orphan_nonce_list peer_epk
        peer_sig_pubkey msl_status tmp_stack_user_msgs]; auto.
  - intros l' Est'. apply (H1 l). f_equal.
    destruct Ha as [-> |[-> | ->]]; destruct l, r; cbn in E; congruence.
  - intros l' r' Est' Hr. apply (H2 l r eq_refl). intros ->.
    destruct Ha as [-> |[-> | ->]]; destruct l; cbn in E; congruence.
  - intros Est'. apply (H2 l r eq_refl). intros ->.
    destruct Ha as [-> |[-> | ->]]; destruct l; cbn in E; congruence.
  - intros Hq. destruct (H8 Hq) as [E'|[E'|E']]; try discriminate. injection E' as -> ->.
    destruct Ha as [-> |[-> | ->]]; cbn in E; try discriminate. injection E as <- <-. auto.
Qed.

Lemma apply_action_err_status st a st' e :
  apply_action st a = (st', Err e) -> st' = st \/ st' = Fail.
Proof.
  destruct st as [|[] []|]; destruct a as [[]|[]]; cbn; intros E; try discriminate; injection E as <- <-; auto.
Qed.

Lemma inv_refused s a st e :
  Inv s -> apply_action (msl_status s) a = (st, Err e) -> Inv (set_status st s).
Proof.
  intros HI E. apply apply_action_err_status in E as [->| ->].
  - rewrite set_status_same. exact HI.
  - apply inv_fail; exact HI.
Qed.

Lemma pin_status pk s : msl_status (pin pk s) = msl_status s.
Proof. destruct (pin_fields pk s) as [v ->]. reflexivity. Qed.

Lemma rcase_inv chk d s s' o :
  Inv s -> (chk = true \/ (queued d /\ encrypt_algo_with_secret s <> None)) ->
  rcase C T chk d s s' o -> Inv s'.
Proof.
  intros HI Hq H. destruct H; auto using inv_fail, inv_pin, inv_set_ack.
  - eapply inv_refused; [apply inv_pin; exact HI|]. rewrite pin_status. eassumption.
  - match goal with
    | Ha : apply_action _ _ = (_, Ok _), Hc : compute_shared_secret _ _ _ = _ |- _ =>
        destruct (inv_connect _ _ _ _ _ _ _ HI Ha Hc) as (l & kp & _ & _ & _ & HI' & _)
    end. exact HI'.
  - eapply inv_refused; eassumption.
  - eapply inv_advance; [exact HI| |eassumption]. auto.
  - (* push *)
    match goal with
    | Hr : reader_read _ _ _ _ _ = Ok _, Hh : dd_headers _ = HUserMsg _ |- _ =>
        destruct (reader_read_user _ _ _ _ _ Hr Hh) as (Hqd & _ & Hsec)
    end.
    assert (encrypt_algo_with_secret s <> None) as Hs.
    { destruct Hq as [-> |[_ Hs]]; [|exact Hs].
      destruct (Hsec eq_refl) as (k & -> & _). discriminate. }
    destruct HI as [H1' H2' H3' H4' H5' H6' H7' H8' H9' H10' H11' H12'].
    constructor; cbn [set_stack tmp_stack_user_msgs msl_status encrypt_algo_with_secret]; auto.
    apply Forall_app; split; [exact H10'|]. constructor; [exact Hqd|constructor].
  - (* window *)
    match goal with
    | Hr : reader_read _ _ _ _ _ = Ok _, Hh : dd_headers _ = HUserMsg _,
      Hw : update_window _ _ _ = _ |- _ =>
        destruct (reader_read_user _ _ _ _ _ Hr Hh) as (_ & Hn & _);
        eapply inv_user_window; [exact HI|eassumption|exact Hn|eassumption|eassumption|exact Hw]
    end.
Qed.

(** On a queued text only the user-message outcomes are possible. *)
Lemma rcase_queued_status d s s' o :
  queued d -> rcase C T false d s s' o ->
  encrypt_algo_with_secret s' = encrypt_algo_with_secret s /\
  ephemeral_pubkey s' = ephemeral_pubkey s /\
  ((msl_status s' = msl_status s /\ (forall e, o = Err e -> harmless e = true) /\
    (forall m, o = Ok (Some m) -> exists cd, m = MMessage cd)) \/
   (msl_status s' = Fail /\ exists e, o = Err e /\ harmless e = false)).
Proof.
  intros Hq H.
  destruct (reader_read_queued d (encrypt_algo_with_secret s) Hq)
    as (L & n0 & rest & ue & HL & Hn & Hd & Hue & Hr).
  destruct H;
    match goal with
    | H1 : reader_read _ _ _ _ _ = Ok ?dd |- _ =>
        rewrite Hr in H1; injection H1 as <-; cbn [dd_headers] in *; try discriminate
    | H1 : reader_read _ _ _ _ _ = _ |- _ => rewrite Hr in H1; discriminate
    end.
  - split; [reflexivity|]. split; [reflexivity|]. left. split; [reflexivity|].
    split; [|discriminate]. intros e E; injection E as <-. reflexivity.
  - split; [reflexivity|]. split; [reflexivity|]. right. split; [reflexivity|].
    exists e. split; [reflexivity|].
    match goal with H : apply_action _ _ = _ |- _ =>
      destruct (msl_status s) as [|[] []|]; cbn in H; try discriminate; injection H as <-; reflexivity
    end.
  - split; [reflexivity|]. split; [reflexivity|]. left. split; [reflexivity|].
    split; discriminate.
  - split; [reflexivity|]. split; [reflexivity|]. left. split; [reflexivity|].
    split; discriminate.
  - split; [reflexivity|]. split; [reflexivity|]. left. split; [reflexivity|].
    split; [|discriminate]. intros e E; injection E as <-. reflexivity.
  - match goal with H : update_window _ _ _ = _ |- _ =>
      apply update_window_shape in H as [(v & l & -> & Hne)|[-> ->]] end.
    + split; [reflexivity|]. split; [reflexivity|]. left. split; [reflexivity|].
      split.
      * intros e E. destruct o as [u|e'|p].
        -- exfalso; eapply get_message_not_err; eassumption.
        -- exfalso; eapply Hne; reflexivity.
        -- discriminate.
      * intros m E. destruct o as [u|e'|p]; try discriminate.
        unfold get_message in E.
        match type of E with obind ?x _ = _ => destruct x; cbn [obind] in E; try discriminate end.
        injection E as <-. cbn [dd_headers message_from_bytes]. eauto.
    + split; [reflexivity|]. split; [reflexivity|]. right. split; [reflexivity|]. eauto.
Qed.

Lemma drain_loop_inv bs acc s s' o :
  Inv s -> Forall queued bs -> (bs <> [] -> encrypt_algo_with_secret s <> None) ->
  drain_loop C T bs acc s = (s', o) ->
  Inv s' /\
  encrypt_algo_with_secret s' = encrypt_algo_with_secret s /\
  ephemeral_pubkey s' = ephemeral_pubkey s /\
  ((msl_status s' = msl_status s /\ (forall e, o = Err e -> harmless e = true) /\
    (forall l, o = Ok l -> exists l', l = acc ++ l' /\ Forall (fun m => is_user m = true) l')) \/
   (msl_status s' = Fail /\ exists e, o = Err e /\ harmless e = false)).
Proof.
  revert acc s. induction bs as [|b bs IH]; intros acc s HI Hq Hs E; cbn [drain_loop] in E.
  - injection E as <- <-. split; [exact HI|]. split; [reflexivity|]. split; [reflexivity|].
    left. split; [reflexivity|]. split; [discriminate|].
    intros l E; injection E as <-. exists []. rewrite app_nil_r. split; [reflexivity|constructor].
  - apply Forall_cons_iff in Hq as [Hb Hq].
    destruct (read_inner C T false b s) as [s1 o1] eqn:Er.
    apply read_inner_cases in Er.
    assert (Inv s1) as HI1.
    { eapply rcase_inv; [exact HI| |exact Er]. right. split; [exact Hb|apply Hs; discriminate]. }
    pose proof (rcase_queued_status b s s1 o1 Hb Er) as (Hsec & Hpub & Hst).
    destruct o1 as [[m|]|e|p].
    + destruct Hst as [(Hst & _ & Hm)|(_ & e & He & _)]; [|discriminate].
      apply IH in E as (HI2 & A & B & D); auto.
      2: { intros _. rewrite Hsec. apply Hs; discriminate. }
      split; [exact HI2|]. split; [congruence|]. split; [congruence|].
      destruct D as [(D1 & D2 & D3)|D]; [left|right; exact D].
      split; [congruence|]. split; [exact D2|].
      intros l El. destruct (D3 l El) as (l' & -> & Hf). exists (m :: l').
      split; [rewrite <- app_assoc; reflexivity|].
      destruct (Hm m eq_refl) as [cd ->]. constructor; [reflexivity|exact Hf].
    + destruct Hst as [(Hst & _ & Hm)|(_ & e & He & _)]; [|discriminate].
      apply IH in E as (HI2 & A & B & D); auto.
      2: { intros _. rewrite Hsec. apply Hs; discriminate. }
      split; [exact HI2|]. split; [congruence|]. split; [congruence|].
      destruct D as [(D1 & D2 & D3)|D]; [left|right; exact D].
      split; [congruence|]. split; [exact D2|exact D3].
    + injection E as <- <-. split; [exact HI1|]. split; [exact Hsec|]. split; [exact Hpub|].
      destruct Hst as [(Hst & He & _)|(Hst & e' & E & He)].
      * left. split; [exact Hst|]. split; [|discriminate].
        intros e0 E0; injection E0 as <-. apply He; reflexivity.
      * right. split; [exact Hst|]. injection E as <-. eauto.
    + injection E as <- <-. split; [exact HI1|]. split; [exact Hsec|]. split; [exact Hpub|].
      destruct Hst as [(Hst & He & _)|(Hst & e' & E & He)]; [|discriminate].
      left. split; [exact Hst|]. split; discriminate.
Qed.

Lemma drain_inv s s' o :
  Inv s -> drain_tmp_stack_user_msgs C T s = (s', o) ->
  Inv s' /\
  encrypt_algo_with_secret s' = encrypt_algo_with_secret s /\
  ephemeral_pubkey s' = ephemeral_pubkey s /\
  ((msl_status s' = msl_status s /\ (forall e, o = Err e -> harmless e = true) /\
    (forall l, o = Ok l -> Forall (fun m => is_user m = true) l)) \/
   (msl_status s' = Fail /\ exists e, o = Err e /\ harmless e = false)).
Proof.
  intros HI E. unfold drain_tmp_stack_user_msgs in E.
  apply drain_loop_inv in E as (A & B & D & F).
  - split; [exact A|]. split; [exact B|]. split; [exact D|].
    destruct F as [(F1 & F2 & F3)|F]; [left|right; exact F].
    split; [exact F1|]. split; [exact F2|].
    intros l El. destruct (F3 l El) as (l' & -> & Hf). exact Hf.
  - apply inv_set_stack_nil; exact HI.
  - apply (inv_queue s HI).
  - cbn [set_stack encrypt_algo_with_secret]. apply (inv_queue_secret s HI).
Qed.

(** The writing side. *)
Lemma encapsulate_connect pk cd s :
  encapsulate_message C (RConnect SIG_ALGO_ED25519 pk cd) s
  = Ok (connect_frame (ephemeral_pubkey s) pk (custom cd)).
Proof. apply to_bytes_connect. Qed.

Lemma create_connect_cases pk cd s s' o :
  create_connect_message C pk cd s = (s', o) ->
  (exists r, msl_status s = OngoingNegotiation Created r /\
     s' = set_status (OngoingNegotiation ConnectMsgSent r) s /\
     o = Ok (connect_frame (ephemeral_pubkey s) pk (custom cd))) \/
  (s' = s /\ exists e, o = Err e /\
     apply_action (msl_status s) (Create TConnect) = (msl_status s, Err e)).
Proof.
  unfold create_connect_message. intros E.
  destruct (msl_status s) as [|l r|] eqn:Est; cbn [apply_action] in E.
  - injection E as <- <-. right. rewrite <- Est at 1. rewrite set_status_same. eauto.
  - destruct l.
    + rewrite encapsulate_connect in E. injection E as <- <-. left. eauto.
    + injection E as <- <-. right. rewrite <- Est at 1. rewrite set_status_same. eauto.
    + injection E as <- <-. right. rewrite <- Est at 1. rewrite set_status_same. eauto.
  - injection E as <- <-. right. rewrite <- Est at 1. rewrite set_status_same. eauto.
Qed.

Lemma create_ack_cases cd s s' o :
  Inv s -> create_ack_message C cd s = (s', o) ->
  (exists st epk, apply_action (msl_status s) (Create TAck) = (st, Ok None) /\
     s' = set_status st s /\ peer_epk s = Some epk /\
     o = Ok (ack_frame (sha256 C epk) (custom cd))) \/
  (s' = s /\ exists e, o = Err e /\
     apply_action (msl_status s) (Create TAck) = (msl_status s, Err e)).
Proof.
  intros HI. unfold create_ack_message. intros E.
  destruct (apply_action (msl_status s) (Create TAck)) as [st r] eqn:Ea.
  assert ((exists l, msl_status s = OngoingNegotiation l ValidConnectMsgReceived /\ r = Ok None) \/
          (st = msl_status s /\ exists e, r = Err e)) as Hc.
  { destruct (msl_status s) as [|[] []|]; cbn in Ea; injection Ea as <- <-; eauto. }
  destruct Hc as [(l & Est & ->)|(-> & e & ->)].
  - destruct (inv_peer s HI l ValidConnectMsgReceived Est ltac:(discriminate)) as [_ Hp].
    destruct (peer_epk s) as [epk|] eqn:Ep; [|congruence].
    unfold encapsulate_message in E. cbn [set_status peer_epk ephemeral_pubkey] in E.
    rewrite Ep, to_bytes_ack in E. injection E as <- <-. left. exists st, epk. auto.
  - injection E as <- <-. right. rewrite set_status_same. eauto.
Qed.

Lemma write_message_cases data s w s' w' o :
  write_message C T data s w = (s', w', o) ->
  (msl_status s <> NegotiationSuccessful /\ s' = set_status Fail s /\ w' = w /\
   ((exists l r, msl_status s = OngoingNegotiation l r /\ o = Err NegoMustHaveBeenSuccessful) \/
    (msl_status s = Fail /\ o = Err ConnectionHadFail))) \/
  (msl_status s = NegotiationSuccessful /\ encrypt_algo_with_secret s = None /\
   s' = s /\ w' = w /\ o = Panic PNoSecret) \/
  (msl_status s = NegotiationSuccessful /\
   exists k o1, encrypt_algo_with_secret s = Some (WithChacha k) /\
     encrypt C (hashed C (user_frame (next_nonce_sent s) data)) (WithChacha k) w = (w', o1) /\
     ((exists e, o1 = Err e /\ o = Err e /\ s' = set_status Fail s) \/
      (o1 = Ok tt /\ exists n, u64_incr T (next_nonce_sent s) = Ok n /\
         s' = set_next_nonce_sent n s /\ o = Ok tt) \/
      (o1 = Ok tt /\ exists p, u64_incr T (next_nonce_sent s) = Panic p /\
         s' = s /\ o = Panic p))).
Proof.
  unfold write_message. intros E.
  destruct (msl_status s) as [|l r|] eqn:Est; cbn [apply_action] in E.
  - injection E as <- <- <-. left. repeat split; try discriminate; auto.
  - injection E as <- <- <-. left. repeat split; try discriminate. left; eauto.
  - right. unfold encapsulate_and_encrypt_and_write_message, encapsulate_message in E.
    rewrite to_bytes_user in E. unfold encrypt_and_write in E.
    rewrite <- Est in E. rewrite set_status_same in E.
    destruct (encrypt_algo_with_secret s) as [[k]|] eqn:Es.
    + right. split; [reflexivity|]. exists k.
      fold (hashed C (user_frame (next_nonce_sent s) data)) in E.
      destruct (encrypt C (hashed C (user_frame (next_nonce_sent s) data)) (WithChacha k) w)
        as [w1 o1] eqn:Ee.
      exists o1. split; [reflexivity|].
      destruct o1 as [[]|e|p].
      * rewrite Est in E. rewrite <- Est, set_status_same in E.
        destruct (u64_incr T (next_nonce_sent s)) as [n|e|p] eqn:Ei.
        -- injection E as <- <- <-. split; [reflexivity|]. right; left. eauto 6.
        -- exfalso; eapply u64_incr_not_err; eassumption.
        -- injection E as <- <- <-. split; [reflexivity|]. right; right. eauto 6.
      * injection E as <- <- <-. split; [reflexivity|]. left. eauto.
      * exfalso. cbn [encrypt] in Ee. unfold chacha_encrypt in Ee.
        destruct (write_chunks _ _) as [w2 [e|]]; [discriminate|].
        destruct (bw_write _ _) as [w3 [c|e]]; discriminate.
    + left. injection E as <- <- <-. auto.
Qed.

Lemma u64_incr_lt n v : u64_incr T n = Ok v -> v < 2 ^ 64.
Proof.
  unfold u64_incr. destruct (N.ltb_spec (n + 1) (2 ^ 64)); intros E.
  - injection E as <-; assumption.
  - destruct (overflow_checks T); [discriminate|]. injection E as <-. apply N.mod_lt. lia.
Qed.

Lemma inv_write data s w s' w' o :
  Inv s -> write_message C T data s w = (s', w', o) -> Inv s'.
Proof.
  intros HI E.
  apply write_message_cases in E
    as [(_ & -> & _)|[(_ & _ & -> & _)|(Hst & k & o1 & _ & _ &
        [(e & _ & _ & ->)|[(_ & n & Hn & -> & _)|(_ & p & _ & -> & _)]])]]; auto using inv_fail.
  destruct HI. constructor; try assumption.
  - cbn [set_next_nonce_sent msl_status]. rewrite Hst. discriminate.
  - cbn [set_next_nonce_sent next_nonce_sent]. eapply u64_incr_lt; eassumption.
Qed.

Lemma inv_create r cfg pk s : create C r cfg pk = Ok s -> Inv s.
Proof.
  unfold create, ekp_generate. destruct r as [sk| |]; cbn [obind]; try discriminate.
  intros E; injection E as <-.
  constructor; cbn [ephemeral peer_epk encrypt_algo_with_secret msl_status ephemeral_pubkey
    next_nonce_expected next_nonce_sent orphan_nonce_list cloned tmp_stack_user_msgs ekp_pub].
  - intros l _. repeat split; discriminate.
  - intros l r E; injection E as <- <-. congruence.
  - discriminate.
  - congruence.
  - intros kp E; injection E as <-. auto.
  - eauto.
  - auto.
  - congruence.
  - congruence.
  - constructor.
  - split; [constructor|]. split; [constructor|]. split; [|reflexivity].
    change (len (@nil N)) with 0. unfold MAX_ORPHAN_NONCES. lia.
  - reflexivity.
Qed.

Lemma inv_clone_self s : Inv s -> Inv (fst (try_clone s)).
Proof.
  intros HI. unfold try_clone. destruct (msl_status s) eqn:Est; cbn [fst]; auto.
  destruct HI as [H1 H2 H3 H4 H5 H6 H7 H8 H9 H10 H11 H12].
  constructor; cbn [set_cloned
        ack_msg_recv_too_early cloned conf encrypt_algo_with_secret
        ephemeral ephemeral_pubkey next_nonce_expected next_nonce_sent orphan_nonce_list peer_epk
        peer_sig_pubkey msl_status tmp_stack_user_msgs]; auto.
  intros l r E; congruence.
Qed.

Lemma inv_clone s c : Inv s -> snd (try_clone s) = Ok c -> Inv c.
Proof.
  intros HI. unfold try_clone. destruct (msl_status s) eqn:Est; cbn [snd]; try discriminate.
  intros E; injection E as <-.
  destruct HI as [H1 H2 H3 H4 H5 H6 H7 H8 H9 H10 H11 H12].
  constructor; cbn [set_cloned
        ack_msg_recv_too_early cloned conf encrypt_algo_with_secret
        ephemeral ephemeral_pubkey next_nonce_expected next_nonce_sent orphan_nonce_list peer_epk
        peer_sig_pubkey msl_status tmp_stack_user_msgs]; auto; discriminate.
Qed.

Lemma inv_take_ack s s' o :
  Inv s -> take_ack_msg_recv_too_early C T s = (s', o) -> Inv s'.
Proof.
  intros HI E. unfold take_ack_msg_recv_too_early in E.
  destruct (ack_msg_recv_too_early s) as [b|].
  - unfold read in E. apply read_inner_cases in E.
    eapply rcase_inv; [|left; reflexivity|exact E]. apply inv_set_ack; exact HI.
  - injection E as <- <-. exact HI.
Qed.

Lemma inv_read d s s' o : Inv s -> read C T d s = (s', o) -> Inv s'.
Proof.
  intros HI E. unfold read in E. apply read_inner_cases in E.
  eapply rcase_inv; [exact HI|left; reflexivity|exact E].
Qed.

Lemma inv_step s c : Inv s -> Inv (fst (call_step C T s c)).
Proof.
  intros HI. destruct c; cbn [call_step].
  - destruct (read C T incoming s) as [s' o] eqn:E. eapply inv_read; eassumption.
  - destruct (take_ack_msg_recv_too_early C T s) as [s' o] eqn:E. eapply inv_take_ack; eassumption.
  - destruct (drain_tmp_stack_user_msgs C T s) as [s' o] eqn:E. eapply drain_inv; eassumption.
  - destruct (create_connect_message C public_key cd s) as [s' o] eqn:E. cbn [fst].
    apply create_connect_cases in E as [(r & Est & -> & _)|(-> & _)]; [|exact HI].
    eapply inv_advance; [exact HI|left; reflexivity|]. rewrite Est. reflexivity.
  - destruct (create_ack_message C cd s) as [s' o] eqn:E. cbn [fst].
    apply create_ack_cases in E as [(st & epk & Ha & -> & _)|(-> & _)]; [|exact HI|exact HI].
    eapply inv_advance; [exact HI|right; left; reflexivity|exact Ha].
  - destruct (write_message C T data s w) as [[s' w'] o] eqn:E. cbn [fst].
    eapply inv_write; eassumption.
  - pose proof (inv_clone_self s HI) as H. destruct (try_clone s) as [s' o]. exact H.
  - unfold change_config. destruct (negb (cloned s)); cbn [fst]; [apply inv_set_conf|]; exact HI.
Qed.

Lemma inv_reachable s : reachable C T s -> Inv s.
Proof.
  intros H. induction H.
  - eapply inv_create; eassumption.
  - apply inv_step; assumption.
  - eapply inv_clone; eassumption.
Qed.

Lemma inv_run s cs : Inv s -> Inv (fst (run C T s cs)).
Proof.
  revert s. induction cs as [|c cs IH]; intros s HI; cbn [run]; [exact HI|].
  pose proof (inv_step s c HI) as H1. destruct (call_step C T s c) as [s1 r]. cbn [fst] in H1.
  specialize (IH s1 H1). destruct (run C T s1 cs) as [s2 h]. exact IH.
Qed.

Lemma reachable_run s cs : reachable C T s -> reachable C T (fst (run C T s cs)).
Proof.
  revert s. induction cs as [|c cs IH]; intros s HI; cbn [run]; [exact HI|].
  pose proof (reach_step C T s c HI) as H1. destruct (call_step C T s c) as [s1 r]. cbn [fst] in H1.
  specialize (IH s1 H1). destruct (run C T s1 cs) as [s2 h]. exact IH.
Qed.

End WithEnv.

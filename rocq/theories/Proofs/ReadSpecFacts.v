(** Exact causes of panics and failures of [read]. *)

From Coq Require Import Arith ZifyBool ZifyNat ZifyN.
From Verif.Model Require Import Minimal.
From Verif.Spec Require Import Wire Datagram Trace ReadSpec.
From Verif.Proofs Require Import BaseFacts CipherFacts ReaderFacts ReadCases WindowFacts Invariant
  Negotiation Failure DatagramFacts.

Section WithEnv.
Context (C : Crypto) (T : target).

Lemma session_key_of s : session_key s = key_of (encrypt_algo_with_secret s).
Proof. unfold session_key, key_of. destruct (encrypt_algo_with_secret s) as [[k]|]; reflexivity. Qed.

(** ** Small exact facts *)

Lemma verify_sig_exact data k ue :
  (len data < ue /\ verify_sig C data k ue = Panic PSliceRange) \/
  (ue <= len data /\ verify_sig C data k ue
     = Ok (ed25519_verify C k (firstn (N.to_nat ue) data) (skipn (N.to_nat ue) data))).
Proof.
  unfold verify_sig, slice_to, slice_from. destruct (N.leb_spec ue (len data)) as [H|H]; cbn [obind]; auto.
Qed.

Lemma get_message_exact text L k :
  (16 + headers_size k <= text_end T L /\ text_end T L <= len text /\
   get_message (frame_data T text L k)
   = Ok (Some (message_from_bytes
        (firstn (N.to_nat (text_end T L - (16 + headers_size k)))
                (skipn (N.to_nat (16 + headers_size k)) text)) (content_headers k)))) \/
  ((text_end T L < 16 + headers_size k \/ len text < text_end T L) /\
   get_message (frame_data T text L k) = Panic PSliceRange).
Proof.
  unfold get_message, slice, frame_data. cbn [dd_data dd_user_msg_begin dd_user_msg_end dd_headers].
  destruct (N.leb_spec (16 + headers_size k) (text_end T L)) as [H1|H1];
    destruct (N.leb_spec (text_end T L) (len text)) as [H2|H2]; cbn [andb obind]; auto.
Qed.

Lemma wants_connect_action s :
  (wants_connect s /\ exists st, apply_action (msl_status s) (Receive TConnect) = (st, Ok None)) \/
  (~ wants_connect s /\ exists e, apply_action (msl_status s) (Receive TConnect) = (Fail, Err e) /\
     ((msl_status s = Fail /\ e = ConnectionHadFail) \/ (msl_status s <> Fail /\ e = RecvInvalidMsg UnexpectedConnectMsg))).
Proof.
  unfold wants_connect. destruct (msl_status s) as [|l [| |]|]; cbn [apply_action];
    try (left; split; [eauto|eauto]; fail); right; (split; [intros [? E]; discriminate|eexists; split; [reflexivity|]; first [left; split; reflexivity|right; split; [discriminate|reflexivity]]]).
Qed.

Lemma wants_ack_action s :
  (wants_ack s /\ exists st, apply_action (msl_status s) (Receive TAck) = (st, Ok None)) \/
  (~ wants_ack s /\ exists e, apply_action (msl_status s) (Receive TAck) = (Fail, Err e) /\
     ((msl_status s = Fail /\ e = ConnectionHadFail) \/ (msl_status s <> Fail /\ e = RecvInvalidMsg UnexpectedAckMsg))).
Proof.
  unfold wants_ack. destruct (msl_status s) as [|[| |] r|]; cbn [apply_action];
    try (left; split; [eauto|destruct r; eauto]; fail); right; (split; [intros [? E]; discriminate|eexists; split; [reflexivity|]; first [left; split; reflexivity|right; split; [discriminate|reflexivity]]]).
Qed.

Lemma pin_acceptable pk s : peer_sig_pubkey (pin pk s) = Some pk <-> key_acceptable s pk.
Proof.
  unfold pin, key_acceptable. destruct (peer_sig_pubkey s) as [k|] eqn:E.
  - rewrite E. split; [auto|intros [H|H]; [discriminate|exact H]].
  - split; auto.
Qed.

Lemma not_received s n :
  ~ received s n <-> next_nonce_expected s <= n /\ ~ In n (orphan_nonce_list s).
Proof.
  unfold received. split.
  - intros H. split; [|tauto]. destruct (N.lt_ge_cases n (next_nonce_expected s)); [tauto|assumption].
  - intros [H1 H2] [H|H]; [lia|contradiction].
Qed.

Lemma absorb_orphans_panic fuel next orphans next' orphans' p :
  absorb_orphans T fuel next orphans = (next', orphans', p) ->
  (length orphans <= fuel)%nat ->
  NoDup orphans -> Forall (fun m => next <= m < 2 ^ 64) orphans -> next < 2 ^ 64 ->
  (p <> None <-> overflow_checks T = true /\ forall m, next <= m -> m < 2 ^ 64 -> In m orphans).
Proof.
  revert next orphans. induction fuel as [|fuel IH]; intros next orphans E Hf Hd Ha Hn;
    cbn [absorb_orphans] in E.
  - destruct orphans; [|cbn in Hf; lia]. injection E as <- <- <-.
    split; [congruence|]. intros [_ H]. destruct (H next (N.le_refl _) Hn).
  - destruct (set_contains next orphans) eqn:Ec.
    + apply set_contains_In in Ec.
      assert (Forall (fun m => next < m < 2 ^ 64) (set_remove next orphans)) as Hr.
      { apply Forall_forall. intros m Hm. apply set_remove_In in Hm as [Hm Hne].
        rewrite Forall_forall in Ha. specialize (Ha m Hm). lia. }
      pose proof (set_remove_len next orphans Hd Ec) as Hlen.
      assert (length (set_remove next orphans) <= fuel)%nat as Hf'.
      { unfold len in Hlen. lia. }
      destruct (u64_incr T next) as [next1|e|q] eqn:Ei.
      * unfold u64_incr in Ei.
        destruct (N.ltb_spec (next + 1) (2 ^ 64)) as [Hlt|Hge].
        -- injection Ei as <-.
           specialize (IH _ _ E Hf' (set_remove_NoDup _ _ Hd)).
           rewrite IH; [|eapply Forall_impl; [|exact Hr]; cbn beta; intros; lia|exact Hlt].
           split; intros [H1 H2]; (split; [exact H1|]); intros m Hm1 Hm2.
           ++ destruct (N.eq_dec m next) as [->|Hne]; [exact Ec|].
              specialize (H2 m ltac:(lia) Hm2). apply set_remove_In in H2 as [H2 _]. exact H2.
           ++ apply set_remove_In. split; [apply H2; lia|lia].
        -- destruct (overflow_checks T) eqn:Eo; [discriminate|]. injection Ei as <-.
           split; [|intros [H _]; discriminate]. intros Hp. exfalso.
           assert (set_remove next orphans = []) as Hnil.
           { destruct (set_remove next orphans) as [|m l]; [reflexivity|].
             apply Forall_inv in Hr. lia. }
           rewrite Hnil in E.
           assert (forall v, absorb_orphans T fuel v [] = (v, [], None)) as E'
             by (intros v; destruct fuel; reflexivity).
           rewrite E' in E. congruence.
      * exfalso; eapply u64_incr_not_err; eassumption.
      * injection E as <- <- <-. split; [|discriminate]. intros _.
        unfold u64_incr in Ei. destruct (N.ltb_spec (next + 1) (2 ^ 64)) as [Hlt|Hge]; [discriminate|].
        destruct (overflow_checks T); [|discriminate]. split; [reflexivity|].
        intros m Hm1 Hm2. assert (m = next) as -> by lia. exact Ec.
    + injection E as <- <- <-. apply set_contains_nIn in Ec.
      split; [congruence|]. intros [_ H]. exfalso. apply Ec, H; lia.
Qed.

(** When the replay window panics, refuses, or accepts. *)
Lemma update_window_exact n s s' o :
  update_window T n s = (s', o) -> window_ok (next_nonce_expected s) (orphan_nonce_list s) ->
  ((exists p, o = Panic p) <-> overflow_checks T = true /\ n = next_nonce_expected s /\
     forall m, n < m -> m < 2 ^ 64 -> In m (orphan_nonce_list s)) /\
  ((exists e, o = Err e) <->
     n <> next_nonce_expected s /\ 10000 <= len (orphan_nonce_list s)) /\
  (forall e, o = Err e -> e = TooManyUnorderedMsgs).
Proof.
  intros E (Hd & Ha & Hl & Hx). unfold update_window in E. change MAX_ORPHAN_NONCES with 10000 in *.
  destruct (N.eqb_spec n (next_nonce_expected s)) as [->|Hne].
  - destruct (u64_incr T (next_nonce_expected s)) as [v|e'|p] eqn:Ei.
    + destruct (absorb_orphans T _ v _) as [[v1 l1] p] eqn:Ea.
      unfold u64_incr in Ei.
      destruct (N.ltb_spec (next_nonce_expected s + 1) (2 ^ 64)) as [Hlt|Hge].
      * injection Ei as <-.
        assert (Forall (fun m => next_nonce_expected s + 1 <= m < 2 ^ 64) (orphan_nonce_list s)) as Ha'.
        { eapply Forall_impl; [|exact Ha]. cbn beta; intros; lia. }
        pose proof (absorb_orphans_panic _ _ _ _ _ _ Ea (Nat.le_refl _) Hd Ha' Hlt) as Hp.
        destruct p as [p|]; injection E as <- <-.
        -- split; [|split; [split; [intros [e ?]; discriminate|tauto]|discriminate]].
           split; [|eauto]. intros _. destruct (proj1 Hp ltac:(discriminate)) as [H1 H2].
           repeat split; auto. intros m Hm1 Hm2. apply H2; lia.
        -- split; [|split; [split; [intros [e ?]; discriminate|tauto]|discriminate]].
           split; [intros [p ?]; discriminate|]. intros (H1 & _ & H2). exfalso.
           apply (proj2 Hp); [|reflexivity]. split; [exact H1|]. intros m Hm1 Hm2. apply H2; lia.
      * destruct (overflow_checks T) eqn:Eo; [discriminate|]. injection Ei as <-.
        assert (orphan_nonce_list s = []) as Hnil.
        { destruct (orphan_nonce_list s) as [|m l]; [reflexivity|].
          apply Forall_inv in Ha. lia. }
        rewrite Hnil in Ea. cbn [length absorb_orphans] in Ea. injection Ea as <- <- <-.
        injection E as <- <-.
        split; [|split; [split; [intros [e ?]; discriminate|tauto]|discriminate]].
        split; [intros [p ?]; discriminate|]. intros (H1 & _). discriminate.
    + exfalso; eapply u64_incr_not_err; eassumption.
    + injection E as <- <-.
      split; [|split; [split; [intros [e ?]; discriminate|tauto]|discriminate]].
      split; [|eauto]. intros _. unfold u64_incr in Ei.
      destruct (N.ltb_spec (next_nonce_expected s + 1) (2 ^ 64)) as [Hlt|Hge]; [discriminate|].
      destruct (overflow_checks T); [|discriminate].
      repeat split. intros m Hm1 Hm2. lia.
  - destruct (N.leb_spec 10000 (len (orphan_nonce_list s))) as [Hm|Hm]; injection E as <- <-.
    + split; [|split].
      * split; [intros [p ?]; discriminate|tauto].
      * split; [auto|eauto].
      * intros e E; injection E as <-; reflexivity.
    + split; [|split].
      * split; [intros [p ?]; discriminate|tauto].
      * split; [intros [e ?]; discriminate|lia].
      * discriminate.
Qed.

(** ** One step of [read] for each class *)
Section Read.
Context (HL : CryptoLaws C) (s : msl) (HI : Inv C T s) (d : bytes).

Lemma reader_of_class c :
  datagram T C (session_key s) d c ->
  class_outcome T c (reader_read C T (encrypt_algo_with_secret s) d true).
Proof. rewrite session_key_of. apply reader_read_class; exact HL. Qed.

Lemma class_unique c1 c2 :
  datagram T C (session_key s) d c1 -> datagram T C (session_key s) d c2 -> c1 = c2.
Proof. apply datagram_unique; exact HL. Qed.

Lemma read_of_panic :
  datagram T C (session_key s) d DPanic -> exists p, read C T d s = (s, Panic p).
Proof.
  intros H. apply reader_of_class in H as [p H]. exists p. unfold read, read_inner.
  rewrite H. reflexivity.
Qed.
Lemma read_of_reject e :
  datagram T C (session_key s) d (DReject e) ->
  read C T d s = (set_status Fail s, Err (RecvInvalidMsg e)).
Proof.
  intros H. apply reader_of_class in H. cbn [class_outcome] in H. unfold read, read_inner.
  rewrite H. reflexivity.
Qed.
Lemma read_of_undecryptable :
  datagram T C (session_key s) d DUndecryptable ->
  read C T d s = (set_status Fail s, Err (FailToDecryptData DecTagMismatch)).
Proof.
  intros H. apply reader_of_class in H. cbn [class_outcome] in H. unfold read, read_inner.
  rewrite H. reflexivity.
Qed.
Lemma read_of_frame text L k :
  is_datagram C T s d text L k ->
  read C T d s = match k with
                 | KConnect epk pk => read_connect C (frame_data T text L k) epk pk s
                 | KAck ch => read_ack C d (frame_data T text L k) ch s
                 | KUser n => read_user C T (frame_data T text L k) n s
                 end.
Proof.
  intros H. apply reader_of_class in H. cbn [class_outcome] in H. unfold read, read_inner.
  rewrite H. destruct k; reflexivity.
Qed.

Lemma read_frame_len text L k :
  is_datagram C T s d text L k -> 16 + headers_size k <= len text.
Proof.
  intros H. apply datagram_frame in H as (_ & _ & (th & rest & -> & H) & _).
  rewrite !len_app, len_u64_be. change (len magic) with 4. change (len version) with 4.
  apply headers_headers_of, headers_of_len in H. lia.
Qed.

(** *** CONNECT *)

(** The layer after an accepted CONNECT. *)
Definition connected (epk pk : bytes) (s' : msl) : Prop :=
  exists l kp, msl_status s = OngoingNegotiation l WaitConnectMsg /\ ephemeral s = Some kp /\
    s' = set_secret
           (match x25519_agree C (ekp_priv kp) epk with
            | Some key => Some (WithChacha (secret_key_new
                (pbkdf2 C PBKDF2_HMAC_SHA384 3
                   (if bytes_gtb (ephemeral_pubkey s) epk then ephemeral_pubkey s else epk) key 48)))
            | None => None
            end)
           (set_ephemeral None (set_peer_epk (Some epk)
              (set_status (OngoingNegotiation l ValidConnectMsgReceived) (pin pk s)))).

Inductive connect_result (text : bytes) (L : N) (epk pk : bytes) : msl -> outcome (option message) -> Prop :=
| cr_refused : ~ key_acceptable s pk -> connect_result text L epk pk s (Err UnexpectedRemoteSigPubKey)
| cr_cut : key_acceptable s pk -> len text < text_end T L ->
    connect_result text L epk pk (pin pk s) (Panic PSliceRange)
| cr_sig : key_acceptable s pk -> text_end T L <= len text -> ~ signed_by C T pk text L ->
    connect_result text L epk pk (pin pk s) (Err (RecvInvalidMsg InvalidHashOrSig))
| cr_turn e : key_acceptable s pk -> signed_by C T pk text L -> ~ wants_connect s ->
    (msl_status s = Fail /\ e = ConnectionHadFail) \/ (msl_status s <> Fail /\ e = RecvInvalidMsg UnexpectedConnectMsg) ->
    connect_result text L epk pk (set_status Fail (pin pk s)) (Err e)
| cr_agreement s' : key_acceptable s pk -> signed_by C T pk text L -> wants_connect s ->
    ~ agreement_possible C s epk -> msl_status s' <> Fail -> connected epk pk s' ->
    connect_result text L epk pk s' (Err FailToComputeAgreement)
| cr_ok s' : key_acceptable s pk -> signed_by C T pk text L -> wants_connect s ->
    agreement_possible C s epk -> msl_status s' <> Fail -> connected epk pk s' ->
    connect_result text L epk pk s' (get_message (frame_data T text L (KConnect epk pk))).

Lemma read_connect_result text L epk pk s' o :
  is_datagram C T s d text L (KConnect epk pk) -> read C T d s = (s', o) ->
  connect_result text L epk pk s' o.
Proof.
  intros Hd E.
  pose proof (reader_of_class _ Hd) as Hr. cbn [class_outcome] in Hr.
  unfold read in E. apply read_inner_cases in E.
  assert (forall b, verify_sig C text pk (text_end T L) = Ok b ->
            text_end T L <= len text /\ (signed_by C T pk text L <-> b = true)) as Hv.
  { intros b Eb. destruct (verify_sig_exact text pk (text_end T L)) as [[H1 H2]|[H1 H2]];
      rewrite H2 in Eb; [discriminate|]. injection Eb as <-. split; [exact H1|].
    unfold signed_by. split; [intros [_ ?]; assumption|auto]. }
  destruct E;
    match goal with H1 : reader_read _ _ _ _ _ = _ |- _ =>
      rewrite Hr in H1; try discriminate H1; injection H1 as <- end;
    match goal with H1 : dd_headers _ = _ |- _ =>
      cbn [frame_data dd_headers content_headers] in H1; try discriminate H1; injection H1 as <- <- <- end;
    cbn [frame_data dd_data dd_user_msg_end] in *.
  - apply cr_refused. unfold key_acceptable. intros [Hk|Hk]; congruence.
  - match goal with H : verify_sig _ _ _ _ = _ |- _ => rename H into Hvs end.
    destruct (verify_sig_exact text pk (text_end T L)) as [[H1' H3]|[H1' H3]]; rewrite H3 in Hvs;
      [|discriminate]. injection Hvs as <-. apply cr_cut; [apply pin_acceptable; assumption|exact H1'].
  - match goal with H : verify_sig _ _ _ _ = _ |- _ => apply Hv in H as [Hle Hs] end.
    apply cr_sig; [apply pin_acceptable; assumption|exact Hle|].
    intros Hs'. apply Hs in Hs'. discriminate.
  - match goal with H : verify_sig _ _ _ _ = _ |- _ => apply Hv in H as [Hle Hs] end.
    match goal with H : apply_action _ _ = _ |- _ => rename H into Ha end.
    destruct (wants_connect_action s) as [[Hw [st' Hst]]|[Hw (e' & Hst & He)]];
      rewrite Hst in Ha; [discriminate|]. injection Ha as <- <-.
    apply cr_turn; [apply pin_acceptable; assumption|apply Hs; reflexivity|exact Hw|exact He].
  - match goal with H : verify_sig _ _ _ _ = _ |- _ => apply Hv in H as [Hle Hs] end.
    match goal with H : apply_action _ _ = _ |- _ => rename H into Ha end.
    match goal with H : compute_shared_secret _ _ _ = _ |- _ => rename H into Hc end.
    destruct (inv_connect C T s epk pk st se s' o HI Ha Hc)
      as (l & kp & Hst & -> & Hkp & _ & Hst' & _ & _ & Hag).
    assert (wants_connect s) as Hw by (exists l; exact Hst).
    destruct Hag as [(-> & key & Hag & Es')|(-> & Hag & Es')].
    + apply cr_ok; [apply pin_acceptable; assumption|apply Hs; reflexivity|exact Hw|exists kp, key; auto| |].
      * rewrite Hst'. discriminate.
      * exists l, kp. rewrite Hag. auto.
    + apply cr_agreement; [apply pin_acceptable; assumption|apply Hs; reflexivity|exact Hw| | |].
      * intros (kp' & key & E1 & E2). congruence.
      * rewrite Hst'. discriminate.
      * exists l, kp. rewrite Hag. split; [exact Hst|]. split; [exact Hkp|]. rewrite Es'.
        assert (encrypt_algo_with_secret s = None) as Hnone by (apply (inv_wait C T s HI l Hst)).
        unfold pin. destruct (peer_sig_pubkey s); cbn [set_secret set_ephemeral set_peer_epk set_status
          set_peer_sig_pubkey encrypt_algo_with_secret]; unfold set_ephemeral, set_peer_epk, set_status,
          set_peer_sig_pubkey, set_secret; cbn; rewrite Hnone; reflexivity.
Qed.

(** *** ACK *)
Inductive ack_result (text : bytes) (L : N) (ch : bytes) : msl -> outcome (option message) -> Prop :=
| ar_challenge : ch <> sha256 C (ephemeral_pubkey s) ->
    ack_result text L ch s (Err (RecvInvalidMsg InvalidChallenge))
| ar_early : ch = sha256 C (ephemeral_pubkey s) -> peer_sig_pubkey s = None ->
    ack_msg_recv_too_early s = None -> ack_result text L ch (set_ack_early (Some d) s) (Ok None)
| ar_early_twice b : ch = sha256 C (ephemeral_pubkey s) -> peer_sig_pubkey s = None ->
    ack_msg_recv_too_early s = Some b ->
    ack_result text L ch (set_status Fail s) (Err (RecvInvalidMsg UnexpectedAckMsg))
| ar_cut k : ch = sha256 C (ephemeral_pubkey s) -> peer_sig_pubkey s = Some k ->
    len text < text_end T L -> ack_result text L ch s (Panic PSliceRange)
| ar_sig k : ch = sha256 C (ephemeral_pubkey s) -> peer_sig_pubkey s = Some k ->
    text_end T L <= len text -> ~ signed_by C T k text L ->
    ack_result text L ch s (Err (RecvInvalidMsg InvalidHashOrSig))
| ar_turn k e : ch = sha256 C (ephemeral_pubkey s) -> peer_sig_pubkey s = Some k ->
    signed_by C T k text L -> ~ wants_ack s ->
    (msl_status s = Fail /\ e = ConnectionHadFail) \/ (msl_status s <> Fail /\ e = RecvInvalidMsg UnexpectedAckMsg) ->
    ack_result text L ch (set_status Fail s) (Err e)
| ar_ok k st : ch = sha256 C (ephemeral_pubkey s) -> peer_sig_pubkey s = Some k ->
    signed_by C T k text L -> wants_ack s -> st <> Fail ->
    apply_action (msl_status s) (Receive TAck) = (st, Ok None) ->
    ack_result text L ch (set_status st s) (get_message (frame_data T text L (KAck ch))).

Lemma read_ack_result text L ch s' o :
  is_datagram C T s d text L (KAck ch) -> read C T d s = (s', o) -> ack_result text L ch s' o.
Proof.
  intros Hd E.
  pose proof (reader_of_class _ Hd) as Hr. cbn [class_outcome] in Hr.
  unfold read in E. apply read_inner_cases in E.
  assert (forall k b, verify_sig C text k (text_end T L) = Ok b ->
            text_end T L <= len text /\ (signed_by C T k text L <-> b = true)) as Hv.
  { intros k b Eb. destruct (verify_sig_exact text k (text_end T L)) as [[H1 H2]|[H1 H2]];
      rewrite H2 in Eb; [discriminate|]. injection Eb as <-. split; [exact H1|].
    unfold signed_by. split; [intros [_ ?]; assumption|auto]. }
  destruct E;
    match goal with H1 : reader_read _ _ _ _ _ = _ |- _ =>
      rewrite Hr in H1; try discriminate H1; injection H1 as <- end;
    match goal with H1 : dd_headers _ = _ |- _ =>
      cbn [frame_data dd_headers content_headers] in H1; try discriminate H1; injection H1 as <- end;
    cbn [frame_data dd_data dd_user_msg_end] in *.
  - apply ar_challenge; assumption.
  - apply ar_early; assumption.
  - eapply ar_early_twice; eassumption.
  - destruct (verify_sig_exact text k (text_end T L)) as [[H4 H5]|[H4 H5]]; rewrite H5 in *;
      [|discriminate]. assert (p = PSliceRange) as -> by congruence. eapply ar_cut; eassumption.
  - match goal with H : verify_sig _ _ _ _ = _ |- _ => apply Hv in H as [H4 H5] end.
    eapply ar_sig; try eassumption. intros Hs. apply H5 in Hs. discriminate.
  - match goal with H : verify_sig _ _ _ _ = _ |- _ => apply Hv in H as [H5 H6] end.
    destruct (wants_ack_action s) as [[Hw [st' Hst]]|[Hw (e' & Hst & He)]];
      rewrite Hst in *; [discriminate|].
    match goal with H : (Fail, _) = _ |- _ => injection H as <- <- end.
    eapply ar_turn; try eassumption. apply H6; reflexivity.
  - match goal with H : verify_sig _ _ _ _ = _ |- _ => apply Hv in H as [H5 H6] end.
    destruct (wants_ack_action s) as [[Hw [st' Hst]]|[Hw (e' & Hst & He)]];
      rewrite Hst in *; [|discriminate].
    match goal with H : (_, _) = _ |- _ => injection H as <- <- end.
    eapply ar_ok; try eassumption; [apply H6; reflexivity|].
    intros ->. destruct Hw as [r Hw]. rewrite Hw in Hst. destruct r; discriminate.
Qed.

(** *** User message *)
Inductive user_result (text : bytes) (L : N) (n : N) : msl -> outcome (option message) -> Prop :=
| ur_nonce : received s n -> user_result text L n s (Err (RecvInvalidMsg InvalidNonce))
| ur_turn e : ~ received s n -> ~ established s -> ~ wants_only_ack s ->
    (msl_status s = Fail /\ e = ConnectionHadFail) \/ (msl_status s <> Fail /\ e = RecvInvalidMsg UnexpectedMessage) ->
    user_result text L n (set_status Fail s) (Err e)
| ur_push : ~ received s n -> wants_only_ack s ->
    user_result text L n (set_stack (tmp_stack_user_msgs s ++ [text]) s) (Ok None)
| ur_cut : ~ received s n -> established s -> len text < text_end T L ->
    user_result text L n s (Panic PSliceRange)
| ur_hash : ~ received s n -> established s -> text_end T L <= len text -> ~ hash_ok C T text L ->
    user_result text L n s (Err (RecvInvalidMsg InvalidHashOrSig))
| ur_orphans : ~ received s n -> established s -> hash_ok C T text L ->
    n <> next_nonce_expected s -> 10000 <= len (orphan_nonce_list s) ->
    user_result text L n (set_status Fail s) (Err TooManyUnorderedMsgs)
| ur_overflow s' p : ~ received s n -> established s -> hash_ok C T text L ->
    overflow_checks T = true -> n = next_nonce_expected s ->
    (forall m, n < m -> m < 2 ^ 64 -> In m (orphan_nonce_list s)) ->
    update_window T n s = (s', Panic p) ->
    user_result text L n s' (Panic p)
| ur_ok s' : ~ received s n -> established s -> hash_ok C T text L ->
    n = next_nonce_expected s \/ len (orphan_nonce_list s) < 10000 ->
    ~ (overflow_checks T = true /\ n = next_nonce_expected s /\
       forall m, n < m -> m < 2 ^ 64 -> In m (orphan_nonce_list s)) ->
    update_window T n s = (s', Ok tt) -> msl_status s' <> Fail ->
    user_result text L n s' (get_message (frame_data T text L (KUser n))).

Lemma read_inner_user_result chk text L n s' o :
  reader_read C T (encrypt_algo_with_secret s) d chk = Ok (frame_data T text L (KUser n)) ->
  read_inner C T chk d s = (s', o) -> user_result text L n s' o.
Proof.
  intros Hr E. apply read_inner_cases in E.
  destruct E;
    match goal with H1 : reader_read _ _ _ _ _ = _ |- _ =>
      rewrite Hr in H1; try discriminate H1; injection H1 as <- end;
    match goal with H1 : dd_headers _ = _ |- _ =>
      cbn [frame_data dd_headers content_headers] in H1; try discriminate H1; injection H1 as <- end;
    cbn [frame_data dd_data dd_user_msg_end] in *;
    try match goal with H1 : _ <= n, H2 : ~ In n _ |- _ =>
      pose proof (proj2 (not_received s n) (conj H1 H2)) as Hnr end;
    try match goal with H1 : msl_status s = NegotiationSuccessful |- _ =>
      pose proof (proj2 (established_iff s) H1) as Hest end.
  - apply ur_nonce. assumption.
  - assert (~ established s /\ ~ wants_only_ack s /\
            ((msl_status s = Fail /\ e = ConnectionHadFail) \/ (msl_status s <> Fail /\ e = RecvInvalidMsg UnexpectedMessage))) as (A & B & D).
    { rewrite established_iff. unfold wants_only_ack.
      destruct (msl_status s) as [|[] []|]; cbn in *; repeat split; try discriminate; auto;
        first [right; split; congruence|left; split; congruence]. }
    apply ur_turn; assumption.
  - apply ur_push; assumption.
  - match goal with H : _ = PSliceRange |- _ => subst p end. apply ur_cut; assumption.
  - apply ur_hash; try assumption. intros [_ H6]. contradiction.
  - match goal with H : update_window _ _ _ = _ |- _ => rename H into Hw end.
    pose proof (update_window_exact _ _ _ _ Hw (inv_window C T s HI)) as (P1 & P2 & P3).
    assert (hash_ok C T text L) as Hh by (split; assumption).
    destruct o as [u|e|p].
    + destruct u. apply ur_ok; try assumption.
      * destruct (N.eq_dec n (next_nonce_expected s)) as [->|Hne]; [auto|].
        destruct (N.lt_ge_cases (len (orphan_nonce_list s)) 10000) as [|Hge]; [auto|].
        destruct (proj2 P2 (conj Hne Hge)) as [e He]. discriminate.
      * intros Hp. destruct (proj2 P1 Hp) as [p He]. discriminate.
      * apply update_window_shape in Hw as [(v & l & -> & _)|[_ Hw]]; [|discriminate].
        cbn [set_window msl_status]. congruence.
    + destruct (proj1 P2 (ex_intro _ e eq_refl)) as [A B].
      rewrite (P3 e eq_refl).
      apply update_window_shape in Hw as [(v & l & -> & Hw)|[-> _]]; [exfalso; eapply Hw; reflexivity|].
      apply ur_orphans; assumption.
    + destruct (proj1 P1 (ex_intro _ p eq_refl)) as (A & B & D).
      eapply ur_overflow; eassumption.
Qed.

Lemma read_user_result text L n s' o :
  is_datagram C T s d text L (KUser n) -> read C T d s = (s', o) -> user_result text L n s' o.
Proof. intros Hd. exact (read_inner_user_result true text L n s' o (reader_of_class _ Hd)). Qed.

(** ** Panics *)
Theorem read_panic_iff : (exists p, snd (read C T d s) = Panic p) <-> panic_cause C T s d.
Proof.
  destruct (datagram_total C T HL (session_key s) d) as [c Hc].
  assert (forall text L k, is_datagram C T s d text L k -> c = DFrame text L k) as Hu
    by (intros; eapply class_unique; eassumption).
  destruct c as [|e| |text L k].
  - destruct (read_of_panic Hc) as [p ->]. split; [intros _; apply pc_cut; exact Hc|intros _; exists p; reflexivity].
  - rewrite (read_of_reject _ Hc). split; [intros [p H]; discriminate|].
    intros H; destruct H; try (match goal with H : is_datagram _ _ _ _ _ _ _ |- _ => apply Hu in H; discriminate end).
    pose proof (class_unique _ _ Hc H). discriminate.
  - rewrite (read_of_undecryptable Hc). split; [intros [p H]; discriminate|].
    intros H; destruct H; try (match goal with H : is_datagram _ _ _ _ _ _ _ |- _ => apply Hu in H; discriminate end).
    pose proof (class_unique _ _ Hc H). discriminate.
  - pose proof (read_frame_len _ _ _ Hc) as Hlen.
    destruct (read C T d s) as [s' o] eqn:E. cbn [snd].
    destruct k as [epk pk|ch|n]; cbn [headers_size] in Hlen.
    + apply (read_connect_result text L epk pk) in E; [|exact Hc].
      pose proof (get_message_exact text L (KConnect epk pk)) as Hg. cbn [headers_size] in Hg.
      assert (panic_cause C T s d -> key_acceptable s pk /\
        (len text < text_end T L \/
         (signed_by C T pk text L /\ wants_connect s /\ agreement_possible C s epk /\ text_end T L < 86))) as Hp.
      { intros H; destruct H;
          try (match goal with H : is_datagram _ _ _ _ _ _ _ |- _ =>
                 apply Hu in H; try discriminate H; injection H as <- <- <- <- end); auto 7.
        pose proof (class_unique _ _ Hc H). discriminate. }
      destruct E; split; try (intros [q Hq]; discriminate);
        try (intros H'; apply Hp in H' as [A [B|(B1 & B2 & B3 & B4)]]; unfold signed_by in *;
             solve [tauto | lia | destruct H0; lia]).
      * intros _. eapply pc_connect_end; eassumption.
      * intros _. eauto.
      * intros [q Hq]. destruct Hg as [(G1 & G2 & G3)|([G1|G1] & G3)].
        -- rewrite G3 in Hq. discriminate.
        -- eapply pc_connect_headers; eassumption.
        -- eapply pc_connect_end; eassumption.
      * intros H'. apply Hp in H' as [A B].
        destruct Hg as [(G1 & G2 & G3)|([G1|G1] & G3)]; try (rewrite G3; eauto; fail).
        destruct B as [B|(_ & _ & _ & B)]; lia.
    + apply (read_ack_result text L ch) in E; [|exact Hc].
      pose proof (get_message_exact text L (KAck ch)) as Hg. cbn [headers_size] in Hg.
      assert (panic_cause C T s d -> ch = sha256 C (ephemeral_pubkey s) /\
        exists k, peer_sig_pubkey s = Some k /\
        (len text < text_end T L \/
         (signed_by C T k text L /\ wants_ack s /\ text_end T L < 50))) as Hp.
      { intros H; destruct H;
          try (match goal with H : is_datagram _ _ _ _ _ _ _ |- _ =>
                 apply Hu in H; try discriminate H; injection H as <- <- -> end); eauto 8.
        pose proof (class_unique _ _ Hc H). discriminate. }
      destruct E; split; try (intros [q Hq]; discriminate);
        try (intros H'; apply Hp in H' as [A (k' & A' & [B|(B1 & B2 & B3)])]; unfold signed_by in *;
             solve [tauto | congruence | lia |
                    rewrite A' in *; match goal with H : Some _ = Some _ |- _ => injection H as <- end;
                    solve [tauto | lia]]).
      * intros _. subst ch. eapply pc_ack_end; eassumption.
      * intros _. eauto.
      * intros [q Hq]. subst ch. destruct Hg as [(G1 & G2 & G3)|([G1|G1] & G3)].
        -- rewrite G3 in Hq. discriminate.
        -- eapply pc_ack_headers; eassumption.
        -- eapply pc_ack_end; eassumption.
      * intros H'. apply Hp in H' as [A (k' & A' & B)].
        destruct Hg as [(G1 & G2 & G3)|([G1|G1] & G3)]; try (rewrite G3; eauto; fail).
        destruct B as [B|(_ & _ & B)]; lia.
    + apply (read_user_result text L n) in E; [|exact Hc].
      pose proof (get_message_exact text L (KUser n)) as Hg. cbn [headers_size] in Hg.
      assert (panic_cause C T s d -> ~ received s n /\ established s /\
        (len text < text_end T L \/
         (hash_ok C T text L /\ (n = next_nonce_expected s \/ len (orphan_nonce_list s) < 10000) /\
          text_end T L < 26) \/
         (hash_ok C T text L /\ overflow_checks T = true /\ n = next_nonce_expected s /\
          forall m, n < m -> m < 2 ^ 64 -> In m (orphan_nonce_list s)))) as Hp.
      { intros H; destruct H;
          try (match goal with H : is_datagram _ _ _ _ _ _ _ |- _ =>
                 apply Hu in H; try discriminate H; injection H as <- <- <- end); auto 10.
        pose proof (class_unique _ _ Hc H). discriminate. }
      assert (~ (established s /\ wants_only_ack s)) as Hex.
      { rewrite established_iff. unfold wants_only_ack. intros [? ?]; congruence. }
      destruct E; split; try (intros [q Hq]; discriminate);
        try (intros H'; apply Hp in H' as (A1 & A2 & [B|[(B1 & B2 & B3)|(B1 & B2 & B3 & B4)]]);
             unfold hash_ok in *; solve [tauto | lia | intuition lia]).
      * intros _. eapply pc_user_end; eassumption.
      * intros _; eauto.
      * intros _. eapply pc_nonce_overflow; eassumption.
      * intros _; eauto.
      * intros [q Hq]. destruct Hg as [(G1 & G2 & G3)|([G1|G1] & G3)].
        -- rewrite G3 in Hq. discriminate.
        -- eapply pc_user_headers; eassumption.
        -- eapply pc_user_end; eassumption.
      * intros H'. apply Hp in H' as (A1 & A2 & B).
        destruct Hg as [(G1 & G2 & G3)|([G1|G1] & G3)]; try (rewrite G3; eauto; fail).
        destruct B as [B|[(_ & _ & B)|(_ & B)]]; [lia|lia|contradiction].
Qed.

(** ** Failures *)
Theorem read_fails_iff e :
  ~ failed C s ->
  (snd (read C T d s) = Err e /\ failed C (fst (read C T d s)) <-> failure_cause C T s d e).
Proof.
  rewrite !failed_iff. intros Hnf.
  destruct (datagram_total C T HL (session_key s) d) as [c Hc].
  assert (forall text L k, is_datagram C T s d text L k -> c = DFrame text L k) as Hu
    by (intros; eapply class_unique; eassumption).
  destruct c as [|e'| |text L k].
  - destruct (read_of_panic Hc) as [p ->]. cbn [fst snd]. split; [intros [? _]; discriminate|].
    intros H; destruct H;
      try (match goal with H : is_datagram _ _ _ _ _ _ _ |- _ => apply Hu in H; discriminate end);
      pose proof (class_unique _ _ Hc H); discriminate.
  - rewrite (read_of_reject _ Hc). cbn [fst snd set_status msl_status]. split.
    + intros [H _]. injection H as <-. apply fc_reject; exact Hc.
    + intros H; destruct H;
        try (match goal with H : is_datagram _ _ _ _ _ _ _ |- _ => apply Hu in H; discriminate end);
        pose proof (class_unique _ _ Hc H) as E; [injection E as <-; auto|discriminate].
  - rewrite (read_of_undecryptable Hc). cbn [fst snd set_status msl_status]. split.
    + intros [H _]. injection H as <-. apply fc_undecryptable; exact Hc.
    + intros H; destruct H;
        try (match goal with H : is_datagram _ _ _ _ _ _ _ |- _ => apply Hu in H; discriminate end);
        pose proof (class_unique _ _ Hc H) as E; [discriminate|auto].
  - destruct (read C T d s) as [s' o] eqn:E. cbn [fst snd].
    assert (forall pk, msl_status (pin pk s) = msl_status s) as Hpin.
    { intros pk. unfold pin. destruct (peer_sig_pubkey s); reflexivity. }
    assert (forall e', datagram T C (session_key s) d (DReject e') -> False) as N1
      by (intros e' He'; pose proof (class_unique _ _ Hc He'); discriminate).
    assert (datagram T C (session_key s) d DUndecryptable -> False) as N2
      by (intros He'; pose proof (class_unique _ _ Hc He'); discriminate).
    destruct k as [epk pk|ch|n].
    + apply (read_connect_result text L epk pk) in E; [|exact Hc].
      assert (failure_cause C T s d e -> key_acceptable s pk /\ signed_by C T pk text L /\
        ~ wants_connect s /\ e = RecvInvalidMsg UnexpectedConnectMsg) as Hp.
      { intros H; destruct H; try (exfalso; eauto; fail);
          match goal with H : is_datagram _ _ _ _ _ _ _ |- _ =>
            apply Hu in H; try discriminate H; injection H as <- <- <- <- end; auto. }
      destruct E; split;
        try (intros [Ho Hs]; rewrite ?Hpin in Hs; cbn [set_status msl_status] in Hs; congruence);
        try (intros H'; apply Hp in H' as (A & B & D & F); unfold signed_by in *;
             solve [tauto | lia]).
      * intros [Ho _]. injection Ho as <-.
        match goal with H : (_ /\ _) \/ (_ /\ _ = _) |- _ => destruct H as [[? ?]|[_ ->]]; [contradiction|] end.
        eapply fc_connect; eassumption.
      * intros H'. apply Hp in H' as (A & B & D & ->).
        match goal with H : (_ /\ _) \/ (_ /\ _ = _) |- _ => destruct H as [[? ?]|[_ ->]]; [contradiction|] end. auto.
    + apply (read_ack_result text L ch) in E; [|exact Hc].
      assert (failure_cause C T s d e -> ch = sha256 C (ephemeral_pubkey s) /\
        e = RecvInvalidMsg UnexpectedAckMsg /\
        ((exists k, peer_sig_pubkey s = Some k /\ signed_by C T k text L /\ ~ wants_ack s) \/
         (peer_sig_pubkey s = None /\ exists b, ack_msg_recv_too_early s = Some b))) as Hp.
      { intros H; destruct H; try (exfalso; eauto; fail);
          match goal with H : is_datagram _ _ _ _ _ _ _ |- _ =>
            apply Hu in H; try discriminate H; injection H as <- <- -> end; eauto 10. }
      destruct E; split;
        try (intros [Ho Hs]; cbn [set_status set_ack_early msl_status] in Hs; congruence);
        try (intros H'; apply Hp in H' as (A & B & [(k' & D & F & G)|(D & b' & F)]);
             unfold signed_by in *;
             solve [congruence | rewrite D in *; congruence |
                    rewrite D in *; match goal with H : Some _ = Some _ |- _ => injection H as <- end;
                    solve [tauto | lia]]).
      * intros [Ho _]. injection Ho as <-. subst ch. eapply fc_early_ack; eassumption.
      * intros H'. apply Hp in H' as (_ & -> & _). auto.
      * intros [Ho _]. injection Ho as <-.
        match goal with H : (_ /\ _) \/ (_ /\ _ = _) |- _ => destruct H as [[? ?]|[_ ->]]; [contradiction|] end.
        subst ch. eapply fc_ack; eassumption.
      * intros H'. apply Hp in H' as (_ & -> & _).
        match goal with H : (_ /\ _) \/ (_ /\ _ = _) |- _ => destruct H as [[? ?]|[_ ->]]; [contradiction|] end. auto.
    + apply (read_user_result text L n) in E; [|exact Hc].
      assert (failure_cause C T s d e -> ~ received s n /\
        ((~ established s /\ ~ wants_only_ack s /\ e = RecvInvalidMsg UnexpectedMessage) \/
         (established s /\ hash_ok C T text L /\ n <> next_nonce_expected s /\
          10000 <= len (orphan_nonce_list s) /\ e = TooManyUnorderedMsgs))) as Hp.
      { intros H; destruct H; try (exfalso; eauto; fail);
          match goal with H : is_datagram _ _ _ _ _ _ _ |- _ =>
            apply Hu in H; try discriminate H; injection H as <- <- <- end; auto 10. }
      assert (~ (established s /\ wants_only_ack s)) as Hex.
      { rewrite established_iff. unfold wants_only_ack. intros [? ?]; congruence. }
      destruct E; split;
        try (intros [Ho Hs]; cbn [set_status set_stack msl_status] in Hs; congruence);
        try (intros H'; apply Hp in H' as (A & [(B & D & F)|(B & D & F & G & K)]);
             unfold hash_ok in *; solve [tauto | lia | intuition lia]).
      * intros [Ho _]. injection Ho as <-.
        match goal with H : (_ /\ _) \/ (_ /\ _ = _) |- _ => destruct H as [[? ?]|[_ ->]]; [contradiction|] end.
        eapply fc_user; eassumption.
      * intros H'. apply Hp in H' as (_ & [(_ & _ & ->)|(? & _)]); [|contradiction].
        match goal with H : (_ /\ _) \/ (_ /\ _ = _) |- _ => destruct H as [[? ?]|[_ ->]]; [contradiction|] end. auto.
      * intros [Ho _]. injection Ho as <-. eapply fc_orphans; eassumption.
      * intros H'. apply Hp in H' as (_ & [(? & _)|(_ & _ & _ & _ & ->)]); [contradiction|]. auto.
Qed.

Theorem read_fails_only_with_error :
  ~ failed C s -> failed C (fst (read C T d s)) -> exists e, snd (read C T d s) = Err e.
Proof.
  rewrite !failed_iff. intros Hnf Hf.
  destruct (datagram_total C T HL (session_key s) d) as [c Hc].
  destruct c as [|e'| |text L k].
  - destruct (read_of_panic Hc) as [p E]. rewrite E in Hf. contradiction.
  - rewrite (read_of_reject _ Hc). eexists; reflexivity.
  - rewrite (read_of_undecryptable Hc). eexists; reflexivity.
  - destruct (read C T d s) as [s' o] eqn:E. cbn [fst snd] in *.
    assert (forall pk, msl_status (pin pk s) = msl_status s) as Hpin.
    { intros pk. unfold pin. destruct (peer_sig_pubkey s); reflexivity. }
    destruct k as [epk pk|ch|n];
      [apply (read_connect_result text L epk pk) in E; [|exact Hc]
      |apply (read_ack_result text L ch) in E; [|exact Hc]
      |apply (read_user_result text L n) in E; [|exact Hc]];
      destruct E; rewrite ?Hpin in Hf; cbn [set_status set_stack set_ack_early msl_status] in Hf;
      try congruence; eauto.
    match goal with H : update_window _ _ _ = _ |- _ =>
      apply update_window_shape in H as [(v & l & -> & _)|[_ H]]; [|discriminate] end.
    cbn [set_window msl_status] in Hf. congruence.
Qed.

End Read.
End WithEnv.

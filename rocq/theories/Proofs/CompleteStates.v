(** Complete mode: early messages, payloads that do not inflate, clones and
    configuration. *)

From Coq Require Import Arith ZifyBool ZifyNat ZifyN.
From Verif.Model Require Import Complete.
From Verif.Spec Require Import Wire Datagram Trace ReadSpec Accept Session Writers Attacks CompleteTrace.
From Verif.Proofs Require Import BaseFacts IoFacts CipherFacts ReaderFacts ReadCases WindowFacts Invariant
  Negotiation Failure DatagramFacts ReadSpecFacts Accept Keys TraceInv UserReads Ledger Nonces Sending Early
  Histories Corollaries CompleteFacts Steps CompleteMode.

Section WithEnv.
Context (C : Crypto) (Z : Zip) (T : target) (HL : CryptoLaws C).

(** ** Early messages *)
Lemma read_stack_keep s d s' o :
  Inv C T s -> read C T d s = (s', o) -> ~ wants_only_ack s ->
  tmp_stack_user_msgs s' = tmp_stack_user_msgs s.
Proof.
  intros HI E Hw.
  destruct (datagram_total C T HL (session_key s) d) as [c Hc].
  destruct c as [|e| |text L k].
  { destruct (read_of_panic C T HL s d Hc) as [p Hp]. rewrite Hp in E. injection E as <- <-. auto. }
  { rewrite (read_of_reject C T HL s d e Hc) in E. injection E as <- <-. auto. }
  { rewrite (read_of_undecryptable C T HL s d Hc) in E. injection E as <- <-. auto. }
  destruct k as [epk pk|ch|n].
  - destruct (pin_window pk s) as (P1 & P2).
    apply (read_connect_result C T HL s HI d text L epk pk) in E; [|exact Hc].
    destruct E as [|?|?|e ? ? ? He|s' ? ? ? ? ? Hcn|s' ? ? ? ? ? Hcn]; auto;
      destruct Hcn as (l & kp & _ & _ & ->); exact P1.
  - apply (read_ack_result C T HL s d text L ch) in E; [|exact Hc]. destruct E; auto.
  - apply (read_user_result C T HL s HI d text L n) in E; [|exact Hc].
    destruct E as [| | | | | |? ? ? ? ? ? ? ? Hu|? ? ? ? ? ? Hu ?]; auto; try contradiction;
      apply update_window_shape in Hu as [(v & l & -> & _)|[-> _]]; auto.
Qed.

Lemma nego_stack s l r :
  Inv C T s -> msl_status s = OngoingNegotiation l r -> r <> AckMsgSent -> tmp_stack_user_msgs s = [].
Proof.
  intros HI Hst Hr. destruct (tmp_stack_user_msgs s) as [|b q] eqn:E; [reflexivity|].
  destruct (inv_queue_status C T s HI) as [H|[H|H]]; [rewrite E; discriminate|congruence..].
Qed.

(** After a read that accepts a CONNECT. *)
Lemma read_connect_status s d s' a pk x :
  Inv C T s -> read C T d s = (s', Ok (Some (MConnect a pk x))) ->
  exists l, msl_status s = OngoingNegotiation l WaitConnectMsg /\
    msl_status s' = OngoingNegotiation l ValidConnectMsgReceived.
Proof.
  intros HI E.
  assert (call_step C T s (CRead d) = (s', RMsg (Ok (Some (MConnect a pk x))))) as Es
    by (cbn [call_step]; rewrite E; reflexivity).
  apply (step_evolves C T) in Es; [|exact HI].
  inversion Es; subst; unfold quiet, connect_created, ack_created, ack_accepted, fatal, connect_accepted in *; cbn in *;
    try (intuition discriminate).
  exists l. split; congruence.
Qed.

Lemma read_ack_status s d s' x :
  Inv C T s -> read C T d s = (s', Ok (Some (MAck x))) ->
  exists r, msl_status s = OngoingNegotiation ConnectMsgSent r /\
    apply_action (msl_status s) (Receive TAck) = (msl_status s', Ok None).
Proof.
  intros HI E.
  assert (call_step C T s (CRead d) = (s', RMsg (Ok (Some (MAck x))))) as Es
    by (cbn [call_step]; rewrite E; reflexivity).
  apply (step_evolves C T) in Es; [|exact HI].
  inversion Es; subst; unfold quiet, connect_created, ack_created, ack_accepted, fatal, connect_accepted in *; cbn in *;
    try (intuition discriminate).
  exists r. split; congruence.
Qed.

Lemma read_user_status s d s' x :
  Inv C T s -> read C T d s = (s', Ok (Some (MMessage x))) -> msl_status s' = msl_status s.
Proof.
  intros HI E.
  assert (call_step C T s (CRead d) = (s', RMsg (Ok (Some (MMessage x))))) as Es
    by (cbn [call_step]; rewrite E; reflexivity).
  apply (step_evolves C T) in Es; [|exact HI].
  inversion Es; subst; unfold quiet, connect_created, ack_created, ack_accepted, fatal, connect_accepted in *; cbn in *;
    try (intuition discriminate).
Qed.

(** After the read of a CONNECT, taking the early ACK does not complete. *)
Lemma take_ack_after s s' o l :
  Inv C T s -> take_ack_msg_recv_too_early C T s = (s', o) ->
  msl_status s = OngoingNegotiation l ValidConnectMsgReceived ->
  tmp_stack_user_msgs s' = [] /\ ~ wants_connect s' /\ ephemeral_pubkey s' = ephemeral_pubkey s /\
  (msl_status s' = Fail -> exists e, o = Err e /\ harmless e = false).
Proof.
  intros HI E Hst.
  assert (call_step C T s CTakeAck = (s', RMsg o)) as Es by (cbn [call_step]; rewrite E; reflexivity).
  apply (step_evolves C T) in Es; [|exact HI].
  pose proof (nego_stack s l _ HI Hst ltac:(discriminate)) as Hq.
  assert (tmp_stack_user_msgs s' = [] /\ ephemeral_pubkey s' = ephemeral_pubkey s) as [Hq' Hep].
  { unfold take_ack_msg_recv_too_early in E. destruct (ack_msg_recv_too_early s) as [b|]; [|injection E as <- _; auto].
    pose proof (read_keys C T HL (set_ack_early None s) b s' o (inv_set_ack C T _ _ HI) E) as (R & _).
    apply read_stack_keep in E; [|apply inv_set_ack, HI|].
    - rewrite E. split; [exact Hq|exact R].
    - unfold wants_only_ack. cbn [set_ack_early msl_status]. rewrite Hst. discriminate. }
  split; [exact Hq'|]. rewrite Hst in Es.
  assert (~ wants_connect s' /\ (msl_status s' = Fail -> fatal (CTakeAck, RMsg o) = true)) as [H1 H2].
  { unfold wants_connect.
    inversion Es; subst; split; try (intros [l0 Hl0]); try (intros Hf); try assumption; try congruence;
      try (match goal with H : apply_action _ _ = _ |- _ => destruct l; cbn in H; congruence end).
    all: match goal with H : apply_action _ _ = _ |- _ => cbn in H; congruence end. }
  split; [exact H1|]. split; [exact Hep|]. intros Hf. specialize (H2 Hf). unfold fatal in H2. cbn [snd] in H2.
  destruct o as [|e|]; try discriminate. exists e. split; [reflexivity|]. destruct (harmless e); [discriminate|reflexivity].
Qed.

Definition no_stranded (s : secure_layer) : Prop :=
  msl_status (minimal s) = NegotiationSuccessful -> tmp_stack_user_msgs (minimal s) = [].

Lemma no_stranded_step s c s' r :
  Inv C T (minimal s) -> no_stranded s -> scall_step C Z T s c = (s', r) ->
  zip_error r = false -> spanics r = false -> no_stranded s'.
Proof.
  intros HI HP E Hz Hp. unfold no_stranded in *.
  destruct c as [d|cd w|cd w|data w| |cfg]; cbn [scall_step] in E.
  - destruct (read_bin C Z T d s) as [s1 o] eqn:Eb. injection E as -> <-.
    unfold read_bin in Eb.
    destruct (read C T d (minimal s)) as [m o1] eqn:Er.
    pose proof (inv_read C T (minimal s) d HI) as HIm. rewrite Er in HIm. cbn [fst] in HIm.
    assert (call_step C T (minimal s) (CRead d) = (m, RMsg o1)) as Es by (cbn [call_step]; rewrite Er; reflexivity).
    apply (step_evolves C T) in Es; [|exact HI].
    assert (msl_status (minimal s) = NegotiationSuccessful -> tmp_stack_user_msgs m = []) as Hkeep.
    { intros Hst. rewrite (read_stack_keep _ _ _ _ HI Er); [apply HP, Hst|]. unfold wants_only_ack. congruence. }
    assert (msl_status m = NegotiationSuccessful ->
            msl_status (minimal s) = NegotiationSuccessful \/ (exists x, o1 = Ok (Some (MAck x))) \/
            (exists p, o1 = Panic p)) as Hsucc.
    { intros Hm. rewrite Hm in Es.
      inversion Es as [? ? Hq| |? ? Hq|? ? ? Hq Ha|? ? Hq|r0 ? ? Hq Ha]; subst; auto;
        unfold ack_created in Hq; cbn in Hq; try discriminate; right.
      destruct Hq as [Hq|[_ Hq]].
      - left. unfold ack_accepted in Hq. cbn in Hq. destruct o1 as [[[]|]|e|p]; try discriminate. eauto.
      - right. cbn in Hq. destruct o1; try discriminate. eauto. }
    destruct o1 as [[[a pk x|x|x]|]|e|p].
    + destruct (read_connect_status _ _ _ _ _ _ HI Er) as (l & _ & Hl).
      destruct (uncompress_opt Z x); try (injection Eb as <- <-; cbn [minimal set_minimal]; congruence).
      destruct (take_ack_msg_recv_too_early C T m) as [m2 o2] eqn:Et.
      destruct (take_ack_after _ _ _ _ HIm Et Hl) as (Hq & _ & _ & _).
      destruct o2 as [[[]|]|e|p]; injection Eb as <- <-; auto.
    + destruct (uncompress_opt_cases Z x) as [(y & Ey & _)|(c & e & _ & _ & Ey)]; rewrite Ey in Eb;
        [|injection Eb as <- <-; discriminate].
      destruct (drain_tmp_stack_user_msgs C T m) as [m2 o2] eqn:Et.
      assert (minimal s' = m2) as -> by (destruct o2; injection Eb as <- _; reflexivity).
      intros Hm2.
      destruct (drain_inv C T m m2 o2 HIm Et) as (_ & _ & _ & [(Hst & _)|(Hst & _)]); [|congruence].
      unfold drain_tmp_stack_user_msgs in Et. apply drain_loop_stack in Et as [Et|Et].
      * exact Et.
      * cbn [set_stack msl_status] in Et. congruence.
      * apply (inv_queue C T m HIm).
    + injection Eb as <- <-. cbn [minimal set_minimal]. intros Hm. apply Hsucc in Hm as [H|[[y H]|[p H]]]; auto; discriminate.
    + injection Eb as <- <-. cbn [minimal set_minimal]. intros Hm. apply Hsucc in Hm as [H|[[y H]|[p H]]]; auto; discriminate.
    + injection Eb as <- <-. cbn [minimal set_minimal]. intros Hm. apply Hsucc in Hm as [H|[[y H]|[p H]]]; auto; discriminate.
    + injection Eb as <- <-. discriminate.
  - unfold write_connect_msg_bin, writer_write_connect_msg in E.
    destruct (sig_key_pair s) as [seed|]; [|injection E as <- _; exact HP].
    destruct (create_connect_message C _ _ (minimal s)) as [m o] eqn:Ec.
    assert (minimal s' = m) as -> by (destruct o; [destruct (write_signed C seed a w)|..]; injection E as <- _; reflexivity).
    apply create_connect_cases in Ec as [(r0 & Hst & -> & _)|(-> & _)]; [cbn; discriminate|exact HP].
  - unfold write_ack_msg_bin, writer_write_ack_msg in E.
    destruct (sig_key_pair s) as [seed|]; [|injection E as <- _; exact HP].
    destruct (create_ack_message C _ (minimal s)) as [m o] eqn:Ec.
    assert (minimal s' = m) as -> by (destruct o; [destruct (write_signed C seed a w)|..]; injection E as <- _; reflexivity).
    apply (create_ack_cases C T) in Ec as [(st & epk & Ha & -> & _)|(-> & _)]; [|exact HP|exact HI].
    intros _. cbn [set_status tmp_stack_user_msgs].
    destruct (msl_status (minimal s)) as [|l [| |]|] eqn:Est; cbn in Ha; try (destruct l; discriminate); try discriminate.
    eapply nego_stack; [exact HI|exact Est|discriminate].
  - unfold write_bin, writer_write_bin_message in E.
    destruct (write_message C T _ (minimal s) w) as [[m w'] o] eqn:Ew. injection E as <- _. cbn [minimal set_minimal].
    apply write_message_cases in Ew
      as [(_ & -> & _)|[(_ & _ & -> & _)|(Hst & k & o1 & _ & _ &
        [(e & _ & _ & ->)|[(_ & n & _ & -> & _)|(_ & p & _ & -> & _)]])]]; auto; cbn; discriminate.
  - unfold sl_try_clone, try_clone in E.
    destruct (msl_status (minimal s)) eqn:Est; injection E as <- _; cbn [minimal set_minimal set_cloned msl_status tmp_stack_user_msgs]; auto;
      congruence.
  - unfold sl_change_config, change_config in E. destruct (negb (cloned (minimal s))); injection E as <- _; exact HP.
Qed.

Lemma no_stranded_run s cs s' h :
  sreachable C Z T s -> no_stranded s -> srun C Z T s cs = (s', h) ->
  (forall e, In e h -> zip_error (snd e) = false /\ spanics (snd e) = false) -> no_stranded s'.
Proof.
  revert s h. induction cs as [|c cs IH]; intros s h Hs HP; cbn [srun].
  - intros [= <- _] _. exact HP.
  - destruct (scall_step C Z T s c) as [s1 r] eqn:E. destruct (srun C Z T s1 cs) as [s2 h2] eqn:E2.
    intros [= <- <-] Hh. destruct (Hh (c, r) (or_introl eq_refl)) as [H1 H2].
    apply (IH s1 h2); [| |exact E2|intros e He; apply Hh; right; exact He].
    + pose proof (sreach_step C Z T s c Hs) as H. rewrite E in H. exact H.
    + eapply no_stranded_step; [apply inv_reachable, (sreachable_minimal C Z T), Hs|exact HP|exact E|exact H1|exact H2].
Qed.

Lemma no_stranded_waiting s :
  sestablished s -> no_stranded s -> none_waiting C T s /\ forall c, snd (sl_try_clone s) = Ok c -> none_waiting C T c.
Proof.
  intros He HP. apply sestablished_iff, established_iff in He. specialize (HP He).
  unfold none_waiting, drain_tmp_stack_user_msgs. split.
  - rewrite HP. cbn [drain_loop]. f_equal. destruct (minimal s); cbn in *. subst. reflexivity.
  - intros c Hc. unfold sl_try_clone, try_clone in Hc. rewrite He in Hc. injection Hc as <-.
    cbn [minimal tmp_stack_user_msgs set_cloned]. rewrite HP. reflexivity.
Qed.

Theorem no_message_stranded r rs cfg seed pin s0 cs s h :
  sl_create C r rs cfg seed pin = Ok s0 -> srun C Z T s0 cs = (s, h) ->
  (forall e, In e h -> zip_error (snd e) = false /\ spanics (snd e) = false) ->
  sestablished s -> none_waiting C T s /\ forall c, snd (sl_try_clone s) = Ok c -> none_waiting C T c.
Proof.
  intros Hc Hr Hh He. apply no_stranded_waiting; [exact He|].
  eapply no_stranded_run; [eapply sreach_create; exact Hc| |exact Hr|exact Hh].
  intros Hst. unfold sl_create in Hc.
  destruct seed as [sd|]; [|destruct rs as [sd|]]; cbn [obind] in Hc; try discriminate;
    destruct (create C r cfg pin) as [m|e|p] eqn:Ec; try discriminate; injection Hc as <-;
    apply created_fresh in Ec as (_ & _ & Hq & _); exact Hq.
Qed.

(** The same for clones and their histories. *)
Theorem clone_message_stranded s0 cs s h :
  sreachable C Z T s0 -> sestablished s0 -> none_waiting C T s0 -> srun C Z T s0 cs = (s, h) ->
  (forall e, In e h -> zip_error (snd e) = false /\ spanics (snd e) = false) ->
  sestablished s -> none_waiting C T s.
Proof.
  intros Hs He Hn Hr Hh He'. apply no_stranded_waiting; [exact He'|].
  eapply no_stranded_run; [exact Hs| |exact Hr|exact Hh].
  intros Hst. unfold none_waiting, drain_tmp_stack_user_msgs in Hn.
  apply drain_loop_stack in Hn as [Hn|Hn].
  - exact Hn.
  - cbn [set_stack msl_status] in Hn. congruence.
  - apply (inv_queue C T), inv_reachable, (sreachable_minimal C Z T), Hs.
Qed.

(** ** Payloads that do not inflate *)
Lemma connect_pins m0 d m a pk x :
  Inv C T m0 -> read C T d m0 = (m, Ok (Some (MConnect a pk x))) -> peer_sig_pubkey m = Some pk.
Proof.
  intros HI E.
  assert (snd (read C T d m0) = Ok (Some (MConnect a pk x))) as Ed by (rewrite E; reflexivity).
  apply (connect_delivered_iff C T HL m0 HI) in Ed
    as (epk & cd & (L1 & L2 & (L & sig & Hf & Hd & _) & _) & _ & _).
  pose proof (connect_class T L epk pk cd sig L1 L2 Hf) as Hc. rewrite <- Hd in Hc.
  apply (clear_datagram C T (session_key m0)) in Hc; [|reflexivity].
  apply (read_connect_result C T HL m0 HI d _ _ _ _ _ _ Hc) in E.
  inversion E as [| | | | |? Hka ? ? ? ? Hcn]; try discriminate.
  destruct Hcn as (l & kp & _ & _ & Hcn). rewrite Hcn. cbn.
  unfold pin. destruct (peer_sig_pubkey m0) as [k'|] eqn:Ek; [|reflexivity].
  destruct Hka as [Hka|Hka]; congruence.
Qed.

Lemma connect_consumed m0 d m a pk x m' :
  Inv C T m0 -> read C T d m0 = (m, Ok (Some (MConnect a pk x))) ->
  Inv C T m' -> ~ wants_connect m' -> msl_status m' <> Fail -> peer_sig_pubkey m' = Some pk ->
  snd (read C T d m') = Err (RecvInvalidMsg UnexpectedConnectMsg).
Proof.
  intros HI E HI' Hw Hnf Hk.
  assert (snd (read C T d m0) = Ok (Some (MConnect a pk x))) as Ed by (rewrite E; reflexivity).
  apply (connect_delivered_iff C T HL m0 HI) in Ed
    as (epk & cd & (L1 & L2 & (L & sig & Hf & Hd & _) & _) & _ & _).
  pose proof (connect_class T L epk pk cd sig L1 L2 Hf) as Hc. rewrite <- Hd in Hc.
  pose proof (clear_datagram C T (session_key m0) _ _ _ Hc eq_refl) as Hc0.
  apply (clear_datagram C T (session_key m')) in Hc; [|reflexivity].
  assert (signed_by C T pk d L) as Hs.
  { apply (read_connect_result C T HL m0 HI d _ _ _ _ _ _ Hc0) in E.
    inversion E; try discriminate; assumption. }
  destruct (read C T d m') as [m2 o2] eqn:E2.
  apply (read_connect_result C T HL m' HI' d _ _ _ _ _ _ Hc) in E2.
  destruct E2 as [Hr|_ Hr|_ _ Hr|e _ _ _ [[Hr _]|[_ ->]]|? _ _ Hr|? _ _ Hr]; try contradiction; [| |reflexivity].
  - exfalso. apply Hr. right. exact Hk.
  - exfalso. destruct Hs as [Hs _]. lia.
Qed.

Lemma ack_consumed m0 d m x m' k :
  Inv C T m0 -> read C T d m0 = (m, Ok (Some (MAck x))) -> peer_sig_pubkey m0 = Some k ->
  ephemeral_pubkey m' = ephemeral_pubkey m0 -> peer_sig_pubkey m' = Some k -> ~ wants_ack m' ->
  msl_status m' <> Fail -> snd (read C T d m') = Err (RecvInvalidMsg UnexpectedAckMsg).
Proof.
  intros HI E Hk0 He Hk Hw Hnf.
  assert (snd (read C T d m0) = Ok (Some (MAck x))) as Ed by (rewrite E; reflexivity).
  apply (ack_delivered_iff C T HL m0 HI) in Ed as (pk & cd & ((L & sig & Hf & Hd & _) & _) & _).
  pose proof (ack_class T L _ cd sig (len_32 _ (law_sha256_len C HL _)) Hf) as Hc. rewrite <- Hd in Hc.
  pose proof (clear_datagram C T (session_key m0) _ _ _ Hc eq_refl) as Hc0.
  apply (clear_datagram C T (session_key m')) in Hc; [|reflexivity].
  assert (signed_by C T k d L) as Hs.
  { apply (read_ack_result C T HL m0 d _ _ _ _ _ Hc0) in E.
    inversion E; try discriminate; congruence. }
  destruct (read C T d m') as [m2 o2] eqn:E2.
  apply (read_ack_result C T HL m' d _ _ _ _ _ Hc) in E2.
  destruct E2 as [Hr|_ Hr|? _ Hr|k' _ Hr Hx|k' _ Hr _ Hx|k' e _ _ _ _ [[Hr _]|[_ ->]]|? ? _ _ _ Hr]; try congruence; try contradiction.
  - exfalso. destruct Hs as [Hs _]. lia.
  - reflexivity.
Qed.

Lemma drain_keys m m' o : drain_tmp_stack_user_msgs C T m = (m', o) -> Inv C T m -> peer_sig_pubkey m' = peer_sig_pubkey m.
Proof.
  intros E HI.
  assert (call_step C T m CDrain = (m', RMsgs o)) as Es by (cbn [call_step]; rewrite E; reflexivity).
  eapply step_keys in Es; [|exact HI|discriminate|discriminate]. unfold keys in Es. injection Es as _ _ _ Es _ _. exact Es.
Qed.

Lemma failed_iff_status m : failed C m <-> msl_status m = Fail.
Proof.
  unfold failed, create_connect_message.
  destruct (msl_status m) as [|[] []|]; cbn; split; intros H; try reflexivity; discriminate.
Qed.

(** The layer inside never reports a decompression error. *)
Definition nozip {A} (o : outcome A) : Prop := forall e, o <> Err (ZipError e).
Lemma nozip_ok {A} (a : A) : nozip (Ok a). Proof. intros e. discriminate. Qed.
Lemma nozip_panic {A} p : @nozip A (Panic p). Proof. intros e. discriminate. Qed.
Lemma nozip_bind {A B} (o : outcome A) (f : A -> outcome B) :
  nozip o -> (forall a, nozip (f a)) -> nozip (obind o f).
Proof.
  intros Ho Hf. destruct o; cbn [obind]; [apply Hf| |apply nozip_panic].
  intros e1 Eq. apply (Ho e1). congruence.
Qed.
Lemma nozip_slice d a b : nozip (slice d a b).
Proof. unfold slice. destruct (_ && _); intros e; discriminate. Qed.
Lemma nozip_slice_to d a : nozip (slice_to d a).
Proof. unfold slice_to. destruct (_ <=? _); intros e; discriminate. Qed.
Lemma nozip_slice_from d a : nozip (slice_from d a).
Proof. unfold slice_from. destruct (_ <=? _); intros e; discriminate. Qed.
Lemma nozip_usize_add a b : nozip (usize_add T a b).
Proof. unfold usize_add. repeat (destruct (_ : bool)); intros e; discriminate. Qed.
Ltac nozip :=
  repeat first
    [ apply nozip_ok | apply nozip_panic | apply nozip_slice | apply nozip_slice_to | apply nozip_slice_from
    | apply nozip_usize_add | (intros ?; discriminate)
    | (apply nozip_bind; [|intros]) | progress cbv zeta
    | match goal with |- nozip (if ?b then _ else _) => destruct b end
    | match goal with |- nozip (let '(_, _) := ?x in _) => destruct x end
    | match goal with |- nozip (match ?x with _ => _ end) => destruct x end ].

Lemma nozip_reader a d chk : nozip (reader_read C T a d chk).
Proof.
  unfold reader_read, read_decrypt, read_parse, read_type_headers. nozip.
  all: unfold decrypt, chacha_decrypt, aead_open; nozip.
Qed.

Lemma nozip_get_message d : nozip (get_message d).
Proof. unfold get_message. nozip. Qed.

Lemma nozip_action st a st' e : apply_action st a <> (st', Err (ZipError e)).
Proof. destruct st as [|[] []|]; destruct a as [[]|[]]; cbn; discriminate. Qed.

Lemma nozip_rcase chk d s s' o : rcase C T chk d s s' o -> nozip o.
Proof.
  intros H. destruct H; try (intros e'; discriminate); try apply nozip_get_message;
    try (match goal with H : reader_read _ _ _ _ _ = Err _ |- _ => intros e' E'; injection E' as ->; exact (nozip_reader _ _ _ _ H) end);
    try (match goal with H : apply_action _ _ = (_, Err ?e) |- _ =>
           intros e' E'; injection E' as ->; eapply nozip_action; exact H end).
  - match goal with H : compute_shared_secret _ _ _ = _ |- _ => rename H into Hc end.
    unfold compute_shared_secret, ekp_compute_shared_secret in Hc.
    destruct o as [u|e|p]; [apply nozip_get_message| |apply nozip_panic].
    set (q := set_peer_epk _ _) in Hc.
    destruct (ephemeral q) as [kp|]; [|destruct (encrypt_algo_with_secret q); discriminate].
    destruct (cfg_encrypt_algo (conf q)). destruct (x25519_agree C (ekp_priv kp) epk); cbn [obind algo_build derive] in Hc.
    + discriminate.
    + injection Hc as _ <-. intros e'. discriminate.
  - match goal with H : update_window _ _ _ = _ |- _ => rename H into Hc end.
    destruct o as [u|e|p]; [apply nozip_get_message| |apply nozip_panic].
    apply update_window_shape in Hc as [(v & l & _ & He)|[_ He]].
    + intros e' E'. apply (He e). reflexivity.
    + intros e' E'. congruence.
Qed.

Lemma nozip_read d s s' e : read C T d s <> (s', Err (ZipError e)).
Proof. intros E. apply read_inner_cases, nozip_rcase in E. exact (E e eq_refl). Qed.

Lemma nozip_drain bs acc s s' e : drain_loop C T bs acc s <> (s', Err (ZipError e)).
Proof.
  revert acc s. induction bs as [|b bs IH]; intros acc s E; cbn [drain_loop] in E; [discriminate|].
  destruct (read_inner C T false b s) as [s1 o1] eqn:E1. apply read_inner_cases, nozip_rcase in E1.
  destruct o1 as [[m1|]|e1|p]; try (eapply IH; exact E); try discriminate.
  injection E as _ ->. exact (E1 e eq_refl).
Qed.

(** Messages were returned, or one could not be inflated: the connection goes
    on, and the datagram is gone. *)
Definition took (o : outcome (list incoming_binary_message)) : Prop :=
  match o with Ok (_ :: _) => True | Err (ZipError _) => True | _ => False end.

Theorem taken_consumed d s s' o :
  sreachable C Z T s ->
  next_nonce_expected (minimal s) + len (orphan_nonce_list (minimal s)) + 1 < 2 ^ 64 ->
  read_bin C Z T d s = (s', o) -> took o ->
  ~ sfailed C s' /\ exists x, In x [UnexpectedConnectMsg; UnexpectedAckMsg; InvalidNonce] /\
    snd (read_bin C Z T d s') = Err (RecvInvalidMsg x).
Proof.
  intros Hs Hu E Htook. unfold sfailed. rewrite failed_iff_status.
  pose proof (inv_reachable C T _ (sreachable_minimal C Z T s Hs)) as HI.
  assert (Inv C T (minimal s')) as HI'.
  { pose proof (sreach_step C Z T s (SRead d) Hs) as H. cbn [scall_step] in H. rewrite E in H.
    apply inv_reachable, (sreachable_minimal C Z T), H. }
  assert (forall x, In x [UnexpectedConnectMsg; UnexpectedAckMsg; InvalidNonce] ->
            snd (read C T d (minimal s')) = Err (RecvInvalidMsg x) ->
            exists x, In x [UnexpectedConnectMsg; UnexpectedAckMsg; InvalidNonce] /\
              snd (read_bin C Z T d s') = Err (RecvInvalidMsg x)) as Hlift.
  { intros x Hx H. exists x. split; [exact Hx|]. unfold read_bin.
    destruct (read C T d (minimal s')) as [m2 o2]. cbn [snd] in H. subst o2. reflexivity. }
  unfold read_bin in E.
  destruct (read C T d (minimal s)) as [m [[[a pk x|x|x]|]|e0|p0]] eqn:Er.
  - pose proof (inv_read C T (minimal s) d HI) as HIm. rewrite Er in HIm. cbn [fst] in HIm.
    destruct (read_connect_status _ _ _ _ _ _ HI Er) as (l & Hl0 & Hl).
    pose proof (connect_pins _ _ _ _ _ _ HI Er) as Hpk.
    destruct (uncompress_opt_cases Z x) as [(y & Ey & _)|(c & e1 & _ & _ & Ey)]; rewrite Ey in E.
    + destruct (take_ack_msg_recv_too_early C T m) as [m2 o2] eqn:Et.
      destruct (take_ack_after _ _ _ _ HIm Et Hl) as (_ & Hw & _ & Hfail).
      assert (peer_sig_pubkey m2 = Some pk) as Hpk2.
      { unfold take_ack_msg_recv_too_early in Et. destruct (ack_msg_recv_too_early m) as [b|];
          [|injection Et as <- _; exact Hpk].
        destruct (read_keys C T HL _ _ _ _ (inv_set_ack C T _ _ HIm) Et) as (_ & R & _). apply R, Hpk. }
      assert (minimal s' = m2) as Hm2 by (destruct o2 as [[[]|]|?|?]; injection E as <- _; reflexivity).
      rewrite Hm2 in *.
      assert (msl_status m2 <> Fail) as Hnf.
      { intros Hf. apply Hfail in Hf as (e2 & -> & He2). injection E as _ <-.
        destruct e2; try contradiction.
        unfold take_ack_msg_recv_too_early in Et. destruct (ack_msg_recv_too_early m) as [b|]; [|discriminate].
        exact (nozip_read _ _ _ _ Et). }
      split; [exact Hnf|].
      apply (Hlift UnexpectedConnectMsg); [left; reflexivity|].
      eapply connect_consumed; [exact HI|exact Er|exact HI'|exact Hw|exact Hnf|exact Hpk2].
    + injection E as <- _. cbn [minimal set_minimal] in *. split; [congruence|].
      apply (Hlift UnexpectedConnectMsg); [left; reflexivity|].
      eapply connect_consumed; [exact HI|exact Er|exact HI'| |congruence|exact Hpk].
      intros [l' Hl']. congruence.
  - pose proof (inv_read C T (minimal s) d HI) as HIm. rewrite Er in HIm. cbn [fst] in HIm.
    destruct (read_ack_status _ _ _ _ HI Er) as (r & Hr & Hap).
    assert (exists k, peer_sig_pubkey (minimal s) = Some k) as [k Hk].
    { assert (snd (read C T d (minimal s)) = Ok (Some (MAck x))) as Ed by (rewrite Er; reflexivity).
      apply (ack_delivered_iff C T HL _ HI) in Ed as (pk & cd & (_ & Hpk & _) & _). eauto. }
    pose proof (read_keys C T HL _ _ _ _ HI Er) as (Rep & Rpk & _).
    assert (peer_sig_pubkey m = Some k) as Hkm by (apply Rpk, Hk).
    assert (msl_status m <> Fail /\ ~ wants_ack m) as [Hnf Hnw].
    { unfold wants_ack. rewrite Hr in Hap. destruct r; cbn in Hap; injection Hap as <-; split; try discriminate;
        intros [? ?]; discriminate. }
    destruct (uncompress_opt_cases Z x) as [(y & Ey & _)|(c & e1 & _ & _ & Ey)]; rewrite Ey in E.
    + destruct (drain_tmp_stack_user_msgs C T m) as [m2 o2] eqn:Et.
      assert (minimal s' = m2) as Hm2 by (destruct o2; injection E as <- _; reflexivity).
      pose proof (drain_keys m m2 o2 Et HIm) as Hk2.
      destruct (drain_inv C T m m2 o2 HIm Et) as (_ & _ & Hep2 & Hst2).
      assert (msl_status m2 = msl_status m) as Hst.
      { destruct Hst2 as [[H _]|(_ & e2 & -> & _)]; [exact H|]. injection E as _ <-.
        destruct e2; try contradiction. exfalso. unfold drain_tmp_stack_user_msgs in Et. exact (nozip_drain _ _ _ _ _ Et). }
      rewrite Hm2 in *. split; [congruence|].
      apply (Hlift UnexpectedAckMsg); [right; left; reflexivity|].
      eapply ack_consumed; [exact HI|exact Er|exact Hk|congruence|rewrite Hk2; exact Hkm| |congruence].
      unfold wants_ack. rewrite Hst. exact Hnw.
    + injection E as <- _. cbn [minimal set_minimal] in *. split; [exact Hnf|].
      apply (Hlift UnexpectedAckMsg); [right; left; reflexivity|].
      eapply ack_consumed; [exact HI|exact Er|exact Hk|exact Rep|exact Hkm|exact Hnw|exact Hnf].
  - injection E as <- _. cbn [minimal set_minimal] in *.
    assert (snd (read C T d (minimal s)) = Ok (Some (MMessage x))) as Ed by (rewrite Er; reflexivity).
    apply (user_delivered_iff C T HL _ HI) in Ed as (k & n & data & (H1 & H2 & H3 & H4 & H5 & H6 & H7) & _).
    assert (opens C T k d n data) as Hop by (split; [exact H3|split; [exact H2|exact H4]]).
    destruct (read_user_fwd C T HL _ k d n data HI H5 H1 Hop H6 Hu) as (v & l & E2 & _ & _ & Hrv).
    rewrite Er in E2. injection E2 as -> _. split.
    + apply established_iff in H5. cbn [set_window msl_status]. congruence.
    + apply (Hlift InvalidNonce); [right; right; left; reflexivity|].
      rewrite (read_received C T HL _ k d n data HI' H1 Hop); [reflexivity|].
      apply Hrv. right. reflexivity.
  - injection E as _ <-. contradiction.
  - injection E as _ <-. destruct e0; try contradiction. exfalso. exact (nozip_read _ _ _ _ Er).
  - injection E as _ <-. contradiction.
Qed.

Theorem undecodable_consumed d s s' e :
  sreachable C Z T s ->
  next_nonce_expected (minimal s) + len (orphan_nonce_list (minimal s)) + 1 < 2 ^ 64 ->
  read_bin C Z T d s = (s', Err (ZipError e)) ->
  ~ sfailed C s' /\ exists x, In x [UnexpectedConnectMsg; UnexpectedAckMsg; InvalidNonce] /\
    snd (read_bin C Z T d s') = Err (RecvInvalidMsg x).
Proof. intros Hs Hu E. exact (taken_consumed d s s' _ Hs Hu E I). Qed.


(** User messages: the exact answers. *)
Theorem undecodable_message d s k n data e :
  sreachable C Z T s -> sestablished s -> session_key (minimal s) = Some k ->
  opens C T k d n data -> data <> [] -> inflate Z data = inr e ->
  window_room (minimal s) n ->
  next_nonce_expected (minimal s) + len (orphan_nonce_list (minimal s)) + 1 < 2 ^ 64 ->
  exists s', read_bin C Z T d s = (s', Err (ZipError e)) /\ sestablished s' /\
    read_bin C Z T d s' = (s', Err (RecvInvalidMsg InvalidNonce)).
Proof.
  intros Hs He Hk Hop Hne Hinf Hroom Hu. apply sestablished_iff in He.
  pose proof (inv_reachable C T _ (sreachable_minimal C Z T s Hs)) as HI.
  destruct (read_user_fwd C T HL _ k d n data HI He Hk Hop Hroom Hu) as (v & l & E & HI' & _ & Hrv).
  exists (set_minimal (set_window v l (minimal s)) s).
  assert (uncompress_opt Z (nonempty data) = Err (ZipError e)) as Ex.
  { destruct data as [|b data]; [contradiction|]. cbn [nonempty uncompress_opt]. unfold uncompress.
    rewrite Hinf. reflexivity. }
  split; [unfold read_bin; rewrite E, Ex; reflexivity|]. split.
  - apply sestablished_iff, established_iff. apply established_iff in He. exact He.
  - unfold read_bin. cbn [minimal set_minimal].
    rewrite (read_received C T HL _ k d n data HI' Hk Hop); [reflexivity|]. apply Hrv. right. reflexivity.
Qed.

(** ** Clones *)
Lemma no_key_step s c s' r :
  sig_key_pair s = None -> scall_step C Z T s c = (s', r) -> sig_key_pair s' = None.
Proof.
  intros Hk E.
  destruct c as [d|cd w|cd w|data w| |cfg]; cbn [scall_step] in E.
  - unfold read_bin in E.
    repeat match type of E with context [let '(_, _) := match ?x with _ => _ end in _] => destruct x end;
      injection E as <- _; exact Hk.
  - unfold write_connect_msg_bin, writer_write_connect_msg in E. rewrite Hk in E. injection E as <- _. exact Hk.
  - unfold write_ack_msg_bin, writer_write_ack_msg in E. rewrite Hk in E. injection E as <- _. exact Hk.
  - unfold write_bin, writer_write_bin_message in E. destruct (write_message C T _ _ w) as [[m w'] o].
    injection E as <- _. exact Hk.
  - unfold sl_try_clone in E. destruct (try_clone (minimal s)) as [m [x|e|p]]; injection E as <- _; exact Hk.
  - unfold sl_change_config in E. destruct (change_config cfg (minimal s)) as [m o]; injection E as <- _; exact Hk.
Qed.

Lemma no_key_run s cs s' h :
  sig_key_pair s = None -> srun C Z T s cs = (s', h) -> sig_key_pair s' = None.
Proof.
  revert s h. induction cs as [|c cs IH]; intros s h Hk; cbn [srun].
  - intros [= <- _]. exact Hk.
  - destruct (scall_step C Z T s c) as [s1 r] eqn:E. destruct (srun C Z T s1 cs) as [s2 h2] eqn:E2.
    intros [= <- _]. eapply IH; [|exact E2]. eapply no_key_step; [exact Hk|exact E].
Qed.

(** The handle is a clone, or was. *)
Theorem clone_cannot_negotiate s c cs c' h :
  snd (sl_try_clone s) = Ok c -> srun C Z T c cs = (c', h) ->
  (forall cd w, write_connect_msg_bin C Z cd c' w = (c', w, Err ConnectMsgAlreadyWritten)) /\
  (forall cd w, write_ack_msg_bin C Z cd c' w = (c', w, Err ConnectMsgAlreadyWritten)).
Proof.
  intros Hc Hr.
  assert (sig_key_pair c = None) as Hk.
  { unfold sl_try_clone in Hc. destruct (try_clone (minimal s)) as [m [x|e|p]]; try discriminate.
    injection Hc as <-. reflexivity. }
  apply (no_key_run c cs c' h Hk) in Hr.
  unfold write_connect_msg_bin, write_ack_msg_bin, writer_write_connect_msg, writer_write_ack_msg. rewrite Hr. auto.
Qed.

End WithEnv.

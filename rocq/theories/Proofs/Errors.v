(** The errors of each method. *)

From Coq Require Import Lia.
From Verif.Model Require Import Serde.
From Verif.Spec Require Import Wire Datagram Trace ReadSpec Accept Session CompleteTrace TypedTrace Errors.
From Verif.Proofs Require Import BaseFacts CipherFacts ReaderFacts Invariant UserReads Fragile CompleteFacts Typed.

Ltac listing := cbn [listed In map app read_errors]; tauto.

Lemma slice_to_no_err d n e : slice_to d n <> Err e.
Proof. unfold slice_to. destruct (_ <=? _); discriminate. Qed.
Lemma slice_from_no_err d n e : slice_from d n <> Err e.
Proof. unfold slice_from. destruct (_ <=? _); discriminate. Qed.
Lemma slice_no_err d a b e : slice d a b <> Err e.
Proof. unfold slice. repeat (match goal with |- context [if ?x then _ else _] => destruct x end); discriminate. Qed.
Lemma usize_add_no_err T a b e : usize_add T a b <> Err e.
Proof. unfold usize_add. repeat (match goal with |- context [if ?x then _ else _] => destruct x end); discriminate. Qed.
Lemma u64_incr_no_err T a e : u64_incr T a <> Err e.
Proof. unfold u64_incr. repeat (match goal with |- context [if ?x then _ else _] => destruct x end); discriminate. Qed.

Lemma bind_err {A B} (o : outcome A) (f : A -> outcome B) e :
  obind o f = Err e -> o = Err e \/ exists a, o = Ok a /\ f a = Err e.
Proof. destruct o; cbn; intros H; [right; eauto|left; congruence|discriminate]. Qed.

(** Follow the [?] operators and the tests of a function that ended with an error. *)
Ltac follow H :=
  repeat first
    [ let x := fresh "x" in let Hx := fresh "Hx" in
      apply bind_err in H as [H|[x [Hx H]]];
        [exfalso; revert H;
         first [apply slice_to_no_err|apply slice_from_no_err|apply slice_no_err|apply usize_add_no_err]|]
    | match type of H with (if ?c then _ else _) = _ => destruct c end
    | match type of H with (let (_, _) := ?p in _) = _ => destruct p end ].

Section Minimal.
Context (C : Crypto) (T : target).

Lemma headers_errors th e : read_type_headers th = Err e ->
  In e (map RecvInvalidMsg [UnknownMessageType; UnsupportedSigAlgo]).
Proof.
  unfold read_type_headers. intros H. follow H; try discriminate H; injection H as <-; cbn; tauto.
Qed.

Lemma parse_errors chk enc d e : read_parse T chk enc d = Err e ->
  In e (map RecvInvalidMsg [UnknownMessageType; UnsupportedSigAlgo; InvalidMagicValue; UnsupportedVersion;
                            UnexpectedEncryptionState]).
Proof.
  unfold read_parse. intros H. follow H; try (injection H as <-; cbn; tauto).
  apply bind_err in H as [H|[[h l] [_ H]]].
  - apply headers_errors in H. cbn in H |- *. tauto.
  - destruct (_ && _); [injection H as <-; cbn; tauto|discriminate].
Qed.

Lemma reader_errors sec d chk e : reader_read C T sec d chk = Err e ->
  In e (FailToDecryptData DecTagMismatch ::
        map RecvInvalidMsg [UnexpectedMessage; UnknownMessageType; UnsupportedSigAlgo; InvalidMagicValue;
                            UnsupportedVersion; UnexpectedEncryptionState]).
Proof.
  unfold reader_read. intros H. apply bind_err in H as [H|[[enc p] [_ H]]].
  - unfold read_decrypt in H. follow H; try discriminate H.
    destruct sec as [[k]|]; [|injection H as <-; cbn; tauto].
    apply bind_err in H as [H|[y [_ H]]]; [|discriminate].
    cbn [decrypt] in H. unfold chacha_decrypt, aead_open in H. follow H; try discriminate H.
    injection H as <-. cbn. tauto.
  - apply parse_errors in H. cbn in H |- *. tauto.
Qed.

Lemma get_message_no_err d e : get_message d <> Err e.
Proof.
  unfold get_message. intros H. apply bind_err in H as [H|[x [_ H]]]; [exact (slice_no_err _ _ _ _ H)|discriminate].
Qed.

Lemma verify_no_err a b n e : verify_sig C a b n <> Err e.
Proof.
  unfold verify_sig. intros H. follow H. discriminate.
Qed.

Lemma shared_errors epk s s' e : compute_shared_secret C epk s = (s', Err e) -> e = FailToComputeAgreement.
Proof.
  unfold compute_shared_secret. intros H. destruct (ephemeral s) as [kp|].
  - unfold ekp_compute_shared_secret in H.
    destruct (x25519_agree C (ekp_priv kp) epk); [|injection H as _ <-; reflexivity].
    cbv zeta in H. cbn [obind] in H.
    destruct (algo_build _ _) as [a|x|p] eqn:Ea; try discriminate H.
    unfold algo_build in Ea. repeat (match type of Ea with context [match ?x with _ => _ end] => destruct x end); discriminate Ea.
  - destruct (encrypt_algo_with_secret s); discriminate.
Qed.

Lemma connect_errors d epk pk s s' e : read_connect C d epk pk s = (s', Err e) -> In e read_errors.
Proof.
  unfold read_connect. intros H.
  destruct (match peer_sig_pubkey s with Some k => _ | None => _ end) as [s1 mm].
  destruct mm; [injection H as _ <-; listing|].
  destruct (verify_sig C (dd_data d) pk (dd_user_msg_end d)) as [[|]|x|p] eqn:Ev;
    [|injection H as _ <-; listing|exfalso; exact (verify_no_err _ _ _ _ Ev)|discriminate].
  destruct (apply_action (msl_status s1) (Receive TConnect)) as [st [r|x|p]] eqn:Ea.
  - cbv zeta in H. destruct (compute_shared_secret C epk _) as [s3 [u|x|p]] eqn:Es.
    + injection H as _ H. exfalso. exact (get_message_no_err _ _ H).
    + apply shared_errors in Es. injection H as _ <-. subst x. listing.
    + discriminate.
  - injection H as _ <-. unfold apply_action in Ea.
    destruct (msl_status s1) as [|l r|]; [| destruct r|]; try discriminate Ea; injection Ea as _ <-; listing.
  - discriminate.
Qed.

(** Errors of the ACK arm once the challenge is the right one. *)
Lemma ack_errors b d ch s s' e : read_ack C b d ch s = (s', Err e) ->
  In e (RecvInvalidMsg InvalidChallenge :: [ConnectionHadFail; RecvInvalidMsg InvalidHashOrSig; RecvInvalidMsg UnexpectedAckMsg]) /\
  (e = RecvInvalidMsg InvalidChallenge -> ch <> sha256 C (ephemeral_pubkey s)).
Proof.
  unfold read_ack. intros H.
  destruct (bytes_eqb ch (sha256 C (ephemeral_pubkey s))) eqn:Ec; cbn [negb] in H.
  2:{ injection H as _ <-. split; [cbn; tauto|]. intros _ E. subst ch. rewrite bytes_eqb_refl in Ec. discriminate. }
  destruct (peer_sig_pubkey s) as [k|].
  - destruct (verify_sig C (dd_data d) k (dd_user_msg_end d)) as [[|]|x|p] eqn:Ev;
      [|injection H as _ <-; split; [cbn; tauto|discriminate]|exfalso; exact (verify_no_err _ _ _ _ Ev)|discriminate].
    destruct (apply_action (msl_status s) (Receive TAck)) as [st [r|x|p]] eqn:Ea.
    + injection H as _ H. exfalso. exact (get_message_no_err _ _ H).
    + injection H as _ <-. unfold apply_action in Ea.
      destruct (msl_status s) as [|l r|]; [| destruct l; [|destruct r|]|]; try discriminate Ea;
        injection Ea as _ <-; (split; [cbn; tauto|discriminate]).
    + discriminate.
  - destruct (ack_msg_recv_too_early s); [injection H as _ <-; split; [cbn; tauto|discriminate]|discriminate].
Qed.

Lemma window_errors n s s' e : update_window T n s = (s', Err e) -> e = TooManyUnorderedMsgs.
Proof.
  unfold update_window. intros H. destruct (n =? next_nonce_expected s).
  - destruct (u64_incr T (next_nonce_expected s)) as [v|x|p] eqn:Eu; [|exfalso; exact (u64_incr_no_err _ _ _ Eu)|discriminate].
    destruct (absorb_orphans T _ _ _) as [[v2 l2] [q|]]; discriminate.
  - destruct (_ <=? _); [injection H as _ <-; reflexivity|discriminate].
Qed.

(** The status from which early messages are drained. *)
Definition drainable (st : status) : Prop :=
  st = OngoingNegotiation ConnectMsgSent AckMsgSent \/ st = NegotiationSuccessful \/ st = Fail.

Lemma user_errors d n s s' e : read_user C T d n s = (s', Err e) ->
  In e (RecvInvalidMsg UnexpectedMessage :: [ConnectionHadFail; TooManyUnorderedMsgs; RecvInvalidMsg InvalidNonce; RecvInvalidMsg InvalidHashOrSig]) /\
  (drainable (msl_status s) -> e <> RecvInvalidMsg UnexpectedMessage).
Proof.
  unfold read_user. intros H.
  destruct (_ || _); [injection H as _ <-; split; [cbn; tauto|discriminate]|].
  destruct (apply_action (msl_status s) (Receive TUserMsg)) as [st [r|x|p]] eqn:Ea.
  - destruct r as [[]|]; [discriminate|].
    match type of H with context [match ?o with Ok _ => _ | Err _ => _ | Panic _ => _ end] => destruct o as [[|]|x|p] eqn:Eo end.
    + destruct (update_window T n (set_status st s)) as [s2 [u|x|p]] eqn:Eu.
      * injection H as _ H. exfalso. exact (get_message_no_err _ _ H).
      * apply window_errors in Eu. injection H as _ <-. subst x. split; [cbn; tauto|discriminate].
      * discriminate.
    + injection H as _ <-. split; [cbn; tauto|discriminate].
    + follow Eo. discriminate.
    + discriminate.
  - injection H as _ <-. unfold apply_action in Ea.
    destruct (msl_status s) as [|l r|]; [| destruct r, l|]; try discriminate Ea; injection Ea as _ <-;
      (split; [cbn; tauto|]); intros [Hd|[Hd|Hd]]; try discriminate Hd; discriminate.
  - discriminate.
Qed.

Lemma read_inner_errors chk d s s' e : read_inner C T chk d s = (s', Err e) -> In e read_errors.
Proof.
  unfold read_inner. intros H. destruct (reader_read C T (encrypt_algo_with_secret s) d chk) as [dd|x|p] eqn:Er.
  - destruct (dd_headers dd).
    + exact (connect_errors _ _ _ _ _ _ H).
    + apply ack_errors in H as [H _]. cbn in H |- *. tauto.
    + apply user_errors in H as [H _]. cbn in H |- *. tauto.
  - apply reader_errors in Er. injection H as _ <-. cbn in Er |- *. tauto.
  - discriminate.
Qed.

(** *** The ACK put aside *)
Definition kept_fine (s : msl) : Prop := forall b, ack_msg_recv_too_early s = Some b ->
  exists dd, dd_headers dd = HAck (sha256 C (ephemeral_pubkey s)) /\
    forall sec, reader_read C T sec b true = Ok dd.

Lemma ack_clear sec d dd ch : reader_read C T sec d true = Ok dd -> dd_headers dd = HAck ch ->
  forall sec', reader_read C T sec' d true = Ok dd.
Proof.
  unfold reader_read. intros H Hh sec'. 
  destruct (read_decrypt C T sec d) as [[enc p]|x|q] eqn:Ed; cbn [obind] in H; try discriminate H.
  assert (enc = false) as ->.
  { unfold read_parse in H. destruct enc; [|reflexivity]. exfalso.
    destruct (slice_to p MAGIC_VALUE_END); cbn [obind] in H; try discriminate H.
    destruct (negb _); [discriminate|].
    destruct (slice p MAGIC_VALUE_END VERSION_END); cbn [obind] in H; try discriminate H.
    destruct (negb _); [discriminate|].
    destruct (slice p VERSION_END ENCAPSULED_MSG_BEGIN); cbn [obind] in H; try discriminate H.
    destruct (usize_add T _ _); cbn [obind] in H; try discriminate H.
    destruct (slice_from p _); cbn [obind] in H; try discriminate H.
    destruct (read_type_headers _) as [[h l]|x|q]; cbn [obind] in H; try discriminate H.
    destruct h; cbn in H; try discriminate H. injection H as <-. discriminate Hh. }
  enough (read_decrypt C T sec' d = Ok (false, p)) as -> by exact H.
  unfold read_decrypt in *. destruct (slice_to d MAGIC_VALUE_END); cbn [obind] in *; try discriminate Ed.
  destruct (bytes_eqb _ _); [exact Ed|]. destruct sec as [a0|]; [|discriminate].
  destruct (decrypt C T d a0); cbn [obind] in Ed; discriminate Ed.
Qed.

(** What a call can do to the ACK put aside and to the own ephemeral key. *)
Definition ack_step (s s' : msl) : Prop :=
  ephemeral_pubkey s' = ephemeral_pubkey s /\
  (ack_msg_recv_too_early s' = ack_msg_recv_too_early s \/ ack_msg_recv_too_early s' = None \/
   exists b dd sec, ack_msg_recv_too_early s' = Some b /\ dd_headers dd = HAck (sha256 C (ephemeral_pubkey s)) /\
     reader_read C T sec b true = Ok dd).

Lemma ack_step_refl s : ack_step s s. Proof. split; auto. Qed.
Lemma ack_step_same s s' : ephemeral_pubkey s' = ephemeral_pubkey s ->
  ack_msg_recv_too_early s' = ack_msg_recv_too_early s -> ack_step s s'.
Proof. split; auto. Qed.

Lemma ack_step_fine s s' : ack_step s s' -> kept_fine s -> kept_fine s'.
Proof.
  intros [Hp H] Hk b Hb. rewrite Hp. destruct H as [H|[H|(b' & dd & sec & H & Hh & Hr)]].
  - apply Hk. congruence.
  - congruence.
  - assert (b' = b) by congruence. subst b'. exists dd. split; [exact Hh|]. exact (ack_clear _ _ _ _ Hr Hh).
Qed.

Lemma window_ack_step n s s' o : update_window T n s = (s', o) -> ack_step s s'.
Proof.
  unfold update_window. intros H. apply ack_step_same;
  (destruct (n =? next_nonce_expected s);
   [destruct (u64_incr T (next_nonce_expected s)); [destruct (absorb_orphans T _ _ _) as [[? ?] [?|]]| |]
   |destruct (_ <=? _)]; injection H as <- _; reflexivity).
Qed.

Lemma shared_ack_step epk s s' o : compute_shared_secret C epk s = (s', o) -> ack_step s s'.
Proof.
  unfold compute_shared_secret. intros H. apply ack_step_same;
  (destruct (ephemeral s) as [kp|];
   [destruct (ekp_compute_shared_secret C kp epk _); [destruct (algo_build _ _)| |]
   |destruct (encrypt_algo_with_secret s)]; injection H as <- _; reflexivity).
Qed.

Lemma read_inner_ack_step chk d s s' o : chk = true \/ queued T d ->
  read_inner C T chk d s = (s', o) -> ack_step s s'.
Proof.
  unfold read_inner. intros Hchk H. destruct (reader_read C T (encrypt_algo_with_secret s) d chk) as [dd|x|p] eqn:Er.
  2:{ injection H as <- _. apply ack_step_same; reflexivity. }
  2:{ injection H as <- _. apply ack_step_refl. }
  destruct (dd_headers dd) as [epk al pk|ch|n] eqn:Eh.
  - unfold read_connect in H.
    assert (exists v mm, match peer_sig_pubkey s with Some k => (s, negb (bytes_eqb pk k)) | None => (set_peer_sig_pubkey (Some pk) s, false) end
      = (set_peer_sig_pubkey v s, mm)) as (v & mm & E).
    { destruct (peer_sig_pubkey s) eqn:Ep; [exists (peer_sig_pubkey s)|exists (Some pk)]; eexists; [|reflexivity]. rewrite Ep. destruct s; cbn in *; subst; reflexivity. }
    rewrite E in H. destruct mm; [injection H as <- _; apply ack_step_same; reflexivity|].
    destruct (verify_sig C _ _ _) as [[|]|x|p]; try (injection H as <- _; apply ack_step_same; reflexivity).
    destruct (apply_action _ _) as [st [r|x|p]]; try (injection H as <- _; apply ack_step_same; reflexivity).
    cbv zeta in H. destruct (compute_shared_secret C epk _) as [s3 u] eqn:Es.
    apply shared_ack_step in Es. destruct u; injection H as <- _; exact Es.
  - unfold read_ack in H. destruct (bytes_eqb ch (sha256 C (ephemeral_pubkey s))) eqn:Ec; cbn [negb] in H.
    2:{ injection H as <- _. apply ack_step_refl. }
    apply bytes_eqb_eq in Ec. subst ch.
    destruct (peer_sig_pubkey s) as [k|].
    + destruct (verify_sig C _ _ _) as [[|]|x|p]; try (injection H as <- _; apply ack_step_same; reflexivity).
      destruct (apply_action _ _) as [st [r|x|p]]; injection H as <- _; apply ack_step_same; reflexivity.
    + destruct (ack_msg_recv_too_early s) eqn:Ea; injection H as <- _.
      * apply ack_step_same; reflexivity.
      * split; [reflexivity|]. right; right. exists d, dd, (encrypt_algo_with_secret s).
        split; [reflexivity|]. split; [exact Eh|]. destruct Hchk as [->|Hq]; [exact Er|].
        exfalso. destruct chk; [|]; 
        destruct (reader_read_queued C T d (encrypt_algo_with_secret s) Hq) as (L & n & rest & ue & _ & _ & _ & _ & Hr).
        -- revert Er Hr. unfold reader_read, read_parse. 
           destruct (read_decrypt _ _ _ _) as [[enc p]|x|q]; cbn [obind]; try discriminate.
           destruct (slice_to p _); cbn [obind]; try discriminate. destruct (negb _); try discriminate.
           destruct (slice p _ _); cbn [obind]; try discriminate. destruct (negb _); try discriminate.
           destruct (slice p _ _); cbn [obind]; try discriminate.
           destruct (usize_add _ _ _); cbn [obind]; try discriminate.
           destruct (slice_from _ _); cbn [obind]; try discriminate.
           destruct (read_type_headers _) as [[h l]|x|q]; cbn [obind]; try discriminate.
           destruct (_ && _); cbn [andb]; intros E1 E2; try discriminate; rewrite E1 in E2; injection E2 as ->; discriminate Eh.
        -- rewrite Hr in Er. injection Er as <-. discriminate Eh.
  - unfold read_user in H. destruct (_ || _); [injection H as <- _; apply ack_step_refl|].
    destruct (apply_action _ _) as [st [[[]|]|x|p]]; try (injection H as <- _; apply ack_step_same; reflexivity).
    match type of H with context [match ?o with Ok _ => _ | Err _ => _ | Panic _ => _ end] => destruct o as [[|]|x|p] end;
      try (injection H as <- _; apply ack_step_same; reflexivity).
    destruct (update_window T n (set_status st s)) as [s2 u] eqn:Eu. apply window_ack_step in Eu.
    destruct u; injection H as <- _; exact Eu.
Qed.

Lemma drain_loop_ack_step bs acc s s' o : Forall (queued T) bs ->
  drain_loop C T bs acc s = (s', o) -> ack_step s s'.
Proof.
  intros Hq. revert acc s. induction Hq as [|b bs Hb Hq IH]; intros acc s H; cbn [drain_loop] in H.
  - injection H as <- _. apply ack_step_refl.
  - destruct (read_inner C T false b s) as [s1 r] eqn:E.
    pose proof (read_inner_ack_step _ _ _ _ _ (or_intror Hb) E) as H1.
    assert (forall acc', drain_loop C T bs acc' s1 = (s', o) -> ack_step s s') as Hgo.
    { intros acc' Hd. specialize (IH acc' s1 Hd). destruct H1 as [P1 Q1], IH as [P2 Q2].
      split; [congruence|]. rewrite P1 in Q2. destruct Q2 as [Q2|[Q2|Q2]]; [rewrite Q2; exact Q1|auto|right; right; exact Q2]. }
    destruct r as [[m|]|e|p]; try (injection H as <- _; exact H1); eapply Hgo; exact H.
Qed.

Lemma apply_action_create (s : msl) a st r : apply_action (msl_status s) a = (st, r) -> ack_step s (set_status st s).
Proof. intros _. apply ack_step_same; reflexivity. Qed.

Lemma call_ack_step s c : Inv C T s -> kept_fine s -> kept_fine (fst (call_step C T s c)).
Proof.
  intros HI Hk. destruct c as [d| | |pk cd|cd|data w| |cfg]; cbn [call_step].
  - destruct (read C T d s) as [s' o] eqn:E. eapply ack_step_fine; [|exact Hk].
    exact (read_inner_ack_step true d s s' o (or_introl eq_refl) E).
  - unfold take_ack_msg_recv_too_early. destruct (ack_msg_recv_too_early s) as [b|]; [|exact Hk].
    destruct (read C T b (set_ack_early None s)) as [s' o] eqn:E.
    apply (read_inner_ack_step true b _ _ _ (or_introl eq_refl)) in E.
    eapply ack_step_fine; [exact E|]. intros b' Hb'. discriminate Hb'.
  - unfold drain_tmp_stack_user_msgs. destruct (drain_loop C T _ _ _) as [s' o] eqn:E.
    apply drain_loop_ack_step in E; [|exact (inv_queue C T s HI)]. eapply ack_step_fine; [exact E|exact Hk].
  - eapply ack_step_fine; [|exact Hk]. apply ack_step_same; unfold create_connect_message;
    (destruct (apply_action _ _) as [st [r|x|p]]; [destruct (encapsulate_message _ _ _)| |]; reflexivity).
  - eapply ack_step_fine; [|exact Hk]. apply ack_step_same; unfold create_ack_message;
    (destruct (apply_action _ _) as [st [r|x|p]]; [destruct (encapsulate_message _ _ _)| |]; reflexivity).
  - eapply ack_step_fine; [|exact Hk]. apply ack_step_same; unfold write_message;
    (destruct (apply_action _ _) as [st [r|x|p]]; [|reflexivity|reflexivity];
     destruct (encapsulate_and_encrypt_and_write_message _ _ _ _) as [w' [u|x|p]]; [|reflexivity|reflexivity];
     cbv zeta; destruct (u64_incr T _); reflexivity).
  - eapply ack_step_fine; [|exact Hk]. apply ack_step_same; unfold try_clone;
    (destruct (msl_status s); reflexivity).
  - eapply ack_step_fine; [|exact Hk]. apply ack_step_same; unfold change_config;
    (destruct (cloned s); reflexivity).
Qed.

Lemma kept_reachable s : reachable C T s -> kept_fine s.
Proof.
  induction 1 as [r cfg pin s Hc|s c HR IH|s c HR IH Hc].
  - intros b Hb. exfalso. unfold create in Hc.
    destruct (ekp_generate C r) as [kp|x|p]; cbn [obind] in Hc; try discriminate. injection Hc as <-. discriminate Hb.
  - apply call_ack_step; [apply (inv_reachable C T s HR)|exact IH].
  - intros b Hb. exfalso. unfold try_clone in Hc. destruct (msl_status s); try discriminate Hc.
    cbn in Hc. injection Hc as <-. discriminate Hb.
Qed.

(** *** Soundness of the table *)
Lemma take_errors s s' e : reachable C T s -> take_ack_msg_recv_too_early C T s = (s', Err e) ->
  listed OTakeAck e.
Proof.
  intros HR H. unfold take_ack_msg_recv_too_early in H.
  destruct (ack_msg_recv_too_early s) as [b|] eqn:Eb; [|discriminate].
  destruct (kept_reachable s HR b Eb) as (dd & Hh & Hr).
  unfold read, read_inner in H. rewrite Hr, Hh in H. apply ack_errors in H as [H Hne].
  cbn [set_ack_early ephemeral_pubkey] in Hne.
  destruct H as [<-|H]; [exfalso; apply Hne; reflexivity|exact H].
Qed.

Lemma drainable_kept chk d s s' o : drainable (msl_status s) -> queued T d -> chk = false ->
  read_inner C T chk d s = (s', o) -> drainable (msl_status s').
Proof.
  intros Hd Hq -> H. unfold read_inner in H.
  destruct (reader_read_queued C T d (encrypt_algo_with_secret s) Hq) as (L & n & rest & ue & _ & _ & _ & _ & Hr).
  rewrite Hr in H. cbn [dd_headers] in H. unfold read_user in H.
  destruct (_ || _); [injection H as <- _; exact Hd|].
  destruct (apply_action (msl_status s) (Receive TUserMsg)) as [st r] eqn:Ea.
  assert (drainable st) as Hst.
  { destruct Hd as [Hd|[Hd|Hd]]; rewrite Hd in Ea; injection Ea as <- _; unfold drainable; tauto. }
  destruct r as [[[]|]|x|p]; try (injection H as <- _; exact Hst).
  match type of H with context [match ?o with Ok _ => _ | Err _ => _ | Panic _ => _ end] => destruct o as [[|]|x|p] end;
    try (injection H as <- _; exact Hst).
  destruct (update_window T n (set_status st s)) as [s2 u] eqn:Eu.
  assert (msl_status s2 = st \/ msl_status s2 = Fail) as H2.
  { unfold update_window in Eu. destruct (n =? _).
    - destruct (u64_incr T _); [destruct (absorb_orphans T _ _ _) as [[? ?] [?|]]| |]; injection Eu as <- _; left; reflexivity.
    - destruct (_ <=? _); injection Eu as <- _; [right|left]; reflexivity. }
  assert (s' = s2) as -> by (destruct u; congruence).
  destruct H2 as [-> | ->]; [exact Hst|right; right; reflexivity].
Qed.

Lemma drain_loop_errors bs acc s s' e : Forall (queued T) bs -> (bs <> [] -> drainable (msl_status s)) ->
  drain_loop C T bs acc s = (s', Err e) -> listed ODrain e.
Proof.
  intros Hq. revert acc s. induction Hq as [|b bs Hb Hq IH]; intros acc s Hd H; cbn [drain_loop] in H; [discriminate|].
  specialize (Hd ltac:(discriminate)).
  destruct (read_inner C T false b s) as [s1 r] eqn:E.
  pose proof (drainable_kept _ _ _ _ _ Hd Hb eq_refl E) as Hd1.
  destruct r as [[m|]|x|p]; try discriminate H; try (eapply IH; [intros _; exact Hd1|exact H]).
  injection H as _ <-. unfold read_inner in E.
  destruct (reader_read_queued C T b (encrypt_algo_with_secret s) Hb) as (L & n & rest & ue & _ & _ & _ & _ & Hr).
  rewrite Hr in E. cbn [dd_headers] in E. apply user_errors in E as [E Hne].
  destruct E as [<-|E]; [exfalso; apply (Hne Hd); reflexivity|exact E].
Qed.

Lemma message_no_err m a b e : message_to_bytes C m a b <> Err e.
Proof.
  unfold message_to_bytes, prepare_message. destruct m; try (cbn; discriminate).
  destruct b; cbn; discriminate.
Qed.

Lemma write_errors data s w s' w' e : write_message C T data s w = (s', w', Err e) -> listed OWrite e.
Proof.
  unfold write_message. intros H.
  destruct (apply_action (msl_status s) (Create TUserMsg)) as [st r] eqn:Ea.
  destruct r as [r|x|p]; [| |discriminate].
  - unfold encapsulate_and_encrypt_and_write_message in H.
    destruct (encapsulate_message C _ _) as [m|x|p] eqn:Em; [|exfalso; exact (message_no_err _ _ _ _ Em)|discriminate].
    unfold encrypt_and_write in H. cbn [set_status encrypt_algo_with_secret] in H.
    destruct (encrypt_algo_with_secret s) as [[k]|]; [|discriminate].
    cbn [encrypt] in H. unfold chacha_encrypt in H.
    destruct (write_chunks w _) as [w1 [io|]]; [injection H as _ _ <-; right; eauto|].
    destruct (bw_write w1 _) as [w2 [n|io]]; [|injection H as _ _ <-; right; eauto].
    cbv zeta in H. cbn [set_status next_nonce_sent] in H.
    destruct (u64_incr T (next_nonce_sent s)) eqn:Eu; [discriminate|exfalso; exact (u64_incr_no_err _ _ _ Eu)|discriminate].
  - injection H as _ _ <-. left. destruct (msl_status s); try discriminate Ea; injection Ea as _ <-; cbn; tauto.
Qed.

Theorem errors_listed s c e : reachable C T s -> fails (snd (call_step C T s c)) e -> listed (op_of c) e.
Proof.
  intros HR. destruct c as [d| | |pk cd|cd|data w| |cfg]; cbn [call_step op_of].
  - destruct (read C T d s) as [s' o] eqn:E. cbn. unfold refused. intros ->. exact (read_inner_errors _ _ _ _ _ E).
  - destruct (take_ack_msg_recv_too_early C T s) as [s' o] eqn:E. cbn [snd fails]. unfold refused. intros ->.
    exact (take_errors _ _ _ HR E).
  - destruct (drain_tmp_stack_user_msgs C T s) as [s' o] eqn:E. cbn [snd fails]. unfold refused. intros ->.
    pose proof (inv_reachable C T s HR) as HI. eapply drain_loop_errors; [exact (inv_queue C T s HI)| |exact E].
    exact (inv_queue_status C T s HI).
  - unfold create_connect_message. destruct (apply_action (msl_status s) (Create TConnect)) as [st [r|x|p]] eqn:Ea.
    + destruct (encapsulate_message C _ _) eqn:Em; cbn [snd fails]; unfold refused; intros H; try discriminate H.
      exfalso. exact (message_no_err _ _ _ _ Em).
    + cbn [snd fails]. unfold refused. intros H. injection H as <-.
      destruct (msl_status s) as [|[]|]; try discriminate Ea; injection Ea as _ <-; cbn; tauto.
    + cbn. unfold refused. discriminate.
  - unfold create_ack_message. destruct (apply_action (msl_status s) (Create TAck)) as [st [r|x|p]] eqn:Ea.
    + destruct (encapsulate_message C _ _) eqn:Em; cbn [snd fails]; unfold refused; intros H; try discriminate H.
      exfalso. exact (message_no_err _ _ _ _ Em).
    + cbn [snd fails]. unfold refused. intros H. injection H as <-.
      destruct (msl_status s) as [|l []|]; try destruct l; try discriminate Ea; injection Ea as _ <-; cbn; tauto.
    + cbn. unfold refused. discriminate.
  - destruct (write_message C T data s w) as [[s' w'] o] eqn:E. cbn [snd fails]. unfold refused. intros ->.
    exact (write_errors _ _ _ _ _ _ E).
  - unfold try_clone. destruct (msl_status s); cbn; unfold refused; intros H; try discriminate H; injection H as <-; cbn; tauto.
  - unfold change_config. destruct (cloned s); cbn; unfold refused; intros H; try discriminate H; injection H as <-; cbn; tauto.
Qed.

Theorem create_errors_listed r cfg pin e : create C r cfg pin = Err e -> In e create_errors.
Proof.
  unfold create, ekp_generate. destruct r; cbn; intros H; try discriminate H; injection H as <-; tauto.
Qed.

(** The stack of early messages has no part in the answer to a read. *)
Lemma read_inner_stack chk d v s : snd (read_inner C T chk d (set_stack v s)) = snd (read_inner C T chk d s).
Proof.
  unfold read_inner. cbn [set_stack encrypt_algo_with_secret].
  destruct (reader_read C T (encrypt_algo_with_secret s) d chk) as [dd|x|p]; [|reflexivity|reflexivity].
  destruct (dd_headers dd) as [epk al pk|ch|n].
  - unfold read_connect. cbn [set_stack peer_sig_pubkey].
    destruct (peer_sig_pubkey s) as [k|]; cbv iota beta.
    1: destruct (negb (bytes_eqb pk k)); [reflexivity|].
    all: destruct (verify_sig C _ _ _) as [[|]|x|p]; try reflexivity; cbn [set_stack set_peer_sig_pubkey msl_status];
      destruct (apply_action (msl_status s) _) as [st [r|x|p]]; try reflexivity;
      unfold compute_shared_secret; cbn [set_stack set_status set_peer_sig_pubkey set_peer_epk ephemeral conf encrypt_algo_with_secret];
      destruct (ephemeral s) as [kp|];
        [destruct (ekp_compute_shared_secret C kp epk _); [destruct (algo_build _ _)| |]
        |destruct (encrypt_algo_with_secret s)]; reflexivity.
  - unfold read_ack. cbn [set_stack ephemeral_pubkey peer_sig_pubkey ack_msg_recv_too_early msl_status].
    destruct (negb _); [reflexivity|]. destruct (peer_sig_pubkey s) as [k|].
    + destruct (verify_sig C _ _ _) as [[|]|x|p]; try reflexivity.
      destruct (apply_action (msl_status s) _) as [st [r|x|p]]; reflexivity.
    + destruct (ack_msg_recv_too_early s); reflexivity.
  - unfold read_user. cbn [set_stack next_nonce_expected orphan_nonce_list msl_status].
    destruct (_ || _); [reflexivity|]. destruct (apply_action (msl_status s) _) as [st [[[]|]|x|p]]; try reflexivity.
    match goal with |- context [match ?o with Ok _ => _ | Err _ => _ | Panic _ => _ end] => destruct o as [[|]|x|p] end;
      try reflexivity.
    unfold update_window. cbn [set_stack set_status next_nonce_expected orphan_nonce_list].
    destruct (n =? _).
    + destruct (u64_incr T _); [destruct (absorb_orphans T _ _ _) as [[? ?] [?|]]| |]; reflexivity.
    + destruct (_ <=? _); reflexivity.
Qed.

(** One early message is drained with the answer a read would give. *)
Lemma drain_one s k b e : CryptoLaws C -> tmp_stack_user_msgs s = [b] -> queued T b -> session_key s = Some k -> keystream_ok C k ->
  snd (read C T (seal C k b) s) = Err e -> snd (drain_tmp_stack_user_msgs C T s) = Err e.
Proof.
  intros HL Hs Hq Hk Hks H. unfold drain_tmp_stack_user_msgs. rewrite Hs. cbn [drain_loop].
  rewrite (read_inner_sealed C T HL k b (set_stack [] s) Hk Hks Hq).
  unfold read in *. rewrite <- (read_inner_stack true _ []) in H.
  destruct (read_inner C T true (seal C k b) (set_stack [] s)) as [s1 o]. cbn [snd] in H. subst o. reflexivity.
Qed.

End Minimal.

(** ** Complete mode *)
Section Complete.
Context (C : Crypto) (Z : Zip) (T : target).

Lemma read_listed e : listed OTakeAck e \/ listed ODrain e -> listed ORead e.
Proof. cbn [listed In read_errors map app]. tauto. Qed.

Lemma uncompress_errors o e : uncompress_opt Z o = Err e -> exists io, e = ZipError io.
Proof.
  destruct o as [b|]; cbn [uncompress_opt]; [|discriminate]. unfold uncompress.
  destruct (inflate Z b) as [x|io]; cbn; intros H; [discriminate|injection H as <-; eauto].
Qed.

Lemma uncompress_msgs_errors l acc e : uncompress_msgs Z l acc = Err e -> exists io, e = ZipError io.
Proof.
  revert acc. induction l as [|m l IH]; intros acc H; cbn [uncompress_msgs] in H; [discriminate|].
  destruct m as [| |cd]; try (eapply IH; exact H).
  apply bind_err in H as [H|[x [_ H]]]; [eapply uncompress_errors, H|eapply IH, H].
Qed.

Lemma read_bin_errors s d s' e : sreachable C Z T s -> read_bin C Z T d s = (s', Err e) -> slisted SORead e.
Proof.
  intros HR H. apply sreachable_minimal in HR. unfold read_bin in H.
  pose proof (errors_listed C T (minimal s) (CRead d)) as HL. specialize (fun e => HL e HR).
  pose proof (reach_step C T (minimal s) (CRead d) HR) as HR1. cbn [call_step op_of] in HL, HR1.
  destruct (read C T d (minimal s)) as [m o]. cbn [snd fst fails] in HL, HR1. unfold refused in HL.
  destruct o as [[i|]|x|p]; [|discriminate|injection H as _ <-; left; apply HL; reflexivity|discriminate].
  destruct i as [al pk cd|cd|cd].
  - cbv zeta in H. destruct (uncompress_opt Z cd) as [y|x|p] eqn:Eu; [|injection H as _ <-; right; eapply uncompress_errors, Eu|discriminate].
    destruct (take_ack_msg_recv_too_early C T m) as [m2 o2] eqn:Et.
    destruct o2 as [[[| cd2|]|]|x|p]; try discriminate H.
    + injection H as _ H. apply bind_err in H as [H|[z [_ H]]]; [right; eapply uncompress_errors, H|discriminate].
    + injection H as _ <-. left. apply read_listed. left. exact (take_errors C T _ _ _ HR1 Et).
  - cbv zeta in H. destruct (uncompress_opt Z cd) as [y|x|p] eqn:Eu; [|injection H as _ <-; right; eapply uncompress_errors, Eu|discriminate].
    pose proof (errors_listed C T m CDrain) as HD. specialize (fun e => HD e HR1). cbn [call_step op_of] in HD.
    destruct (drain_tmp_stack_user_msgs C T m) as [m2 o2]. cbn [snd fails] in HD. unfold refused in HD.
    destruct o2 as [l|x|p]; [|injection H as _ <-; left; apply read_listed; right; apply HD; reflexivity|discriminate].
    injection H as _ H. right. eapply uncompress_msgs_errors, H.
  - injection H as _ H. apply bind_err in H as [H|[z [_ H]]]; [right; eapply uncompress_errors, H|discriminate].
Qed.

Lemma write_signed_errors seed b w w' e : write_signed C seed b w = (w', Err e) -> e = BufferFlushError.
Proof.
  unfold write_signed, sign_and_write_sig. destruct (bw_write w b) as [w1 [n|io]].
  - destruct (bw_write w1 _) as [w2 [n2|io]]; intros H; [discriminate|injection H as _ <-; reflexivity].
  - intros H. injection H as _ <-. reflexivity.
Qed.

Lemma connect_bin_errors s cd w s' w' e : sreachable C Z T s ->
  writer_write_connect_msg C cd s w = (s', w', Err e) -> slisted SOConnect e.
Proof.
  intros HR H. apply sreachable_minimal in HR. unfold writer_write_connect_msg in H.
  destruct (sig_key_pair s) as [seed|]; [|injection H as _ _ <-; left; cbn; tauto].
  pose proof (errors_listed C T (minimal s) (CConnect (ed25519_public C seed) cd)) as HL. specialize (fun e => HL e HR).
  cbn [call_step op_of] in HL. destruct (create_connect_message C _ cd (minimal s)) as [m [b|x|p]]; [| |discriminate].
  - destruct (write_signed C seed b w) as [w1 r] eqn:Ew. injection H as _ _ ->. right. exact (write_signed_errors _ _ _ _ _ Ew).
  - injection H as _ _ <-. left. apply HL. reflexivity.
Qed.

Lemma ack_bin_errors s cd w s' w' e : sreachable C Z T s ->
  writer_write_ack_msg C cd s w = (s', w', Err e) -> slisted SOAck e.
Proof.
  intros HR H. apply sreachable_minimal in HR. unfold writer_write_ack_msg in H.
  destruct (sig_key_pair s) as [seed|]; [|injection H as _ _ <-; right; left; reflexivity].
  pose proof (errors_listed C T (minimal s) (CAck cd)) as HL. specialize (fun e => HL e HR).
  cbn [call_step op_of] in HL. destruct (create_ack_message C cd (minimal s)) as [m [b|x|p]]; [| |discriminate].
  - destruct (write_signed C seed b w) as [w1 r] eqn:Ew. injection H as _ _ ->. right. right. exact (write_signed_errors _ _ _ _ _ Ew).
  - injection H as _ _ <-. left. apply HL. reflexivity.
Qed.

Lemma write_bin_errors s data w s' w' e :
  writer_write_bin_message C T data s w = (s', w', Err e) -> slisted SOWrite e.
Proof.
  unfold writer_write_bin_message. destruct (write_message C T data (minimal s) w) as [[m w1] r] eqn:E.
  intros H. injection H as _ _ ->. exact (write_errors C T _ _ _ _ _ _ E).
Qed.

Theorem serrors_listed s c e : sreachable C Z T s -> sfails (snd (scall_step C Z T s c)) e -> slisted (sop_of c) e.
Proof.
  intros HR. destruct c as [d|cd w|cd w|data w| |cfg]; cbn [scall_step sop_of].
  - destruct (read_bin C Z T d s) as [s' o] eqn:E. cbn [snd sfails]. unfold refused. intros ->. exact (read_bin_errors _ _ _ _ HR E).
  - destruct (write_connect_msg_bin C Z cd s w) as [[s' w'] o] eqn:E. cbn [snd sfails]. unfold refused. intros ->.
    exact (connect_bin_errors _ _ _ _ _ _ HR E).
  - destruct (write_ack_msg_bin C Z cd s w) as [[s' w'] o] eqn:E. cbn [snd sfails]. unfold refused. intros ->.
    exact (ack_bin_errors _ _ _ _ _ _ HR E).
  - destruct (write_bin C Z T data s w) as [[s' w'] o] eqn:E. cbn [snd sfails]. unfold refused. intros ->.
    exact (write_bin_errors _ _ _ _ _ _ E).
  - pose proof (errors_listed C T (minimal s) CClone e (sreachable_minimal C Z T s HR)) as HL. cbn [call_step op_of] in HL.
    unfold sl_try_clone. destruct (try_clone (minimal s)) as [m [x|x|p]]; cbn [snd sfails fails] in *; unfold refused in *;
      intros H; try discriminate H. apply HL. congruence.
  - pose proof (errors_listed C T (minimal s) (CConfig cfg) e (sreachable_minimal C Z T s HR)) as HL. cbn [call_step op_of] in HL.
    unfold sl_change_config. destruct (change_config cfg (minimal s)) as [m o]. exact HL.
Qed.

Theorem screate_errors_listed r rs cfg given pin e : sl_create C r rs cfg given pin = Err e -> In e create_errors.
Proof.
  unfold sl_create. intros H. apply bind_err in H as [H|[seed [_ H]]].
  - destruct given; [discriminate|]. destruct rs; discriminate.
  - apply bind_err in H as [H|[m [_ H]]]; [exact (create_errors_listed C _ _ _ _ H)|discriminate].
Qed.

(** Reads that deliver user messages inflating to something, through [read_bin]. *)
Lemma sreads_minimal (f : nat -> bytes) (g : nat -> option bytes) l s m :
  (forall i, In i l -> exists x, uncompress_opt Z (g i) = Ok x) ->
  run C T (minimal s) (map (fun i => CRead (f i)) l) =
    (m, map (fun i => (CRead (f i), RMsg (Ok (Some (MMessage (g i)))))) l) ->
  fst (srun C Z T s (map (fun i => SRead (f i)) l)) = set_minimal m s.
Proof.
  revert s. induction l as [|i l IH]; intros s Hg H; cbn [map run srun] in *.
  - injection H as <-. destruct s; reflexivity.
  - cbn [call_step scall_step] in *. unfold read_bin. destruct (read C T (f i) (minimal s)) as [m1 o] eqn:E.
    destruct (run C T m1 _) as [m2 h] eqn:E2. injection H as -> -> ->.
    destruct (Hg i (or_introl eq_refl)) as [x ->]. cbn [obind].
    specialize (IH (set_minimal m1 s) (fun j Hj => Hg j (or_intror Hj)) E2).
    destruct (srun C Z T (set_minimal m1 s) _) as [s2 h2]. cbn [fst] in *. rewrite IH. reflexivity.
Qed.

(** ** Typed methods *)
Context (F : features) {M : Type} (K : Codec M).

Lemma serialize_errors m f e : serialize K m f = Err e -> exists x, e = SerdeError x.
Proof.
  unfold serialize. intros H. apply bind_err in H as [H|[b [_ H]]]; [|discriminate].
  destruct f; cbn in H; try discriminate H;
    try match type of H with context [match ?r with inl _ => _ | inr _ => _ end] => destruct r end;
    try discriminate H; injection H as <-; eauto.
Qed.

Lemma compress_opt_errors cd s e : serialize_compress_opt Z K cd s = Err e -> exists x, e = SerdeError x.
Proof.
  destruct cd as [m|]; cbn [serialize_compress_opt]; intros H; [|discriminate].
  apply bind_err in H as [H|[b [_ H]]]; [exact (serialize_errors _ _ _ H)|discriminate].
Qed.

Definition decode_error (e : error) : Prop :=
  In e (map RecvInvalidMsg [MessageTooShort; UnknownMessageFormat]) \/ exists x, e = SerdeError x.

Lemma deserialize_errors b e : deserialize F K b = Err e -> decode_error e.
Proof.
  unfold deserialize, decode_error. intros H. destruct (_ <? _); [injection H as <-; left; cbn; tauto|].
  apply bind_err in H as [H|[h [_ H]]]; [exfalso; exact (slice_to_no_err _ _ _ H)|].
  destruct (format_try_from F h) as [f|x] eqn:Ef.
  - apply bind_err in H as [H|[r [_ H]]]; [exfalso; exact (slice_from_no_err _ _ _ H)|]. right.
    destruct f; cbn in H; try discriminate H;
    try match type of H with context [match ?r with inl _ => _ | inr _ => _ end] => destruct r end;
    try discriminate H; injection H as <-; eauto.
  - injection H as <-. left. unfold format_try_from in Ef.
    repeat (match type of Ef with context [if ?c then _ else _] => destruct c end); try discriminate Ef.
    injection Ef as <-. cbn. tauto.
Qed.

Lemma deserialize_opt_errors o e : deserialize_opt F K o = Err e -> decode_error e.
Proof.
  destruct o as [b|]; cbn [deserialize_opt]; intros H; [|discriminate].
  apply bind_err in H as [H|[x [_ H]]]; [exact (deserialize_errors _ _ H)|discriminate].
Qed.

Lemma deserialize_msgs_errors l acc e : deserialize_msgs F K l acc = Err e -> decode_error e.
Proof.
  revert acc. induction l as [|i l IH]; intros acc H; cbn [deserialize_msgs] in H; [discriminate|].
  destruct i; apply bind_err in H as [H|[x [_ H]]]; try exact (deserialize_opt_errors _ _ H); eapply IH, H.
Qed.

Theorem terrors_listed s c e : sreachable C Z T s -> tfails (snd (tcall_step C Z T F K s c)) e -> tlisted (top_of c) e.
Proof.
  intros HR. destruct c as [d|cd w|cd w|m w|c]; cbn [tcall_step top_of].
  - destruct (sl_read C Z T F K d s) as [s' o] eqn:E. cbn [snd tfails]. unfold refused. intros ->.
    unfold sl_read in E. destruct (read_bin C Z T d s) as [s1 [l|x|p]] eqn:Eb; [| |discriminate].
    + injection E as _ E. right. exact (deserialize_msgs_errors _ _ _ E).
    + injection E as _ <-. left. exact (read_bin_errors _ _ _ _ HR Eb).
  - destruct (sl_write_connect_msg C Z K cd s w) as [[s' w'] o] eqn:E. cbn [snd tfails sfails]. unfold refused. intros ->.
    unfold sl_write_connect_msg in E. destruct (serialize_compress_opt Z K cd s) as [x|x|p] eqn:Es; [| |discriminate].
    + left. exact (connect_bin_errors _ _ _ _ _ _ HR E).
    + injection E as _ _ <-. right. exact (compress_opt_errors _ _ _ Es).
  - destruct (sl_write_ack_msg C Z K cd s w) as [[s' w'] o] eqn:E. cbn [snd tfails sfails]. unfold refused. intros ->.
    unfold sl_write_ack_msg in E. destruct (serialize_compress_opt Z K cd s) as [x|x|p] eqn:Es; [| |discriminate].
    + left. exact (ack_bin_errors _ _ _ _ _ _ HR E).
    + injection E as _ _ <-. right. exact (compress_opt_errors _ _ _ Es).
  - destruct (sl_write C Z T K m s w) as [[s' w'] o] eqn:E. cbn [snd tfails sfails]. unfold refused. intros ->.
    unfold sl_write in E. destruct (serialize K m _) as [x|x|p] eqn:Es; [| |discriminate].
    + left. exact (write_bin_errors _ _ _ _ _ _ E).
    + injection E as _ _ <-. right. exact (serialize_errors _ _ _ Es).
  - pose proof (serrors_listed s c e HR) as H. destruct (scall_step C Z T s c) as [s' r]. exact H.
Qed.

Lemma unused_unlisted o e : unused e -> ~ tlisted o e.
Proof.
  intros Hu H. destruct e; try exact Hu;
  destruct o as [| | | |[]]; cbn in H;
    repeat (match goal with H : _ \/ _ |- _ => destruct H | H : exists _, _ |- _ => destruct H end);
    try discriminate; try contradiction.
Qed.

End Complete.

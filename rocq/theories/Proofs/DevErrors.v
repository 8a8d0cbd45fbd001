(** Which panics can happen ("dev error" panics), and when the secret is missing. *)

From Coq Require Import Arith ZifyBool ZifyNat ZifyN.
From Verif.Model Require Import Minimal.
From Verif.Spec Require Import Wire Datagram Trace ReadSpec Accept Session Writers.
From Verif.Proofs Require Import BaseFacts IoFacts CipherFacts ReaderFacts ReadCases WindowFacts Invariant
  Negotiation Failure DatagramFacts ReadSpecFacts Accept Keys TraceInv UserReads Ledger Nonces Sending Early
  Histories.

Section WithEnv.
Context (C : Crypto) (T : target) (HL : CryptoLaws C).

(** ** C18 *)
(** Panics of slicing and of arithmetic; the others are the "dev errors". *)
Definition arith_panic (p : panic) : Prop := p = PSliceRange \/ p = POverflow.

Definition tame {A} (o : outcome A) : Prop := forall p, o = Panic p -> arith_panic p.

Lemma tame_ok {A} (a : A) : tame (Ok a).
Proof. intros p; discriminate. Qed.
Lemma tame_err {A} e : @tame A (Err e).
Proof. intros p; discriminate. Qed.
Lemma tame_bind {A B} (o : outcome A) (f : A -> outcome B) :
  tame o -> (forall a, o = Ok a -> tame (f a)) -> tame (obind o f).
Proof.
  intros Ho Hf. destruct o; cbn [obind]; [apply Hf; reflexivity|apply tame_err|].
  intros q Eq. injection Eq as <-. apply Ho. reflexivity.
Qed.
Lemma tame_slice d a b : tame (slice d a b).
Proof. unfold slice. destruct (_ && _); intros p Ep; [discriminate|left; congruence]. Qed.
Lemma tame_slice_to d a : tame (slice_to d a).
Proof. unfold slice_to. destruct (_ <=? _); intros p Ep; [discriminate|left; congruence]. Qed.
Lemma tame_slice_from d a : tame (slice_from d a).
Proof. unfold slice_from. destruct (_ <=? _); intros p Ep; [discriminate|left; congruence]. Qed.
Lemma tame_usize_add a b : tame (usize_add T a b).
Proof. unfold usize_add. repeat (destruct (_ : bool)); intros p Ep; try discriminate; right; congruence. Qed.
Lemma tame_u64_incr a : tame (u64_incr T a).
Proof. unfold u64_incr. repeat (destruct (_ : bool)); intros p Ep; try discriminate; right; congruence. Qed.

Ltac tame :=
  repeat first
    [ apply tame_ok | apply tame_err | apply tame_slice | apply tame_slice_to | apply tame_slice_from
    | apply tame_usize_add | apply tame_u64_incr
    | (apply tame_bind; [|intros]) | progress cbv zeta
    | match goal with |- tame (if ?b then _ else _) => destruct b end
    | match goal with |- tame (let '(_, _) := ?x in _) => destruct x end
    | match goal with |- tame (match ?x with _ => _ end) => destruct x end ].

Lemma tame_decrypt d a : tame (decrypt C T d a).
Proof.
  destruct a as [k]. unfold decrypt, chacha_decrypt. 
  unfold aead_open. cbv zeta. destruct (_ <? _); [|tame].
  intros p Ep. injection Ep as <-. unfold arith_panic. destruct (overflow_checks T); auto.
Qed.

Lemma tame_reader a d chk : tame (reader_read C T a d chk).
Proof.
  unfold reader_read, read_decrypt, read_parse, read_type_headers.
  tame; try apply tame_decrypt.
Qed.

Lemma tame_verify d k e : tame (verify_sig C d k e).
Proof. unfold verify_sig. tame. Qed.

Lemma tame_get_message d : tame (get_message d).
Proof. unfold get_message. tame. Qed.

Lemma tame_absorb f n l : forall p, snd (absorb_orphans T f n l) = Some p -> arith_panic p.
Proof.
  revert n l. induction f as [|f IH]; intros n l p; cbn [absorb_orphans]; [discriminate|].
  destruct (set_contains n l); [|discriminate].
  destruct (u64_incr T n) as [m|e|q] eqn:E; [apply IH|discriminate|].
  cbn [snd]. intros H. injection H as <-. eapply tame_u64_incr. exact E.
Qed.

Lemma tame_window n s : tame (snd (update_window T n s)).
Proof.
  unfold update_window. destruct (n =? _).
  - destruct (u64_incr T (next_nonce_expected s)) as [m|e|q] eqn:E; cbn [snd]; [|apply tame_err|].
    + destruct (absorb_orphans T _ m _) as [[n1 l1] p1] eqn:Ea. destruct p1 as [p1|]; cbn [snd]; [|apply tame_ok].
      intros p Ep. injection Ep as <-. eapply tame_absorb. rewrite Ea. reflexivity.
    + intros p Ep. injection Ep as <-. eapply tame_u64_incr. exact E.
  - destruct (_ <=? _); cbn [snd]; [apply tame_err|apply tame_ok].
Qed.

Lemma tame_secret s epk s' o :
  ephemeral s <> None -> compute_shared_secret C epk s = (s', o) -> tame o.
Proof.
  unfold compute_shared_secret, ekp_compute_shared_secret. intros He.
  destruct (ephemeral s) as [kp|]; [|congruence].
  destruct (cfg_encrypt_algo (conf s)). cbn [algo_shared_secret_len].
  destruct (x25519_agree C (ekp_priv kp) epk); cbn [obind algo_build derive];
    intros E; injection E as <- <-; [apply tame_ok|apply tame_err].
Qed.

Lemma receive_connect_wait st st' se :
  apply_action st (Receive TConnect) = (st', Ok se) -> exists l, st = OngoingNegotiation l WaitConnectMsg.
Proof. destruct st as [|l []|]; cbn [apply_action]; intros H; try discriminate; eauto. Qed.

Lemma tame_rcase chk d s s' o : Inv C T s -> rcase C T chk d s s' o -> tame o.
Proof.
  intros HI H. destruct H; try apply tame_err; try apply tame_ok;
    try (match goal with |- tame (Panic _) => intros q Eq; injection Eq as <- end);
    try (match goal with H : reader_read _ _ _ _ _ = Panic _ |- _ => eapply tame_reader; exact H end);
    try (match goal with H : verify_sig _ _ _ _ = Panic _ |- _ => eapply tame_verify; exact H end);
    try apply tame_get_message; try (left; assumption).
  - match goal with H : compute_shared_secret _ _ _ = _ |- _ => apply tame_secret in H as Ho end.
    + destruct o; [apply tame_get_message|apply tame_err|].
      intros q Eq. injection Eq as <-. apply Ho. reflexivity.
    + cbn [ephemeral set_peer_epk set_status]. rewrite (proj1 (pin_other pk s)).
      match goal with H : apply_action _ _ = _ |- _ => apply receive_connect_wait in H as [l Hl] end.
      apply (inv_wait C T s HI l Hl).
  - match goal with H : update_window _ _ _ = _ |- _ => pose proof (tame_window n s) as Ho; rewrite H in Ho end.
    cbn [snd] in Ho. destruct o; [apply tame_get_message|apply tame_err|].
    intros q Eq. injection Eq as <-. apply Ho. reflexivity.
Qed.

Lemma tame_drain bs acc s s' o :
  Inv C T s -> (bs <> [] -> encrypt_algo_with_secret s <> None) -> Forall (queued T) bs -> drain_loop C T bs acc s = (s', o) -> tame o.
Proof.
  revert acc s. induction bs as [|b bs IH]; intros acc s HI Hs Hq E; cbn [drain_loop] in E.
  - injection E as <- <-. apply tame_ok.
  - destruct (read_inner C T false b s) as [s1 o1] eqn:E1.
    apply read_inner_cases in E1. pose proof (Forall_inv Hq) as Hb. apply Forall_inv_tail in Hq.
    pose proof (tame_rcase _ _ _ _ _ HI E1) as Ht.
    pose proof (rcase_queued_status C T b s s1 o1 Hb E1) as (Hsec & _).
    assert (Inv C T s1) as HI1.
    { eapply rcase_inv; [exact HI| |exact E1]. right. split; [exact Hb|apply Hs; discriminate]. }
    assert (bs <> [] -> encrypt_algo_with_secret s1 <> None) as Hs1
      by (intros _; rewrite Hsec; apply Hs; discriminate).
    destruct o1 as [[m1|]|e|p].
    + eapply IH; [exact HI1|exact Hs1|exact Hq|exact E].
    + eapply IH; [exact HI1|exact Hs1|exact Hq|exact E].
    + injection E as <- <-. apply tame_err.
    + injection E as <- <-. intros q Eq. apply Ht. congruence.
Qed.

Theorem internal_panics s c s' r p :
  reachable C T s -> call_step C T s c = (s', r) -> panic_of r = Some p ->
  p = PSliceRange \/ p = POverflow \/
  (p = PNoSecret /\ (exists data w, c = CWrite data w) /\ established s /\ session_key s = None).
Proof.
  intros HR E Hp. pose proof (inv_reachable C T s HR) as HI.
  assert (forall A (o : outcome A), tame o -> o = Panic p -> p = PSliceRange \/ p = POverflow \/
    (p = PNoSecret /\ (exists data w, c = CWrite data w) /\ established s /\ session_key s = None)) as Htame.
  { intros A o Ht Ho. destruct (Ht p Ho); auto. }
  destruct c; cbn [call_step] in E.
  - destruct (read C T incoming s) as [s1 o] eqn:Er. injection E as <- <-.
    apply read_inner_cases in Er. apply tame_rcase in Er; [|exact HI].
    destruct o; try discriminate. injection Hp as ->. eapply Htame; [exact Er|reflexivity].
  - rewrite take_ack_read in E. destruct (ack_msg_recv_too_early s) as [b|]; [|injection E as <- <-; discriminate].
    destruct (read C T b (set_ack_early None s)) as [s1 o] eqn:Er. injection E as <- <-.
    apply read_inner_cases in Er. apply tame_rcase in Er; [|apply inv_set_ack_early; exact HI].
    destruct o; try discriminate. injection Hp as ->. eapply Htame; [exact Er|reflexivity].
  - destruct (drain_tmp_stack_user_msgs C T s) as [s1 o] eqn:Er. injection E as <- <-.
    apply tame_drain in Er; [|apply inv_set_stack_nil; exact HI|exact (inv_queue_secret C T s HI)|exact (inv_queue C T s HI)].
    destruct o; try discriminate. injection Hp as ->. eapply Htame; [exact Er|reflexivity].
  - destruct (create_connect_message C public_key cd s) as [s1 o] eqn:Er. injection E as <- <-.
    apply create_connect_cases in Er as [(? & _ & _ & ->)|(_ & ? & -> & _)]; discriminate.
  - destruct (create_ack_message C cd s) as [s1 o] eqn:Er. injection E as <- <-.
    apply (create_ack_cases C T) in Er as [(? & ? & _ & _ & _ & ->)|(_ & ? & -> & _)]; [discriminate|discriminate|exact HI].
  - destruct (write_message C T data s w) as [[s1 w1] o] eqn:Er. injection E as <- <-.
    apply write_message_cases in Er
      as [(_ & _ & _ & [(? & ? & _ & ->)|[_ ->]])|[(H1 & H2 & _ & _ & ->)|(_ & k & o1 & _ & _ & H)]];
      try discriminate.
    + injection Hp as <-. right. right. split; [reflexivity|]. split; [eauto|].
      split; [apply established_iff; exact H1|]. unfold session_key. rewrite H2. reflexivity.
    + destruct H as [(e & _ & -> & _)|[(_ & n & _ & _ & ->)|(_ & q & Hq & _ & ->)]]; try discriminate.
      injection Hp as ->. eapply Htame; [apply tame_u64_incr|exact Hq].
  - destruct (try_clone s) as [s1 o] eqn:Er. injection E as <- <-. unfold try_clone in Er.
    destruct (msl_status s); injection Er as <- <-; discriminate.
  - destruct (change_config cfg s) as [s1 o] eqn:Er. injection E as <- <-. unfold change_config in Er.
    destruct (negb _); injection Er as <- <-; discriminate.
Qed.

Theorem missing_secret_panics s data w :
  established s -> session_key s = None -> write_message C T data s w = (s, w, Panic PNoSecret).
Proof.
  intros He Hk. apply established_iff in He.
  assert (encrypt_algo_with_secret s = None) as Hs.
  { unfold session_key in Hk. destruct (encrypt_algo_with_secret s) as [[k]|]; [discriminate|reflexivity]. }
  destruct (write_message C T data s w) as [[s1 w1] o] eqn:Er.
  apply write_message_cases in Er
    as [(H & _)|[(_ & _ & -> & -> & ->)|(_ & k & o1 & H & _)]]; congruence.
Qed.

(** ** When the secret is missing *)
Lemma rcase_no_secret d s s' o :
  rcase C T true d s s' o -> Inv C T s -> peer_epk s' <> peer_epk s -> session_key s' = None ->
  o = Err FailToComputeAgreement.
Proof.
  intros H HI Hne Hk.
  destruct H; try reflexivity; try (exfalso; apply Hne; reflexivity);
    try (exfalso; apply Hne; exact (proj1 (proj2 (proj2 (pin_other pk s))))).
  - revert Hk.
    match goal with H : apply_action _ _ = _ |- _ => apply receive_connect_wait in H as [l Hl] end.
    pose proof (inv_wait C T s HI l Hl) as (He & _).
    unfold compute_shared_secret, ekp_compute_shared_secret in *.
    cbn [ephemeral set_peer_epk set_status conf] in *. rewrite (proj1 (pin_other pk s)) in *.
    destruct (ephemeral s) as [kp|]; [|congruence].
    destruct (cfg_encrypt_algo (conf (pin pk s))). cbn [algo_shared_secret_len] in *.
    destruct (x25519_agree C (ekp_priv kp) epk); cbn [obind algo_build derive] in *;
      match goal with H : (_, _) = (s', o) |- _ => injection H as <- <- end; [|reflexivity].
    cbn [session_key set_secret encrypt_algo_with_secret]. discriminate.
  - exfalso. apply Hne. match goal with H : update_window _ _ _ = _ |- _ => rename H into Hw end.
    apply window_keys in Hw. unfold keys in Hw. congruence.
Qed.

Lemma agreed_run sk cfg pin s0 cs s h :
  create C (RngKey sk) cfg pin = Ok s0 -> run C T s0 cs = (s, h) ->
  (msl_status s = NegotiationSuccessful -> peer_epk s <> None) /\
  (peer_epk s <> None -> session_key s = None -> exists d, In (CRead d, RMsg (Err FailToComputeAgreement)) h).
Proof.
  intros Hc. revert s h. induction cs as [|c cs IH] using rev_ind; intros s h E.
  - injection E as <- <-. cbn in Hc. injection Hc as <-. split; [discriminate|intros H; exfalso; apply H; reflexivity].
  - rewrite run_snoc in E. destruct (run C T s0 cs) as [s1 h1] eqn:E1.
    destruct (call_step C T s1 c) as [s2 r] eqn:E2. injection E as <- <-.
    destruct (IH s1 h1 eq_refl) as [IH1 IH2].
    pose proof (tinv_run C T HL sk pin cfg s0 cs s1 h1 Hc E1) as HT.
    pose proof (ti_inv _ _ _ _ _ _ HT) as HI.
    assert (peer_epk s1 <> None -> peer_epk s2 = peer_epk s1) as Hmono.
    { intros Hne.
      assert (forall d t t' o, read C T d t = (t', o) -> Inv C T t -> peer_epk t = peer_epk s1 ->
        encrypt_algo_with_secret t = encrypt_algo_with_secret s1 -> ephemeral t = ephemeral s1 ->
        msl_status t = msl_status s1 -> peer_epk t' = peer_epk s1) as Hread.
      { intros d t t' o Er HIt P1 P2 P3 P4.
        pose proof (read_keys C T HL _ _ _ _ HIt Er) as (_ & _ & _ & R4 & _).
        destruct R4 as [(R4 & _)|(e & pk & _ & Hcn & _)]; [congruence|].
        apply connected_fields in Hcn as (l & kp & Hst & _). exfalso. apply Hne.
        rewrite <- P1. apply (inv_wait C T t HIt l Hst). }
      destruct c;
        try (assert (keys s2 = keys s1) as HK
             by (eapply step_keys; [exact HI|exact E2|discriminate|discriminate]);
             unfold keys in HK; congruence).
      + cbn [call_step] in E2. destruct (read C T incoming s1) as [s5 o] eqn:Er. injection E2 as -> <-.
        eapply Hread; [exact Er|exact HI|reflexivity..].
      + cbn [call_step] in E2. rewrite take_ack_read in E2.
        destruct (ack_msg_recv_too_early s1) as [b|]; [|injection E2 as <- <-; reflexivity].
        destruct (read C T b (set_ack_early None s1)) as [s5 o] eqn:Er. injection E2 as -> <-.
        eapply Hread; [exact Er|apply inv_set_ack_early; exact HI|reflexivity..]. }
    split.
    + intros Hs. assert (peer_epk s1 <> None) as Hp; [|rewrite (Hmono Hp); exact Hp].
      pose proof (step_evolves C T s1 c s2 r HI E2) as He. rewrite Hs in He.
      remember (msl_status s1) as st1 eqn:Est. symmetry in Est. remember NegotiationSuccessful as st2 eqn:Est2.
      destruct He as [st e Hq|st e Hf|r0 e Hc0|l st e Hc0 Ha|l e Hc0|r0 st e Hc0 Ha]; try discriminate.
      * auto.
      * apply (inv_peer C T s1 HI _ _ Est). discriminate.
      * destruct r0; cbn [apply_action] in Ha; try congruence.
        apply (inv_peer C T s1 HI _ _ Est). discriminate.
    + intros Hp Hk.
      destruct (peer_epk s1) as [epk|] eqn:Ep.
      * destruct IH2 as [d Hd]; [discriminate| |exists d; apply in_app_iff; auto].
        destruct (session_key s1) as [k|] eqn:Ek; [|reflexivity].
        pose proof (step_secret_mono C T HL s1 c s2 r k HI E2 Ek). congruence.
      * destruct c;
        try (exfalso; apply Hp; assert (keys s2 = keys s1) as HK
             by (eapply step_keys; [exact HI|exact E2|discriminate|discriminate]);
             unfold keys in HK; congruence).
        -- cbn [call_step] in E2. destruct (read C T incoming s1) as [s5 o] eqn:Er. injection E2 as -> <-.
           apply read_inner_cases in Er. apply rcase_no_secret in Er; [|exact HI|congruence|exact Hk].
           subst o. exists incoming. apply in_app_iff. right. left. reflexivity.
        -- exfalso. cbn [call_step] in E2. rewrite take_ack_read in E2.
           destruct (ack_msg_recv_too_early s1) as [b|] eqn:Eb; [|injection E2 as <- <-; congruence].
           destruct (read C T b (set_ack_early None s1)) as [s5 o] eqn:Er. injection E2 as -> <-.
           destruct (ti_early _ _ _ _ _ _ HT b Eb) as [_ Hcl].
           pose proof (read_keys C T HL _ _ _ _ (inv_set_ack_early C T None s1 HI) Er) as (_ & _ & _ & R4 & _).
           destruct R4 as [(R4 & _)|(e & pk & Hcar & _)]; [cbn in R4; congruence|].
           destruct (clear_ack_not_connect C T HL (set_ack_early None s1) b s2 o) as [_ Hno];
             [exact Hcl|apply inv_set_ack_early; exact HI|exact Er|]. eauto.
Qed.

(** On a created layer that has negotiated, [write_message] panics exactly when
    a read answered that the agreement was refused. *)
Theorem missing_secret_iff sk cfg pin s0 cs s h data w :
  create C (RngKey sk) cfg pin = Ok s0 -> run C T s0 cs = (s, h) -> established s ->
  ((exists s' w', write_message C T data s w = (s', w', Panic PNoSecret)) <->
   exists d, In (CRead d, RMsg (Err FailToComputeAgreement)) h).
Proof.
  intros Hc E He. pose proof (agreed_run _ _ _ _ _ _ _ Hc E) as [H1 H2].
  split.
  - intros (s' & w' & Hw). apply H2.
    + apply H1. apply established_iff. exact He.
    + apply write_message_cases in Hw
        as [(_ & _ & _ & [(? & ? & _ & H)|[_ H]])|[(_ & H & _)|(_ & k & o1 & _ & _ & H)]]; try discriminate.
      * unfold session_key. rewrite H. reflexivity.
      * destruct H as [(e & _ & H & _)|[(_ & n & _ & _ & H)|(_ & q & Hq & _ & H)]]; try discriminate.
        injection H as <-. destruct (tame_u64_incr _ _ Hq); discriminate.
  - intros [d Hd].
    destruct (session_key s) as [k|] eqn:Ek; [|exists s, w; apply missing_secret_panics; assumption].
    exfalso. apply in_split in Hd as (h1 & h2 & ->).
    destruct (run_at _ _ _ _ _ _ _ _ E) as (cs1 & cs2 & s1 & s2 & E1 & E2 & E3 & E4).
    pose proof (tinv_run C T HL sk pin cfg s0 _ _ _ Hc E1) as HT1.
    pose proof (ti_inv _ _ _ _ _ _ HT1) as HI1.
    cbn [fst snd call_step] in E2. destruct (read C T d s1) as [s5 o] eqn:Er. injection E2 as -> ->.
    pose proof (ti_acc _ _ _ _ _ _ (tinv_run C T HL sk pin cfg s0 _ _ _ Hc E4)
      (CRead d, RMsg (Err FailToComputeAgreement))) as Ha.
    destruct Ha as (d' & epk & Hd' & Hcar & Hp2); [apply in_app_iff; right; left; reflexivity|reflexivity|].
    cbn [fst] in Hd'. injection Hd' as <-.
    pose proof (ti_secret _ _ _ _ _ _ (tinv_run C T HL sk pin cfg s0 _ _ _ Hc E4)) as Hs2.
    rewrite Hp2 in Hs2.
    destruct (accepted_connect_decides C T HL _ _ _ _ _ _ _ d (RMsg (Err FailToComputeAgreement)) epk Hc E) as [Hs _];
      [apply in_app_iff; right; left; reflexivity|reflexivity|exact Hcar|].
    rewrite Ek, <- Hs2 in Hs.
    pose proof (read_keys C T HL _ _ _ _ HI1 Er) as (_ & _ & _ & R4 & _).
    destruct R4 as [(_ & _ & _ & R4)|(e & pk & _ & Hcn & _)]; [discriminate|].
    apply connected_fields in Hcn as (l & kp & Hst & Hkp & _ & Hpe & _).
    pose proof (inv_wait C T s1 HI1 l Hst) as (_ & Hp1 & He1).
    apply read_inner_cases in Er. remember (Err FailToComputeAgreement) as o eqn:Eo.
    destruct Er; try discriminate Eo; try (cbn [set_status peer_epk] in Hpe; congruence);
      try (pose proof (pin_other pk0 s1) as (_ & _ & P3 & _); cbn [set_status peer_epk] in Hpe; congruence).
    + unfold compute_shared_secret, ekp_compute_shared_secret in *.
      cbn [ephemeral set_peer_epk set_status conf] in *. rewrite (proj1 (pin_other pk0 s1)) in *.
      rewrite Hkp in *.
      destruct (cfg_encrypt_algo (conf (ReadCases.pin pk0 s1))). cbn [algo_shared_secret_len] in *.
      destruct (x25519_agree C (ekp_priv kp) epk0); cbn [obind algo_build derive] in *;
        match goal with H : (_, _) = (s', o) |- _ => injection H as <- <- end;
        [destruct (get_message_cases dd) as [[? Hg]|[? Hg]]; rewrite Hg in Eo; discriminate|].
      cbn [session_key set_ephemeral set_peer_epk set_status encrypt_algo_with_secret] in Hs.
      unfold session_key in Hs. cbn [set_ephemeral set_peer_epk set_status encrypt_algo_with_secret] in Hs.
      pose proof (pin_other pk0 s1) as (_ & _ & _ & P4 & _). rewrite P4, He1 in Hs. discriminate.
Qed.

End WithEnv.

(** What layers with the default configuration write. *)

From Coq Require Import Arith ZifyBool ZifyNat ZifyN.
From Verif.Model Require Import Serde.
From Verif.Spec Require Import Wire Datagram Trace ReadSpec Accept Session Writers Attacks CompleteTrace Typed
  CompleteAdversary TypedTrace Default.
From Verif.Proofs Require Import BaseFacts IoFacts CipherFacts ReaderFacts ReadCases WindowFacts Invariant Negotiation Corollaries Sending CompleteFacts CompleteMode CompleteAdversary
  Typed Split TypedTrace.

Section WithEnv.
Context (C : Crypto) (Z : Zip) (T : target) (F : features) {M : Type} (K : Codec M).

Lemma scall_keeps_conf s c : (forall cfg, c <> SConfig cfg) ->
  conf (minimal (fst (scall_step C Z T s c))) = conf (minimal s).
Proof.
  intros Hc. destruct (scall_step C Z T s c) as [s' r] eqn:E. cbn [fst]. rewrite (scall_conf C Z T s c s' r E).
  destruct c; try reflexivity. exfalso. eapply Hc. reflexivity.
Qed.

Lemma tcall_keeps_conf s c : (forall cfg, c <> VBin (SConfig cfg)) ->
  conf (minimal (fst (tcall_step C Z T F K s c))) = conf (minimal s).
Proof.
  intros Hc. destruct c as [d|cd w|cd w|m w|c]; cbn [tcall_step].
  - pose proof (scall_keeps_conf s (SRead d) ltac:(discriminate)) as H. cbn [scall_step] in H.
    unfold sl_read. destruct (read_bin C Z T d s) as [s' [l|e|p]]; exact H.
  - assert (forall x, conf (minimal (fst (fst (write_connect_msg_bin C Z x s w)))) = conf (minimal s)) as H.
    { intros x. pose proof (scall_keeps_conf s (SConnect x w) ltac:(discriminate)) as H. cbn [scall_step] in H.
      destruct (write_connect_msg_bin C Z x s w) as [[s' w'] o]. exact H. }
    assert (conf (minimal (fst (fst (sl_write_connect_msg C Z K cd s w)))) = conf (minimal s)) as X.
    { rewrite typed_connect. destruct cd as [m|]; [|apply H]. destruct (serialize K m _); [apply H|reflexivity|reflexivity]. }
    destruct (sl_write_connect_msg C Z K cd s w) as [[s' w'] o]. exact X.
  - assert (forall x, conf (minimal (fst (fst (write_ack_msg_bin C Z x s w)))) = conf (minimal s)) as H.
    { intros x. pose proof (scall_keeps_conf s (SAck x w) ltac:(discriminate)) as H. cbn [scall_step] in H.
      destruct (write_ack_msg_bin C Z x s w) as [[s' w'] o]. exact H. }
    assert (conf (minimal (fst (fst (sl_write_ack_msg C Z K cd s w)))) = conf (minimal s)) as X.
    { rewrite typed_ack. destruct cd as [m|]; [|apply H]. destruct (serialize K m _); [apply H|reflexivity|reflexivity]. }
    destruct (sl_write_ack_msg C Z K cd s w) as [[s' w'] o]. exact X.
  - assert (conf (minimal (fst (fst (sl_write C Z T K m s w)))) = conf (minimal s)) as X.
    { rewrite typed_write. destruct (serialize K m _) as [b|e|p]; [|reflexivity|reflexivity].
      pose proof (scall_keeps_conf s (SWrite b w) ltac:(discriminate)) as H. cbn [scall_step] in H.
      destruct (write_bin C Z T b s w) as [[s' w'] o]. exact H. }
    destruct (sl_write C Z T K m s w) as [[s' w'] o]. exact X.
  - assert (forall cfg, c <> SConfig cfg) as Hc' by (intros cfg ->; apply (Hc cfg); reflexivity).
    pose proof (scall_keeps_conf s c Hc') as H. destruct (scall_step C Z T s c). exact H.
Qed.

Lemma tcall_reachable s c : sreachable C Z T s -> sreachable C Z T (fst (tcall_step C Z T F K s c)).
Proof.
  intros H. destruct (typed_reachable C Z T F K s H) as (H1 & H2 & H3 & H4).
  destruct c as [d|cd w|cd w|m w|c]; cbn [tcall_step].
  - specialize (H1 d). destruct (sl_read C Z T F K d s). exact H1.
  - specialize (H2 cd w). destruct (sl_write_connect_msg C Z K cd s w) as [[? ?] ?]. exact H2.
  - specialize (H3 cd w). destruct (sl_write_ack_msg C Z K cd s w) as [[? ?] ?]. exact H3.
  - specialize (H4 m w). destruct (sl_write C Z T K m s w) as [[? ?] ?]. exact H4.
  - pose proof (sreach_step C Z T s c H) as X. destruct (scall_step C Z T s c). exact X.
Qed.

Lemma default_life_facts s : default_life C Z T F K s -> sreachable C Z T s /\ conf (minimal s) = config_default.
Proof.
  induction 1 as [r rs given pin s E|s c _ [IH1 IH2] Hc|s c _ [IH1 IH2] E].
  - split; [eapply sreach_create; exact E|].
    unfold sl_create in E. destruct given as [seed|]; [|destruct rs as [seed|]]; cbn [obind] in E; try discriminate;
      destruct (create C r config_default pin) as [m|e|p] eqn:Ec; try discriminate; injection E as <-; cbn [minimal];
      unfold create in Ec; destruct (ekp_generate C r); cbn [obind] in Ec; try discriminate; injection Ec as <-; reflexivity.
  - split; [apply tcall_reachable, IH1|]. rewrite tcall_keeps_conf by exact Hc. exact IH2.
  - split; [eapply sreach_clone; eassumption|].
    unfold sl_try_clone, try_clone in E. destruct (msl_status (minimal s)); try discriminate E. injection E as <-. exact IH2.
Qed.

(** What is written, in terms of [compress]. *)
Definition squeezed (s : secure_layer) (cd : option bytes) : bytes :=
  custom (match cd with Some d => Some (compress Z d s) | None => None end).

Lemma connect_bytes cd s w s' w' :
  takes_all w -> write_connect_msg_bin C Z cd s w = (s', w', Ok tt) ->
  exists seed, sig_key_pair s = Some seed /\
    output w' = output w ++ signed_connect C seed (ephemeral_pubkey (minimal s)) (squeezed s cd).
Proof.
  intros Hw E. unfold write_connect_msg_bin, writer_write_connect_msg in E.
  destruct (sig_key_pair s) as [seed|] eqn:Es; [|discriminate].
  destruct (create_connect_message C _ _ (minimal s)) as [m [b|e|p]] eqn:Ec; try discriminate.
  apply create_connect_cases in Ec as [(r & Hst & -> & Hb)|(_ & e & He & _)]; [|discriminate].
  apply Ok_inj in Hb. subst b.
  match type of E with context [write_signed C seed ?b w] =>
    destruct (write_signed_all C seed b w Hw) as (w1 & E1 & H1 & H2) end.
  rewrite E1 in E. injection E as <- <-. exists seed. split; [reflexivity|]. exact H2.
Qed.

Lemma ack_bytes cd s w s' w' :
  sreachable C Z T s -> takes_all w -> write_ack_msg_bin C Z cd s w = (s', w', Ok tt) ->
  exists seed epk, sig_key_pair s = Some seed /\ peer_epk (minimal s) = Some epk /\
    output w' = output w ++ signed_ack C seed epk (squeezed s cd).
Proof.
  intros HR Hw E. pose proof (inv_reachable C T _ (sreachable_minimal C Z T s HR)) as HI.
  unfold write_ack_msg_bin, writer_write_ack_msg in E.
  destruct (sig_key_pair s) as [seed|] eqn:Es; [|discriminate].
  destruct (create_ack_message C _ (minimal s)) as [m [b|e|p]] eqn:Ec; try discriminate.
  apply (create_ack_cases C T) in Ec as [(st & epk & Hst & -> & Hp & Hb)|(_ & e & He & _)]; [|discriminate|exact HI].
  apply Ok_inj in Hb. subst b.
  match type of E with context [write_signed C seed ?b w] =>
    destruct (write_signed_all C seed b w Hw) as (w1 & E1 & H1 & H2) end.
  rewrite E1 in E. injection E as <- <-. exists seed, epk. split; [reflexivity|]. split; [exact Hp|exact H2].
Qed.

Lemma user_bytes (HL : CryptoLaws C) data s w s' w' :
  takes_all w -> write_bin C Z T data s w = (s', w', Ok tt) ->
  exists k, session_key (minimal s) = Some k /\
    output w' = output w ++ user_datagram C k (next_nonce_sent (minimal s)) (compress Z data s).
Proof.
  intros Hw E. unfold write_bin, writer_write_bin_message in E.
  destruct (write_message C T (compress Z data s) (minimal s) w) as [[m w1] o] eqn:Em.
  injection E as <- <- ->.
  destruct (write_ok C T HL _ _ _ _ _ (or_introl Hw) Em) as (k & Hk & _ & Ho). exists k. split; assumption.
Qed.

Lemma default_squeezed s cd : conf (minimal s) = config_default -> squeezed s cd = default_payload Z cd.
Proof. intros H. destruct cd as [d|]; [|reflexivity]. cbn. unfold compress. rewrite H. reflexivity. Qed.

Theorem default_written (HL : CryptoLaws C) s w : default_life C Z T F K s -> takes_all w ->
  (forall cd s' w', write_connect_msg_bin C Z cd s w = (s', w', Ok tt) ->
    exists seed, sig_key_pair s = Some seed /\
      output w' = output w ++ signed_connect C seed (ephemeral_pubkey (minimal s)) (default_payload Z cd)) /\
  (forall cd s' w', write_ack_msg_bin C Z cd s w = (s', w', Ok tt) ->
    exists seed epk, sig_key_pair s = Some seed /\ peer_epk (minimal s) = Some epk /\
      output w' = output w ++ signed_ack C seed epk (default_payload Z cd)) /\
  (forall data s' w', write_bin C Z T data s w = (s', w', Ok tt) ->
    exists k, session_key (minimal s) = Some k /\
      output w' = output w ++ user_datagram C k (next_nonce_sent (minimal s)) (default_payload Z (Some data))).
Proof.
  intros H Hw. apply default_life_facts in H as [HR Hc]. split; [|split].
  - intros cd s' w' E. rewrite <- (default_squeezed s cd Hc). exact (connect_bytes cd s w s' w' Hw E).
  - intros cd s' w' E. rewrite <- (default_squeezed s cd Hc). exact (ack_bytes cd s w s' w' HR Hw E).
  - intros data s' w' E. rewrite <- (default_squeezed s (Some data) Hc). exact (user_bytes HL data s w s' w' Hw E).
Qed.

Theorem default_refused s m w : default_life C Z T F K s ->
  sl_write_connect_msg C Z K (Some m) s w = (s, w, Err (SerdeError UseSuffixedBinFunctions)) /\
  sl_write_ack_msg C Z K (Some m) s w = (s, w, Err (SerdeError UseSuffixedBinFunctions)) /\
  sl_write C Z T K m s w = (s, w, Err (SerdeError UseSuffixedBinFunctions)).
Proof.
  intros H. apply default_life_facts in H as [_ Hc]. apply (unserialisable_no_effect C Z T). left. rewrite Hc. split; reflexivity.
Qed.

(** [None] needs no format: the typed methods are then the binary ones. *)
Theorem typed_none s w :
  sl_write_connect_msg C Z K None s w = write_connect_msg_bin C Z None s w /\
  sl_write_ack_msg C Z K None s w = write_ack_msg_bin C Z None s w.
Proof. rewrite typed_connect, typed_ack. split; reflexivity. Qed.

End WithEnv.

(** Complete mode: round trips, results, early messages, bad payloads, clones
    and configuration. *)

From Coq Require Import Arith ZifyBool ZifyNat ZifyN.
From Verif.Model Require Import Complete.
From Verif.Spec Require Import Wire Datagram Trace ReadSpec Accept Session Writers Attacks CompleteTrace.
From Verif.Proofs Require Import BaseFacts IoFacts CipherFacts ReaderFacts ReadCases WindowFacts Invariant
  Negotiation Failure DatagramFacts ReadSpecFacts Accept Keys TraceInv UserReads Ledger Nonces Sending Early
  Histories Corollaries CompleteFacts Steps.

Section WithEnv.
Context (C : Crypto) (Z : Zip) (T : target).

(** ** Payloads *)
Lemma deflated_read x c : deflated Z x c -> uncompress_opt Z (nonempty c) = Ok x.
Proof.
  intros H. apply uncompress_opt_ok. unfold deflated in H. destruct x as [d|].
  - destruct H as [Hc Hi]. destruct c as [|y c]; [contradiction|]. exact Hi.
  - subst c. exact I.
Qed.

Lemma compressed_deflated (HZ : ZipLaws Z) cd s :
  deflated Z cd (custom (match cd with Some d => Some (compress Z d s) | None => None end)).
Proof.
  destruct cd as [d|]; cbn; [|reflexivity]. unfold compress.
  split; [apply (law_deflate_nonempty Z HZ)|apply (law_inflate_deflate Z HZ)].
Qed.

(** ** Writing *)
Lemma write_signed_all seed b w :
  takes_all w -> exists w', write_signed C seed b w = (w', Ok tt) /\ takes_all w' /\
    output w' = output w ++ b ++ ed25519_sign C seed b.
Proof.
  intros Hw. unfold write_signed, sign_and_write_sig.
  destruct (bw_write_accepting w b Hw) as (w1 & -> & H1 & H2 & _).
  destruct (bw_write_accepting w1 (ed25519_sign C seed b) H1) as (w2 & -> & H3 & H4 & _).
  exists w2. split; [reflexivity|]. split; [exact H3|]. unfold output. rewrite H4, H2, <- app_assoc. reflexivity.
Qed.

Lemma connect_write_ok (HZ : ZipLaws Z) cd a w a' w' :
  takes_all w -> write_connect_msg_bin C Z cd a w = (a', w', Ok tt) ->
  exists seed c r, sig_key_pair a = Some seed /\ deflated Z cd c /\
    msl_status (minimal a) = OngoingNegotiation Created r /\
    a' = set_minimal (set_status (OngoingNegotiation ConnectMsgSent r) (minimal a)) a /\
    takes_all w' /\
    output w' = output w ++ signed_connect C seed (ephemeral_pubkey (minimal a)) c.
Proof.
  intros Hw E. unfold write_connect_msg_bin, writer_write_connect_msg in E.
  destruct (sig_key_pair a) as [seed|] eqn:Es; [|discriminate].
  destruct (create_connect_message C _ _ (minimal a)) as [m [b|e|p]] eqn:Ec; try discriminate.
  apply create_connect_cases in Ec as [(r & Hst & -> & Hb)|(_ & e & He & _)]; [|discriminate].
  apply Ok_inj in Hb. subst b.
  match type of E with context [write_signed C seed ?b w] =>
    destruct (write_signed_all seed b w Hw) as (w1 & E1 & H1 & H2) end.
  rewrite E1 in E. injection E as <- <-.
  eexists seed, _, r. split; [reflexivity|]. split; [apply compressed_deflated; exact HZ|].
  split; [exact Hst|]. split; [reflexivity|]. split; [exact H1|exact H2].
Qed.

Lemma ack_write_ok (HZ : ZipLaws Z) cd a w a' w' :
  Inv C T (minimal a) -> takes_all w -> write_ack_msg_bin C Z cd a w = (a', w', Ok tt) ->
  exists seed c epk st, sig_key_pair a = Some seed /\ deflated Z cd c /\
    peer_epk (minimal a) = Some epk /\
    apply_action (msl_status (minimal a)) (Create TAck) = (st, Ok None) /\
    a' = set_minimal (set_status st (minimal a)) a /\
    takes_all w' /\ output w' = output w ++ signed_ack C seed epk c.
Proof.
  intros HI Hw E. unfold write_ack_msg_bin, writer_write_ack_msg in E.
  destruct (sig_key_pair a) as [seed|] eqn:Es; [|discriminate].
  destruct (create_ack_message C _ (minimal a)) as [m [b|e|p]] eqn:Ec; try discriminate.
  apply (create_ack_cases C T) in Ec as [(st & epk & Hst & -> & Hp & Hb)|(_ & e & He & _)]; [|discriminate|exact HI].
  apply Ok_inj in Hb. subst b.
  match type of E with context [write_signed C seed ?b w] =>
    destruct (write_signed_all seed b w Hw) as (w1 & E1 & H1 & H2) end.
  rewrite E1 in E. injection E as <- <-.
  eexists seed, _, epk, st. split; [reflexivity|]. split; [apply compressed_deflated; exact HZ|].
  split; [exact Hp|]. split; [exact Hst|]. split; [reflexivity|]. split; [exact H1|exact H2].
Qed.

Lemma user_write_ok (HL : CryptoLaws C) (HZ : ZipLaws Z) data a w a' w' :
  takes_all w -> write_bin C Z T data a w = (a', w', Ok tt) ->
  exists k c, session_key (minimal a) = Some k /\ sestablished a /\ deflated Z (Some data) c /\
    output w' = output w ++ user_datagram C k (next_nonce_sent (minimal a)) c.
Proof.
  intros Hw E. unfold write_bin, writer_write_bin_message in E.
  destruct (write_message C T (compress Z data a) (minimal a) w) as [[m w1] o] eqn:Em.
  injection E as <- <- ->.
  destruct (write_ok C T HL _ _ _ _ _ (or_introl Hw) Em) as (k & Hk & He & Ho).
  exists k, (compress Z data a). split; [exact Hk|]. split.
  - destruct He as [c Hc]. unfold sestablished, sl_try_clone.
    destruct (try_clone (minimal a)) as [m' [x|e|p]]; try discriminate. eexists. reflexivity.
  - split; [|exact Ho]. exact (compressed_deflated HZ (Some data) a).
Qed.

Lemma sestablished_iff s : sestablished s <-> established (minimal s).
Proof.
  unfold sestablished, established, sl_try_clone.
  destruct (try_clone (minimal s)) as [m [x|e|p]]; cbn [snd]; split; intros [c Hc];
    try discriminate; eauto.
Qed.

(** ** Reading *)
Lemma no_early_ack s : ack_msg_recv_too_early s = None -> take_ack_msg_recv_too_early C T s = (s, Ok None).
Proof. intros H. unfold take_ack_msg_recv_too_early. rewrite H. reflexivity. Qed.

Context (HL : CryptoLaws C).

Lemma signed_connect_len seed epk c :
  length epk = 32%nat -> len (signed_connect C seed epk c) = 150 + len c.
Proof.
  intros He. unfold signed_connect, connect_frame, frame. cbv zeta.
  rewrite !len_app, len_frame_len by reflexivity.
  rewrite connect_content_len; [|exact He|apply (law_ed25519_public_len C HL)].
  rewrite (len_length _ _ (law_ed25519_sign_len C HL _ _)). lia.
Qed.

Lemma signed_ack_len seed epk c : len (signed_ack C seed epk c) = 114 + len c.
Proof.
  unfold signed_ack, ack_frame, frame. cbv zeta.
  rewrite !len_app, len_frame_len by reflexivity. rewrite len_app.
  rewrite (len_length _ _ (law_sha256_len C HL _)), (len_length _ _ (law_ed25519_sign_len C HL _ _)). lia.
Qed.

Lemma user_datagram_len k n data : len (user_datagram C k n data) = 74 + len data.
Proof.
  unfold user_datagram, hashed, user_frame, frame.
  rewrite (len_seal C HL), !len_app, len_frame_len by reflexivity. rewrite len_app, len_u64_be.
  rewrite (len_length _ _ (law_sha256_len C HL _)). lia.
Qed.

Lemma epk_length s : Inv C T s -> length (ephemeral_pubkey s) = 32%nat.
Proof. intros HI. destruct (inv_pub C T s HI) as [sk ->]. apply (law_x25519_public_len C HL). Qed.

Lemma read_connect_possible s seed epk c :
  Inv C T s -> key_acceptable s (ed25519_public C seed) -> wants_connect s ->
  agreement_possible C s epk -> length epk = 32%nat -> 86 + len c < 2 ^ usize_bits T ->
  exists l k, msl_status s = OngoingNegotiation l WaitConnectMsg /\
  read C T (signed_connect C seed epk c) s
    = (after_connect l epk (ed25519_public C seed) k s,
       Ok (Some (MConnect [x00; x00; x00; x00] (ed25519_public C seed) (nonempty c)))).
Proof.
  intros HI Hk [l Hl] (kp & z & Hkp & Hz) He Hb.
  destruct (derived_secret C (ekp_priv kp) epk) as [k|] eqn:Ed;
    [|unfold derived_secret in Ed; rewrite Hz in Ed; discriminate].
  exists l, k. split; [exact Hl|].
  apply (read_connect_fwd C T HL s (ekp_priv kp)); auto. intros kp' H. congruence.
Qed.

(** ** C43 *)
Theorem connect_roundtrip (HZ : ZipLaws Z) cd a w a' w' :
  sreachable C Z T a -> takes_all w -> write_connect_msg_bin C Z cd a w = (a', w', Ok tt) ->
  exists seed d, sig_key_pair a = Some seed /\ output w' = output w ++ d /\
  forall b, sreachable C Z T b -> len d < 2 ^ usize_bits T ->
    key_acceptable (minimal b) (ed25519_public C seed) -> wants_connect (minimal b) ->
    agreement_possible C (minimal b) (ephemeral_pubkey (minimal a)) ->
    (ack_msg_recv_too_early (minimal b) = None ->
       snd (read_bin C Z T d b) = Ok [IConnect cd (ed25519_public C seed)]) /\
    (forall cd' c', wants_ack (minimal b) -> deflated Z cd' c' -> 50 + len c' < 2 ^ usize_bits T ->
       ack_msg_recv_too_early (minimal b) = Some (signed_ack C seed (ephemeral_pubkey (minimal b)) c') ->
       snd (read_bin C Z T d b) = Ok [IConnect cd (ed25519_public C seed); IAck cd']).
Proof.
  intros Ha Hw E. destruct (connect_write_ok HZ cd a w a' w' Hw E)
    as (seed & c & r & Hs & Hc & Hst & _ & _ & Ho).
  exists seed, (signed_connect C seed (ephemeral_pubkey (minimal a)) c).
  split; [exact Hs|]. split; [exact Ho|].
  intros b Hb Hlen Hk Hwc Hag.
  assert (length (ephemeral_pubkey (minimal a)) = 32%nat) as He
    by (apply epk_length, inv_reachable, (sreachable_minimal C Z T), Ha).
  rewrite signed_connect_len in Hlen by exact He.
  pose proof (inv_reachable C T _ (sreachable_minimal C Z T b Hb)) as HI.
  destruct (read_connect_possible (minimal b) seed _ c HI Hk Hwc Hag He ltac:(lia)) as (l & k & Hl & Er).
  unfold read_bin. rewrite Er, (deflated_read cd c Hc).
  split.
  - intros Hearly. rewrite no_early_ack by exact Hearly. reflexivity.
  - intros cd' c' [r' Hwa] Hc' Hlen' Hearly.
    rewrite Hl in Hwa. injection Hwa as -> _.
    unfold take_ack_msg_recv_too_early. cbn [after_connect set_secret set_ephemeral set_peer_epk
      set_status set_peer_sig_pubkey ack_msg_recv_too_early]. rewrite Hearly.
    set (m := set_ack_early None _).
    assert (Inv C T m) as HIm.
    { apply inv_set_ack. pose proof (inv_read C T (minimal b) (signed_connect C seed (ephemeral_pubkey (minimal a)) c) HI) as H.
      rewrite Er in H. exact H. }
    change (ephemeral_pubkey (minimal b)) with (ephemeral_pubkey m).
    erewrite (read_ack_fwd C T HL m ValidConnectMsgReceived seed c' _ HIm); try reflexivity; [|exact Hlen'].
    rewrite (deflated_read cd' c' Hc'). reflexivity.
Qed.

Theorem ack_roundtrip (HZ : ZipLaws Z) cd a w a' w' :
  sreachable C Z T a -> takes_all w -> write_ack_msg_bin C Z cd a w = (a', w', Ok tt) ->
  exists seed d, sig_key_pair a = Some seed /\ output w' = output w ++ d /\
  forall b, sreachable C Z T b -> len d < 2 ^ usize_bits T ->
    peer_sig_pubkey (minimal b) = Some (ed25519_public C seed) -> wants_ack (minimal b) ->
    peer_epk (minimal a) = Some (ephemeral_pubkey (minimal b)) ->
    tmp_stack_user_msgs (minimal b) = [] ->
    snd (read_bin C Z T d b) = Ok [IAck cd].
Proof.
  intros Ha Hw E.
  destruct (ack_write_ok HZ cd a w a' w' (inv_reachable C T _ (sreachable_minimal C Z T a Ha)) Hw E)
    as (seed & c & epk & st & Hs & Hc & Hpe & _ & _ & _ & Ho).
  exists seed, (signed_ack C seed epk c). split; [exact Hs|]. split; [exact Ho|].
  intros b Hb Hlen Hk [r Hr] Hpe' Hq. rewrite signed_ack_len in Hlen.
  pose proof (inv_reachable C T _ (sreachable_minimal C Z T b Hb)) as HI.
  rewrite Hpe in Hpe'. injection Hpe' as ->.
  assert (exists st', apply_action (msl_status (minimal b)) (Receive TAck) = (st', Ok None)) as [st' Hap]
    by (rewrite Hr; destruct r; cbn; eauto).
  unfold read_bin. rewrite (read_ack_fwd C T HL (minimal b) r seed c st' HI Hk Hr Hap ltac:(lia)).
  rewrite (deflated_read cd c Hc). unfold drain_tmp_stack_user_msgs.
  cbn [set_status tmp_stack_user_msgs]. rewrite Hq. reflexivity.
Qed.

Theorem message_roundtrip (HZ : ZipLaws Z) data a w a' w' :
  sreachable C Z T a -> takes_all w -> write_bin C Z T data a w = (a', w', Ok tt) ->
  exists k d, session_key (minimal a) = Some k /\ output w' = output w ++ d /\
  forall b, sreachable C Z T b -> len d < 2 ^ usize_bits T -> sestablished b ->
    session_key (minimal b) = Some k -> keystream_ok C k ->
    window_room (minimal b) (next_nonce_sent (minimal a)) ->
    ~ last_nonce T (minimal b) (next_nonce_sent (minimal a)) ->
    snd (read_bin C Z T d b) = Ok [IMessage (Some data)].
Proof.
  intros Ha Hw E. destruct (user_write_ok HL HZ data a w a' w' Hw E) as (k & c & Hk & _ & Hc & Ho).
  exists k, (user_datagram C k (next_nonce_sent (minimal a)) c). split; [exact Hk|]. split; [exact Ho|].
  intros b Hb Hlen He Hkb Hks Hroom Hlast. rewrite user_datagram_len in Hlen.
  pose proof (inv_reachable C T _ (sreachable_minimal C Z T b Hb)) as HI.
  pose proof (inv_sent C T _ (inv_reachable C T _ (sreachable_minimal C Z T a Ha))) as Hn.
  pose proof (opens_user_datagram C T k _ c Hn Hks ltac:(lia)) as (_ & _ & Hop).
  assert (snd (read C T (user_datagram C k (next_nonce_sent (minimal a)) c) (minimal b))
          = Ok (Some (MMessage (nonempty c)))) as Er.
  { apply (user_delivered_iff C T HL (minimal b) HI).
    exists k, (next_nonce_sent (minimal a)), c. split; [|reflexivity].
    split; [exact Hkb|]. split; [exact Hks|]. split; [exact Hn|]. split; [exact Hop|].
    split; [apply sestablished_iff, He|]. split; assumption. }
  unfold read_bin. destruct (read C T _ (minimal b)) as [m o]. cbn [snd] in Er. subst o. cbn [snd].
  rewrite (deflated_read _ c Hc). reflexivity.
Qed.

End WithEnv.

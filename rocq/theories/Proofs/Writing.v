(** What the write functions do to arbitrary writers. *)

From Coq Require Import Arith ZifyBool ZifyNat ZifyN.
From Verif.Model Require Import Complete.
From Verif.Spec Require Import Wire Datagram Trace ReadSpec Accept Session Writers Attacks CompleteTrace.
From Verif.Proofs Require Import BaseFacts IoFacts CipherFacts ReaderFacts ReadCases WindowFacts Invariant
  Negotiation Failure Sending CompleteFacts CompleteMode.

Section WithEnv.
Context (C : Crypto) (Z : Zip) (T : target).

Lemma packed_custom cd s :
  custom (match cd with Some d => Some (compress Z d s) | None => None end) = packed Z cd s.
Proof. destruct cd; reflexivity. Qed.

(** ** The shape of a negotiation write *)
Lemma connect_write_cases cd a w a' w' o :
  write_connect_msg_bin C Z cd a w = (a', w', o) ->
  (exists seed r, sig_key_pair a = Some seed /\ msl_status (minimal a) = OngoingNegotiation Created r /\
     a' = set_minimal (set_status (OngoingNegotiation ConnectMsgSent r) (minimal a)) a /\
     write_signed C seed (connect_frame (ephemeral_pubkey (minimal a)) (ed25519_public C seed) (packed Z cd a)) w = (w', o)) \/
  (a' = a /\ w' = w /\ exists e, o = Err e /\ (e = ConnectMsgAlreadyWritten \/ e = ConnectionHadFail)).
Proof.
  intros E. unfold write_connect_msg_bin, writer_write_connect_msg in E.
  destruct (sig_key_pair a) as [seed|] eqn:Es.
  2: { injection E as <- <- <-. right. split; [reflexivity|]. split; [reflexivity|].
    eexists. split; [reflexivity|]. left. reflexivity. }
  destruct (create_connect_message C _ _ (minimal a)) as [m oc] eqn:Ec.
  apply create_connect_cases in Ec as [(r & Hst & -> & ->)|(-> & e & -> & He)].
  - rewrite packed_custom in E. destruct (write_signed C seed _ w) as [w1 o1] eqn:E1.
    injection E as <- <- <-. left. exists seed, r. auto.
  - injection E as <- <- <-. right. rewrite set_minimal_same. split; [reflexivity|]. split; [reflexivity|].
    exists e. split; [reflexivity|].
    destruct (msl_status (minimal a)) as [|[] []|]; cbn in He; inversion He; auto.
Qed.

Lemma ack_write_cases cd a w a' w' o :
  Inv C T (minimal a) -> write_ack_msg_bin C Z cd a w = (a', w', o) ->
  (exists seed l epk st, sig_key_pair a = Some seed /\
     msl_status (minimal a) = OngoingNegotiation l ValidConnectMsgReceived /\
     peer_epk (minimal a) = Some epk /\
     apply_action (msl_status (minimal a)) (Create TAck) = (st, Ok None) /\
     a' = set_minimal (set_status st (minimal a)) a /\
     write_signed C seed (ack_frame (sha256 C epk) (packed Z cd a)) w = (w', o)) \/
  (a' = a /\ w' = w /\ exists e, o = Err e /\
     (e = ConnectMsgAlreadyWritten \/ e = ForbidWriteAckMsgNow \/ e = ConnectionHadFail)).
Proof.
  intros HI E. unfold write_ack_msg_bin, writer_write_ack_msg in E.
  destruct (sig_key_pair a) as [seed|] eqn:Es.
  2: { injection E as <- <- <-. right. split; [reflexivity|]. split; [reflexivity|].
    eexists. split; [reflexivity|]. left. reflexivity. }
  destruct (create_ack_message C _ (minimal a)) as [m oc] eqn:Ec.
  apply (create_ack_cases C T) in Ec as [(st & epk & Hst & -> & Hp & ->)|(-> & e & -> & He)]; [| |exact HI].
  - rewrite packed_custom in E. destruct (write_signed C seed _ w) as [w1 o1] eqn:E1.
    injection E as <- <- <-. left.
    assert (exists l, msl_status (minimal a) = OngoingNegotiation l ValidConnectMsgReceived) as [l Hl].
    { destruct (msl_status (minimal a)) as [|l []|]; cbn in Hst; try discriminate. eauto. }
    exists seed, l, epk, st. auto 10.
  - injection E as <- <- <-. right. rewrite set_minimal_same. split; [reflexivity|]. split; [reflexivity|].
    exists e. split; [reflexivity|].
    destruct (msl_status (minimal a)) as [|[] []|]; cbn in He; inversion He; auto.
Qed.

(** ** Writing a signed message *)
Lemma write_signed_outcome seed b w w' o :
  write_signed C seed b w = (w', o) -> o = Ok tt \/ o = Err BufferFlushError.
Proof.
  unfold write_signed, sign_and_write_sig.
  destruct (bw_write w b) as [w1 [n|e]]; [|intros [= _ <-]; auto].
  destruct (bw_write w1 _) as [w2 [n2|e]]; intros [= _ <-]; auto.
Qed.

(** Whatever the writer does: part of the message, then part of the signature. *)
Lemma write_signed_output seed b w w' o :
  write_signed C seed b w = (w', o) ->
  exists i j, output w' = output w ++ firstn i b ++ firstn j (ed25519_sign C seed b).
Proof.
  unfold write_signed, sign_and_write_sig.
  destruct (bw_write w b) as [w1 [n|e]] eqn:E1; apply bw_write_bytes in E1 as (_ & _ & H1).
  - destruct H1 as (_ & H1 & _).
    destruct (bw_write w1 _) as [w2 [n2|e]] eqn:E2; apply bw_write_bytes in E2 as (_ & _ & H2);
      intros E; injection E as <- <-; unfold output.
    + destruct H2 as (_ & H2 & _). exists (N.to_nat n), (N.to_nat n2). rewrite H2, H1, app_assoc. reflexivity.
    + destruct H2 as (H2 & _). exists (N.to_nat n), 0%nat. cbn [firstn]. rewrite H2, H1, app_nil_r. reflexivity.
  - destruct H1 as (H1 & _). intros E; injection E as <- <-. exists 0%nat, 0%nat. cbn [firstn app].
    unfold output. rewrite H1, app_nil_r. reflexivity.
Qed.

(** Success, any sink: complete when both parts fit the buffer. *)
Lemma write_signed_complete (HL : CryptoLaws C) seed b w w' :
  len b < bw_cap w -> 64 < bw_cap w -> write_signed C seed b w = (w', Ok tt) ->
  output w' = output w ++ b ++ ed25519_sign C seed b.
Proof.
  intros Hb Hs. unfold write_signed, sign_and_write_sig.
  destruct (bw_write w b) as [w1 [n|e]] eqn:E1; [|discriminate].
  destruct (bw_write w1 _) as [w2 [n2|e]] eqn:E2; intros E; [injection E as <-|discriminate].
  apply bw_write_bytes in E1 as (Hc & _ & _ & H1 & H2). specialize (H2 Hb). subst n.
  apply bw_write_bytes in E2 as (_ & _ & _ & H3 & H4).
  assert (len (ed25519_sign C seed b) = 64) as Hl by (unfold len; rewrite (law_ed25519_sign_len C HL); reflexivity).
  rewrite Hc, Hl in H4. specialize (H4 Hs). subst n2.
  unfold output. rewrite H3, H1. unfold len in *. rewrite !firstn_all2 by lia. rewrite app_assoc. reflexivity.
Qed.

(** Otherwise bytes can go missing without an error. *)
Lemma write_signed_truncated (HL : CryptoLaws C) seed b w n :
  bw_buf w = [] -> bw_cap w <= len b -> sink_script (bw_sink w) = [WAccept n] -> n <= len b ->
  exists w', write_signed C seed b w = (w', Ok tt) /\
    output w' = output w ++ firstn (N.to_nat n) b ++ ed25519_sign C seed b.
Proof.
  intros Hbuf Hcap Hsc Hn. unfold write_signed, sign_and_write_sig, bw_write at 1.
  assert ((if bw_cap w <? len (bw_buf w) + len b then bw_flush_buf w else (w, None)) = (w, None)) as ->.
  { destruct (_ <? _); [|reflexivity]. unfold bw_flush_buf. rewrite Hbuf, Hsc. cbn [flush_loop].
    destruct w as [cap buf [dt sc]]. cbn in *. subst. reflexivity. }
  apply N.leb_le in Hcap. rewrite Hcap. unfold sink_write. rewrite Hsc.
  rewrite N.min_l by exact Hn.
  set (w1 := {| bw_cap := bw_cap w; bw_buf := bw_buf w; bw_sink := _ |}).
  destruct (bw_write_accepting w1 (ed25519_sign C seed b) eq_refl) as (w2 & -> & _ & H & _).
  exists w2. split; [reflexivity|]. unfold output. rewrite H. unfold w1, bw_bytes. cbn [bw_sink bw_buf sink_data].
  rewrite Hbuf, !app_nil_r, app_assoc. reflexivity.
Qed.

(** ** C53 *)
Theorem connect_appended cd a w a' w' :
  takes_all w -> write_connect_msg_bin C Z cd a w = (a', w', Ok tt) ->
  exists seed, sig_key_pair a = Some seed /\ takes_all w' /\
    output w' = output w ++ signed_connect C seed (ephemeral_pubkey (minimal a)) (packed Z cd a).
Proof.
  intros Hw E. apply connect_write_cases in E as [(seed & r & Hs & _ & _ & E)|(_ & _ & e & He & _)]; [|discriminate].
  match type of E with write_signed C seed ?b w = _ =>
    destruct (write_signed_all C seed b w Hw) as (w1 & E1 & H1 & H2) end.
  rewrite E1 in E. injection E as <-. exists seed. auto.
Qed.

Theorem ack_appended cd a w a' w' :
  sreachable C Z T a -> takes_all w -> write_ack_msg_bin C Z cd a w = (a', w', Ok tt) ->
  exists seed epk, sig_key_pair a = Some seed /\ peer_epk (minimal a) = Some epk /\ takes_all w' /\
    output w' = output w ++ signed_ack C seed epk (packed Z cd a).
Proof.
  intros Ha Hw E. apply ack_write_cases in E
    as [(seed & l & epk & st & Hs & _ & Hp & _ & _ & E)|(_ & _ & e & He & _)]; [|discriminate|].
  2: { apply inv_reachable, (sreachable_minimal C Z T), Ha. }
  match type of E with write_signed C seed ?b w = _ =>
    destruct (write_signed_all C seed b w Hw) as (w1 & E1 & H1 & H2) end.
  rewrite E1 in E. injection E as <-. exists seed, epk. auto.
Qed.

Theorem message_appended data s w s' w' :
  takes_all w -> write_message C T data s w = (s', w', Ok tt) ->
  exists k, session_key s = Some k /\ takes_all w' /\
    output w' = output w ++ user_datagram C k (next_nonce_sent s) data.
Proof.
  intros Hw E. apply write_message_cases in E
    as [(_ & _ & _ & [(l & r & _ & H)|(_ & H)])|[(_ & _ & _ & _ & H)|(Hst & k & o1 & Hk & He &
        [(e & _ & H & _)|[(-> & n & Hn & -> & _)|(_ & p & _ & _ & H)]])]]; try discriminate.
  destruct (encrypt_accepting C (hashed C (user_frame (next_nonce_sent s) data)) k w Hw) as (w1 & E1 & H1 & H2 & _).
  rewrite E1 in He. injection He as <-. exists k. unfold session_key. rewrite Hk. auto.
Qed.

Theorem message_appended_complete data a w a' w' :
  takes_all w -> write_bin C Z T data a w = (a', w', Ok tt) ->
  exists k, session_key (minimal a) = Some k /\ takes_all w' /\
    output w' = output w ++ user_datagram C k (next_nonce_sent (minimal a)) (packed Z (Some data) a).
Proof.
  intros Hw E. unfold write_bin, writer_write_bin_message in E.
  destruct (write_message C T (compress Z data a) (minimal a) w) as [[m w1] o] eqn:Em.
  injection E as <- <- ->. exact (message_appended _ _ _ _ _ Hw Em).
Qed.

(** ** C54 *)
Theorem message_prefix data s w s' w' o k :
  session_key s = Some k -> write_message C T data s w = (s', w', o) ->
  exists j, output w' = output w ++ firstn j (user_datagram C k (next_nonce_sent s) data).
Proof.
  intros Hk E. apply write_message_cases in E as [(_ & _ & -> & _)|[(_ & _ & _ & -> & _)|(_ & k1 & o1 & Hk1 & He & _)]].
  - exists 0%nat. cbn [firstn]. rewrite app_nil_r. reflexivity.
  - exists 0%nat. cbn [firstn]. rewrite app_nil_r. reflexivity.
  - unfold session_key in Hk. rewrite Hk1 in Hk. injection Hk as ->.
    exact (encrypt_prefix C _ k w w' o1 He).
Qed.

Theorem message_prefix_complete data a w a' w' o k :
  session_key (minimal a) = Some k -> write_bin C Z T data a w = (a', w', o) ->
  exists j, output w' = output w ++ firstn j (user_datagram C k (next_nonce_sent (minimal a)) (packed Z (Some data) a)).
Proof.
  intros Hk E. unfold write_bin, writer_write_bin_message in E.
  destruct (write_message C T (compress Z data a) (minimal a) w) as [[m w1] o1] eqn:Em.
  injection E as <- <- ->. exact (message_prefix _ _ _ _ _ _ _ Hk Em).
Qed.

Theorem message_whole (HL : CryptoLaws C) data s w s' w' :
  16 < bw_cap w -> write_message C T data s w = (s', w', Ok tt) ->
  exists k, session_key s = Some k /\ output w' = output w ++ user_datagram C k (next_nonce_sent s) data.
Proof.
  intros Hw E. destruct (write_ok C T HL _ _ _ _ _ (or_intror Hw) E) as (k & Hk & _ & Ho). eauto.
Qed.

Theorem message_whole_complete (HL : CryptoLaws C) data a w a' w' :
  16 < bw_cap w -> write_bin C Z T data a w = (a', w', Ok tt) ->
  exists k, session_key (minimal a) = Some k /\ output w' = output w ++ user_datagram C k (next_nonce_sent (minimal a)) (packed Z (Some data) a).
Proof.
  intros Hw E. unfold write_bin, writer_write_bin_message in E.
  destruct (write_message C T (compress Z data a) (minimal a) w) as [[m w1] o1] eqn:Em.
  injection E as <- <- ->. exact (message_whole HL _ _ _ _ _ Hw Em).
Qed.

(** Errors come from the writer. *)
Lemma write_chunks_from l : forall w w' e,
  write_chunks w l = (w', e) ->
  incl (sink_script (bw_sink w')) (sink_script (bw_sink w)) /\ (forall x, e = Some x -> writer_error w x).
Proof.
  induction l as [|c l IH]; intros w w' e; cbn [write_chunks].
  - intros E; injection E as <- <-. split; [apply incl_refl|discriminate].
  - destruct (bw_write_all w c) as [w1 [e1|]] eqn:E1; apply bw_write_all_from in E1 as [H1 H2].
    + intros E; injection E as <- <-. split; [exact H1|]. intros x E; injection E as <-. exact (H2 _ eq_refl).
    + intros E. destruct (IH _ _ _ E) as [H3 H4]. split; [eapply incl_tran; eauto|].
      intros x Hx. destruct (H4 x Hx) as [H|H]; [left; exact H|right; apply H1, H].
Qed.

Lemma encrypt_error text a w w' e :
  encrypt C text a w = (w', Err e) -> exists io, e = FailToEncryptData io /\ writer_error w io.
Proof.
  destruct a as [k]. cbn [encrypt]. unfold chacha_encrypt.
  destruct (write_chunks w _) as [w1 [e1|]] eqn:E1; apply write_chunks_from in E1 as [H1 H2].
  - intros E; injection E as <- <-. exists e1. split; [reflexivity|exact (H2 _ eq_refl)].
  - destruct (bw_write w1 _) as [w2 [n|e2]] eqn:E2; intros E; [discriminate|]. injection E as <- <-.
    apply bw_write_from in E2 as [_ H3]. exists e2. split; [reflexivity|].
    destruct (H3 _ eq_refl) as [H|H]; [left; exact H|right; apply H1, H].
Qed.

Lemma write_signed_error seed b w w' e :
  write_signed C seed b w = (w', Err e) -> e = BufferFlushError /\ exists io, writer_error w io.
Proof.
  unfold write_signed, sign_and_write_sig.
  destruct (bw_write w b) as [w1 [n|e1]] eqn:E1; apply bw_write_from in E1 as [H1 H2].
  - destruct (bw_write w1 _) as [w2 [n2|e2]] eqn:E2; intros E; [discriminate|]. injection E as <- <-.
    apply bw_write_from in E2 as [_ H3]. split; [reflexivity|]. exists e2.
    destruct (H3 _ eq_refl) as [H|H]; [left; exact H|right; apply H1, H].
  - intros E; injection E as <- <-. split; [reflexivity|]. exists e1. exact (H2 _ eq_refl).
Qed.

(** An error fails the connection; it is the writer's unless the layer was
    not established. *)
Theorem message_write_fails data s w s' w' e :
  write_message C T data s w = (s', w', Err e) ->
  failed C s' /\
  ((~ established s /\ w' = w /\
    ((~ failed C s /\ e = NegoMustHaveBeenSuccessful) \/ (failed C s /\ e = ConnectionHadFail))) \/
   (established s /\ exists io, e = FailToEncryptData io /\ writer_error w io)).
Proof.
  intros E.
  assert (forall x, msl_status x = Fail -> failed C x) as Hf
    by (intros x H; unfold failed, create_connect_message; rewrite H; reflexivity).
  apply write_message_cases in E
      as [(Hst & -> & -> & H)|[(_ & _ & _ & _ & H)|(Hst & k & o1 & Hk & He &
        [(e1 & Ho & E & ->)|[(_ & n & _ & _ & H)|(_ & p & _ & _ & H)]])]]; try discriminate.
  - split; [apply Hf; reflexivity|]. left. split; [rewrite established_iff; exact Hst|]. split; [reflexivity|].
    destruct H as [(l & r & Hs & H)|(Hs & H)]; injection H as <-; [left|right]; (split; [|reflexivity]).
    + unfold failed, create_connect_message. rewrite Hs. destruct l, r; discriminate.
    + apply Hf, Hs.
  - split; [apply Hf; reflexivity|]. right. split; [rewrite established_iff; exact Hst|].
    injection E as <-. subst o1. exact (encrypt_error _ _ _ _ _ He).
Qed.

Theorem message_write_fails_complete data a w a' w' e :
  write_bin C Z T data a w = (a', w', Err e) ->
  sfailed C a' /\
  ((~ established (minimal a) /\ w' = w /\
    ((~ sfailed C a /\ e = NegoMustHaveBeenSuccessful) \/ (sfailed C a /\ e = ConnectionHadFail))) \/
   (established (minimal a) /\ exists io, e = FailToEncryptData io /\ writer_error w io)).
Proof.
  intros E. unfold write_bin, writer_write_bin_message in E.
  destruct (write_message C T (compress Z data a) (minimal a) w) as [[m w1] o1] eqn:Em.
  injection E as <- <- ->. exact (message_write_fails _ _ _ _ _ _ Em).
Qed.

Theorem connect_output cd a w a' w' o :
  write_connect_msg_bin C Z cd a w = (a', w', o) ->
  w' = w \/
  exists seed i j, sig_key_pair a = Some seed /\
    let f := connect_frame (ephemeral_pubkey (minimal a)) (ed25519_public C seed) (packed Z cd a) in
    output w' = output w ++ firstn i f ++ firstn j (ed25519_sign C seed f).
Proof.
  intros E. apply connect_write_cases in E as [(seed & r & Hs & _ & _ & E)|(_ & -> & _)]; [right|left; reflexivity].
  apply write_signed_output in E as (i & j & H). exists seed, i, j. auto.
Qed.

Theorem ack_output cd a w a' w' o :
  sreachable C Z T a -> write_ack_msg_bin C Z cd a w = (a', w', o) ->
  w' = w \/
  exists seed epk i j, sig_key_pair a = Some seed /\ peer_epk (minimal a) = Some epk /\
    let f := ack_frame (sha256 C epk) (packed Z cd a) in
    output w' = output w ++ firstn i f ++ firstn j (ed25519_sign C seed f).
Proof.
  intros Ha E. apply ack_write_cases in E as [(seed & l & epk & st & Hs & _ & Hp & _ & _ & E)|(_ & -> & _)];
    [right|left; reflexivity|apply inv_reachable, (sreachable_minimal C Z T), Ha].
  apply write_signed_output in E as (i & j & H). exists seed, epk, i, j. auto.
Qed.

Theorem connect_complete (HL : CryptoLaws C) cd a w a' w' :
  sreachable C Z T a -> write_connect_msg_bin C Z cd a w = (a', w', Ok tt) ->
  86 + len (packed Z cd a) < bw_cap w ->
  exists seed, sig_key_pair a = Some seed /\
    output w' = output w ++ signed_connect C seed (ephemeral_pubkey (minimal a)) (packed Z cd a).
Proof.
  intros Ha E Hc.
  assert (length (ephemeral_pubkey (minimal a)) = 32%nat) as He
    by (apply (epk_length C T HL), inv_reachable, (sreachable_minimal C Z T), Ha).
  apply connect_write_cases in E as [(seed & r & Hs & _ & _ & E)|(_ & _ & e & H & _)]; [|discriminate].
  exists seed. split; [exact Hs|].
  pose proof (signed_connect_len C HL seed _ (packed Z cd a) He) as Hl.
  unfold signed_connect in *. cbv zeta in *. rewrite len_app in Hl.
  assert (forall x, len (ed25519_sign C seed x) = 64) as Hsig
    by (intros x; unfold len; rewrite (law_ed25519_sign_len C HL); reflexivity).
  rewrite Hsig in Hl. eapply (write_signed_complete HL); [| |exact E]; lia.
Qed.

Theorem ack_complete (HL : CryptoLaws C) cd a w a' w' :
  sreachable C Z T a -> write_ack_msg_bin C Z cd a w = (a', w', Ok tt) ->
  64 + len (packed Z cd a) < bw_cap w ->
  exists seed epk, sig_key_pair a = Some seed /\ peer_epk (minimal a) = Some epk /\
    output w' = output w ++ signed_ack C seed epk (packed Z cd a).
Proof.
  intros Ha E Hc. apply ack_write_cases in E
    as [(seed & l & epk & st & Hs & _ & Hp & _ & _ & E)|(_ & _ & e & He & _)]; [|discriminate|].
  2: { apply inv_reachable, (sreachable_minimal C Z T), Ha. }
  exists seed, epk. split; [exact Hs|]. split; [exact Hp|].
  pose proof (signed_ack_len C HL seed epk (packed Z cd a)) as Hl.
  unfold signed_ack in *. cbv zeta in *. rewrite len_app in Hl.
  assert (forall x, len (ed25519_sign C seed x) = 64) as Hsig
    by (intros x; unfold len; rewrite (law_ed25519_sign_len C HL); reflexivity).
  rewrite Hsig in Hl. eapply (write_signed_complete HL); [| |exact E]; lia.
Qed.

Theorem connect_truncated (HL : CryptoLaws C) cd a seed r w n :
  sig_key_pair a = Some seed -> msl_status (minimal a) = OngoingNegotiation Created r ->
  let f := connect_frame (ephemeral_pubkey (minimal a)) (ed25519_public C seed) (packed Z cd a) in
  bw_buf w = [] -> bw_cap w <= len f -> sink_script (bw_sink w) = [WAccept n] -> n <= len f ->
  exists a' w', write_connect_msg_bin C Z cd a w = (a', w', Ok tt) /\
    output w' = output w ++ firstn (N.to_nat n) f ++ ed25519_sign C seed f.
Proof.
  intros Hs Hst f H1 H2 H3 H4.
  destruct (write_signed_truncated HL seed f w n H1 H2 H3 H4) as (w1 & E1 & Ho).
  unfold write_connect_msg_bin, writer_write_connect_msg. rewrite Hs.
  destruct (create_connect_message C _ _ (minimal a)) as [m oc] eqn:Ec.
  apply create_connect_cases in Ec as [(r' & _ & -> & ->)|(_ & e & _ & He)].
  - rewrite packed_custom. fold f. rewrite E1. eexists _, w1. split; [reflexivity|exact Ho].
  - rewrite Hst in He. discriminate.
Qed.

(** ** C55 *)
Definition connect_out (st : status) : Prop := match st with OngoingNegotiation Created _ => False | _ => True end.
Definition ack_out (st : status) : Prop :=
  match st with OngoingNegotiation _ AckMsgSent | NegotiationSuccessful | Fail => True | _ => False end.

Lemma evolves_out st e st' :
  evolves st e st' -> (connect_out st -> connect_out st') /\ (ack_out st -> ack_out st').
Proof.
  intros H. destruct H as [st e H|st e H|r e H|l st e He Ha|l e H|r st e He Ha].
  - auto.
  - split; intros _; exact I.
  - split; [intros _; exact I|intros H0; exact H0].
  - destruct l; cbn in Ha; inversion Ha; subst; split; cbn; auto.
  - destruct l; split; cbn; auto.
  - destruct r; cbn in Ha; inversion Ha; subst; split; cbn; auto.
Qed.

Lemma run_out s cs s' h :
  reachable C T s -> run C T s cs = (s', h) ->
  (connect_out (msl_status s) -> connect_out (msl_status s')) /\ (ack_out (msl_status s) -> ack_out (msl_status s')).
Proof.
  revert s h. induction cs as [|c cs IH]; intros s h HR; cbn [run].
  - intros [= <- _]. auto.
  - destruct (call_step C T s c) as [s1 r] eqn:E. destruct (run C T s1 cs) as [s2 h2] eqn:E2. intros [= <- _].
    pose proof (reach_step C T s c HR) as HR1. rewrite E in HR1.
    destruct (evolves_out _ _ _ (step_evolves C T s c s1 r (inv_reachable C T s HR) E)) as [H1 H2].
    destruct (IH s1 h2 HR1 E2) as [H3 H4]. auto.
Qed.

Lemma srun_out s cs s' h :
  sreachable C Z T s -> srun C Z T s cs = (s', h) ->
  (connect_out (msl_status (minimal s)) -> connect_out (msl_status (minimal s'))) /\
  (ack_out (msl_status (minimal s)) -> ack_out (msl_status (minimal s'))).
Proof.
  intros HR E. destruct (srun_sub C Z T s cs s' h E) as (css & hm & _ & Hr).
  exact (run_out _ _ _ _ (sreachable_minimal C Z T s HR) Hr).
Qed.

Theorem connect_not_retried cd a w a' w' o :
  sreachable C Z T a -> write_connect_msg_bin C Z cd a w = (a', w', o) ->
  o = Ok tt \/ o = Err BufferFlushError ->
  forall cs b h cd2 w2, srun C Z T a' cs = (b, h) ->
  exists e, write_connect_msg_bin C Z cd2 b w2 = (b, w2, Err e) /\
    (e = ConnectMsgAlreadyWritten \/ e = ConnectionHadFail).
Proof.
  intros Ha E Ho cs b h cd2 w2 Er.
  assert (sreachable C Z T a') as Ha'.
  { pose proof (sreach_step C Z T a (SConnect cd w) Ha) as H. cbn [scall_step] in H. rewrite E in H. exact H. }
  assert (connect_out (msl_status (minimal a'))) as Hout.
  { apply connect_write_cases in E as [(seed & r & _ & _ & -> & _)|(_ & _ & e & -> & He)]; [exact I|].
    exfalso. destruct Ho as [H|H]; [discriminate|]. injection H as ->. destruct He; discriminate. }
  destruct (write_connect_msg_bin C Z cd2 b w2) as [[b' w2'] o2] eqn:E2.
  apply (proj1 (srun_out a' cs b h Ha' Er)) in Hout.
  apply connect_write_cases in E2 as [(seed & r & _ & Hst & _)|(-> & -> & e & -> & He)].
  - rewrite Hst in Hout. contradiction.
  - exists e. auto.
Qed.

Theorem ack_not_retried cd a w a' w' o :
  sreachable C Z T a -> write_ack_msg_bin C Z cd a w = (a', w', o) ->
  o = Ok tt \/ o = Err BufferFlushError ->
  forall cs b h cd2 w2, srun C Z T a' cs = (b, h) ->
  exists e, write_ack_msg_bin C Z cd2 b w2 = (b, w2, Err e) /\
    (e = ConnectMsgAlreadyWritten \/ e = ForbidWriteAckMsgNow \/ e = ConnectionHadFail).
Proof.
  intros Ha E Ho cs b h cd2 w2 Er.
  assert (sreachable C Z T a') as Ha'.
  { pose proof (sreach_step C Z T a (SAck cd w) Ha) as H. cbn [scall_step] in H. rewrite E in H. exact H. }
  assert (ack_out (msl_status (minimal a'))) as Hout.
  { apply ack_write_cases in E as [(seed & l & epk & st & _ & Hst & _ & Hap & -> & _)|(_ & _ & e & -> & He)];
      [| |apply inv_reachable, (sreachable_minimal C Z T), Ha].
    - rewrite Hst in Hap. cbn [minimal set_minimal set_status msl_status].
      destruct l; cbn in Hap; injection Hap as <-; exact I.
    - exfalso. destruct Ho as [H|H]; [discriminate|]. injection H as ->. destruct He as [H|[H|H]]; discriminate. }
  destruct (write_ack_msg_bin C Z cd2 b w2) as [[b' w2'] o2] eqn:E2.
  apply (proj2 (srun_out a' cs b h Ha' Er)) in Hout.
  assert (Inv C T (minimal b)) as HIb.
  { apply inv_reachable, (sreachable_minimal C Z T). exact (srun_reachable C Z T a' cs b h Ha' Er). }
  apply ack_write_cases in E2 as [(seed & l & epk & st & _ & Hst & _)|(-> & -> & e & -> & He)]; [| |exact HIb].
  - rewrite Hst in Hout. contradiction.
  - exists e. auto.
Qed.

(** Which errors: either nothing happened at all, or the writer failed. *)
Theorem connect_write_errors cd a w a' w' e :
  write_connect_msg_bin C Z cd a w = (a', w', Err e) ->
  (e = BufferFlushError /\ exists io, writer_error w io) \/ (e <> BufferFlushError /\ a' = a /\ w' = w).
Proof.
  intros E. apply connect_write_cases in E as [(seed & r & _ & _ & _ & E)|(-> & -> & x & Hx & He)].
  - left. exact (write_signed_error _ _ _ _ _ E).
  - right. injection Hx as ->. split; [destruct He as [->| ->]; discriminate|auto].
Qed.
Theorem ack_write_errors cd a w a' w' e :
  sreachable C Z T a -> write_ack_msg_bin C Z cd a w = (a', w', Err e) ->
  (e = BufferFlushError /\ exists io, writer_error w io) \/ (e <> BufferFlushError /\ a' = a /\ w' = w).
Proof.
  intros Ha E. apply ack_write_cases in E as [(seed & l & epk & st & _ & _ & _ & _ & _ & E)|(-> & -> & x & Hx & He)];
    [| |apply inv_reachable, (sreachable_minimal C Z T), Ha].
  - left. exact (write_signed_error _ _ _ _ _ E).
  - right. injection Hx as ->. split; [destruct He as [->|[->| ->]]; discriminate|auto].
Qed.

(** ** C56 *)
Theorem create_result r cfg pin :
  match r with
  | RngFailPriv => create C r cfg pin = Err FailToGenEphemerKeyPair
  | RngFailPub => create C r cfg pin = Err FailToGenEphemerPubKey
  | RngKey sk => exists s, create C r cfg pin = Ok s /\
      conf s = cfg /\ peer_sig_pubkey s = pin /\
      ephemeral_pubkey s = x25519_public C sk /\
      ephemeral s = Some {| ekp_priv := sk; ekp_pub := x25519_public C sk |} /\
      session_key s = None /\ ~ established s /\ ~ failed C s /\
      next_nonce_sent s = 0 /\ (forall n, ~ received s n) /\
      ack_msg_recv_too_early s = None /\ tmp_stack_user_msgs s = [] /\
      (forall cd pk, exists s', create_connect_message C pk cd s =
        (s', Ok (connect_frame (x25519_public C sk) pk (custom cd))))
  end.
Proof.
  destruct r as [sk| |]; [|reflexivity|reflexivity].
  eexists. split; [reflexivity|]. repeat split; try reflexivity.
  - intros [c Hc]. discriminate.
  - unfold failed, create_connect_message. cbn. discriminate.
  - intros n [H|[]]. cbn in H. lia.
  - intros cd pk. destruct (create_connect_message C pk cd _) as [s' o] eqn:E.
    apply create_connect_cases in E as [(r & _ & -> & ->)|(_ & e & _ & He)]; [|discriminate].
    eexists. reflexivity.
Qed.

Theorem sl_create_result r rs cfg seed pin :
  match (match seed with Some x => Some x | None => rs end) with
  | None => sl_create C r rs cfg seed pin = Panic PRandom
  | Some x =>
      match create C r cfg pin with
      | Ok m => exists s, sl_create C r rs cfg seed pin = Ok s /\ minimal s = m /\ sig_key_pair s = Some x
      | Err e => sl_create C r rs cfg seed pin = Err e
      | Panic p => False
      end
  end.
Proof.
  unfold sl_create. destruct seed as [x|]; [|destruct rs as [x|]]; cbn [obind]; try reflexivity;
    destruct r as [sk| |]; cbn; eauto.
Qed.

End WithEnv.

(** The layer refines the machine of Spec/Machine.v (C71). *)

From Coq Require Import Permutation.
From Verif.Model Require Import Minimal.
From Verif.Spec Require Import Wire Datagram Trace ReadSpec Accept Session Writers Machine.
From Verif.Proofs Require Import BaseFacts CipherFacts IoFacts ReaderFacts ReadCases Invariant Negotiation
  Failure DatagramFacts ReadSpecFacts Accept Keys TraceInv Histories WindowFacts UserReads Ledger Nonces
  Sending Vocabulary Corollaries Writing.

(** ** Marks and status *)
Definition status_of (m : machine) : status :=
  if m_failed m then Fail
  else match m_connect_sent m, m_ack_sent m, m_ack_taken m, m_peer m with
       | true, true, true, Some _ => NegotiationSuccessful
       | cs, sa, ta, p =>
           OngoingNegotiation
             (if ta then ValidAckMsgReceived else if cs then ConnectMsgSent else Created)
             (if sa then AckMsgSent
              else match p with Some _ => ValidConnectMsgReceived | None => WaitConnectMsg end)
       end.

Definition marks_ok (m : machine) : Prop :=
  (m_ack_sent m = true -> m_peer m <> None) /\ (m_ack_taken m = true -> m_connect_sent m = true).

Ltac marks m H1 H2 :=
  destruct (m_failed m), (m_connect_sent m), (m_ack_sent m), (m_ack_taken m), (m_peer m) as [?e|];
  try (exfalso; apply (H1 eq_refl); reflexivity); try (specialize (H2 eq_refl); discriminate H2).

Lemma status_failed m : status_of m = Fail <-> m_failed m = true.
Proof.
  unfold status_of.
  destruct (m_failed m), (m_connect_sent m), (m_ack_sent m), (m_ack_taken m), (m_peer m); split; congruence.
Qed.

Lemma status_complete m : status_of m = NegotiationSuccessful <-> m_failed m = false /\ complete m.
Proof.
  unfold status_of, complete.
  destruct (m_failed m), (m_connect_sent m), (m_ack_sent m), (m_ack_taken m), (m_peer m);
    split; try discriminate; intuition congruence.
Qed.

Lemma status_wants_connect m : marks_ok m ->
  ((exists l, status_of m = OngoingNegotiation l WaitConnectMsg) <-> m_failed m = false /\ m_peer m = None).
Proof.
  intros [H1 H2]. unfold status_of. marks m H1 H2; split; try (intros [? ?]; discriminate);
    try (intros [? ?]; split; congruence); eauto.
Qed.

Lemma status_wants_ack m : marks_ok m ->
  ((exists r, status_of m = OngoingNegotiation ConnectMsgSent r) <->
   m_failed m = false /\ m_connect_sent m = true /\ m_ack_taken m = false).
Proof.
  intros [H1 H2]. unfold status_of. marks m H1 H2; split; try (intros [? ?]; discriminate);
    try (intros (? & ? & ?); discriminate); try (intros [? ?]; repeat split; congruence); eauto.
Qed.

Lemma status_lacks_only_ack m : marks_ok m ->
  (status_of m = OngoingNegotiation ConnectMsgSent AckMsgSent <-> m_failed m = false /\ lacks_only_ack m).
Proof.
  intros [H1 H2]. unfold status_of, lacks_only_ack. marks m H1 H2;
    (split; [intros Heq; try discriminate Heq; repeat split; try discriminate|intros (K1 & K2 & K3 & K4 & K5); try discriminate; try reflexivity]).
Qed.

Lemma complete_dec m : complete m \/ ~ complete m.
Proof.
  unfold complete. destruct (m_connect_sent m), (m_ack_sent m), (m_ack_taken m), (m_peer m);
    (left; repeat split; discriminate) || (right; intros (? & ? & ? & ?); congruence).
Qed.

Lemma lacks_not_complete m : lacks_only_ack m -> complete m -> False.
Proof. intros (_ & _ & H & _) (_ & _ & H' & _). congruence. Qed.

Section WithEnv.
Context (C : Crypto) (T : target) (HL : CryptoLaws C).

(** ** The machine behind a layer *)
Record stands (s : msl) (m : machine) : Prop := {
  sd_inv : Inv C T s;
  sd_marks : marks_ok m;
  sd_status : msl_status s = status_of m;
  sd_pub : ephemeral_pubkey s = x25519_public C (m_private m);
  sd_priv : forall kp, ephemeral s = Some kp -> ekp_priv kp = m_private m;
  sd_key : peer_sig_pubkey s = m_key m;
  sd_peer : forall l r, msl_status s = OngoingNegotiation l r -> peer_epk s = m_peer m;
  sd_secret : session_key s = secret C m;
  sd_kept : ack_msg_recv_too_early s = m_kept m;
  sd_early : tmp_stack_user_msgs s = m_early m;
  sd_numbers : forall n, received s n <-> In n (m_numbers m);
  sd_nodup : NoDup (m_numbers m);
  sd_used : used s = len (m_numbers m);
  sd_written : next_nonce_sent s = m_written m;
  sd_shared : cloned s = m_shared m
}.

Lemma stands_create private cfg expected s :
  create C (RngKey private) cfg expected = Ok s -> stands s (new_machine private expected).
Proof.
  intros E. pose proof (inv_create C T _ _ _ _ E) as HI.
  unfold create in E. cbn [ekp_generate obind] in E. injection E as <-.
  constructor; cbn; try reflexivity; try exact HI.
  - split; discriminate.
  - intros kp H. injection H as <-. reflexivity.
  - intros n. unfold received. cbn. intuition lia.
  - constructor.
Qed.

Lemma stands_clone s m c :
  stands s m -> snd (try_clone s) = Ok c -> stands c (clone_of m).
Proof.
  intros [] E. pose proof (inv_clone C T s c sd_inv0 E) as HI.
  unfold try_clone in E. destruct (msl_status s) eqn:Hst; cbn in E; try discriminate. injection E as <-.
  constructor; cbn; try assumption; try reflexivity.
  - discriminate.
  - discriminate.
Qed.

(** Changes that the marks and the window do not see. *)
Lemma stands_fail s m : stands s m -> stands (set_status Fail s) (fail m).
Proof.
  intros []. constructor; cbn; try assumption; try discriminate; auto.
  exact (inv_fail C T s sd_inv0).
Qed.

Lemma stands_pin s m pk :
  stands s m -> key_acceptable s pk -> stands (pin pk s) (learn_key pk m).
Proof.
  intros [] Hk. pose proof (proj2 (pin_acceptable pk s) Hk) as Hp.
  pose proof (inv_pin C T pk s sd_inv0) as HI.
  destruct (pin_fields pk s) as [v Hv]. rewrite Hv in *.
  constructor; cbn in *; try assumption; auto.
Qed.

Lemma stands_keep s m d : stands s m -> stands (set_ack_early d s) (keep d m).
Proof.
  intros []. constructor; cbn; try assumption; auto. exact (inv_set_ack C T d s sd_inv0).
Qed.

Lemma stands_acceptable s m pk :
  stands s m -> (key_acceptable s pk <-> m_key m = None \/ m_key m = Some pk).
Proof. intros []. unfold key_acceptable. rewrite sd_key0. reflexivity. Qed.

Lemma stands_wants_connect s m :
  stands s m -> (wants_connect s <-> m_failed m = false /\ m_peer m = None).
Proof.
  intros []. unfold wants_connect. rewrite sd_status0. apply status_wants_connect, sd_marks0.
Qed.
Lemma stands_wants_ack s m :
  stands s m -> (wants_ack s <-> m_failed m = false /\ m_connect_sent m = true /\ m_ack_taken m = false).
Proof.
  intros []. unfold wants_ack. rewrite sd_status0. apply status_wants_ack, sd_marks0.
Qed.
Lemma stands_wants_only_ack s m :
  stands s m -> (wants_only_ack s <-> m_failed m = false /\ lacks_only_ack m).
Proof.
  intros []. unfold wants_only_ack. rewrite sd_status0. apply status_lacks_only_ack, sd_marks0.
Qed.
Lemma stands_established s m :
  stands s m -> (established s <-> m_failed m = false /\ complete m).
Proof. intros []. rewrite established_iff, sd_status0. apply status_complete. Qed.
Lemma stands_failed s m : stands s m -> (msl_status s = Fail <-> m_failed m = true).
Proof. intros []. rewrite sd_status0. apply status_failed. Qed.

Lemma handed_get text L k :
  text_end T L <= len text -> handed T text L k (get_message (frame_data T text L k)).
Proof.
  intros Hle. destruct (get_message_exact T text L k) as [(H1 & H2 & ->)|[H ->]].
  - set (a := N.to_nat (16 + headers_size k)). set (b := N.to_nat (text_end T L - (16 + headers_size k))).
    assert (message_from_bytes (firstn b (skipn a text)) (content_headers k)
            = as_message k (firstn b (skipn a text))) as -> by (destruct k; reflexivity).
    apply (hd_message T text L k (firstn a text) (firstn b (skipn a text)) (skipn b (skipn a text))).
    + rewrite (firstn_skipn b). symmetry. apply firstn_skipn.
    + unfold len in *. rewrite firstn_length. unfold a. lia.
    + unfold len in *. rewrite app_length, !firstn_length, skipn_length. unfold a, b. lia.
  - apply hd_inside. lia.
Qed.

(** ** A read *)
Lemma stands_connected s m epk pk s' :
  stands s m -> key_acceptable s pk -> len epk = 32 -> connected C s epk pk s' -> Inv C T s' ->
  stands s' (take_connect epk (learn_key pk m)).
Proof.
  intros Hs Hk Hepk Hcn HI'.
  pose proof (connected_secret C HL s (m_private m) epk pk s' (sd_pub s m Hs) (sd_priv s m Hs) Hepk Hcn) as Hsec.
  pose proof (stands_pin s m pk Hs Hk) as Hp.
  destruct Hcn as (l & kp & Hst & Hkp & Hs').
  assert (m_failed m = false /\ m_peer m = None) as [Hnf Hnp].
  { apply (stands_wants_connect s m Hs). exists l. exact Hst. }
  set (x := match x25519_agree C (ekp_priv kp) epk with Some _ => _ | None => _ end) in Hs'. clearbody x.
  destruct Hs. destruct Hp. destruct (pin_fields pk s) as [v Hv].
  constructor; [exact HI'|..]; try exact Hsec; clear Hsec HI'; rewrite ?Hs'; rewrite Hv in *; cbn in *; auto.
  - destruct sd_marks0 as [M1 M2]. split; cbn; [discriminate|exact M2].
  - rewrite Hst in sd_status0. destruct sd_marks0 as [M1 M2]. unfold status_of in *. cbn. rewrite Hnf, Hnp in *.
    destruct (m_ack_sent m); [exfalso; apply (M1 eq_refl); reflexivity|].
    destruct (m_connect_sent m), (m_ack_taken m); cbn in *; try discriminate; congruence.
  - discriminate.
Qed.

Lemma judge_connect s m d text L epk pk s' o :
  stands s m -> is_datagram C T s d text L (KConnect epk pk) -> read C T d s = (s', o) ->
  exists m', judged C T m d text L (KConnect epk pk) o m' /\ stands s' m' /\
    m_numbers m' = m_numbers m /\ m_early m' = m_early m.
Proof.
  intros Hs Hd E. pose proof (sd_inv s m Hs) as HI.
  assert (len epk = 32) as Hepk.
  { apply datagram_frame in Hd as (_ & _ & (th & rest & _ & Hh) & _). inversion Hh; assumption. }
  pose proof (Invariant.inv_read C T d s s' o HI E) as HI'.
  apply (read_connect_result C T HL s HI d text L epk pk) in E; [|exact Hd].
  assert (forall m', judged C T m d text L (KConnect epk pk) o m' -> stands s' m' ->
    m_numbers m' = m_numbers m -> m_early m' = m_early m ->
    exists m', judged C T m d text L (KConnect epk pk) o m' /\ stands s' m' /\
      m_numbers m' = m_numbers m /\ m_early m' = m_early m) as Hex by eauto 10.
  destruct E as [Hk|Hk Hl|Hk Hl Hn|e Hk Hg Hw He|s' Hk Hg Hw Ha Hf Hcn|s' Hk Hg Hw Ha Hf Hcn].
  - apply (Hex m); try reflexivity; [|exact Hs]. destruct (m_key m) as [key|] eqn:Ek.
    + apply (ju_other_key C T m d text L epk pk key Ek). intros ->. apply Hk. right. rewrite (sd_key s m Hs). exact Ek.
    + exfalso. apply Hk. left. rewrite (sd_key s m Hs). exact Ek.
  - eapply Hex; [eapply ju_connect_cut; [apply (stands_acceptable s m pk Hs), Hk|exact Hl]|..]; try reflexivity.
    apply stands_pin; assumption.
  - eapply Hex; [eapply ju_connect_forged; [apply (stands_acceptable s m pk Hs), Hk|exact Hl|exact Hn]|..]; try reflexivity.
    apply stands_pin; assumption.
  - pose proof (stands_pin s m pk Hs Hk) as Hp. rewrite (stands_wants_connect s m Hs) in Hw.
    rewrite (stands_acceptable s m pk Hs) in Hk. rewrite (stands_failed s m Hs) in He.
    destruct He as [[Hfl ->]|[Hfl ->]].
    + apply (Hex (learn_key pk m)); try reflexivity; [apply ju_connect_failed; assumption|].
      assert (set_status Fail (pin pk s) = pin pk s) as ->.
      { rewrite <- (set_status_same (pin pk s)) at 2. rewrite pin_status.
        rewrite (proj2 (stands_failed s m Hs) Hfl). reflexivity. }
      exact Hp.
    + apply (Hex (fail (learn_key pk m))); try reflexivity; [|apply stands_fail, Hp].
      destruct (m_failed m) eqn:Ef; [congruence|].
      apply ju_connect_again; auto.
  - pose proof (proj1 (stands_wants_connect s m Hs) Hw) as [Hnf Hnp].
    apply (Hex (take_connect epk (learn_key pk m))); [| |reflexivity|reflexivity].
    + apply ju_connect_useless; try assumption; [apply (stands_acceptable s m pk Hs), Hk|].
      destruct Hcn as (l & kp & Hst & Hkp & Hs'). unfold derived_secret.
      destruct (x25519_agree C (m_private m) epk) as [z|] eqn:Ez; [|reflexivity].
      exfalso. apply Ha. exists kp, z. split; [exact Hkp|]. rewrite (sd_priv s m Hs kp Hkp). exact Ez.
    + apply (stands_connected s); assumption.
  - pose proof (proj1 (stands_wants_connect s m Hs) Hw) as [Hnf Hnp].
    apply (Hex (take_connect epk (learn_key pk m))); try reflexivity.
    + destruct Ha as (kp & z & Hkp & Hz). rewrite (sd_priv s m Hs kp Hkp) in Hz.
      destruct (derived_secret C (m_private m) epk) as [key|] eqn:Ek;
        [|unfold derived_secret in Ek; rewrite Hz in Ek; discriminate].
      eapply ju_connect; try eassumption; [apply (stands_acceptable s m pk Hs), Hk|].
      apply handed_get, Hg.
    + apply (stands_connected s); assumption.
Qed.

Lemma stands_take_ack s m st :
  stands s m -> wants_ack s -> apply_action (msl_status s) (Receive TAck) = (st, Ok None) ->
  stands (set_status st s) (take_ack m).
Proof.
  intros Hs Hw Ha. pose proof (proj1 (stands_wants_ack s m Hs) Hw) as (Hnf & Hc & Ht).
  pose proof (inv_advance C T s (Receive TAck) st None (sd_inv s m Hs) (or_intror (or_intror eq_refl)) Ha) as HI'.
  destruct Hs. constructor; cbn; auto.
  - destruct sd_marks0. split; cbn; auto.
  - rewrite sd_status0 in Ha. unfold status_of in *. cbn. rewrite Hnf, Hc, Ht in *. destruct sd_marks0 as [M1 M2].
    destruct (m_ack_sent m), (m_peer m) eqn:Ep; cbn in *; try congruence.
    exfalso. apply (M1 eq_refl). reflexivity.
  - intros l r ->. destruct Hw as [r0 Hw]. apply (sd_peer0 _ _ Hw).
Qed.

Lemma judge_ack s m d text L ch s' o :
  stands s m -> is_datagram C T s d text L (KAck ch) -> read C T d s = (s', o) ->
  exists m', judged C T m d text L (KAck ch) o m' /\ stands s' m' /\
    m_numbers m' = m_numbers m /\ m_early m' = m_early m.
Proof.
  intros Hs Hd E.
  apply (read_ack_result C T HL s d text L ch) in E; [|exact Hd].
  pose proof (sd_pub s m Hs) as Hpub. pose proof (sd_key s m Hs) as Hkey. pose proof (sd_kept s m Hs) as Hkept.
  assert (forall m', judged C T m d text L (KAck ch) o m' -> stands s' m' ->
    m_numbers m' = m_numbers m -> m_early m' = m_early m ->
    exists m', judged C T m d text L (KAck ch) o m' /\ stands s' m' /\
      m_numbers m' = m_numbers m /\ m_early m' = m_early m) as Hex by eauto 10.
  destruct E as [Hc|Hc Hk Hp|b Hc Hk Hp|k Hc Hk Hl|k Hc Hk Hl Hn|k e Hc Hk Hg Hw He|k st Hc Hk Hg Hw Hst Ha];
    rewrite Hpub in Hc; try rewrite Hkey in Hk; try rewrite Hkept in Hp.
  - apply (Hex m); try reflexivity; [|exact Hs]. apply ju_other_challenge, Hc.
  - apply (Hex (keep (Some d) m)); try reflexivity; [apply ju_ack_kept; assumption|]. apply stands_keep, Hs.
  - apply (Hex (fail m)); try reflexivity; [eapply ju_ack_kept_twice; eassumption|]. apply stands_fail, Hs.
  - apply (Hex m); try reflexivity; [|exact Hs]. eapply ju_ack_cut; eassumption.
  - apply (Hex m); try reflexivity; [|exact Hs]. eapply ju_ack_forged; eassumption.
  - rewrite (stands_wants_ack s m Hs) in Hw. rewrite (stands_failed s m Hs) in He.
    destruct He as [[Hfl ->]|[Hfl ->]].
    + apply (Hex m); try reflexivity; [eapply ju_ack_failed; eassumption|].
      assert (set_status Fail s = s) as ->.
      { rewrite <- (set_status_same s) at 2. rewrite (proj2 (stands_failed s m Hs) Hfl). reflexivity. }
      exact Hs.
    + apply (Hex (fail m)); try reflexivity; [|apply stands_fail, Hs].
      destruct (m_failed m) eqn:Ef; [congruence|]. eapply ju_ack_again; try eassumption.
      destruct (m_connect_sent m), (m_ack_taken m); auto. exfalso. apply Hw. auto.
  - pose proof (proj1 (stands_wants_ack s m Hs) Hw) as (Hnf & Hcs & Ht).
    apply (Hex (take_ack m)); try reflexivity; [|apply stands_take_ack; assumption].
    eapply ju_ack; try eassumption. apply handed_get, Hg.
Qed.

Lemma judge_user chk s m d text L n s' o :
  stands s m -> reader_read C T (encrypt_algo_with_secret s) d chk = Ok (frame_data T text L (KUser n)) ->
  read_inner C T chk d s = (s', o) -> Inv C T s' -> len (m_numbers m) + 1 < 2 ^ 64 ->
  exists m', judged C T m d text L (KUser n) o m' /\ stands s' m' /\
    len (m_numbers m') + len (m_early m') <= len (m_numbers m) + len (m_early m) + 1.
Proof.
  intros Hs Hd E HI' Hlen. pose proof (sd_inv s m Hs) as HI.
  apply (read_inner_user_result C T s HI d chk text L n) in E; [|exact Hd].
  destruct (inv_window C T s HI) as (Hnd & Hfa & Hlo & Hne).
  pose proof (acceptable_room C T s (m_numbers m) n HI (sd_nodup s m Hs) (sd_numbers s m Hs)) as Hroom.
  pose proof (sd_numbers s m Hs n) as Hnum.
  pose proof (stands_established s m Hs) as Hest.
  pose proof (stands_wants_only_ack s m Hs) as Hwo.
  pose proof (sd_used s m Hs) as Hused.
  assert (forall m', judged C T m d text L (KUser n) o m' -> stands s' m' ->
    len (m_numbers m') + len (m_early m') <= len (m_numbers m) + len (m_early m) + 1 ->
    exists m', judged C T m d text L (KUser n) o m' /\ stands s' m' /\
    len (m_numbers m') + len (m_early m') <= len (m_numbers m) + len (m_early m) + 1) as Hex by eauto 10.
  destruct E as [Hrc|e Hrc Hne' Hnw He|Hrc Hw|Hrc He Hl|Hrc He Hl Hnh|Hrc He Hh' Hx Hl|s' p Hrc He Hh' Hov Hnx Hall Hup|s' Hrc He Hh' Hr Hlast Hup Hnf].
  - apply (Hex m); [|exact Hs|lia]. apply ju_repeated, Hnum, Hrc.
  - rewrite Hnum in Hrc. rewrite Hest in Hne'. rewrite Hwo in Hnw. rewrite (stands_failed s m Hs) in He.
    destruct He as [[Hfl ->]|[Hfl ->]].
    + apply (Hex m); [apply ju_user_failed; assumption| |lia].
      assert (set_status Fail s = s) as ->.
      { rewrite <- (set_status_same s) at 2. rewrite (proj2 (stands_failed s m Hs) Hfl). reflexivity. }
      exact Hs.
    + apply (Hex (fail m)); [|apply stands_fail, Hs|cbn; lia].
      destruct (m_failed m) eqn:Ef; [congruence|].
      apply ju_user_too_early; auto.
  - destruct (proj1 Hwo Hw) as [Hnf Hlack]. rewrite Hnum in Hrc.
    apply (Hex (hold (m_early m ++ [text]) m)); [apply ju_user_early; assumption| |cbn; unfold len; rewrite app_length; cbn; lia].
    destruct Hs. constructor; cbn; auto. rewrite sd_early0. reflexivity.
  - destruct (proj1 Hest He) as [Hnf Hc]. rewrite Hnum in Hrc.
    apply (Hex m); [|exact Hs|lia]. apply ju_user_cut; assumption.
  - destruct (proj1 Hest He) as [Hnf Hc]. rewrite Hnum in Hrc.
    apply (Hex m); [|exact Hs|lia]. apply ju_user_forged; assumption.
  - destruct (proj1 Hest He) as [Hnf Hc].
    apply (Hex (fail m)); [|apply stands_fail, Hs|cbn; lia].
    apply ju_user_too_many; try assumption; [rewrite <- Hnum; exact Hrc|].
    rewrite <- Hroom. intros [_ [H|H]]; [contradiction|lia].
  - exfalso. apply (not_last_nonce C T s n HI); [lia|]. repeat split; assumption.
  - destruct (proj1 Hest He) as [Hnf' Hc].
    pose proof (not_received s n) as Hnr. destruct (proj1 Hnr Hrc) as [N1 N2].
    destruct (update_window_seen T n s s' (Ok tt) Hup Hnd N1 N2) as [(_ & A & B)|(? & _)]; [unfold used in Hused; lia| |discriminate].
    apply (Hex (take_number n m)).
    + apply ju_user; try assumption; [apply Hroom; split; [exact Hrc|exact Hr]|]. apply handed_get, Hh'.
    + assert (forall x, received s' x <-> In x (n :: m_numbers m)) as Hmem.
      { intros x. pose proof (B x) as Bx. change (received s' x <-> received s x \/ x = n) in Bx.
        rewrite Bx, (sd_numbers s m Hs). cbn [In]. intuition congruence. }
      assert (used s' = len (n :: m_numbers m)) as Hu'.
      { unfold used in *. rewrite A, Hused. unfold len. cbn [length]. lia. }
      pose proof Hup as Hsh. apply update_window_shape in Hsh as [(v & l & Hs' & _)|[_ Hx]]; [|discriminate].
      destruct Hs. constructor; try exact HI'; rewrite ?Hs' in *; cbn in *; auto.
      * constructor; [rewrite <- Hnum; exact Hrc|exact sd_nodup0].
    + cbn [take_number m_numbers m_early]. unfold len. cbn [length]. lia.
Qed.

Lemma stands_reads s m d s' o :
  stands s m -> read C T d s = (s', o) -> len (m_numbers m) + 1 < 2 ^ 64 ->
  exists m', reads C T m d o m' /\ stands s' m' /\
    len (m_numbers m') + len (m_early m') <= len (m_numbers m) + len (m_early m) + 1.
Proof.
  intros Hs E Hlen. pose proof (sd_secret s m Hs) as Hk.
  destruct (datagram_total C T HL (session_key s) d) as [c Hc].
  destruct c as [|e| |text L k].
  - destruct (read_of_panic C T HL s d Hc) as [p Hp]. rewrite Hp in E. injection E as <- <-.
    exists m. rewrite Hk in Hc. split; [apply re_cut, Hc|]. split; [exact Hs|lia].
  - rewrite (read_of_reject C T HL s d e Hc) in E. injection E as <- <-.
    exists (fail m). rewrite Hk in Hc. split; [apply re_reject, Hc|]. split; [apply stands_fail, Hs|cbn; lia].
  - rewrite (read_of_undecryptable C T HL s d Hc) in E. injection E as <- <-.
    exists (fail m). rewrite Hk in Hc. split; [apply re_undecryptable, Hc|]. split; [apply stands_fail, Hs|cbn; lia].
  - assert (exists m', judged C T m d text L k o m' /\ stands s' m' /\
      len (m_numbers m') + len (m_early m') <= len (m_numbers m) + len (m_early m) + 1) as (m' & Hj & Hs' & Hl).
    { destruct k as [epk pk|ch|n].
      - destruct (judge_connect s m d text L epk pk s' o Hs Hc E) as (m' & A & B & D & F).
        exists m'. rewrite D, F. split; [exact A|]. split; [exact B|lia].
      - destruct (judge_ack s m d text L ch s' o Hs Hc E) as (m' & A & B & D & F).
        exists m'. rewrite D, F. split; [exact A|]. split; [exact B|lia].
      - pose proof (Invariant.inv_read C T d s s' o (sd_inv s m Hs) E) as HI'.
        apply (judge_user true s m d text L n s' o Hs); try assumption.
        exact (reader_of_class C T HL s d _ Hc). }
    rewrite Hk in Hc. exists m'. split; [eapply re_frame; eassumption|]. split; assumption.
Qed.


(** ** The early messages *)
Lemma queued_frame b sec : queued T b ->
  exists L n, text_class T b (DFrame b L (KUser n)) /\
    reader_read C T sec b false = Ok (frame_data T b L (KUser n)).
Proof.
  intros H. destruct (reader_read_queued C T b sec H) as (L & n & rest & ue & H1 & H2 & H3 & H4 & H5).
  exists L, n. destruct (usize_add_16 T L) as [(Hx & _)|(Hx & Ho)]; [congruence|].
  assert (ue = text_end T L) as -> by congruence.
  split; [|exact H5]. rewrite H3. eapply tx_frame; [exact H1|exact Ho|]. apply hd_user, H2.
Qed.

Lemma stands_hold_nil s m : stands s m -> stands (set_stack [] s) (hold [] m).
Proof. intros []. constructor; cbn; auto. exact (inv_set_stack_nil C T s sd_inv0). Qed.

Lemma stands_drains bs : forall s m acc s' o,
  stands s m -> drain_loop C T bs acc s = (s', o) -> Forall (queued T) bs ->
  (bs <> [] -> encrypt_algo_with_secret s <> None) ->
  len (m_numbers m) + len (m_early m) + len bs < 2 ^ 64 ->
  exists o' m', drains C T m bs o' m' /\ stands s' m' /\
    o = match o' with Ok l => Ok (acc ++ l) | Err e => Err e | Panic p => Panic p end /\
    len (m_numbers m') + len (m_early m') <= len (m_numbers m) + len (m_early m) + len bs.
Proof.
  induction bs as [|b bs IH]; intros s m acc s' o Hs E Hq Hk Hlen; cbn [drain_loop] in E.
  - injection E as <- <-. exists (Ok []), m. split; [constructor|]. split; [exact Hs|].
    rewrite app_nil_r. split; [reflexivity|lia].
  - assert (len (b :: bs) = len bs + 1) as Hlb by (unfold len; cbn [length]; lia). rewrite Hlb in *.
    destruct (queued_frame b (encrypt_algo_with_secret s) (Forall_inv Hq)) as (L & n & Hc & Hr).
    destruct (read_inner C T false b s) as [s1 o1] eqn:E1.
    assert (Inv C T s1) as HI1.
    { apply read_inner_cases in E1. eapply rcase_inv; [exact (sd_inv s m Hs)| |exact E1].
      right. split; [exact (Forall_inv Hq)|]. apply Hk. discriminate. }
    assert (encrypt_algo_with_secret s1 = encrypt_algo_with_secret s) as Hsec.
    { apply read_inner_cases in E1. apply rcase_queued_status in E1 as [H _]; [exact H|exact (Forall_inv Hq)]. }
    destruct (judge_user false s m b b L n s1 o1 Hs Hr E1 HI1) as (m1 & Hj & Hs1 & Hl1); [lia|].
    destruct o1 as [[x|]|e|p].
    + destruct (IH s1 m1 (acc ++ [x]) s' o Hs1 E (Forall_inv_tail Hq)) as (o' & m' & Hd & Hs' & Ho & Hl).
      { intros _. rewrite Hsec. apply Hk. discriminate. }
      { lia. }
      destruct o' as [l|e|p]; subst o.
      * exists (Ok (x :: l)), m'. split; [eapply dr_message; eassumption|]. split; [exact Hs'|].
        split; [rewrite <- app_assoc; reflexivity|lia].
      * exists (Err e), m'. split; [eapply dr_later_err; eassumption|]. split; [exact Hs'|]. split; [reflexivity|lia].
      * exists (Panic p), m'. split; [eapply dr_later_panic; eassumption|]. split; [exact Hs'|]. split; [reflexivity|lia].
    + destruct (IH s1 m1 acc s' o Hs1 E (Forall_inv_tail Hq)) as (o' & m' & Hd & Hs' & Ho & Hl).
      { intros _. rewrite Hsec. apply Hk. discriminate. }
      { lia. }
      destruct o' as [l|e|p]; subst o.
      * exists (Ok l), m'. split; [eapply dr_nothing; eassumption|]. split; [exact Hs'|]. split; [reflexivity|lia].
      * exists (Err e), m'. split; [eapply dr_later_err; eassumption|]. split; [exact Hs'|]. split; [reflexivity|lia].
      * exists (Panic p), m'. split; [eapply dr_later_panic; eassumption|]. split; [exact Hs'|]. split; [reflexivity|lia].
    + injection E as <- <-. exists (Err e), m1. split; [eapply dr_err; eassumption|].
      split; [exact Hs1|]. split; [reflexivity|lia].
    + injection E as <- <-. exists (Panic p), m1. split; [eapply dr_panic; eassumption|].
      split; [exact Hs1|]. split; [reflexivity|lia].
Qed.

(** ** Every call *)
Definition size (m : machine) : N := len (m_numbers m) + len (m_early m).

Lemma stands_connect_sent s m :
  stands s m -> m_failed m = false -> m_connect_sent m = false ->
  forall r, msl_status s = OngoingNegotiation Created r ->
  stands (set_status (OngoingNegotiation ConnectMsgSent r) s) (send_connect m).
Proof.
  intros Hs Hnf Hc r Hst.
  assert (Inv C T (set_status (OngoingNegotiation ConnectMsgSent r) s)) as HI'.
  { apply (inv_advance C T s (Create TConnect) _ None (sd_inv s m Hs)); [auto|]. rewrite Hst. reflexivity. }
  destruct Hs. constructor; cbn; auto.
  - destruct sd_marks0. split; cbn; auto.
  - rewrite Hst in sd_status0. unfold status_of in *. cbn. rewrite Hnf, Hc in *. destruct sd_marks0 as [M1 M2].
    destruct (m_ack_taken m) eqn:Ht; [specialize (M2 eq_refl); congruence|].
    destruct (m_ack_sent m), (m_peer m); cbn in *; congruence.
  - intros l r0 H. injection H as <- <-. eauto.
Qed.

Lemma stands_ack_sent s m st :
  stands s m -> apply_action (msl_status s) (Create TAck) = (st, Ok None) ->
  m_failed m = false /\ m_ack_sent m = false /\ m_peer m <> None /\ peer_epk s = m_peer m /\
  stands (set_status st s) (send_ack m).
Proof.
  intros Hs Ha.
  pose proof (inv_advance C T s (Create TAck) st None (sd_inv s m Hs) (or_intror (or_introl eq_refl)) Ha) as HI'.
  destruct Hs. destruct sd_marks0 as [M1 M2].
  destruct (msl_status s) as [|l r|] eqn:Hst; cbn in Ha; try discriminate.
  pose proof (sd_peer0 l r eq_refl) as Hp.
  assert (m_failed m = false /\ m_ack_sent m = false /\ m_peer m <> None /\ st = status_of (send_ack m)) as (A & B & D & F).
  { unfold status_of in *. cbn.
    destruct (m_failed m), (m_connect_sent m), (m_ack_sent m), (m_ack_taken m), (m_peer m); try discriminate sd_status0;
      try (specialize (M2 eq_refl); discriminate M2); injection sd_status0 as -> ->;
      try discriminate Ha; injection Ha as <-; repeat split; discriminate. }
  split; [exact A|]. split; [exact B|]. split; [exact D|]. split; [exact Hp|].
  constructor; cbn; auto.
  - split; cbn; auto.
Qed.

Lemma stands_step s m c s' r :
  stands s m -> call_step C T s c = (s', r) -> size m + 1 < 2 ^ 64 -> m_written m + 1 < 2 ^ 64 ->
  exists m', step C T m c r m' /\ stands s' m' /\ size m' <= size m + 1 /\ m_written m' <= m_written m + 1.
Proof.
  intros Hs E Hz Hw. unfold size in *. pose proof (sd_inv s m Hs) as HI.
  assert (forall d m0 m' o, reads C T m0 d o m' -> m_written m' = m_written m0) as Hrw.
  { intros d m0 m' o H. destruct H as [| | |text L k o m' _ Hj]; try reflexivity. destruct Hj; reflexivity. }
  destruct c as [d| | |pk cd|cd|data w| |cfg]; cbn [call_step] in E.
  - destruct (read C T d s) as [s1 o] eqn:Er. injection E as <- <-.
    destruct (stands_reads s m d s1 o Hs Er) as (m' & A & B & D); [lia|].
    exists m'. split; [apply st_read, A|]. split; [exact B|]. rewrite (Hrw _ _ _ _ A). lia.
  - destruct (take_ack_msg_recv_too_early C T s) as [s1 o] eqn:Er. injection E as <- <-.
    unfold take_ack_msg_recv_too_early in Er. rewrite (sd_kept s m Hs) in Er.
    destruct (m_kept m) as [d|] eqn:Ek.
    + destruct (stands_reads (set_ack_early None s) (keep None m) d s1 o (stands_keep s m None Hs) Er) as (m' & A & B & D); [cbn; lia|].
      exists m'. split; [eapply st_take; eassumption|]. split; [exact B|]. rewrite (Hrw _ _ _ _ A). cbn in *. lia.
    + injection Er as <- <-. exists m. split; [apply st_take_nothing, Ek|]. split; [exact Hs|lia].
  - destruct (drain_tmp_stack_user_msgs C T s) as [s1 o] eqn:Er. injection E as <- <-.
    unfold drain_tmp_stack_user_msgs in Er. pose proof (inv_queue C T s HI) as Hq.
    pose proof (inv_queue_secret C T s HI) as Hqs. rewrite (sd_early s m Hs) in *.
    destruct (stands_drains (m_early m) (set_stack [] s) (hold [] m) [] s1 o (stands_hold_nil s m Hs) Er Hq Hqs)
      as (o' & m' & A & B & D & F); [cbn; unfold len in *; cbn; lia|].
    exists m'. replace o with o' by (rewrite D; destruct o'; reflexivity).
    split; [apply st_drain, A|]. split; [exact B|]. split; [cbn in F; unfold len in *; cbn in F; lia|].
    assert (forall m0 bs o m', drains C T m0 bs o m' -> m_written m' = m_written m0) as Hdw.
    { clear. intros m0 bs o m' H.
      assert (forall m0 d text L n o m', judged C T m0 d text L (KUser n) o m' -> m_written m' = m_written m0) as Hj.
      { clear. intros m0 d text L n o m' H. inversion H; reflexivity. }
      induction H; try match goal with H : judged _ _ _ _ _ _ _ _ _ |- _ => apply Hj in H end; congruence. }
    rewrite (Hdw _ _ _ _ A). cbn. lia.
  - destruct (create_connect_message C pk cd s) as [s1 o] eqn:Er. injection E as <- <-.
    apply create_connect_cases in Er as [(r & Hst & -> & ->)|(-> & e & -> & Ha)].
    + assert (m_failed m = false /\ m_connect_sent m = false) as [Hnf Hc].
      { pose proof (sd_status s m Hs) as H. rewrite Hst in H. unfold status_of in H.
        destruct (m_failed m), (m_connect_sent m), (m_ack_sent m), (m_ack_taken m), (m_peer m);
          try discriminate H; auto. }
      exists (send_connect m). rewrite (sd_pub s m Hs). split; [apply st_connect; assumption|].
      split; [apply stands_connect_sent; assumption|cbn; lia].
    + exists m. split; [|split; [exact Hs|lia]].
      pose proof (sd_status s m Hs) as H. destruct (sd_marks s m Hs) as [M1 M2].
      destruct (m_failed m) eqn:Ef.
      * rewrite (proj2 (stands_failed s m Hs) Ef) in Ha. cbn in Ha. injection Ha as <-. apply st_connect_failed, Ef.
      * destruct (msl_status s) as [|[] r|] eqn:Hst; cbn in Ha; try discriminate Ha;
          [apply (stands_failed s m Hs) in Hst; congruence|..]; injection Ha as <-; apply st_connect_again; try assumption;
          unfold status_of in H; rewrite Ef in H;
          destruct (m_connect_sent m), (m_ack_sent m), (m_ack_taken m), (m_peer m); try discriminate H; auto.
  - destruct (create_ack_message C cd s) as [s1 o] eqn:Er. injection E as <- <-.
    apply (create_ack_cases C T) in Er as [(st & epk & Ha & -> & Hp & ->)|(-> & e & -> & Ha)]; [| |exact HI].
    + destruct (stands_ack_sent s m st Hs Ha) as (A & B & D & F & G).
      exists (send_ack m). split; [apply st_ack; congruence|]. split; [exact G|cbn; lia].
    + exists m. split; [|split; [exact Hs|lia]].
      pose proof (sd_status s m Hs) as H. destruct (sd_marks s m Hs) as [M1 M2].
      destruct (m_failed m) eqn:Ef.
      * rewrite (proj2 (stands_failed s m Hs) Ef) in Ha. cbn in Ha. injection Ha as <-. apply st_ack_failed, Ef.
      * assert (e = ForbidWriteAckMsgNow /\ (m_peer m = None \/ m_ack_sent m = true)) as [-> Hx].
        { unfold status_of in H. rewrite Ef in H. rewrite H in Ha.
          destruct (m_connect_sent m), (m_ack_sent m), (m_ack_taken m), (m_peer m); cbn in Ha;
            try discriminate Ha; injection Ha as <-; auto. }
        apply st_ack_not_now; assumption.
  - destruct (write_message C T data s w) as [[s1 w'] o] eqn:Er. injection E as <- <-.
    pose proof Er as Er0.
    apply write_message_cases in Er
      as [(Hne & -> & -> & Ho)|[(Hst & Hk & -> & -> & ->)|(Hst & k & o1 & Hk & He &
          [(e & -> & -> & ->)|[(-> & n & Hn & -> & ->)|(-> & p & Hn & -> & ->)]])]].
    + destruct Ho as [(l & r & Hst & ->)|(Hst & ->)].
      * assert (m_failed m = false) as Hnf.
        { destruct (m_failed m) eqn:Ef; [|reflexivity]. apply (stands_failed s m Hs) in Ef. congruence. }
        exists (fail m). split; [apply st_write_too_early; [exact Hnf|]|split; [apply stands_fail, Hs|cbn; lia]].
        intros Hc. apply Hne. rewrite (sd_status s m Hs). apply status_complete. auto.
      * exists m. split; [apply st_write_failed, (stands_failed s m Hs), Hst|]. split; [|lia].
        rewrite <- (set_status_same s) in Hs at 1. rewrite Hst in Hs. exact Hs.
    + exists m. split; [|split; [exact Hs|lia]].
      pose proof (sd_status s m Hs) as H. rewrite Hst in H. symmetry in H. apply status_complete in H as [A B].
      apply st_write_no_key; try assumption. rewrite <- (sd_secret s m Hs). unfold session_key. rewrite Hk. reflexivity.
    + pose proof (sd_status s m Hs) as H. rewrite Hst in H. symmetry in H. apply status_complete in H as [A B].
      assert (session_key s = Some k) as Hsk by (unfold session_key; rewrite Hk; reflexivity).
      destruct (encrypt_error C _ _ _ _ _ He) as (io & -> & Hio).
      exists (fail m). split; [|split; [apply stands_fail, Hs|cbn; lia]].
      eapply st_write_io; try eassumption.
      * rewrite <- (sd_secret s m Hs). exact Hsk.
      * intros Ht. destruct (encrypt_accepting C (hashed C (user_frame (next_nonce_sent s) data)) k w Ht) as (w2 & E2 & _).
        rewrite He in E2. discriminate.
      * rewrite <- (sd_written s m Hs). exact (message_prefix C T _ _ _ _ _ _ _ Hsk Er0).
    + pose proof (sd_status s m Hs) as H. rewrite Hst in H. symmetry in H. apply status_complete in H as [A B].
      assert (session_key s = Some k) as Hsk by (unfold session_key; rewrite Hk; reflexivity).
      assert (n = m_written m + 1) as ->.
      { rewrite (sd_written s m Hs) in Hn. unfold u64_incr in Hn.
        destruct (N.ltb_spec (m_written m + 1) (2 ^ 64)) as [Hlt|Hge]; [congruence|lia]. }
      exists (count_written m). split; [|split].
      * eapply st_write; try eassumption.
        -- rewrite <- (sd_secret s m Hs). exact Hsk.
        -- rewrite <- (sd_written s m Hs). exact (message_prefix C T _ _ _ _ _ _ _ Hsk Er0).
        -- intros Hok. destruct (write_ok C T HL _ _ _ _ _ Hok Er0) as (k' & Hk' & _ & Hout).
           rewrite Hsk in Hk'. injection Hk' as <-. rewrite <- (sd_written s m Hs). exact Hout.
      * assert (Inv C T (set_next_nonce_sent (m_written m + 1) s)) as HI'
          by (eapply inv_write; [exact HI|exact Er0]).
        destruct Hs. constructor; cbn; auto.
      * cbn. lia.
    + exfalso. rewrite (sd_written s m Hs) in Hn. unfold u64_incr in Hn.
      destruct (N.ltb_spec (m_written m + 1) (2 ^ 64)) as [Hlt|Hge]; [congruence|lia].
  - unfold try_clone in E. pose proof (inv_clone_self C T s HI) as HI'. unfold try_clone in HI'.
    destruct (msl_status s) eqn:Hst; cbn in E; injection E as <- <-.
    + exists m. split; [apply st_clone_refused; left; apply (stands_failed s m Hs), Hst|]. split; [exact Hs|lia].
    + exists m. split; [apply st_clone_refused; right|split; [exact Hs|lia]].
      intros Hc. pose proof (sd_status s m Hs) as H. destruct (m_failed m) eqn:Ef.
      * apply (stands_failed s m Hs) in Ef. congruence.
      * assert (status_of m = NegotiationSuccessful) as Hx by (apply status_complete; auto). congruence.
    + pose proof (sd_status s m Hs) as H. rewrite Hst in H. symmetry in H. apply status_complete in H as [A B].
      exists (share m). split; [apply st_clone; assumption|]. split; [|cbn; lia].
      destruct Hs. constructor; cbn in *; auto.
  - unfold change_config in E. rewrite (sd_shared s m Hs) in E.
    destruct (m_shared m) eqn:Em; cbn in E; injection E as <- <-.
    + exists m. split; [apply st_config_refused, Em|]. split; [exact Hs|lia].
    + exists m. split; [apply st_config, Em|]. split; [|lia].
      pose proof (inv_set_conf C T cfg s HI) as HI'. destruct Hs. constructor; cbn; auto.
Qed.

Lemma stands_run cs : forall s m s' h,
  stands s m -> run C T s cs = (s', h) -> size m + len h < 2 ^ 64 -> m_written m + len h < 2 ^ 64 ->
  exists m', shows C T m h m' /\ stands s' m' /\ size m' <= size m + len h /\ m_written m' <= m_written m + len h.
Proof.
  induction cs as [|c cs IH]; intros s m s' h Hs E Hz Hw; cbn [run] in E.
  - injection E as <- <-. exists m. split; [constructor|]. split; [exact Hs|lia].
  - destruct (call_step C T s c) as [s1 r] eqn:E1. destruct (run C T s1 cs) as [s2 h2] eqn:E2. injection E as <- <-.
    assert (@len event ((c, r) :: h2) = len h2 + 1) as Hl by (unfold len; cbn [length]; lia). rewrite Hl in *.
    destruct (stands_step s m c s1 r Hs E1) as (m1 & A & B & D & F); [lia|lia|].
    destruct (IH s1 m1 s2 h2 B E2) as (m2 & G & J & K & M); [lia|lia|].
    exists m2. split; [eapply sh_cons; eassumption|]. split; [exact J|lia].
Qed.


(** ** The machine has one answer *)
Lemma handed_det text L k o o' : handed T text L k o -> handed T text L k o' -> same_outcome o o'.
Proof.
  intros H H'.
  destruct H as [hs cd tail E1 E2 E3|p Hi]; destruct H' as [hs' cd' tail' F1 F2 F3|p' Hi']; cbn [same_outcome]; auto;
    try (unfold len in *; rewrite app_length in *; lia).
  assert (cd = cd') as ->; [|reflexivity].
  rewrite E1 in F1. apply app_inv_len in F1 as [-> F1]; [|unfold len in *; lia].
  apply app_inv_len in F1 as [-> _]; [reflexivity|]. unfold len in *. rewrite app_length in *. lia.
Qed.

Lemma judged_det m d text L k o m1 o' m2 :
  judged C T m d text L k o m1 -> judged C T m d text L k o' m2 -> same_outcome o o' /\ m1 = m2.
Proof.
  intros H H'. destruct H; inversion H'; subst; unfold signed_by, hash_ok, nonce_acceptable in *;
    try (split; [|reflexivity]; first [exact I|reflexivity|eapply handed_det; eassumption]);
    exfalso;
    repeat match goal with
           | H : ?a /\ ?b |- _ => destruct H
           | H : m_key _ = _ |- _ => rewrite H in *; clear H
           end;
    try congruence; try lia; try tauto;
    try (intuition congruence);
    match goal with H1 : lacks_only_ack ?m, H2 : complete ?m |- _ => exact (lacks_not_complete m H1 H2) end.
Qed.

Lemma reads_det m d o m1 o' m2 :
  reads C T m d o m1 -> reads C T m d o' m2 -> same_outcome o o' /\ m1 = m2.
Proof.
  assert (forall c c', datagram T C (secret C m) d c -> datagram T C (secret C m) d c' -> c = c') as Hu
    by (intros c c'; apply (datagram_unique C T HL)).
  intros H H'.
  destruct H as [p H|e H|H|text L k o m1 H Hj]; destruct H' as [p' H'|e' H'|H'|text' L' k' o' m2 H' Hj'];
    pose proof (Hu _ _ H H') as E; try discriminate E.
  - split; [exact I|reflexivity].
  - injection E as <-. split; reflexivity.
  - split; reflexivity.
  - injection E as <- <- <-. eapply judged_det; eassumption.
Qed.

Lemma user_text_unique text L n L' n' :
  text_class T text (DFrame text L (KUser n)) -> text_class T text (DFrame text L' (KUser n')) ->
  L = L' /\ n = n'.
Proof.
  intros H H'.
  apply text_class_frame in H as (_ & H1 & _ & th & r & E & Hh).
  apply text_class_frame in H' as (_ & H1' & _ & th' & r' & E' & Hh').
  rewrite E in E'. do 2 apply app_inv_head in E'.
  apply app_inv_len in E' as [E1 E2]; [|reflexivity]. subst th'.
  split; [apply u64_be_inj; assumption|].
  inversion Hh as [n0 r0 Hn E1' E2'| |]. inversion Hh' as [n1 r1 Hn' E3 E4| |]. subst n0 n1 th.
  match goal with E : _ ++ u64_be n' ++ r1 = _ |- _ => apply app_inv_head in E; apply app_inv_len in E as [E _]; [|reflexivity] end.
  symmetry. apply u64_be_inj; assumption.
Qed.

Lemma drains_det bs : forall m o m1 o' m2,
  drains C T m bs o m1 -> drains C T m bs o' m2 -> same_outcome o o' /\ m1 = m2.
Proof.
  induction bs as [|b bs IH]; intros m o m1 o' m2 H H'; [inversion H; inversion H'; subst; split; reflexivity|].
  inversion H; subst; inversion H'; subst;
    match goal with
    | Hc : text_class T b _, Hc' : text_class T b _ |- _ =>
        match Hc with Hc' => fail 1 | _ =>
          pose proof (user_text_unique _ _ _ _ _ Hc Hc') as [E1 E2]; subst end
    end;
    match goal with
    | Hj : judged _ _ _ _ _ _ _ _ ?x, Hj' : judged _ _ _ _ _ _ _ _ ?y |- _ =>
        match Hj with Hj' => fail 1 | _ =>
          pose proof (judged_det _ _ _ _ _ _ _ _ _ Hj Hj') as [So Sm]; cbn [same_outcome] in So; try contradiction; subst end
    end; try discriminate;
    try (match goal with
    | Hd : drains _ _ _ bs _ _, Hd' : drains _ _ _ bs _ _ |- _ =>
        match Hd with Hd' => fail 1 | _ =>
          pose proof (IH _ _ _ _ _ Hd Hd') as [Do Dm]; cbn [same_outcome] in Do; try contradiction end
    end);
    try (injection So as <-); subst; (split; [cbn [same_outcome]; auto; congruence|reflexivity]).
Qed.

Lemma step_state m c r m1 r' m2 :
  step C T m c r m1 -> step C T m c r' m2 ->
  (same_reply r r' \/ (forall data w, c = CWrite data w -> takes_all w)) -> same_reply r r' /\ m1 = m2.
Proof.
  intros H H' Hw.
  destruct H; inversion H'; subst; try congruence; cbn [same_reply same_outcome] in *;
    try (split; [reflexivity|reflexivity]);
    try (destruct (H0 eq_refl)).
  all: try (match goal with
    | H1 : reads _ _ _ _ _ _, H2 : reads _ _ _ _ _ _ |- _ =>
        match H1 with H2 => fail 1 | _ => idtac end;
        try (match goal with Ha : m_kept _ = Some ?a, Hb : m_kept _ = Some ?b |- _ =>
               match Ha with Hb => fail 1 | _ => rewrite Ha in Hb; injection Hb as <- end end);
        exact (reads_det _ _ _ _ _ _ H1 H2)
    | H1 : drains _ _ _ _ _ _, H2 : drains _ _ _ _ _ _ |- _ =>
        match H1 with H2 => fail 1 | _ => exact (drains_det _ _ _ _ _ _ H1 H2) end
    end; fail).
  all: try (split; [repeat split|reflexivity]; fail).
  all: try (exfalso; match goal with H1 : m_peer _ = Some _, H2 : m_peer _ = None \/ _ |- _ => destruct H2; congruence end).
  all: try (exfalso; match goal with H1 : complete _, H2 : _ \/ ~ complete _ |- _ => destruct H2; [congruence|contradiction] end).
  - split; congruence.
  - destruct Hw as [Hw|Hw]; [split; [exact Hw|reflexivity]|]. specialize (Hw _ _ eq_refl).
    split; [|reflexivity]. split; [reflexivity|].
    repeat match goal with H : takes_all w \/ _ -> _ |- _ => specialize (H (or_introl Hw)); rewrite H end. congruence.
  - exfalso. destruct Hw as [[[] _]|Hw]. specialize (Hw _ _ eq_refl); contradiction.
  - exfalso. destruct Hw as [[[] _]|Hw]. specialize (Hw _ _ eq_refl); contradiction.
  - destruct Hw as [Hw|Hw]; [split; [exact Hw|reflexivity]|]. specialize (Hw _ _ eq_refl). contradiction.
Qed.

Lemma shows_det h : forall m m1 h' m2,
  shows C T m h m1 -> shows C T m h' m2 -> map fst h = map fst h' ->
  (Forall2 same_reply (map snd h) (map snd h') \/ good_writers (map fst h)) ->
  Forall2 same_reply (map snd h) (map snd h') /\ m1 = m2.
Proof.
  induction h as [|[c r] h IH]; intros m m1 h' m2 H H' Hm Hw; destruct h' as [|[c' r'] h']; try discriminate Hm.
  - inversion H; inversion H'; subst. split; [constructor|reflexivity].
  - cbn [map fst snd] in *. injection Hm as <- Hm. inversion H; inversion H'; subst.
    match goal with H1 : step _ _ _ c r ?x, H2 : step _ _ _ c r' ?y |- _ =>
      destruct (step_state _ _ _ _ _ _ H1 H2) as [Sr Sm] end.
    { destruct Hw as [Hw|Hw]; [left; inversion Hw; assumption|right].
      intros data w ->. apply (Hw data w). left. reflexivity. }
    subst. match goal with H1 : shows _ _ ?x h _, H2 : shows _ _ ?x h' _ |- _ =>
      destruct (IH _ _ _ _ H1 H2 Hm) as [Fr Fm] end.
    { destruct Hw as [Hw|Hw]; [left; inversion Hw; assumption|right].
      intros data w Hin. apply (Hw data w). right. exact Hin. }
    split; [constructor; assumption|exact Fm].
Qed.

Lemma same_reply_refl r : same_reply r r.
Proof.
  destruct r as [o|o|o|o w|o|o]; cbn; try (destruct o; cbn; auto; fail).
Qed.

(** ** The whole life *)
Lemma embodies_stands s m k :
  embodies C T s m k -> k < 2 ^ 64 -> stands s m /\ size m <= k /\ m_written m <= k.
Proof.
  induction 1 as [private cfg expected s E|s m k cs s' h m' H IH E Hsh|s m k c H IH E]; intros Hk.
  - split; [eapply stands_create; exact E|]. unfold size. cbn. lia.
  - destruct IH as (Hs & Hz & Hw); [lia|].
    destruct (stands_run cs s m s' h Hs E) as (m2 & A & B & D & F); [lia|lia|].
    assert (m2 = m') as ->.
    { apply (shows_det h m m2 h m' A Hsh eq_refl). left.
      clear. induction (map snd h); constructor; [apply same_reply_refl|assumption]. }
    split; [exact B|]. lia.
  - destruct (IH Hk) as (Hs & Hz & Hw). split; [eapply stands_clone; eassumption|]. split; [exact Hz|exact Hw].
Qed.

Theorem machine_refinement s m k cs s' h :
  embodies C T s m k -> run C T s cs = (s', h) -> k + len h < 2 ^ 64 ->
  exists m', shows C T m h m' /\ embodies C T s' m' (k + len h).
Proof.
  intros He E Hk. destruct (embodies_stands s m k He) as (Hs & Hz & Hw); [lia|].
  destruct (stands_run cs s m s' h Hs E) as (m' & A & _); [lia|lia|].
  exists m'. split; [exact A|]. eapply em_run; eassumption.
Qed.

Theorem machine_view s m k :
  embodies C T s m k -> k < 2 ^ 64 ->
  (failed C s <-> m_failed m = true) /\
  (established s <-> m_failed m = false /\ complete m) /\
  session_key s = secret C m /\ (forall n, received s n <-> In n (m_numbers m)).
Proof.
  intros He Hk. destruct (embodies_stands s m k He Hk) as (Hs & _).
  split; [rewrite failed_iff; apply stands_failed, Hs|]. split; [apply stands_established, Hs|].
  split; [apply (sd_secret s m Hs)|apply (sd_numbers s m Hs)].
Qed.

(** ** The order of the messages taken in *)
Lemma acceptable_perm ns ns' n : Permutation ns ns' -> nonce_acceptable ns n -> nonce_acceptable ns' n.
Proof.
  intros P [H1 H2]. assert (forall m, In m ns <-> In m ns') as Hi.
  { intros m. split; apply Permutation_in; [exact P|apply Permutation_sym, P]. }
  split; [rewrite <- Hi; exact H1|]. destruct H2 as [H2|(least & L1 & L2 & L3)].
  - left. intros m Hm. apply Hi, H2, Hm.
  - right. exists least. split; [rewrite <- Hi; exact L1|]. split; [intros m Hm; apply Hi, L2, Hm|].
    replace (len (filter (fun m => least <? m) ns')) with (len (filter (fun m => least <? m) ns)); [exact L3|].
    unfold len. f_equal. apply Permutation_length. clear - P. induction P; cbn [filter].
    + constructor.
    + destruct (least <? x); [constructor|]; exact IHP.
    + destruct (least <? x), (least <? y); try apply perm_swap; reflexivity.
    + eapply Permutation_trans; eassumption.
Qed.

Lemma judged_alike m m' d text L k o m1 :
  alike m m' -> judged C T m d text L k o m1 -> exists m1', judged C T m' d text L k o m1' /\ alike m1 m1'.
Proof.
  intros (ns & P & ->) H. assert (forall n, In n (m_numbers m) <-> In n ns) as Hi.
  { intros n. split; apply Permutation_in; [exact P|apply Permutation_sym, P]. }
  assert (forall n, nonce_acceptable (m_numbers m) n <-> nonce_acceptable ns n) as Ha.
  { intros n. split; apply acceptable_perm; [exact P|apply Permutation_sym, P]. }
  destruct H; try (eexists; split;
    [econstructor; cbn; rewrite <- ?Hi; eassumption|exists ns; split; [exact P|reflexivity]]).
  - eexists. split; [apply ju_user_too_many; cbn; rewrite <- ?Hi, <- ?Ha; assumption|]. exists ns. split; [exact P|reflexivity].
  - eexists. split; [apply ju_user; cbn; rewrite <- ?Ha; assumption|].
    exists (n :: ns). split; [cbn; constructor; exact P|reflexivity].
Qed.

Lemma alike_secret m m' : alike m m' -> secret C m' = secret C m.
Proof. intros (ns & _ & ->). reflexivity. Qed.
Lemma alike_update m m' (f : machine -> machine) : alike m m' ->
  (forall ns x, f (reordered ns x) = reordered ns (f x)) -> (forall x, m_numbers (f x) = m_numbers x) ->
  alike (f m) (f m').
Proof. intros (ns & P & ->) H1 H2. exists ns. rewrite H2, H1. auto. Qed.

Lemma reads_alike m m' d o m1 :
  alike m m' -> reads C T m d o m1 -> exists m1', reads C T m' d o m1' /\ alike m1 m1'.
Proof.
  intros A H. pose proof (alike_secret _ _ A) as E. destruct H as [p H|e H|H|text L k o m1 H J].
  - exists m'. split; [constructor; rewrite E; exact H|exact A].
  - exists (fail m'). split; [constructor; rewrite E; exact H|apply alike_update; auto].
  - exists (fail m'). split; [constructor; rewrite E; exact H|apply alike_update; auto].
  - destruct (judged_alike _ _ _ _ _ _ _ _ A J) as (m1' & J' & A'). exists m1'. split; [|exact A'].
    eapply re_frame; [rewrite E; exact H|exact J'].
Qed.

Lemma drains_alike bs : forall m m' o m1,
  alike m m' -> drains C T m bs o m1 -> exists m1', drains C T m' bs o m1' /\ alike m1 m1'.
Proof.
  induction bs as [|b bs IH]; intros m m' o m1 A H; inversion H; subst.
  - exists m'. split; [constructor|exact A].
  - match goal with J : judged _ _ m _ _ _ _ _ _, D : drains _ _ _ bs _ _ |- _ =>
      destruct (judged_alike _ _ _ _ _ _ _ _ A J) as (a & J' & A'); destruct (IH _ _ _ _ A' D) as (b' & D' & B') end.
    exists b'. split; [eapply dr_message; eassumption|exact B'].
  - match goal with J : judged _ _ m _ _ _ _ _ _, D : drains _ _ _ bs _ _ |- _ =>
      destruct (judged_alike _ _ _ _ _ _ _ _ A J) as (a & J' & A'); destruct (IH _ _ _ _ A' D) as (b' & D' & B') end.
    exists b'. split; [eapply dr_nothing; eassumption|exact B'].
  - match goal with J : judged _ _ m _ _ _ _ _ _ |- _ =>
      destruct (judged_alike _ _ _ _ _ _ _ _ A J) as (a & J' & A') end.
    exists a. split; [eapply dr_err; eassumption|exact A'].
  - match goal with J : judged _ _ m _ _ _ _ _ _ |- _ =>
      destruct (judged_alike _ _ _ _ _ _ _ _ A J) as (a & J' & A') end.
    exists a. split; [eapply dr_panic; eassumption|exact A'].
  - match goal with J : judged _ _ m _ _ _ _ _ _, D : drains _ _ _ bs _ _ |- _ =>
      destruct (judged_alike _ _ _ _ _ _ _ _ A J) as (a & J' & A'); destruct (IH _ _ _ _ A' D) as (b' & D' & B') end.
    exists b'. split; [eapply dr_later_err; eassumption|exact B'].
  - match goal with J : judged _ _ m _ _ _ _ _ _, D : drains _ _ _ bs _ _ |- _ =>
      destruct (judged_alike _ _ _ _ _ _ _ _ A J) as (a & J' & A'); destruct (IH _ _ _ _ A' D) as (b' & D' & B') end.
    exists b'. split; [eapply dr_later_panic; eassumption|exact B'].
Qed.

Lemma step_alike m m' c r m1 :
  alike m m' -> step C T m c r m1 -> exists m1', step C T m' c r m1' /\ alike m1 m1'.
Proof.
  intros A H. destruct H as [d o m1 H|H|d o m1 H0 H|o m1 H| | | | | | | | | | | | | | |].
  1: { destruct (reads_alike _ _ _ _ _ A H) as (m1' & R & B). exists m1'. split; [constructor; exact R|exact B]. }
  2: { destruct (reads_alike _ (keep None m') _ _ _ ltac:(apply alike_update; [exact A|reflexivity|reflexivity]) H) as (m1' & R & B).
       exists m1'. split; [|exact B]. destruct A as (ns & P & ->). eapply st_take; eassumption. }
  2: { destruct (drains_alike _ _ (hold [] m') _ _ ltac:(apply alike_update; [exact A|reflexivity|reflexivity]) H) as (m1' & R & B).
       exists m1'. split; [|exact B]. destruct A as (ns & P & ->). constructor. exact R. }
  1: { destruct A as (ns & P & ->). eexists. split. { apply st_take_nothing. exact H. } eexists. split; [exact P|reflexivity]. }
  all: destruct A as (ns & P & ->); eexists; split;
    [first [apply (st_connect C T (reordered ns m))|econstructor]; cbn; eassumption|eexists; split; [exact P|reflexivity]].
Qed.

Lemma shows_alike h : forall m m' m1,
  alike m m' -> shows C T m h m1 -> exists m1', shows C T m' h m1' /\ alike m1 m1'.
Proof.
  induction h as [|[c r] h IH]; intros m m' m1 A H; inversion H; subst.
  - exists m'. split; [constructor|exact A].
  - match goal with S : step _ _ m _ _ _, R : shows _ _ _ h _ |- _ =>
      destruct (step_alike _ _ _ _ _ A S) as (a & S' & A'); destruct (IH _ _ _ A' R) as (b & R' & B') end.
    exists b. split; [econstructor; eassumption|exact B'].
Qed.

Theorem machine_no_hidden_state s1 s2 m m' k1 k2 cs s1' h1 s2' h2 :
  embodies C T s1 m k1 -> embodies C T s2 m' k2 -> alike m m' -> good_writers cs ->
  run C T s1 cs = (s1', h1) -> run C T s2 cs = (s2', h2) ->
  k1 + len h1 < 2 ^ 64 -> k2 + len h2 < 2 ^ 64 ->
  Forall2 same_reply (map snd h1) (map snd h2).
Proof.
  intros H1 H2 HA Hg E1 E2 L1 L2.
  destruct (machine_refinement s1 m k1 cs s1' h1 H1 E1 L1) as (m0 & A0 & _).
  destruct (shows_alike h1 m m' m0 HA A0) as (m1 & A & _).
  destruct (machine_refinement s2 m' k2 cs s2' h2 H2 E2 L2) as (m2 & B & _).
  assert (forall cs s s' h, run C T s cs = (s', h) -> map fst h = cs) as Hf.
  { clear. induction cs as [|c cs IH]; intros s s' h E; cbn [run] in E.
    - injection E as <- <-. reflexivity.
    - destruct (call_step C T s c) as [s1 r] eqn:E1. destruct (run C T s1 cs) as [s2 h2] eqn:E2. injection E as <- <-.
      cbn [map fst]. f_equal. exact (IH _ _ _ E2). }
  pose proof (Hf _ _ _ _ E1) as F1. pose proof (Hf _ _ _ _ E2) as F2.
  apply (shows_det h1 m' m1 h2 m2 A B); [congruence|]. right. rewrite F1. exact Hg.
Qed.

(** Reading user messages only adds their numbers. *)
Lemma shows_users ds : forall m h m1,
  shows C T m h m1 -> map fst h = map CRead ds -> Forall user_answer h ->
  exists ns, Forall2 (fun d n => exists text L, datagram T C (secret C m) d (DFrame text L (KUser n))) ds ns /\
    m1 = reordered (rev ns ++ m_numbers m) m.
Proof.
  induction ds as [|d ds IH]; intros m h m1 H Hf Hu.
  - destruct h as [|e h]; [|discriminate Hf]. inversion H; subst. exists []. split; [constructor|].
    destruct m1; reflexivity.
  - destruct h as [|[c r] h]; [discriminate Hf|]. injection Hf as -> Hf.
    inversion Hu as [|e l [o Ho] Hu']; subst. cbn [snd] in Ho. subst r.
    inversion H as [|m0 c0 r0 ma h0 m2 S R]; subst. inversion S as [d0 o0 m' Hr| | | | | | | | | | | | | | | | | |]; subst.
    inversion Hr as [| | |text L k o0 m' Hd J]; subst.
    assert (exists n, k = KUser n /\ ma = take_number n m) as (n & -> & ->).
    { inversion J; subst; try match goal with Hh : handed _ _ _ _ _ |- _ => inversion Hh; subst end;
        try discriminate; cbn [as_message] in *; try congruence; eauto. }
    destruct (IH _ _ _ R Hf Hu') as (ns & F & ->). exists (n :: ns). split.
    + constructor; [eauto|exact F].
    + cbn [rev]. rewrite <- app_assoc. reflexivity.
Qed.

Lemma forall2_perm {A B} (R : A -> B -> Prop) (Hf : forall a b b', R a b -> R a b' -> b = b') l l' :
  Permutation l l' -> forall m m', Forall2 R l m -> Forall2 R l' m' -> Permutation m m'.
Proof.
  induction 1; intros m m' F F'.
  - inversion F; inversion F'; constructor.
  - inversion F; inversion F'; subst. assert (y = y0) by eauto. subst. constructor. eauto.
  - inversion F as [|a1 b1 l1 m1 R1 F1]; inversion F' as [|a2 b2 l2 m2 R2 F2]; subst.
    inversion F1 as [|a3 b3 l3 m3 R3 F3]; inversion F2 as [|a4 b4 l4 m4 R4 F4]; subst.
    assert (b1 = b4) by eauto. assert (b2 = b3) by eauto. subst.
    assert (m3 = m4).
    { clear - Hf F3 F4. revert m4 F4. induction F3; intros m4 F4; inversion F4; subst; [reflexivity|]. f_equal; eauto. }
    subst. apply perm_swap.
  - assert (exists m0, Forall2 R l' m0) as [m0 F0].
    { clear - F H. revert m F. induction H; intros m F.
      - exists []. constructor.
      - inversion F; subst. destruct (IHPermutation _ H4) as [m0 F0]. eexists. constructor; eassumption.
      - inversion F as [|a1 b1 l1 m1 R1 F1]; subst. inversion F1; subst. eexists. constructor; [eassumption|]. constructor; eassumption.
      - destruct (IHPermutation1 _ F) as [m0 F0]. eauto. }
    eapply Permutation_trans; [apply IHPermutation1|apply IHPermutation2]; eassumption.
Qed.

Lemma run_calls cs : forall s s' h, run C T s cs = (s', h) -> map fst h = cs.
Proof.
  induction cs as [|c cs IH]; intros s s' h E; cbn [run] in E.
  - injection E as <- <-. reflexivity.
  - destruct (call_step C T s c) as [s1 r] eqn:E1. destruct (run C T s1 cs) as [s2 h2] eqn:E2. injection E as <- <-.
    cbn [map fst]. f_equal. exact (IH _ _ _ E2).
Qed.

Theorem machine_order s m k ds ds' cs sa ha sb hb sa' ha' sb' hb' :
  embodies C T s m k -> Permutation ds ds' -> good_writers cs ->
  run C T s (map CRead ds) = (sa, ha) -> Forall user_answer ha ->
  run C T s (map CRead ds') = (sb, hb) -> Forall user_answer hb ->
  run C T sa cs = (sa', ha') -> run C T sb cs = (sb', hb') ->
  k + len ds + len cs < 2 ^ 64 ->
  Forall2 same_reply (map snd ha') (map snd hb').
Proof.
  intros He HP Hg Ea Ua Eb Ub Ea' Eb' Hl.
  assert (forall cs s s' h, run C T s cs = (s', h) -> len h = len cs) as Hn.
  { intros cs0 s0 s0' h0 E0. apply run_calls in E0. rewrite <- E0. unfold len. rewrite map_length. reflexivity. }
  assert (len ds = len ds') as Hd by (unfold len; rewrite (Permutation_length HP); reflexivity).
  assert (forall l : list bytes, len (map CRead l) = len l) as Hm by (intros l; unfold len; rewrite map_length; reflexivity).
  pose proof (Hn _ _ _ _ Ea) as La. pose proof (Hn _ _ _ _ Eb) as Lb.
  pose proof (Hn _ _ _ _ Ea') as La'. pose proof (Hn _ _ _ _ Eb') as Lb'. rewrite Hm in La, Lb.
  destruct (machine_refinement s m k _ sa ha He Ea ltac:(lia)) as (ma & Sa & Ha).
  destruct (machine_refinement s m k _ sb hb He Eb ltac:(lia)) as (mb & Sb & Hb).
  destruct (shows_users ds m ha ma Sa (run_calls _ _ _ _ Ea) Ua) as (na & Fa & ->).
  destruct (shows_users ds' m hb mb Sb (run_calls _ _ _ _ Eb) Ub) as (nb & Fb & ->).
  assert (Permutation na nb) as Hp.
  { eapply forall2_perm; [|exact HP|exact Fa|exact Fb]. cbv beta. intros d n n' (t & L & D) (t' & L' & D').
    pose proof (datagram_unique C T HL _ _ _ _ D D') as E. congruence. }
  eapply machine_no_hidden_state; [exact Ha|exact Hb| |exact Hg|exact Ea'|exact Eb'|lia|lia].
  exists (rev nb ++ m_numbers m). split; [|reflexivity]. cbn. apply Permutation_app_tail.
  rewrite <- !Permutation_rev. exact Hp.
Qed.

End WithEnv.

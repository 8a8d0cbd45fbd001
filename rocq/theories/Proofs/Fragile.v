(** What ends a connection: a lost message, a repeated negotiation datagram, a
    datagram that is not of the protocol (C57, C58). *)

From Coq Require Import Permutation.
From Verif.Model Require Import Minimal.
From Verif.Spec Require Import Wire Datagram Trace ReadSpec Accept Session Writers.
From Verif.Proofs Require Import BaseFacts CipherFacts ReaderFacts ReadCases Invariant Negotiation
  Failure DatagramFacts ReadSpecFacts Accept Keys TraceInv Histories WindowFacts UserReads Ledger Nonces
  Sending Vocabulary Corollaries Early.

Section WithEnv.
Context (C : Crypto) (T : target) (HL : CryptoLaws C).

Notation nonces l := (map (fun e : nat * N * bytes => snd (fst e)) l).

(** ** C58 *)
Theorem junk_fails s v r :
  reachable C T s -> ~ failed C s -> len v = 4 -> v <> version ->
  snd (read C T (magic ++ v ++ r) s) = Err (RecvInvalidMsg UnsupportedVersion) /\
  failed C (fst (read C T (magic ++ v ++ r) s)).
Proof.
  intros HR Hf Hv Hne. apply (read_fails_connection_iff C T HL s _ _ HR Hf).
  apply fc_reject. exact (dg_clear T C _ _ _ (tx_version T v r Hv Hne)).
Qed.

Lemma failed_status s : failed C s <-> msl_status s = Fail.
Proof. apply failed_iff. Qed.

Theorem repeated_connect_fails sk cfg pin s0 cs s h d al pk o :
  create C (RngKey sk) cfg pin = Ok s0 -> run C T s0 cs = (s, h) -> ~ failed C s ->
  In (CRead d, RMsg (Ok (Some (MConnect al pk o)))) h ->
  snd (read C T d s) = Err (RecvInvalidMsg UnexpectedConnectMsg) /\ failed C (fst (read C T d s)).
Proof.
  intros Hc E Hf Hin. pose proof (run_reachable C T _ _ _ _ (reach_create C T _ _ _ _ Hc) E) as HR.
  apply (read_fails_connection_iff C T HL s _ _ HR Hf).
  pose proof (bounded_run C T _ _ _ _ _ _ _ Hc E) as Hb.
  assert (count connect_accepted h <> 0%nat) as Hn.
  { apply in_split in Hin as (h1 & h2 & ->). unfold count. rewrite filter_app, app_length.
    cbn [filter connect_accepted snd length]. lia. }
  pose proof Hin as Hin'. apply in_split in Hin' as (h1 & h2 & Eh). pose proof E as E0. rewrite Eh in E.
  destruct (run_at _ _ _ _ _ _ _ _ E) as (cs1 & cs2 & s1 & s2 & E1 & E2 & E3 & _).
  cbn [fst snd call_step] in E2.
  assert (reachable C T s1) as HR1.
  { eapply run_reachable; [|exact E1]. eapply reach_create, Hc. }
  destruct (read C T d s1) as [s2' o2] eqn:Er. injection E2 as -> ->.
  pose proof (connect_delivered_iff C T HL s1 (inv_reachable C T s1 HR1) d al pk o) as Hd.
  rewrite Er in Hd. destruct (proj1 Hd eq_refl)
    as (e & cd & (L1 & L2 & (L & sig & Hlf & Hds & Hv) & Hk & _) & _).
  pose proof (connect_class T L e pk cd sig L1 L2 Hlf) as Hcl.
  pose proof (clear_datagram C T (session_key s) _ _ _ Hcl eq_refl) as Hdg. rewrite <- Hds in Hdg.
  eapply fc_connect; [exact Hdg| | |].
  - destruct (peer_sig_pubkey s) as [k0|] eqn:Ek; [right|left; exact Ek].
    pose proof (tinv_run C T HL sk pin cfg s0 cs s h Hc E0) as HT.
    destruct (ti_neg _ _ _ _ _ _ HT k0 (or_intror Ek) h1 _ h2 _ Eh (or_introl eq_refl)) as [-> _]. exact Ek.
  - destruct (field_text_end T _ _ Hlf) as [Hte _].
    assert (len (frame_len L [x00; x01] (connect_content e pk cd)) = text_end T L) as Hfl.
    { rewrite len_frame_len by reflexivity. lia. }
    assert (N.to_nat (text_end T L) = length (frame_len L [x00; x01] (connect_content e pk cd))) as Hnn
      by (unfold len in Hfl; lia).
    split; [rewrite Hds, len_app; lia|]. rewrite Hds, Hnn, firstn_exact, skipn_exact. exact Hv.
  - intros [l Hw]. rewrite Hw in Hb. destruct Hb as (_ & _ & _ & _ & _ & _ & Hb & _).
    apply Hn, Hb. reflexivity.
Qed.

(** The datagram delivered as the ACK, directly or after being kept. *)
Theorem repeated_ack_fails sk cfg pin s0 cs s h1 e h2 o :
  create C (RngKey sk) cfg pin = Ok s0 -> run C T s0 cs = (s, h1 ++ e :: h2) -> ~ failed C s ->
  In (MAck o) (delivered (snd e)) ->
  exists d, source h1 e d /\
  snd (read C T d s) = Err (RecvInvalidMsg UnexpectedAckMsg) /\ failed C (fst (read C T d s)).
Proof.
  intros Hc E Hf Hin. pose proof (run_reachable C T _ _ _ _ (reach_create C T _ _ _ _ Hc) E) as HR.
  pose proof (bounded_run C T _ _ _ _ _ _ _ Hc E) as Hb.
  pose proof (tinv_run C T HL sk pin cfg s0 cs s _ Hc E) as HT.
  destruct (run_at _ _ _ _ _ _ _ _ E) as (cs1 & cs2 & s1 & s2 & E1 & E2 & E3 & _).
  assert (reachable C T s1) as HR1.
  { eapply run_reachable; [|exact E1]. eapply reach_create, Hc. }
  pose proof (tinv_run C T HL sk pin cfg s0 cs1 s1 _ Hc E1) as HT1.
  pose proof (inv_reachable C T s1 HR1) as HI1.
  destruct e as [c r]. cbn [fst snd] in *.
  assert (exists d pk cd s1', source h1 (c, r) d /\ ack_delivery C T s1' d pk cd /\
    ephemeral_pubkey s1' = ephemeral_pubkey s1 /\ peer_sig_pubkey s1' = peer_sig_pubkey s1 /\
    ack_accepted (c, r) = true) as (d & pk & cd & s1' & Hsrc & ((L & sig & Hlf & Hds & Hv) & Hpk & _) & Hep & Hpp & Hacc).
  { pose proof E2 as E2'. destruct c; cbn [call_step] in E2.
    - destruct (read C T incoming s1) as [s3 x] eqn:Er. injection E2 as -> <-.
      destruct x as [[m|]| |]; cbn in Hin; try contradiction. destruct Hin as [->|[]].
      pose proof (ack_delivered_iff C T HL s1 HI1 incoming o) as Hd. rewrite Er in Hd.
      destruct (proj1 Hd eq_refl) as (pk & cd & Ha & _). exists incoming, pk, cd, s1. cbn. auto.
    - unfold take_ack_msg_recv_too_early in E2. destruct (ack_msg_recv_too_early s1) as [b|] eqn:Eb;
        [|injection E2 as <- <-; contradiction].
      destruct (read C T b (set_ack_early None s1)) as [s3 x] eqn:Er. injection E2 as -> <-.
      destruct x as [[m|]| |]; cbn in Hin; try contradiction. destruct Hin as [->|[]].
      pose proof (ack_delivered_iff C T HL (set_ack_early None s1) (inv_set_ack C T None s1 HI1) b o) as Hd.
      rewrite Er in Hd. destruct (proj1 Hd eq_refl) as (pk & cd & Ha & _).
      exists b, pk, cd, (set_ack_early None s1). cbn [source fst]. split; [|auto].
      apply (ti_early _ _ _ _ _ _ HT1 b Eb).
    - destruct (drain_tmp_stack_user_msgs C T s1) as [s3 x] eqn:Er. injection E2 as -> <-.
      destruct (drain_inv C T _ _ _ HI1 Er) as (_ & _ & _ & [(_ & _ & Hl)|(_ & er & -> & _)]);
        [|contradiction].
      destruct x as [l| |]; cbn in Hin; try contradiction.
      specialize (Hl l eq_refl). rewrite Forall_forall in Hl. apply Hl in Hin. discriminate.
    - destruct (create_connect_message C public_key cd s1). injection E2 as _ <-. contradiction.
    - destruct (create_ack_message C cd s1). injection E2 as _ <-. contradiction.
    - destruct (write_message C T data s1 w) as [[? ?] ?]. injection E2 as _ <-. contradiction.
    - destruct (try_clone s1). injection E2 as _ <-. contradiction.
    - destruct (change_config cfg0 s1). injection E2 as _ <-. contradiction. }
  exists d. split; [exact Hsrc|].
  apply (read_fails_connection_iff C T HL s _ _ HR Hf).
  assert (count ack_accepted (h1 ++ (c, r) :: h2) <> 0%nat) as Hn.
  { unfold count. rewrite filter_app, app_length. cbn [filter]. rewrite Hacc. cbn [length]. lia. }
  assert (ephemeral_pubkey s1' = ephemeral_pubkey s) as Hep'.
  { rewrite Hep, (ti_pub _ _ _ _ _ _ HT1), (ti_pub _ _ _ _ _ _ HT). reflexivity. }
  rewrite Hep' in *.
  assert (len (sha256 C (ephemeral_pubkey s)) = 32) as L1
    by (unfold len; rewrite law_sha256_len by exact HL; reflexivity).
  pose proof (ack_class T L _ cd sig L1 Hlf) as Hcl.
  pose proof (clear_datagram C T (session_key s) _ _ _ Hcl eq_refl) as Hdg. rewrite <- Hds in Hdg.
  eapply fc_ack; [exact Hdg| | |].
  - rewrite Hpp in Hpk. eapply pinned_run with (cs := c :: cs2); [exact HL|exact HR1|exact Hpk|].
    cbn [run]. rewrite E2, E3. reflexivity.
  - destruct (field_text_end T _ _ Hlf) as [Hte _].
    set (f := frame_len L [x00; x02] (sha256 C (ephemeral_pubkey s) ++ cd)) in *.
    assert (len f = text_end T L) as Hfl.
    { unfold f. rewrite len_frame_len by reflexivity. lia. }
    assert (N.to_nat (text_end T L) = length f) as Hnn by (unfold len in Hfl; lia).
    split; [rewrite Hds, len_app; lia|]. rewrite Hds, Hnn, firstn_exact, skipn_exact. exact Hv.
  - intros [l Hw]. rewrite Hw in Hb. destruct Hb as (_ & _ & _ & _ & _ & Hb & _).
    apply Hn, Hb. discriminate.
Qed.

(** ** C57 *)
Theorem lost_message r cfg pin s0 cs s h :
  create C r cfg pin = Ok s0 -> run C T s0 cs = (s, h) -> len h < 2 ^ 64 -> lossless h ->
  exists l, accounts C T s (submitted h) h l /\
    (forall k d o n data, session_key s = Some k -> opens C T k d n data ->
       In (CRead d, RMsg (Ok (Some (MMessage o)))) h -> In n (nonces l)) /\
    (forall j, ~ In j (nonces l) -> len (filter (fun n => j <? n) (nonces l)) <= 10000) /\
    (established s -> forall k j, session_key s = Some k ->
       ~ In j (nonces l) -> (forall m, m < j -> In m (nonces l)) ->
       len (filter (fun n => j <? n) (nonces l)) = 10000 ->
       forall d n data, opens C T k d n data -> ~ In n (nonces l) -> n <> j ->
         snd (read C T d s) = Err TooManyUnorderedMsgs /\ failed C (fst (read C T d s))).
Proof.
  intros Hc E Hb Hl. destruct (linv_created C T HL _ _ _ _ _ _ _ Hc E Hb) as (l & pend & [] & Hu0).
  assert (forall m, received s m <-> In m (nonces l)) as Hrec.
  { intros m. rewrite (li_exact Hl m). destruct (created_fresh C _ _ _ _ Hc) as (F1 & F2 & _).
    unfold received at 1. rewrite F1, F2. cbn [In].
    split; [intros [[H|[]]|H]; [lia|exact H]|auto]. }
  pose proof (inv_reachable C T s li_reach) as HI.
  destruct (inv_window C T s HI) as (A & B & D & Hx). rewrite Forall_forall in B.
  assert (NoDup (nonces l)) as Hnd by apply li_acc.
  assert (forall j, ~ In j (nonces l) -> incl (filter (fun n => j <? n) (nonces l)) (orphan_nonce_list s)) as Hi.
  { intros j Hj m Hm. apply filter_In in Hm as [Hm Hlt]. apply N.ltb_lt in Hlt.
    rewrite <- Hrec in Hj, Hm. unfold received in *. destruct Hm as [Hm|Hm]; [|exact Hm].
    exfalso. apply Hj. left. lia. }
  exists l. split; [exact li_acc|]. split; [|split].
  - intros k d o n data Hk Ho Hin. apply Hrec. eapply read_delivery_received; eassumption.
  - intros j Hj. eapply N.le_trans; [|exact D]. unfold len.
    pose proof (NoDup_incl_length (NoDup_filter _ Hnd) (Hi j Hj)). lia.
  - intros He k j Hk Hj Hlow Hfull d n data Ho Hn Hnj.
    assert (~ failed C s) as Hnf.
    { rewrite failed_iff. apply try_clone_succ in He. rewrite He. discriminate. }
    apply (read_fails_connection_iff C T HL s d _ li_reach Hnf).
    assert (~ received s (next_nonce_expected s)) as Hnext.
    { intros [H|H]; [lia|]. apply B in H. lia. }
    assert (j = next_nonce_expected s) as Hjn.
    { destruct (N.lt_trichotomy j (next_nonce_expected s)) as [H|[H|H]]; [|exact H|].
      - exfalso. apply Hj, Hrec. left. exact H.
      - exfalso. apply Hnext, Hrec, Hlow, H. }
    destruct Ho as (Hn64 & Hks & text & (L & Hlf & Ht) & Hd).
    pose proof (user_class T L n data (sha256 C (frame_len L [x00; x00] (u64_be n ++ data))) Hn64 Hlf) as Hcl.
    fold (hashed C (frame_len L [x00; x00] (u64_be n ++ data))) in Hcl. rewrite <- Ht in Hcl.
    pose proof (sealed_datagram C T HL k _ _ _ Hcl eq_refl Hks) as Hdg. rewrite <- Hd in Hdg.
    eapply fc_orphans.
    + unfold is_datagram. rewrite Hk. exact Hdg.
    + rewrite Hrec. exact Hn.
    + exact He.
    + destruct (field_text_end T _ _ Hlf) as [Hte _].
      set (f := frame_len L [x00; x00] (u64_be n ++ data)) in *.
      assert (len f = text_end T L) as Hfl.
      { unfold f. rewrite len_frame_len by reflexivity. lia. }
      assert (N.to_nat (text_end T L) = length f) as Hnn by (unfold len in Hfl; lia).
      unfold hashed in Ht.
      split; [rewrite Ht, len_app; lia|]. rewrite Ht, Hnn, firstn_exact, skipn_exact. reflexivity.
    + congruence.
    + rewrite <- Hfull. unfold len.
      pose proof (NoDup_incl_length (NoDup_filter _ Hnd) (Hi j Hj)). lia.
Qed.

(** The first message is lost: the next 10000 are delivered, and the one after
    them fails the connection. *)
Definition number (i : nat) : N := N.of_nat i + 1.
Definition later_reads (k : secret_key) (data : nat -> bytes) (n : nat) : list call :=
  map (fun i => CRead (user_datagram C k (number i) (data i))) (seq 0 n).
Definition later_log (k : secret_key) (data : nat -> bytes) (n : nat) : history :=
  map (fun i => (CRead (user_datagram C k (number i) (data i)), RMsg (Ok (Some (MMessage (nonempty (data i)))))))
      (seq 0 n).

Lemma user_opens k n data :
  n < 2 ^ 64 -> keystream_ok C k -> 26 + len data < 2 ^ usize_bits T ->
  opens C T k (user_datagram C k n data) n data.
Proof.
  intros Hn Hk Hb. split; [exact Hn|]. split; [exact Hk|]. eexists. split; [|reflexivity].
  exists (2 + len (u64_be n ++ data)). split; [|reflexivity].
  apply own_length_field. rewrite len_app. change (len (u64_be n)) with 8. lia.
Qed.

Lemma lossless_app h h' : lossless h -> lossless h' -> lossless (h ++ h').
Proof.
  intros [H1 H2] [H3 H4]. split.
  - intros e He. apply in_app_iff in He as [He|He]; auto.
  - intros e er He. apply in_app_iff in He as [He|He]; eauto.
Qed.

Lemma later_lossless k data n : lossless (later_log k data n).
Proof.
  split.
  - intros e He. apply in_map_iff in He as (i & <- & _). reflexivity.
  - intros e er He. apply in_map_iff in He as (i & <- & _). discriminate.
Qed.

Lemma later_deliveries k data n : length (user_deliveries (later_log k data n)) = n.
Proof.
  unfold later_log, user_deliveries. rewrite <- (seq_length n 0) at 2.
  induction (seq 0 n) as [|i l IH]; [reflexivity|].
  cbn [map flat_map delivered snd user_data app length]. rewrite IH. reflexivity.
Qed.

Lemma user_deliveries_app a b : user_deliveries (a ++ b) = user_deliveries a ++ user_deliveries b.
Proof. apply flat_map_app. Qed.

Lemma filter_all_len (l : list N) :
  (forall m, In m l -> 0 < m) -> length (filter (fun n => 0 <? n) l) = length l.
Proof.
  induction l as [|x l IH]; intros H; [reflexivity|]. cbn [filter].
  pose proof (H x (or_introl eq_refl)) as Hx. apply N.ltb_lt in Hx. rewrite Hx. cbn [length].
  rewrite IH; [reflexivity|]. intros m Hm. apply H. right. exact Hm.
Qed.

Lemma delivering_keeps s d s' m :
  reachable C T s -> established s -> read C T d s = (s', Ok (Some m)) -> established s'.
Proof.
  intros HR He E. apply try_clone_succ. apply try_clone_succ in He.
  pose proof (step_evolves C T s (CRead d) s' (RMsg (Ok (Some m))) (inv_reachable C T s HR)) as H.
  cbn [call_step] in H. rewrite E in H. specialize (H eq_refl). rewrite He in H.
  inversion H; subst; auto; discriminate.
Qed.

Section Lost.
Context (r : rng_result) (cfg : config) (pin : option bytes) (s0 s : msl) (cs : list call) (h : history)
  (k : secret_key) (data : nat -> bytes).
Hypothesis Hc : create C r cfg pin = Ok s0.
Hypothesis E : run C T s0 cs = (s, h).
Hypothesis Hb : len h + 10002 < 2 ^ 64.
Hypothesis Hl : lossless h.
Hypothesis He : established s.
Hypothesis Hk : session_key s = Some k.
Hypothesis Hks : keystream_ok C k.
Hypothesis Hnone : user_deliveries h = [].
Hypothesis Hfit : forall i, 26 + len (data i) < 2 ^ usize_bits T.

Lemma exact_nonces (l : list (nat * N * bytes)) n :
  NoDup (nonces l) -> length l = n -> (forall i, (i < n)%nat -> In (number i) (nonces l)) ->
  forall m, In m (nonces l) <-> 1 <= m <= N.of_nat n.
Proof.
  intros Hnd Hlen Hin.
  assert (incl (nonces l) (map number (seq 0 n))) as Hi.
  { apply NoDup_length_incl.
    - apply FinFun.Injective_map_NoDup; [|apply seq_NoDup]. intros a b. unfold number. lia.
    - rewrite !map_length, seq_length. lia.
    - intros m Hm. apply in_map_iff in Hm as (i & <- & Hs). apply in_seq in Hs. apply Hin. lia. }
  intros m. split.
  - intros Hm. apply Hi, in_map_iff in Hm as (i & <- & Hs). apply in_seq in Hs. unfold number. lia.
  - intros Hm. replace m with (number (N.to_nat (m - 1))) by (unfold number; lia). apply Hin. lia.
Qed.

Lemma later_delivered n : (n <= N.to_nat 10000)%nat ->
  exists s', run C T s (later_reads k data n) = (s', later_log k data n) /\ established s' /\
    session_key s' = Some k.
Proof.
  induction n as [|n IH]; intros Hn.
  - exists s. auto.
  - destruct (IH ltac:(lia)) as (s1 & E1 & He1 & Hk1).
    assert (run C T s0 (cs ++ later_reads k data n) = (s1, h ++ later_log k data n)) as Ea.
    { rewrite run_app, E, E1. reflexivity. }
    pose proof (run_reachable C T _ _ _ _ (reach_create C T _ _ _ _ Hc) Ea) as HR1.
    assert (length (later_log k data n) = n) as Hll by (unfold later_log; rewrite map_length, seq_length; reflexivity).
    destruct (acceptance_rule C T HL _ _ _ _ _ _ _ Hc Ea) as (l & Hacc & Hrule).
    { rewrite len_app. unfold len in *. rewrite Hll. lia. }
    { apply lossless_app; [exact Hl|apply later_lossless]. } { exact He1. }
    destruct (Hrule k Hk1) as [H1 H2]. clear Hrule.
    assert (forall i, opens C T k (user_datagram C k (number i) (data i)) (number i) (data i) \/ 2 ^ 64 <= number i) as Hop.
    { intros i. destruct (N.ltb_spec (number i) (2 ^ 64)); [left|auto]. apply user_opens; auto. }
    assert (length l = n) as Hlen.
    { destruct Hacc as (Ha & _). apply (f_equal (@length _)) in Ha. rewrite map_length in Ha. rewrite <- Ha.
      rewrite user_deliveries_app, app_length, Hnone. apply later_deliveries. }
    assert (forall m, In m (nonces l) <-> 1 <= m <= N.of_nat n) as Hns.
    { apply exact_nonces; [apply Hacc|exact Hlen|]. intros i Hi. destruct (Hop i) as [Ho|Ho].
      - eapply H1; [|exact Ho]. apply in_app_iff. right. apply in_map_iff. exists i. split; [reflexivity|].
        apply in_seq. lia.
      - unfold number in Ho. lia. }
    destruct (Hop n) as [Ho|Ho]; [|unfold number in Ho; lia].
    pose proof (proj2 (H2 _ _ _ Ho)) as Hdel.
    destruct (read C T (user_datagram C k (number n) (data n)) s1) as [s2 o] eqn:Er. cbn [snd] in Hdel.
    assert (o = Ok (Some (MMessage (nonempty (data n))))) as ->.
    { apply Hdel. split; [rewrite Hns; unfold number; lia|]. right. exists 0. rewrite Hns. split; [lia|].
      split; [intros m Hm; lia|]. eapply N.le_lt_trans with (m := len (nonces l)).
      - unfold len. clear. induction (nonces l) as [|x y IHy]; cbn [filter]; [lia|].
        destruct (0 <? x); cbn [length]; lia.
      - unfold len. rewrite map_length. lia. }
    exists s2. split; [|split].
    + unfold later_reads, later_log. rewrite seq_S. cbn [Nat.add]. rewrite !map_app. cbn [map].
      fold (later_reads k data n) (later_log k data n). rewrite run_snoc, E1. cbn [call_step]. rewrite Er. reflexivity.
    + eapply delivering_keeps; eassumption.
    + eapply (secret_is_final C T HL s1 [CRead _]); [exact HR1| |exact Hk1]. cbn [run call_step]. rewrite Er. reflexivity.
Qed.

Theorem first_message_lost :
  exists s', run C T s (later_reads k data (N.to_nat 10000)) = (s', later_log k data (N.to_nat 10000)) /\ established s' /\
    forall n d, 10000 < n -> n < 2 ^ 64 -> 26 + len d < 2 ^ usize_bits T ->
      snd (read C T (user_datagram C k n d) s') = Err TooManyUnorderedMsgs /\
      failed C (fst (read C T (user_datagram C k n d) s')).
Proof.
  destruct (later_delivered (N.to_nat 10000) ltac:(lia)) as (s1 & E1 & He1 & Hk1).
  exists s1. split; [exact E1|]. split; [exact He1|]. intros n d Hn Hn64 Hd.
  set (N0 := N.to_nat 10000) in *.
  assert (run C T s0 (cs ++ later_reads k data N0) = (s1, h ++ later_log k data N0)) as Ea.
  { rewrite run_app, E, E1. reflexivity. }
  assert (length (later_log k data N0) = N0) as Hll by (unfold later_log; rewrite map_length, seq_length; reflexivity).
  assert (N.of_nat N0 = 10000) as HN0 by (unfold N0; lia).
  clearbody N0.
  assert (len (h ++ later_log k data N0) + 1 < 2 ^ 64) as Hb2.
  { rewrite len_app. unfold len in *. rewrite Hll. lia. }
  assert (lossless (h ++ later_log k data N0)) as Hl2 by (apply lossless_app; [exact Hl|apply later_lossless]).
  pose proof (run_reachable C T _ _ _ _ (reach_create C T _ _ _ _ Hc) Ea) as HR1.
  destruct (lost_message _ _ _ _ _ _ _ Hc Ea ltac:(lia) Hl2) as (l & Hacc & Hdel & _ & Hkill).
  assert (length l = N0) as Hlen.
  { destruct Hacc as (Ha & _). apply (f_equal (@length _)) in Ha. rewrite map_length in Ha. rewrite <- Ha.
    rewrite user_deliveries_app, app_length, Hnone. apply later_deliveries. }
  assert (forall m, In m (nonces l) <-> 1 <= m <= 10000) as Hns.
  { rewrite <- HN0. apply exact_nonces; [apply Hacc|exact Hlen|]. intros i Hi.
    eapply Hdel; [exact Hk1|apply user_opens; [|exact Hks|apply Hfit]; unfold number; lia|].
    apply in_app_iff. right. apply in_map_iff. exists i. split; [reflexivity|]. apply in_seq. lia. }
  apply (Hkill He1 k 0 Hk1) with (n := n) (data := d).
  - rewrite Hns. lia.
  - intros m Hm. lia.
  - rewrite <- HN0, <- Hlen, <- (map_length (fun e : nat * N * bytes => snd (fst e)) l).
    unfold len. f_equal. apply filter_all_len. intros m Hm. apply Hns in Hm. lia.
  - apply user_opens; assumption.
  - rewrite Hns. lia.
  - lia.
Qed.

Lemma used_bound cs' s' h' : run C T s0 cs' = (s', h') -> len h' < 2 ^ 64 -> used s' <= len h'.
Proof.
  intros E' Hb'. destruct (linv_created C T HL _ _ _ _ _ _ _ Hc E' Hb') as (ll & pend & HLi & Hu0).
  pose proof (li_used _ _ _ _ _ _ _ _ HLi) as Hus. pose proof (submitted_len h'). unfold len in *. cbn [length] in Hus. lia.
Qed.

Lemma later_stack n s' : (n <= N.to_nat 10000)%nat ->
  run C T s (later_reads k data n) = (s', later_log k data n) -> tmp_stack_user_msgs s' = tmp_stack_user_msgs s.
Proof.
  revert s'. induction n as [|n IH]; intros s' Hn E'.
  - cbn in E'. injection E' as <-. reflexivity.
  - destruct (later_delivered n ltac:(lia)) as (s1 & E1 & _ & _).
    rewrite <- (IH s1 ltac:(lia) E1).
    assert (run C T s0 (cs ++ later_reads k data n) = (s1, h ++ later_log k data n)) as Ea.
    { rewrite run_app, E, E1. reflexivity. }
    assert (length (later_log k data n) = n) as Hll by (unfold later_log; rewrite map_length, seq_length; reflexivity).
    assert (len (h ++ later_log k data n) + 1 < 2 ^ 64) as Hb2 by (rewrite len_app; unfold len in *; rewrite Hll; lia).
    pose proof (used_bound _ _ _ Ea ltac:(lia)) as Hu.
    pose proof (inv_reachable C T s1 (run_reachable C T _ _ _ _ (reach_create C T _ _ _ _ Hc) Ea)) as HI1.
    unfold later_reads, later_log in E'. rewrite seq_S in E'. cbn [Nat.add] in E'. rewrite !map_app in E'. cbn [map] in E'.
    fold (later_reads k data n) (later_log k data n) in E'. rewrite run_snoc, E1 in E'. cbn [call_step] in E'.
    destruct (read C T (user_datagram C k (number n) (data n)) s1) as [s2 o] eqn:Er.
    injection E' as <- El. apply app_inv_head in El. injection El as ->.
    destruct (read_user_step C T HL _ _ _ _ HI1 Er ltac:(lia))
      as [k' n' data' _ _ _ _ _ _ Hst _ _|? ? _ _ _ _ _ Heq|Hx|Hno]; try discriminate; [exact Hst|].
    exfalso. eapply Hno. reflexivity.
Qed.

(** The first message is not lost but waits to be asked for. *)
Theorem first_message_waits d0 x0 :
  early_messages h = [d0] -> opens C T k d0 0 x0 ->
  exists s', run C T s (later_reads k data (N.to_nat 10000)) = (s', later_log k data (N.to_nat 10000)) /\ established s' /\
    (forall n d, 10000 < n -> n < 2 ^ 64 -> 26 + len d < 2 ^ usize_bits T ->
      snd (read C T (user_datagram C k n d) s') = Err TooManyUnorderedMsgs /\
      failed C (fst (read C T (user_datagram C k n d) s'))) /\
    exists s'', drain_tmp_stack_user_msgs C T s' = (s'', Ok [MMessage (nonempty x0)]) /\ established s''.
Proof.
  intros Hearly Ho0. destruct first_message_lost as (s1 & E1 & He1 & Hkill).
  exists s1. split; [exact E1|]. split; [exact He1|]. split; [exact Hkill|].
  pose proof (later_stack _ s1 (le_n _) E1) as Hst. set (N0 := N.to_nat 10000) in *.
  assert (N.of_nat N0 = 10000) as HN0 by (unfold N0; lia).
  destruct (later_delivered N0 ltac:(unfold N0; lia)) as (s1' & E1' & _ & Hk1).
  assert (s1' = s1) by congruence. subst s1'. clear E1'. clearbody N0.
  destruct (waiting_run C T HL _ _ _ _ _ _ _ Hc E ltac:(lia) Hl Hnone) as [HW _].
  rewrite Hearly in HW. unfold waiting in HW.
  inversion HW as [|d0' b ds bs (k' & Hk' & Hd0) HW2 Q1 Q2]; subst d0' ds. inversion HW2; subst bs.
  assert (k' = k) by congruence. subst k'.
  assert (run C T s0 (cs ++ later_reads k data N0) = (s1, h ++ later_log k data N0)) as Ea.
  { rewrite run_app, E, E1. reflexivity. }
  assert (length (later_log k data N0) = N0) as Hll by (unfold later_log; rewrite map_length, seq_length; reflexivity).
  assert (len (h ++ later_log k data N0) + 1 < 2 ^ 64) as Hb2 by (rewrite len_app; unfold len in *; rewrite Hll; lia).
  pose proof (used_bound _ _ _ Ea ltac:(lia)) as Hu.
  pose proof (inv_reachable C T s1 (run_reachable C T _ _ _ _ (reach_create C T _ _ _ _ Hc) Ea)) as HI1.
  destruct (acceptance_rule C T HL _ _ _ _ _ _ _ Hc Ea) as (l & Hacc & Hrule); [lia| |exact He1|].
  { apply lossless_app; [exact Hl|apply later_lossless]. }
  destruct (Hrule k Hk1) as [H1 H2]. clear Hrule.
  assert (length l = N0) as Hlen.
  { destruct Hacc as (Ha & _). apply (f_equal (@length _)) in Ha. rewrite map_length in Ha. rewrite <- Ha.
    rewrite user_deliveries_app, app_length, Hnone. apply later_deliveries. }
  assert (forall m, In m (nonces l) <-> 1 <= m <= N.of_nat N0) as Hns.
  { apply exact_nonces; [apply Hacc|exact Hlen|]. intros i Hi.
    eapply H1; [|apply user_opens; [|exact Hks|apply Hfit]; unfold number; lia].
    apply in_app_iff. right. apply in_map_iff. exists i. split; [reflexivity|]. apply in_seq. lia. }
  assert (window_room s1 0) as Hroom.
  { apply (delivered_when C T HL s1 k d0 0 x0 HI1 He1 Hk1 Ho0); [lia|]. apply (H2 _ _ _ Ho0). split.
    - rewrite Hns. lia.
    - left. intros m Hm. lia. }
  unfold drain_tmp_stack_user_msgs. rewrite Hst, <- Q2. cbn [drain_loop].
  pose proof (inv_queue C T s1 HI1) as Hq. rewrite Hst, <- Q2 in Hq.
  rewrite (read_inner_sealed C T HL k b (set_stack [] s1) Hk1 Hks (Forall_inv Hq)), <- Hd0.
  pose proof (inv_set_stack_nil C T s1 HI1) as HIs.
  assert (established (set_stack [] s1)) as Hes.
  { apply established_iff. apply established_iff in He1. exact He1. }
  pose proof (proj2 (delivered_when C T HL (set_stack [] s1) k d0 0 x0 HIs Hes Hk1 Ho0 ltac:(change (used (set_stack [] s1)) with (used s1); lia)) Hroom) as Hr.
  destruct (read C T d0 (set_stack [] s1)) as [s2 o] eqn:Er. cbn [snd] in Hr. subst o.
  exists s2. split; [reflexivity|].
  destruct (read_user_step C T HL _ _ _ _ HIs Er ltac:(change (used (set_stack [] s1)) with (used s1); lia))
    as [k' n' data' _ _ _ _ _ He' _ _ _|? ? _ _ _ _ _ Heq|Hx|Hno]; try discriminate; [exact He'|].
  exfalso. eapply Hno. reflexivity.
Qed.

End Lost.
End WithEnv.

(** Nonces: replay, acceptance, sending, overflow. *)

From Coq Require Import Arith ZifyBool ZifyNat ZifyN Permutation.
From Verif.Model Require Import Minimal.
From Verif.Spec Require Import Wire Datagram Trace ReadSpec Accept Session Writers.
From Verif.Proofs Require Import BaseFacts IoFacts CipherFacts ReaderFacts ReadCases WindowFacts Invariant
  Negotiation Failure DatagramFacts ReadSpecFacts Accept Keys TraceInv UserReads Ledger.

Section WithEnv.
Context (C : Crypto) (T : target) (HL : CryptoLaws C).

(** ** C27 *)
Lemma queue_ok_reachable s : reachable C T s -> queue_ok C s.
Proof.
  intros HR. induction HR as [r cfg pk s Hc|s c HR IH|s c HR IH Hc].
  - unfold create in Hc. destruct (ekp_generate C r); cbn [obind] in Hc; try discriminate.
    injection Hc as <-. intros H. exfalso. apply H. reflexivity.
  - pose proof (inv_reachable C T s HR) as HI.
    destruct (call_step C T s c) as [s' r] eqn:E. cbn [fst].
    assert (forall k, session_key s = Some k -> session_key s' = Some k) as Hk
      by (intros k; eapply step_secret_mono; eassumption).
    assert (tmp_stack_user_msgs s' = tmp_stack_user_msgs s \/ tmp_stack_user_msgs s' = [] ->
            queue_ok C s') as Hsame.
    { intros [Hs|Hs] Hne; rewrite Hs in Hne; [|congruence].
      destruct (IH Hne) as (k & H1 & H2). eauto. }
    destruct c; cbn [call_step] in E.
    + destruct (read C T incoming s) as [s1 o] eqn:Er. injection E as <- <-.
      destruct (read_stack C T HL _ _ _ _ HI Er) as [Hs|(k & text & H1 & H2 & _)]; [auto|].
      intros _. eauto.
    + rewrite take_ack_read in E. destruct (ack_msg_recv_too_early s) as [b|] eqn:Eb.
      * destruct (read C T b (set_ack_early None s)) as [s1 o] eqn:Er. injection E as <- <-.
        apply read_clear_ack in Er as (_ & Hs & _); [|exact HL|exact (early_reachable C T HL s b HR Eb)]. auto.
      * injection E as <- <-. auto.
    + destruct (drain_tmp_stack_user_msgs C T s) as [s1 o] eqn:Er. injection E as <- <-.
      pose proof (inv_queue C T s HI) as Hq. pose proof Er as Er0.
      unfold drain_tmp_stack_user_msgs in Er.
      apply drain_loop_stack in Er as [Hs|Hst]; [|cbn in Hst|exact Hq].
      * apply Hsame. right. exact Hs.
      * destruct (drain_too_early C T s s1 o HR) as [-> _]; auto.
        { rewrite established_iff. cbn in Hst. congruence. }
        { rewrite failed_iff. cbn in Hst. congruence. }
    + destruct (create_connect_message C public_key cd s) as [s1 o] eqn:Er. injection E as <- <-.
      apply create_connect_cases in Er as [(r & _ & -> & _)|(-> & _)]; auto.
    + destruct (create_ack_message C cd s) as [s1 o] eqn:Er. injection E as <- <-.
      apply (create_ack_cases C T) in Er as [(st & epk & _ & -> & _)|(-> & _)]; try exact HI; auto.
    + destruct (write_message C T data s w) as [[s1 w'] o] eqn:Er. injection E as <- <-.
      apply write_message_cases in Er
        as [(_ & -> & _)|[(_ & _ & -> & _)|(Hst & k & o1 & _ & _ &
            [(e & _ & _ & ->)|[(_ & n & Hn & -> & _)|(_ & p & _ & -> & _)]])]]; auto.
    + unfold try_clone in E. destruct (msl_status s); injection E as <- <-; auto.
    + unfold change_config in E. destruct (cloned s); injection E as <- <-; auto.
  - unfold try_clone in Hc. destruct (msl_status s); cbn [snd] in Hc; try discriminate.
    injection Hc as <-. intros Hne. exact (IH Hne).
Qed.

Lemma submitted_len h : (length (submitted h) <= length h)%nat.
Proof.
  unfold submitted. induction h as [|[c r] h IH]; cbn [flat_map length]; [lia|].
  rewrite app_length. cbn [fst]. destruct c; cbn [length]; lia.
Qed.

Lemma linv_run s0 ds0 k0 cs s h :
  reachable C T s0 -> run C T s0 cs = (s, h) ->
  (tmp_stack_user_msgs s0 <> [] -> session_key s0 = Some k0) ->
  ds0 = map (seal C k0) (tmp_stack_user_msgs s0) ->
  used s0 + len ds0 + len h < 2 ^ 64 ->
  exists l pend, LInv C T s0 ds0 s h l pend.
Proof.
  intros HR E Hk0 Hds. revert s h E. induction cs as [|c cs IH] using rev_ind; intros s h E Hb.
  - injection E as <- <-. exists [], (seq 0 (length ds0)). constructor.
    + exact HR.
    + split; [reflexivity|]. split; [constructor|]. split; [constructor|]. intros i n data [].
    + apply queue_ok_reachable, HR.
    + cbn [submitted flat_map]. rewrite app_nil_r, Hds, map_length.
      assert (forall (pre q : list bytes), (q <> [] -> session_key s0 = Some k0) ->
        Forall2 (fun i b => exists k, session_key s0 = Some k /\
           nth_error (map (seal C k0) (pre ++ q)) i = Some (seal C k b))
          (seq (length pre) (length q)) q) as Hgen.
      { intros pre q. revert pre. induction q as [|b q IHq]; intros pre Hq; cbn [length seq]; constructor.
        - exists k0. split; [apply Hq; discriminate|].
          rewrite map_app, nth_error_app2 by (rewrite map_length; lia).
          rewrite map_length, Nat.sub_diag. reflexivity.
        - specialize (IHq (pre ++ [b])). rewrite <- app_assoc, app_length, Nat.add_1_r in IHq. cbn [app] in IHq.
          apply IHq. intros _. apply Hq. discriminate. }
      apply (Hgen []). exact Hk0.
    + cbn [map app]. apply seq_NoDup.
    + constructor.
    + auto.
    + rewrite Hds. unfold len. rewrite map_length. cbn [submitted flat_map length]. lia.
    + intros _ m. cbn [map In]. tauto.
  - rewrite run_snoc in E. destruct (run C T s0 cs) as [s1 h1] eqn:E1.
    destruct (call_step C T s1 c) as [s2 r] eqn:E2. injection E as <- <-.
    rewrite len_app in Hb. change (len [(c, r)]) with 1 in Hb.
    destruct (IH _ _ eq_refl ltac:(lia)) as (l & pend & HLi).
    eapply linv_step; try eassumption.
    pose proof (submitted_len h1). unfold len in *. lia.
Qed.

(** Any handle: freshly created, in use, or a clone. *)
Lemma replay_free_gen s0 cs s h :
  reachable C T s0 -> run C T s0 cs = (s, h) ->
  used s0 + len (tmp_stack_user_msgs s0) + len h < 2 ^ 64 ->
  exists ds0 l pend, length ds0 = length (tmp_stack_user_msgs s0) /\
    LInv C T s0 ds0 s h l pend.
Proof.
  intros HR E Hb.
  assert (exists k0, tmp_stack_user_msgs s0 <> [] -> session_key s0 = Some k0) as [k0 Hk0].
  { destruct (tmp_stack_user_msgs s0) as [|b q] eqn:Eq.
    - exists {| sk_key := []; sk_nonce := []; sk_aad := [] |}. congruence.
    - destruct (queue_ok_reachable s0 HR ltac:(congruence)) as (k & Hk & _). exists k. auto. }
  destruct (linv_run s0 _ k0 cs s h HR E Hk0 eq_refl) as (l & pend & HLi).
  { unfold len in *. rewrite map_length. exact Hb. }
  eexists _, l, pend. split; [|exact HLi]. apply map_length.
Qed.

Theorem replay_free_handle s0 cs s h :
  reachable C T s0 -> run C T s0 cs = (s, h) ->
  next_nonce_expected s0 + len (orphan_nonce_list s0) + len (tmp_stack_user_msgs s0) + len h < 2 ^ 64 ->
  exists ds0 l, length ds0 = length (tmp_stack_user_msgs s0) /\
    accounts C T s (ds0 ++ submitted h) h l.
Proof.
  intros HR E Hb. destruct (replay_free_gen s0 cs s h HR E) as (ds0 & l & pend & H1 & []).
  { unfold used. exact Hb. }
  exists ds0, l. auto.
Qed.

Lemma created_fresh r cfg pin s0 :
  create C r cfg pin = Ok s0 ->
  next_nonce_expected s0 = 0 /\ orphan_nonce_list s0 = [] /\ tmp_stack_user_msgs s0 = [] /\
  next_nonce_sent s0 = 0.
Proof.
  intros Hc. unfold create in Hc. destruct (ekp_generate C r); cbn [obind] in Hc; try discriminate.
  injection Hc as <-. auto.
Qed.

Lemma linv_created r cfg pin s0 cs s h :
  create C r cfg pin = Ok s0 -> run C T s0 cs = (s, h) -> len h < 2 ^ 64 ->
  exists l pend, LInv C T s0 [] s h l pend /\ used s0 = 0.
Proof.
  intros Hc E Hb. destruct (created_fresh _ _ _ _ Hc) as (F1 & F2 & F3 & _).
  assert (used s0 = 0) as Hu by (unfold used; rewrite F1, F2; reflexivity).
  destruct (replay_free_gen s0 cs s h) as (ds0 & l & pend & H1 & H2); auto.
  { eapply reach_create, Hc. } { rewrite Hu, F3. unfold len at 1. cbn [length]. lia. }
  rewrite F3 in H1. destruct ds0; [|discriminate]. eauto.
Qed.

Theorem replay_free r cfg pin s0 cs s h :
  create C r cfg pin = Ok s0 -> run C T s0 cs = (s, h) -> len h < 2 ^ 64 ->
  exists l, accounts C T s (submitted h) h l.
Proof.
  intros Hc E Hb. destruct (linv_created _ _ _ _ _ _ _ Hc E Hb) as (l & pend & [] & _). eauto.
Qed.

(** ** C29 *)
Theorem replay_memory_bounded s :
  reachable C T s ->
  len (orphan_nonce_list s) <= 10000 /\ NoDup (orphan_nonce_list s) /\
  Forall (fun m => next_nonce_expected s < m) (orphan_nonce_list s).
Proof.
  intros HR. destruct (inv_window C T s (inv_reachable C T s HR)) as (A & B & D & _).
  split; [exact D|]. split; [exact A|]. eapply Forall_impl; [|exact B]. cbv beta. lia.
Qed.

(** ** C28 *)
Lemma not_last_nonce s n : Inv C T s -> used s + 1 < 2 ^ 64 -> ~ last_nonce T s n.
Proof.
  intros HI Hu (_ & Hn & Hall). destruct (inv_window C T s HI) as (A & B & D & Hx).
  set (f := fun i => n + 1 + N.of_nat i).
  set (l := map f (seq 0 (N.to_nat (2 ^ 64 - 1 - n)))).
  assert (NoDup l) as Hnd.
  { apply FinFun.Injective_map_NoDup; [|apply seq_NoDup]. intros i j. unfold f. lia. }
  assert (incl l (orphan_nonce_list s)) as Hi.
  { intros m Hm. apply in_map_iff in Hm as (i & <- & Hi). apply in_seq in Hi. apply Hall; unfold f; lia. }
  pose proof (NoDup_incl_length Hnd Hi) as Hlen. unfold l in Hlen. rewrite map_length, seq_length in Hlen.
  unfold used, len in Hu. lia.
Qed.

Lemma delivered_when s k d n data :
  Inv C T s -> established s -> session_key s = Some k -> opens C T k d n data -> used s + 1 < 2 ^ 64 ->
  (snd (read C T d s) = Ok (Some (MMessage (nonempty data))) <-> window_room s n).
Proof.
  intros HI He Hk Ho Hu. rewrite (user_delivered_iff C T HL s HI d). split.
  - intros (k' & n' & data' & (H1 & H2 & H3 & H4 & H5 & H6 & H7) & _).
    assert (k' = k) by congruence. subst k'.
    destruct (opens_inj C T HL k d n data n' data' Ho) as [-> _]; [split; [exact H3|]; split; [exact H2|exact H4]|].
    exact H6.
  - intros Hw. destruct Ho as (O1 & O2 & O3). exists k, n, data. split; [|reflexivity].
    repeat (split; [assumption|]). apply not_last_nonce; assumption.
Qed.

Lemma acceptable_room s ns n :
  Inv C T s -> NoDup ns -> (forall m, received s m <-> In m ns) ->
  (window_room s n <-> nonce_acceptable ns n).
Proof.
  intros HI Hnd Heq. destruct (inv_window C T s HI) as (A & B & D & Hx).
  assert (~ received s (next_nonce_expected s)) as Hnext.
  { intros [H|H]; [lia|]. rewrite Forall_forall in B. apply B in H. lia. }
  assert (len (filter (fun m => next_nonce_expected s <? m) ns) = len (orphan_nonce_list s)) as Hlen.
  { unfold len. f_equal. apply Permutation_length, NoDup_Permutation; [apply NoDup_filter, Hnd|exact A|].
    intros m. rewrite filter_In, <- Heq, N.ltb_lt. unfold received. rewrite Forall_forall in B. split.
    - intros [[H|H] H']; [lia|exact H].
    - intros H. pose proof (B m H). split; [auto|lia]. }
  unfold window_room, nonce_acceptable. rewrite Heq. split; intros [H1 H2]; (split; [exact H1|]).
  - destruct H2 as [-> |H2].
    + left. intros m Hm. apply Heq. left. exact Hm.
    + right. exists (next_nonce_expected s). split; [rewrite <- Heq; exact Hnext|].
      split; [intros m Hm; apply Heq; left; exact Hm|]. rewrite Hlen. exact H2.
  - destruct H2 as [H2|(least & L1 & L2 & L3)].
    + left. destruct (N.lt_trichotomy n (next_nonce_expected s)) as [H|[H|H]]; [|exact H|].
      * exfalso. apply H1, Heq. left. exact H.
      * exfalso. apply Hnext, Heq, H2, H.
    + assert (least = next_nonce_expected s) as ->.
      { destruct (N.lt_trichotomy least (next_nonce_expected s)) as [H|[H|H]]; [|exact H|].
        * exfalso. apply L1, Heq. left. exact H.
        * exfalso. apply Hnext, Heq, L2, H. }
      right. rewrite Hlen in L3. exact L3.
Qed.

(** The nonce of a delivered datagram stays received. *)
Lemma read_delivery_received r cfg pin s0 cs s h k d o n data :
  create C r cfg pin = Ok s0 -> run C T s0 cs = (s, h) -> len h < 2 ^ 64 ->
  In (CRead d, RMsg (Ok (Some (MMessage o)))) h -> session_key s = Some k -> opens C T k d n data ->
  received s n.
Proof.
  intros Hc E Hb Hin Hk Ho. apply in_split in Hin as (h1 & h2 & ->).
  apply run_split in E as (cs1 & cs2 & s1 & -> & E1 & E2).
  destruct cs2 as [|c cs2]; [discriminate|]. cbn [run] in E2.
  destruct (call_step C T s1 c) as [s2 r2] eqn:E3.
  destruct (run C T s2 cs2) as [s3 h3] eqn:E4. injection E2 as <- -> -> ->.
  pose proof E3 as E3'. cbn [call_step] in E3. destruct (read C T d s1) as [s2' o2] eqn:Er. injection E3 as -> ->.
  rewrite !len_app, len_cons in Hb.
  destruct (linv_created _ _ _ _ _ _ _ Hc E1 ltac:(lia)) as (l & pend & HLi & Hu0).
  pose proof (li_reach _ _ _ _ _ _ _ _ HLi) as Hre. pose proof (li_used _ _ _ _ _ _ _ _ HLi) as Hus.
  pose proof (inv_reachable C T s1 Hre) as HI.
  pose proof (submitted_len h1) as Hs1. unfold len in Hus. cbn [length] in Hus.
  unfold len in Hb.
  pose proof (read_user_step C T HL _ _ _ _ HI Er ltac:(lia)) as Hstep.
  assert (reachable C T s2) as HR2.
  { replace s2 with (fst (call_step C T s1 (CRead d))) by (rewrite E3'; reflexivity). apply reach_step, Hre. }
  destruct (linv_step C T HL s0 [] s1 h1 l pend (CRead d) s2 _ HLi E3') as (l2 & pend2 & HL2).
  { unfold len. cbn [length]. lia. }
  destruct (replay_free_gen s2 cs2 s3 h2 HR2 E4) as (ds0 & l' & pend' & _ & HL3).
  { pose proof (li_used _ _ _ _ _ _ _ _ HL2) as Hu2. pose proof (submitted_len (h1 ++ [(CRead d, RMsg (Ok (Some (MMessage o))))])) as Hs2.
    rewrite app_length in Hs2. unfold len in *. cbn [length] in *. unfold history, event in *. lia. }
  apply (li_mono _ _ _ _ _ _ _ _ HL3).
  destruct Hstep as [k' n' data' Hk' Ho' _ _ Heq _ _ _ Hrv|? ? ? ? ? ? ? Heq|Hpan|Hno]; try discriminate.
  - apply Hrv. right.
    assert (session_key s3 = Some k') as Hk3.
    { assert (session_key s2 = Some k') as Hk2 by (eapply step_secret_mono; eassumption).
      clear - HL HR2 E4 Hk2. revert s3 h2 E4. induction cs2 as [|c cs IH] using rev_ind; intros s3 h2 E.
      - injection E as <- <-. exact Hk2.
      - rewrite run_snoc in E. destruct (run C T s2 cs) as [s4 h4] eqn:E1.
        destruct (call_step C T s4 c) as [s5 r5] eqn:E2. injection E as <- <-.
        eapply step_secret_mono; [exact HL| |exact E2|eapply IH; reflexivity].
        pose proof (inv_run C T s2 cs (inv_reachable C T s2 HR2)) as H. rewrite E1 in H. exact H. }
    assert (k' = k) by congruence. subst k'.
    apply (opens_inj C T HL k d n data n' data' Ho Ho').
  - exfalso. eapply Hno. reflexivity.
Qed.

Theorem acceptance_rule r cfg pin s0 cs s h :
  create C r cfg pin = Ok s0 -> run C T s0 cs = (s, h) -> len h + 1 < 2 ^ 64 ->
  lossless h -> established s ->
  exists l, accounts C T s (submitted h) h l /\
    forall k, session_key s = Some k ->
      (forall d o n data, In (CRead d, RMsg (Ok (Some (MMessage o)))) h -> opens C T k d n data ->
         In n (map (fun e => snd (fst e)) l)) /\
      (forall d n data, opens C T k d n data ->
         (snd (read C T d s) = Ok (Some (MMessage (nonempty data))) <->
          nonce_acceptable (map (fun e => snd (fst e)) l) n)).
Proof.
  intros Hc E Hb Hl He. destruct (linv_created _ _ _ _ _ _ _ Hc E ltac:(lia)) as (l & pend & [] & Hu0).
  assert (forall m, received s m <-> In m (map (fun e => snd (fst e)) l)) as Hrec.
  { intros m. rewrite (li_exact Hl m). destruct (created_fresh _ _ _ _ Hc) as (F1 & F2 & _).
    unfold received at 1. rewrite F1, F2. cbn [In].
    split; [intros [[H|[]]|H]; [lia|exact H]|auto]. }
  exists l. split; [exact li_acc|]. intros k Hk. split.
  { intros d o n data Hin Ho. apply Hrec. eapply read_delivery_received; try eassumption. lia. }
  intros d n data Ho.
  pose proof (inv_reachable C T s li_reach) as HI.
  pose proof (submitted_len h) as Hsl.
  rewrite (delivered_when s k d n data HI He Hk Ho)
    by (unfold len in *; cbn [length] in *; lia).
  apply acceptable_room; [exact HI|apply li_acc|exact Hrec].
Qed.

End WithEnv.

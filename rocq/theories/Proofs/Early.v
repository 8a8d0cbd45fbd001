(** User messages received before the peer's ACK. *)

From Coq Require Import Arith ZifyBool ZifyNat ZifyN.
From Verif.Model Require Import Minimal.
From Verif.Spec Require Import Wire Datagram Trace ReadSpec Accept Session Writers.
From Verif.Proofs Require Import BaseFacts IoFacts CipherFacts ReaderFacts ReadCases WindowFacts Invariant
  Negotiation Failure DatagramFacts ReadSpecFacts Accept Keys TraceInv UserReads Ledger Nonces Sending.

Lemma Forall2_len {A B} (P : A -> B -> Prop) l1 l2 : Forall2 P l1 l2 -> length l1 = length l2.
Proof. induction 1; cbn [length]; congruence. Qed.

Section WithEnv.
Context (C : Crypto) (T : target) (HL : CryptoLaws C).

Lemma starts_clear_iff d : starts_clear d = true <-> exists r, d = magic ++ r.
Proof.
  unfold starts_clear. rewrite bytes_eqb_eq. split.
  - intros H. exists (skipn 4 d). rewrite <- H. symmetry. apply firstn_skipn.
  - intros [r ->]. reflexivity.
Qed.

(** A read that returns nothing. *)
Lemma read_none s d s' :
  Inv C T s -> read C T d s = (s', Ok None) ->
  (starts_clear d = true /\ tmp_stack_user_msgs s' = tmp_stack_user_msgs s /\ same_window s s') \/
  (starts_clear d = false /\ exists k text, session_key s = Some k /\ keystream_ok C k /\
     d = seal C k text /\ s' = set_stack (tmp_stack_user_msgs s ++ [text]) s).
Proof.
  intros HI E. destruct (datagram_total C T HL (session_key s) d) as [c Hc].
  destruct c as [|e| |text L k].
  { destruct (read_of_panic C T HL s d Hc) as [p Hp]. congruence. }
  { rewrite (read_of_reject C T HL s d e Hc) in E. congruence. }
  { rewrite (read_of_undecryptable C T HL s d Hc) in E. congruence. }
  pose proof (datagram_frame C T _ _ _ _ _ Hc) as (HL64 & _ & (th & rest & Ht & Hh) & Hd).
  pose proof (get_message_exact T text L k) as Hg.
  destruct k as [epk pk|ch|n]; cbn [must_be_sealed headers_size] in Hd, Hg.
  - exfalso. remember (Ok None) as o eqn:Eo.
    apply (read_connect_result C T HL s HI d text L epk pk) in E; [|exact Hc].
    destruct E; try discriminate. destruct Hg as [(_ & _ & Hg)|[_ Hg]]; rewrite Hg in Eo; discriminate.
  - remember (Ok None) as o eqn:Eo.
    apply (read_ack_result C T HL s d text L ch) in E; [|exact Hc].
    destruct Hd as [[_ Hd]|[Hd _]]; [|discriminate]. subst d.
    left. split; [apply starts_clear_iff; rewrite Ht; eauto|].
    destruct E; try discriminate.
    + split; [reflexivity|split; reflexivity].
    + exfalso. destruct Hg as [(_ & _ & Hg)|[_ Hg]]; rewrite Hg in Eo; discriminate.
  - destruct Hd as [[Hd _]|(_ & Hnm & k & Hk & Hseal)]; [discriminate|]. right.
    assert (keystream_ok C k) as Hks.
    { apply (proj2 (seal_magic_iff C HL k (version ++ u64_be L ++ th))).
      intros r' Er. rewrite <- Ht, <- Hseal in Er. exact (Hnm _ Er). }
    split.
    { destruct (starts_clear d) eqn:Ec; [|reflexivity]. exfalso.
      apply starts_clear_iff in Ec as [r Er]. exact (Hnm _ Er). }
    remember (Ok None) as o eqn:Eo.
    apply (read_user_result C T HL s HI d text L n) in E; [|exact Hc].
    destruct E; try discriminate.
    + exists k, text. auto.
    + exfalso. destruct Hg as [(_ & _ & Hg)|[_ Hg]]; rewrite Hg in Eo; discriminate.
Qed.

(** Calls other than [read] and draining touch neither queue nor window. *)
Lemma step_quiet s c s' r :
  reachable C T s -> call_step C T s c = (s', r) -> (forall d, c <> CRead d) -> c <> CDrain ->
  tmp_stack_user_msgs s' = tmp_stack_user_msgs s /\ same_window s s'.
Proof.
  intros HR E H1 H2. pose proof (inv_reachable C T s HR) as HI. destruct c; cbn [call_step] in E.
  - congruence.
  - rewrite take_ack_read in E. destruct (ack_msg_recv_too_early s) as [b|] eqn:Eb.
    + destruct (read C T b (set_ack_early None s)) as [s1 o] eqn:Er. injection E as <- <-.
      apply read_clear_ack in Er as (Hw & Hs & _); [|exact HL|exact (early_reachable C T HL s b HR Eb)]. auto.
    + injection E as <- <-. repeat split.
  - congruence.
  - destruct (create_connect_message C public_key cd s) as [s1 o] eqn:Er. injection E as <- <-.
    apply create_connect_cases in Er as [(r & _ & -> & _)|(-> & _)]; repeat split.
  - destruct (create_ack_message C cd s) as [s1 o] eqn:Er. injection E as <- <-.
    apply (create_ack_cases C T) in Er as [(st & epk & _ & -> & _)|(-> & _)]; try exact HI; repeat split.
  - destruct (write_message C T data s w) as [[s1 w'] o] eqn:Er. injection E as <- <-.
    apply write_message_cases in Er
      as [(_ & -> & _)|[(_ & _ & -> & _)|(Hst & k & o1 & _ & _ &
          [(e & _ & _ & ->)|[(_ & n & Hn & -> & _)|(_ & p & _ & -> & _)]])]]; repeat split.
  - unfold try_clone in E. destruct (msl_status s); injection E as <- <-; repeat split.
  - unfold change_config in E. destruct (cloned s); injection E as <- <-; repeat split.
Qed.

Definition waiting (s : msl) (ds : list bytes) : Prop :=
  Forall2 (fun d b => exists k, session_key s = Some k /\ d = seal C k b) ds (tmp_stack_user_msgs s).

Lemma waiting_mono s s' ds :
  (forall k, session_key s = Some k -> session_key s' = Some k) ->
  tmp_stack_user_msgs s' = tmp_stack_user_msgs s -> waiting s ds -> waiting s' ds.
Proof.
  intros Hk Hs H. unfold waiting. rewrite Hs. eapply Forall2_impl; [|exact H]. cbv beta.
  intros d b (k & H1 & H2). eauto.
Qed.

Lemma early_snoc h e : early_messages (h ++ [e]) = early_messages h ++ early_messages [e].
Proof. unfold early_messages. rewrite flat_map_app. reflexivity. Qed.

Lemma waiting_run r cfg pin s0 cs s h :
  create C r cfg pin = Ok s0 -> run C T s0 cs = (s, h) -> len h < 2 ^ 64 ->
  lossless h -> user_deliveries h = [] ->
  waiting s (early_messages h) /\ used s = 0.
Proof.
  intros Hc. destruct (created_fresh _ _ _ _ _ Hc) as (F1 & F2 & F3 & _).
  revert s h. induction cs as [|c cs IH] using rev_ind; intros s h E Hb Hl Hu.
  - injection E as <- <-. split; [|unfold used; rewrite F1, F2; reflexivity].
    unfold waiting. rewrite F3. constructor.
  - rewrite run_snoc in E. destruct (run C T s0 cs) as [s1 h1] eqn:E1.
    destruct (call_step C T s1 c) as [s2 r2] eqn:E2. injection E as <- <-.
    apply lossless_snoc in Hl as (Hl & Hp & Hne). cbn [snd] in Hp, Hne.
    rewrite user_deliveries_snoc in Hu. apply app_eq_nil in Hu as [Hu1 Hu2]. cbn [snd] in Hu2.
    rewrite len_app in Hb. change (len [(c, r2)]) with 1 in Hb.
    destruct (IH _ _ eq_refl ltac:(lia) Hl Hu1) as [HW HU].
    assert (reachable C T s1) as HR1 by (eapply run_reachable; [eapply reach_create, Hc|exact E1]).
    pose proof (inv_reachable C T s1 HR1) as HI.
    assert (forall k, session_key s1 = Some k -> session_key s2 = Some k) as Hk
      by (intros k; eapply step_secret_mono; eassumption).
    rewrite early_snoc.
    assert ((exists d, c = CRead d) \/ c = CDrain \/ ((forall d, c <> CRead d) /\ c <> CDrain)) as [[d ->]|[->|[N1 N2]]].
    { destruct c; eauto; right; right; split; discriminate. }
    + cbn [call_step] in E2. destruct (read C T d s1) as [s2' o] eqn:Er. injection E2 as -> <-.
      destruct o as [[m|]|e|p]; try discriminate Hp.
      * cbn [early_messages flat_map app]. rewrite app_nil_r.
        pose proof (read_user_step C T HL _ _ _ _ HI Er ltac:(lia)) as Hstep.
        destruct Hstep as [? ? ? _ _ _ _ Heq|? ? _ _ _ _ _ Heq|Hx|Hno Hst [W1 W2]]; try discriminate.
        { injection Heq as ->. discriminate Hu2. }
        split; [eapply waiting_mono; eassumption|]. unfold used. rewrite W1, W2. exact HU.
      * apply read_none in Er as [(Hcl & Hst & [W1 W2])|(Hcl & k & text & H1 & H2 & H3 & ->)]; [| |exact HI].
        -- cbn [early_messages flat_map app]. rewrite Hcl, !app_nil_r.
           split; [eapply waiting_mono; eassumption|]. unfold used. rewrite W1, W2. exact HU.
        -- cbn [early_messages flat_map app]. rewrite Hcl. split; [|exact HU].
           apply Forall2_app; [exact HW|]. constructor; [|constructor]. exists k. auto.
      * cbn [early_messages flat_map app]. rewrite app_nil_r.
        pose proof (read_user_step C T HL _ _ _ _ HI Er ltac:(lia)) as Hstep.
        destruct Hstep as [? ? ? _ _ _ _ Heq|? ? _ _ _ _ _ Heq|Hx|Hno Hst [W1 W2]]; try discriminate.
        split; [eapply waiting_mono; eassumption|]. unfold used. rewrite W1, W2. exact HU.
    + cbn [call_step] in E2. destruct (drain_tmp_stack_user_msgs C T s1) as [s2' o] eqn:Er. injection E2 as -> <-.
      cbn [early_messages flat_map app]. rewrite app_nil_r.
      destruct o as [l|e|p]; try discriminate Hp; [|exfalso; eapply Hne; reflexivity].
      assert (tmp_stack_user_msgs s1 = [] -> waiting s2 (early_messages h1) /\ used s2 = 0) as Hnil.
      { intros Hn. unfold drain_tmp_stack_user_msgs in Er. rewrite Hn in Er. cbn [drain_loop] in Er.
        injection Er as <- _. split; [|exact HU]. unfold waiting in *. rewrite Hn in HW. exact HW. }
      destruct (msl_status s1) as [|lo re|] eqn:Hst.
      * destruct (tmp_stack_user_msgs s1) as [|b bs] eqn:Eq; [auto|]. exfalso.
        unfold drain_tmp_stack_user_msgs in Er. rewrite Eq in Er. cbn [drain_loop] in Er.
        destruct (read_inner C T false b (set_stack [] s1)) as [s3 o2] eqn:E3. apply read_inner_cases in E3.
        pose proof (inv_queue C T s1 HI) as Hq. rewrite Eq in Hq.
        apply rcase_queued_failed in E3 as ([e ->] & _); [|exact (Forall_inv Hq)|exact Hst].
        discriminate.
      * destruct (drain_too_early C T s1 s2 (Ok l) HR1) as [-> _]; auto.
        { rewrite established_iff. congruence. } { rewrite failed_iff. congruence. }
      * destruct (tmp_stack_user_msgs s1) as [|b bs] eqn:Eq; [auto|]. exfalso.
        unfold drain_tmp_stack_user_msgs in Er. rewrite Eq in Er.
        pose proof (inv_queue C T s1 HI) as Hq. rewrite Eq in Hq.
        pose proof HW as HW'. unfold waiting in HW'. rewrite Eq in HW'.
        inversion HW' as [|d0 b0 ds bs' (k & Hk1 & Hd0) HW2 Q1 Q2]; subst b0 bs'.
        destruct (queue_ok_reachable C T HL s1 HR1 ltac:(rewrite Eq; discriminate)) as (k' & Hk' & Hks).
        assert (k' = k) by congruence. subst k'.
        destruct (drain_loop_established C T HL k (d0 :: ds) (b :: bs) (seq 0 (length (b :: bs))) [] (set_stack [] s1) s2 (Ok l))
          as [(l2 & L0 & L1 & _)|(A1 & _)]; auto.
        { apply established_iff. exact Hst. } { apply inv_set_stack_nil. exact HI. }
        { rewrite Q1. clear - HW' Hk1.
          assert (forall pre ds q, Forall2 (fun d b => exists k, session_key s1 = Some k /\ d = seal C k b) ds q ->
             Forall2 (fun i b => nth_error (pre ++ ds) i = Some (seal C k b)) (seq (length pre) (length q)) q) as Hg.
          { intros pre ds q H. revert pre. induction H as [|x y ds q (k' & H1 & H2) H IH]; intros pre; cbn [length seq]; constructor.
            - rewrite nth_error_app2, Nat.sub_diag by lia. cbn. congruence.
            - specialize (IH (pre ++ [x])). rewrite <- app_assoc, app_length, Nat.add_1_r in IH. exact IH. }
          apply (Hg []). exact HW'. }
        { change (used (set_stack [] s1)) with (used s1). rewrite HU.
          destruct (linv_created C T HL _ _ _ _ _ _ _ Hc E1 ltac:(lia)) as (ll & pend & HLi & Hu0).
          pose proof (li_used _ _ _ _ _ _ _ _ HLi) as Hus. rewrite Eq in Hus.
          pose proof (submitted_len h1). unfold len in *. cbn [length] in *. lia. }
        { cbn [app] in L0. injection L0 as ->. destruct l2 as [|e2 l2]; [discriminate L1|discriminate Hu2]. }
        { eapply A1. reflexivity. }
    + destruct (step_quiet _ _ _ _ HR1 E2 N1 N2) as (Hst & W1 & W2).
      assert (early_messages (@cons event (c, r2) []) = []) as ->.
      { destruct c; try reflexivity. exfalso. eapply N1. reflexivity. }
      rewrite app_nil_r. split; [eapply waiting_mono; eassumption|]. unfold used. rewrite W1, W2. exact HU.
Qed.

(** ** Draining authentic messages *)

Lemma read_received s k d n data :
  Inv C T s -> session_key s = Some k -> opens C T k d n data -> received s n ->
  read C T d s = (s, Err (RecvInvalidMsg InvalidNonce)).
Proof.
  intros HI Hk Ho Hr.
  destruct (opens_class C T HL _ _ _ _ Ho) as (text & L & Hd & Hc & _ & _ & _). rewrite <- Hk in Hc.
  destruct (read C T d s) as [s' o] eqn:E.
  apply (read_user_result C T HL s HI d text L n) in E; [|exact Hc].
  destruct E; try contradiction. reflexivity.
Qed.

Lemma window_grows s s' n :
  Inv C T s -> Inv C T s' -> used s' = used s + 1 ->
  (forall m, received s' m <-> received s m \/ m = n) ->
  len (orphan_nonce_list s') <= len (orphan_nonce_list s) + 1.
Proof.
  intros HI HI' Hu Hr. destruct (inv_window C T s' HI') as (_ & B & _ & _).
  assert (next_nonce_expected s <= next_nonce_expected s').
  { destruct (N.le_gt_cases (next_nonce_expected s) (next_nonce_expected s')) as [H|H]; [exact H|].
    exfalso. assert (received s' (next_nonce_expected s')) as [Hx|Hx].
    { apply Hr. left. left. exact H. } { lia. }
    rewrite Forall_forall in B. apply B in Hx. lia. }
  unfold used in Hu. lia.
Qed.

Lemma read_authentic s k d n data :
  Inv C T s -> established s -> session_key s = Some k -> opens C T k d n data ->
  ~ received s n -> len (orphan_nonce_list s) < 10000 -> used s + 1 < 2 ^ 64 ->
  exists s', read C T d s = (s', Ok (Some (MMessage (nonempty data)))) /\
    Inv C T s' /\ established s' /\ session_key s' = Some k /\
    tmp_stack_user_msgs s' = tmp_stack_user_msgs s /\ used s' = used s + 1 /\
    (forall m, received s' m <-> received s m \/ m = n) /\
    len (orphan_nonce_list s') <= len (orphan_nonce_list s) + 1.
Proof.
  intros HI He Hk Ho Hnr Hor Hu.
  pose proof (proj2 (delivered_when C T HL s k d n data HI He Hk Ho Hu)) as Hdel.
  destruct (read C T d s) as [s' o] eqn:E. cbn [snd] in Hdel.
  rewrite Hdel in * by (split; [exact Hnr|right; exact Hor]).
  pose proof (inv_read C T s d HI) as HI'. rewrite E in HI'. cbn [fst] in HI'.
  exists s'. split; [reflexivity|]. split; [exact HI'|].
  pose proof (read_secret_mono C T HL _ _ _ _ _ HI E Hk) as Hk'.
  destruct (read_user_step C T HL _ _ _ _ HI E Hu)
    as [k' n' data' Hk1 Ho' _ _ _ He' Hst Hus Hrv|? ? _ _ _ _ _ Heq|Hx|Hno]; try discriminate.
  - assert (k' = k) by congruence. subst k'.
    destruct (opens_inj C T HL k d n data n' data' Ho Ho') as [<- <-].
    repeat (split; [assumption|]). eapply window_grows; eassumption.
  - exfalso. eapply Hno. reflexivity.
Qed.

Definition drained (xs : list (N * bytes)) : list message :=
  map (fun x => MMessage (nonempty (snd x))) xs.

Lemma drain_loop_all k bs xs acc s :
  Inv C T s -> established s -> session_key s = Some k -> keystream_ok C k -> Forall (queued T) bs ->
  Forall2 (fun b x => opens C T k (seal C k b) (fst x) (snd x)) bs xs ->
  NoDup (map fst xs) -> Forall (fun x => ~ received s (fst x)) xs ->
  len (orphan_nonce_list s) + len bs <= 10000 -> used s + len bs < 2 ^ 64 ->
  exists s', drain_loop C T bs acc s = (s', Ok (acc ++ drained xs)) /\
    established s' /\ tmp_stack_user_msgs s' = tmp_stack_user_msgs s /\
    (forall m, received s' m <-> received s m \/ In m (map fst xs)).
Proof.
  intros HI He Hk Hks Hq H2. revert acc s HI He Hk Hq.
  induction H2 as [|b x bs xs Ho H2 IH]; intros acc s HI He Hk Hq Hnd Hnr Hor Hu; cbn [drain_loop drained map].
  - exists s. rewrite app_nil_r. split; [reflexivity|]. split; [exact He|]. split; [reflexivity|].
    intros m. cbn [In]. tauto.
  - rewrite len_cons in Hor, Hu. cbn [map] in Hnd. apply NoDup_cons_iff in Hnd as [Hx Hnd].
    pose proof (Forall_inv Hq) as Hb. apply Forall_inv_tail in Hq.
    rewrite (read_inner_sealed C T HL k b s Hk Hks Hb).
    destruct (read_authentic s k _ _ _ HI He Hk Ho (Forall_inv Hnr) ltac:(lia) ltac:(lia))
      as (s1 & -> & HI1 & He1 & Hk1 & Hst1 & Hu1 & Hr1 & Ho1).
    destruct (IH (acc ++ [MMessage (nonempty (snd x))]) s1 HI1 He1 Hk1 Hq Hnd) as (s2 & -> & He2 & Hst2 & Hr2).
    + apply Forall_forall. intros y Hy Hry. apply Hr1 in Hry as [Hry|Hry].
      * rewrite Forall_forall in Hnr. apply (Hnr y); [right; exact Hy|exact Hry].
      * apply Hx. rewrite <- Hry. apply in_map, Hy.
    + lia.
    + lia.
    + exists s2. rewrite <- app_assoc. split; [reflexivity|]. split; [exact He2|]. split; [congruence|].
      intros m. rewrite Hr2, Hr1. cbn [In]. intuition congruence.
Qed.

Lemma drain_loop_dup k bs xs acc s :
  Inv C T s -> established s -> session_key s = Some k -> keystream_ok C k -> Forall (queued T) bs ->
  Forall2 (fun b x => opens C T k (seal C k b) (fst x) (snd x)) bs xs ->
  ~ NoDup (map fst xs) \/ (exists x, In x xs /\ received s (fst x)) ->
  len (orphan_nonce_list s) + len bs <= 10000 -> used s + len bs < 2 ^ 64 ->
  exists s' pre suf, drain_loop C T bs acc s = (s', Err (RecvInvalidMsg InvalidNonce)) /\
    Inv C T s' /\ session_key s' = Some k /\
    established s' /\ tmp_stack_user_msgs s' = tmp_stack_user_msgs s /\
    xs = pre ++ suf /\ suf <> [] /\ NoDup (map fst pre) /\
    Forall (fun x => ~ received s (fst x)) pre /\
    (forall x, hd_error suf = Some x -> received s (fst x) \/ In (fst x) (map fst pre)) /\
    (forall m, received s' m <-> received s m \/ In m (map fst pre)).
Proof.
  intros HI He Hk Hks Hq H2. revert acc s HI He Hk Hq.
  induction H2 as [|b x bs xs Ho H2 IH]; intros acc s HI He Hk Hq Hbad Hor Hu; cbn [drain_loop].
  - exfalso. destruct Hbad as [H|(x & [] & _)]. apply H. constructor.
  - rewrite len_cons in Hor, Hu.
    pose proof (Forall_inv Hq) as Hb. apply Forall_inv_tail in Hq.
    rewrite (read_inner_sealed C T HL k b s Hk Hks Hb).
    assert (received s (fst x) \/ ~ received s (fst x)) as [Hr|Hnr].
    { unfold received. destruct (N.lt_ge_cases (fst x) (next_nonce_expected s)); [auto|].
      destruct (in_dec N.eq_dec (fst x) (orphan_nonce_list s)); [auto|]. right. intros [?|?]; [lia|contradiction]. }
    + rewrite (read_received s k _ _ _ HI Hk Ho Hr). exists s, [], (x :: xs).
      cbn [map app]. repeat (split; [first [reflexivity|assumption|discriminate]|]).
      split; [constructor|]. split; [constructor|].
      split; [intros y Hy; injection Hy as <-; auto|]. intros m. cbn [In]. tauto.
    + destruct (read_authentic s k _ _ _ HI He Hk Ho Hnr ltac:(lia) ltac:(lia))
        as (s1 & -> & HI1 & He1 & Hk1 & Hst1 & Hu1 & Hr1 & Ho1).
      destruct (IH (acc ++ [MMessage (nonempty (snd x))]) s1 HI1 He1 Hk1 Hq)
        as (s2 & pre & suf & -> & A1 & A2 & A3 & A4 & -> & A6 & A7 & A10 & A8 & A9).
      * destruct Hbad as [H|(y & [<- |Hy] & Hry)].
        -- cbn [map] in H. destruct (in_dec N.eq_dec (fst x) (map fst xs)) as [Hi|Hi].
           ++ right. apply in_map_iff in Hi as (y & Ey & Hy). exists y. split; [exact Hy|]. apply Hr1. auto.
           ++ left. intros Hnd. apply H. constructor; assumption.
        -- contradiction.
        -- right. exists y. split; [exact Hy|]. apply Hr1. auto.
      * lia.
      * lia.
      * assert (~ In (fst x) (map fst pre)) as Hi.
        { intros Hi. apply in_map_iff in Hi as (y & Ey & Hy). rewrite Forall_forall in A10.
          apply (A10 y Hy). apply Hr1. auto. }
        exists s2, (x :: pre), suf. split; [reflexivity|]. repeat (split; [first [reflexivity|assumption|congruence]|]).
        cbn [map]. split; [constructor; assumption|]. split; [|split].
        -- constructor; [exact Hnr|]. eapply Forall_impl; [|exact A10]. cbv beta.
           intros y Hy Hry. apply Hy, Hr1. auto.
        -- intros y Hy. destruct (A8 y Hy) as [H|H]; [|right; right; exact H].
           apply Hr1 in H as [H|H]; [auto|]. right. left. congruence.
        -- intros m. rewrite A9, Hr1. cbn [In]. intuition congruence.
Qed.

(** ** C34, C36 *)

Lemma waiting_drain s ds xs k :
  reachable C T s -> waiting s ds -> session_key s = Some k ->
  Forall2 (fun d x => opens C T k d (fst x) (snd x)) ds xs ->
  Forall2 (fun b x => opens C T k (seal C k b) (fst x) (snd x)) (tmp_stack_user_msgs s) xs.
Proof.
  intros _ HW Hk. unfold waiting in HW. revert xs.
  induction HW as [|d b ds bs (k' & H1 & H2) HW IH]; intros xs HF; inversion HF; subst; constructor; auto.
  congruence.
Qed.

Theorem early_messages_delivered r cfg pin s0 cs s h k xs :
  create C r cfg pin = Ok s0 -> run C T s0 cs = (s, h) ->
  lossless h -> user_deliveries h = [] -> established s -> session_key s = Some k ->
  Forall2 (fun d x => opens C T k d (fst x) (snd x)) (early_messages h) xs ->
  NoDup (map fst xs) -> len xs <= 10000 -> len h < 2 ^ 64 ->
  exists s', drain_tmp_stack_user_msgs C T s
             = (s', Ok (map (fun x => MMessage (nonempty (snd x))) xs)) /\
    established s' /\ drain_tmp_stack_user_msgs C T s' = (s', Ok []).
Proof.
  intros Hc E Hl Hu He Hk HF Hnd Hlen Hb.
  destruct (waiting_run _ _ _ _ _ _ _ Hc E Hb Hl Hu) as [HW HU].
  assert (reachable C T s) as HR by (eapply run_reachable; [eapply reach_create, Hc|exact E]).
  pose proof (inv_reachable C T s HR) as HI.
  pose proof (waiting_drain _ _ _ _ HR HW Hk HF) as HB.
  pose proof (Forall2_len _ _ _ HB) as Hlen2. pose proof (inv_queue C T s HI) as Hq.
  assert (next_nonce_expected s = 0 /\ orphan_nonce_list s = []) as [W1 W2].
  { unfold used, len in HU. split; [lia|]. destruct (orphan_nonce_list s); [reflexivity|cbn [length] in HU; lia]. }
  assert (exists s', drain_tmp_stack_user_msgs C T s = (s', Ok (drained xs)) /\ established s' /\ tmp_stack_user_msgs s' = [])
    as (s' & H1 & H2 & H3).
  { unfold drain_tmp_stack_user_msgs. destruct (tmp_stack_user_msgs s) as [|b bs] eqn:Eq.
    - inversion HB; subst. exists (set_stack [] s). split; [reflexivity|]. split; [|reflexivity].
      apply established_iff. apply established_iff in He. exact He.
    - rewrite <- Eq in *.
      destruct (queue_ok_reachable C T HL s HR ltac:(rewrite Eq; discriminate)) as (k' & Hk' & Hks).
      assert (k' = k) by congruence. subst k'.
      destruct (drain_loop_all k (tmp_stack_user_msgs s) xs [] (set_stack [] s)) as (s' & D1 & D2 & D3 & _); auto.
      + apply inv_set_stack_nil, HI.
      + apply established_iff. apply established_iff in He. exact He.
      + apply Forall_forall. intros x _ [H|H]; cbn in H; [lia|]. rewrite W2 in H. exact H.
      + cbn. rewrite W2. unfold len in *. cbn [length]. lia.
      + change (used (set_stack [] s)) with (used s). unfold len in *. lia.
      + exists s'. auto. }
  exists s'. split; [exact H1|]. split; [exact H2|].
  unfold drain_tmp_stack_user_msgs. rewrite H3. cbn [drain_loop]. destruct s'; cbn in H3. subst. reflexivity.
Qed.

Theorem early_replay_loses_all r cfg pin s0 cs s h k xs :
  create C r cfg pin = Ok s0 -> run C T s0 cs = (s, h) ->
  lossless h -> user_deliveries h = [] -> established s -> session_key s = Some k ->
  Forall2 (fun d x => opens C T k d (fst x) (snd x)) (early_messages h) xs ->
  ~ NoDup (map fst xs) -> len xs <= 10000 -> len h < 2 ^ 64 ->
  exists s', drain_tmp_stack_user_msgs C T s = (s', Err (RecvInvalidMsg InvalidNonce)) /\
    established s' /\ drain_tmp_stack_user_msgs C T s' = (s', Ok []) /\
    exists pre x suf, xs = pre ++ x :: suf /\ pre <> [] /\ NoDup (map fst pre) /\ In (fst x) (map fst pre) /\
      forall d n data, opens C T k d n data -> In n (map fst pre) ->
        read C T d s' = (s', Err (RecvInvalidMsg InvalidNonce)).
Proof.
  intros Hc E Hl Hu He Hk HF Hnd Hlen Hb.
  destruct (waiting_run _ _ _ _ _ _ _ Hc E Hb Hl Hu) as [HW HU].
  assert (reachable C T s) as HR by (eapply run_reachable; [eapply reach_create, Hc|exact E]).
  pose proof (inv_reachable C T s HR) as HI.
  pose proof (waiting_drain _ _ _ _ HR HW Hk HF) as HB.
  pose proof (Forall2_len _ _ _ HB) as Hlen2. pose proof (inv_queue C T s HI) as Hq.
  assert (next_nonce_expected s = 0 /\ orphan_nonce_list s = []) as [W1 W2].
  { unfold used, len in HU. split; [lia|]. destruct (orphan_nonce_list s); [reflexivity|cbn [length] in HU; lia]. }
  assert (forall m, ~ received (set_stack [] s) m) as Hnone.
  { intros m [H|H]; cbn in H; [lia|]. rewrite W2 in H. exact H. }
  assert (tmp_stack_user_msgs s <> []) as Hne.
  { intros Hn. rewrite Hn in HB. inversion HB; subst. apply Hnd. constructor. }
  destruct (queue_ok_reachable C T HL s HR Hne) as (k' & Hk' & Hks).
  assert (k' = k) by congruence. subst k'.
  destruct (drain_loop_dup k (tmp_stack_user_msgs s) xs [] (set_stack [] s))
    as (s' & pre & suf & D1 & D2 & D3 & D4 & D5 & D6 & D7 & D8 & _ & D9 & D10); auto.
  + apply inv_set_stack_nil, HI.
  + apply established_iff. apply established_iff in He. exact He.
  + cbn. rewrite W2. unfold len in *. cbn [length]. lia.
  + change (used (set_stack [] s)) with (used s). unfold len in *. lia.
  + exists s'. split; [exact D1|]. split; [exact D4|]. split.
    { unfold drain_tmp_stack_user_msgs. rewrite D5. cbn [tmp_stack_user_msgs set_stack drain_loop].
      cbn in D5. destruct s'; cbn in D5. subst. reflexivity. }
    destruct suf as [|x suf]; [congruence|].
    destruct (D9 x eq_refl) as [H|H]; [exfalso; eapply Hnone; exact H|].
    exists pre, x, suf. split; [exact D6|]. split; [intros ->; destruct H|]. split; [exact D8|]. split; [exact H|].
    intros d n data Ho Hin. eapply read_received; try eassumption. apply D10. auto.
Qed.

Theorem early_queue_unbounded s k d n data m :
  reachable C T s -> wants_only_ack s -> session_key s = Some k -> opens C T k d n data ->
  ~ received s n ->
  exists s', run C T s (repeat (CRead d) m) = (s', repeat (CRead d, RMsg (Ok None)) m) /\
    length (tmp_stack_user_msgs s') = (length (tmp_stack_user_msgs s) + m)%nat.
Proof.
  intros HR Hw Hk Ho Hnr. revert s HR Hw Hk Hnr. induction m as [|m IH]; intros s HR Hw Hk Hnr.
  - exists s. cbn [repeat run]. split; [reflexivity|lia].
  - pose proof (inv_reachable C T s HR) as HI.
    destruct (opens_class C T HL _ _ _ _ Ho) as (text & L & Hd & Hc & _ & _ & _). rewrite <- Hk in Hc.
    assert (read C T d s = (set_stack (tmp_stack_user_msgs s ++ [text]) s, Ok None)) as Er.
    { destruct (read C T d s) as [s' o] eqn:E. 
      apply (read_user_result C T HL s HI d text L n) in E; [|exact Hc].
      assert (~ established s) as Hne by (rewrite established_iff; unfold wants_only_ack in Hw; congruence).
      destruct E; try contradiction. reflexivity. }
    destruct (IH (set_stack (tmp_stack_user_msgs s ++ [text]) s)) as (s' & H1 & H2); auto.
    + pose proof (reach_step C T s (CRead d) HR) as H. cbn [call_step] in H. rewrite Er in H. exact H.
    + exists s'. cbn [repeat run call_step]. rewrite Er, H1. split; [reflexivity|].
      rewrite H2. cbn [tmp_stack_user_msgs set_stack]. rewrite app_length. cbn [length]. lia.
Qed.

End WithEnv.

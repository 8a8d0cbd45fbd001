(** What the vocabulary of Spec/ReadSpec.v says about the fields of a layer,
    in terms of its history; and the counts of delivered messages. *)

From Coq Require Import Arith ZifyBool ZifyNat ZifyN.
From Verif.Model Require Import Minimal.
From Verif.Spec Require Import Wire Datagram Trace ReadSpec Accept Session Writers Peer.
From Verif.Proofs Require Import BaseFacts IoFacts CipherFacts ReaderFacts ReadCases WindowFacts Invariant
  Negotiation Failure DatagramFacts ReadSpecFacts Accept Keys TraceInv UserReads Ledger Nonces Sending Early
  Histories Corollaries.

Section WithEnv.
Context (C : Crypto) (T : target) (HL : CryptoLaws C).

(** ** Negotiation *)

Theorem wants_connect_history r0 cfg pin s0 cs s h :
  create C r0 cfg pin = Ok s0 -> run C T s0 cs = (s, h) -> panic_free h ->
  (wants_connect s <-> ~ happened connect_accepted h /\ ~ happened fatal h).
Proof.
  intros Hc E Hp. pose proof (tracks_run C T _ _ _ _ _ _ _ Hc E (panic_free_no_panic _ Hp)) as Ht.
  unfold wants_connect. destruct (msl_status s) as [|l r|]; cbn [tracks] in Ht.
  - split; [intros [? [=]]|tauto].
  - destruct Ht as (A & B & D & F & G & I). split.
    + intros [l' [= -> ->]]. split; [rewrite F; congruence|exact A].
    + intros [H _]. exists l. destruct r; [reflexivity| |]; exfalso; apply H; apply F; discriminate.
  - split; [intros [? [=]]|]. unfold negotiated in Ht. tauto.
Qed.

Theorem wants_ack_history r0 cfg pin s0 cs s h :
  create C r0 cfg pin = Ok s0 -> run C T s0 cs = (s, h) -> panic_free h ->
  (wants_ack s <-> happened connect_created h /\ ~ happened ack_accepted h /\ ~ happened fatal h).
Proof.
  intros Hc E Hp. pose proof (tracks_run C T _ _ _ _ _ _ _ Hc E (panic_free_no_panic _ Hp)) as Ht.
  unfold wants_ack. destruct (msl_status s) as [|l r|]; cbn [tracks] in Ht.
  - split; [intros [? [=]]|tauto].
  - destruct Ht as (A & B & D & F & G & I). split.
    + intros [r' [= -> ->]]. rewrite B, D. repeat split; auto; discriminate.
    + rewrite B, D. intros (H1 & H2 & _). exists r. destruct l; [contradiction|reflexivity|contradiction].
  - split; [intros [? [=]]|]. unfold negotiated in Ht. tauto.
Qed.

Theorem wants_only_ack_history r0 cfg pin s0 cs s h :
  create C r0 cfg pin = Ok s0 -> run C T s0 cs = (s, h) -> panic_free h ->
  (wants_only_ack s <->
   happened connect_created h /\ happened connect_accepted h /\ happened ack_created h /\
   ~ happened ack_accepted h /\ ~ happened fatal h).
Proof.
  intros Hc E Hp. pose proof (tracks_run C T _ _ _ _ _ _ _ Hc E (panic_free_no_panic _ Hp)) as Ht.
  unfold wants_only_ack. destruct (msl_status s) as [|l r|]; cbn [tracks] in Ht.
  - split; [intros [=]|tauto].
  - destruct Ht as (A & B & D & F & G & I). split.
    + intros [= -> ->]. rewrite B, D, F, G. repeat split; auto; discriminate.
    + rewrite B, D, G. intros (H1 & _ & H2 & H3 & _). subst r.
      destruct l; [contradiction|reflexivity|contradiction].
  - split; [intros [=]|]. unfold negotiated in Ht. tauto.
Qed.

(** ** Keys *)

Theorem own_key_history sk cfg pin s0 cs s h :
  create C (RngKey sk) cfg pin = Ok s0 -> run C T s0 cs = (s, h) ->
  ephemeral_pubkey s = x25519_public C sk /\
  forall epk, wants_connect s -> (agreement_possible C s epk <-> x25519_agree C sk epk <> None).
Proof.
  intros Hc E. pose proof (tinv_run C T HL sk pin cfg s0 cs s h Hc E) as []. split; [exact ti_pub|].
  intros epk [l Hl]. destruct (inv_wait C T s ti_inv l Hl) as (H & _).
  destruct (ephemeral s) as [kp|] eqn:Ek; [|congruence]. specialize (ti_priv kp eq_refl).
  unfold agreement_possible. rewrite Ek. split.
  - intros (kp' & key & [= <-] & H1). congruence.
  - intros H1. destruct (x25519_agree C sk epk) as [z|] eqn:Ez; [|congruence].
    exists kp, z. split; [reflexivity|]. congruence.
Qed.

(** What one read does to the known key. *)
Lemma read_known_key s d s' o :
  Inv C T s -> read C T d s = (s', o) ->
  (forall k, peer_sig_pubkey s = Some k -> peer_sig_pubkey s' = Some k) /\
  (peer_sig_pubkey s = None -> forall k, peer_sig_pubkey s' = Some k <-> connect_shaped C T d k).
Proof.
  intros HI E. pose proof (read_keys C T HL s d s' o HI E) as (_ & R2 & _). split; [exact R2|].
  intros Hn k. destruct (datagram_total C T HL (session_key s) d) as [c Hc].
  assert (forall k', connect_shaped C T d k' -> exists L epk, c = DFrame d L (KConnect epk k')) as Hsh.
  { intros k' (L & epk & Hd). exists L, epk.
    apply (clear_datagram_any C T None (session_key s)) in Hd as [_ Hd]; [|reflexivity].
    eapply datagram_unique; eassumption. }
  assert ((forall L epk pk, c <> DFrame d L (KConnect epk pk)) -> peer_sig_pubkey s' = None ->
          (peer_sig_pubkey s' = Some k <-> connect_shaped C T d k)) as Hno.
  { intros H1 H2. split; [congruence|]. intros H. apply Hsh in H as (L & epk & ->).
    exfalso; eapply H1; reflexivity. }
  destruct c as [|e| |text L ct].
  - destruct (read_of_panic C T HL s d Hc) as [p Hp]. rewrite Hp in E. injection E as <- <-.
    apply Hno; [discriminate|exact Hn].
  - rewrite (read_of_reject C T HL s d e Hc) in E. injection E as <- <-. apply Hno; [discriminate|exact Hn].
  - rewrite (read_of_undecryptable C T HL s d Hc) in E. injection E as <- <-.
    apply Hno; [discriminate|exact Hn].
  - destruct ct as [epk pk|ch|n].
    + pose proof Hc as Hc0.
      apply (clear_datagram_any C T (session_key s) None) in Hc0 as [<- Hc0]; [|reflexivity].
      apply (read_connect_result C T HL s HI d d L epk pk) in E; [|exact Hc].
      assert (peer_sig_pubkey s' = Some pk) as Hp.
      { assert (peer_sig_pubkey (pin pk s) = Some pk) as Hp by (unfold pin; rewrite Hn; reflexivity).
        destruct E as [H| | | |s' ? ? ? ? ? (l & kp & _ & _ & ->)|s' ? ? ? ? ? (l & kp & _ & _ & ->)];
          try exact Hp.
        exfalso; apply H; left; exact Hn. }
      split.
      * intros H. assert (k = pk) by congruence. subst k. exists L, epk. exact Hc0.
      * intros H. apply Hsh in H as (L' & epk' & [= <- <- <-]). exact Hp.
    + apply Hno; [discriminate|].
      apply (read_ack_result C T HL s d text L ch) in E; [|exact Hc].
      destruct E as [| | | | |k' e ? ? ? ? He|k' st]; try exact Hn; try congruence.
    + apply Hno; [discriminate|].
      apply (read_user_result C T HL s HI d text L n) in E; [|exact Hc].
      destruct E as [|e ? ? ? He| | | | |s' p ? ? ? ? ? ? Hw|s' ? ? ? ? ? Hw]; try exact Hn;
        apply window_keys in Hw; unfold keys in Hw; congruence.
Qed.

Lemma early_not_connect sk cfg pin s0 cs s h b k :
  create C (RngKey sk) cfg pin = Ok s0 -> run C T s0 cs = (s, h) ->
  ack_msg_recv_too_early s = Some b -> ~ connect_shaped C T b k.
Proof.
  intros Hc E Hb (L & epk & Hd). pose proof (tinv_run C T HL sk pin cfg s0 cs s h Hc E) as [].
  destruct (ti_early b Hb) as (_ & L' & Hcl). specialize (Hcl None).
  assert (DFrame b L (KConnect epk k) = DFrame b L' (KAck (sha256 C (ephemeral_pubkey s)))) as H
    by (eapply datagram_unique; eassumption).
  discriminate.
Qed.

Theorem known_key_history sk cfg pin s0 cs s h pk :
  create C (RngKey sk) cfg pin = Ok s0 -> run C T s0 cs = (s, h) ->
  (peer_sig_pubkey s = Some pk <-> known_key C T pin h pk).
Proof.
  intros Hc. revert s h pk.
  assert (forall s h, run C T s0 cs = (s, h) ->
    match peer_sig_pubkey s with
    | Some k => known_key C T pin h k
    | None => pin = None /\ forall d r k, In (CRead d, r) h -> ~ connect_shaped C T d k
    end) as Hmain.
  { induction cs as [|c cs' IH] using rev_ind; intros s h E.
    - injection E as <- <-. cbn in Hc. injection Hc as <-. cbn [peer_sig_pubkey].
      destruct pin as [k|]; [left; reflexivity|]. split; [reflexivity|intros d r k []].
    - rewrite run_snoc in E. destruct (run C T s0 cs') as [s1 h1] eqn:E1.
      destruct (call_step C T s1 c) as [s2 r] eqn:E2. injection E as <- <-.
      specialize (IH _ _ eq_refl).
      assert (reachable C T s1) as HR1.
      { eapply run_reachable; [eapply reach_create, Hc|exact E1]. }
      pose proof (inv_reachable C T s1 HR1) as HI1.
      destruct (peer_sig_pubkey s1) as [k|] eqn:Ek.
      + rewrite (pinned_step C T HL _ _ _ _ _ HR1 Ek E2).
        destruct IH as [IH|(-> & h0 & d & r0 & h2 & -> & H1 & H2)]; [left; exact IH|right].
        split; [reflexivity|]. exists h0, d, r0, (h2 ++ [(c, r)]). rewrite <- app_assoc. auto.
      + destruct IH as [-> IH].
        assert (keys s2 = keys s1 -> (forall d, c <> CRead d) ->
                match peer_sig_pubkey s2 with
                | Some k => known_key C T None (h1 ++ [(c, r)]) k
                | None => @None bytes = None /\
                    forall d r0 k, In (CRead d, r0) (h1 ++ [(c, r)]) -> ~ connect_shaped C T d k
                end) as Hk.
        { intros Hk Hcr. assert (peer_sig_pubkey s2 = None) as -> by (unfold keys in Hk; congruence).
          split; [reflexivity|]. intros d r0 k Hin. apply in_app_iff in Hin as [Hin|[Hin|[]]]; [eauto|].
          injection Hin as -> ->. exfalso; eapply Hcr; reflexivity. }
        destruct c; try (apply Hk; [eapply step_keys; [exact HI1|exact E2|discriminate|discriminate]|discriminate]).
        * clear Hk. cbn [call_step] in E2. destruct (read C T incoming s1) as [s3 o] eqn:Er. injection E2 as <- <-.
          pose proof (read_known_key _ _ _ _ HI1 Er) as [_ Hr]. specialize (Hr Ek).
          destruct (peer_sig_pubkey s3) as [k|].
          -- right. split; [reflexivity|]. exists h1, incoming, (RMsg o), []. split; [reflexivity|].
             split; [apply Hr; reflexivity|eauto].
          -- split; [reflexivity|]. intros d r k Hin. apply in_app_iff in Hin as [Hin|[Hin|[]]]; [eauto|].
             injection Hin as <- <-. intros H. apply Hr in H. discriminate.
        * cbn [call_step] in E2. rewrite take_ack_read in E2.
          destruct (ack_msg_recv_too_early s1) as [b|] eqn:Eb; [|injection E2 as <- <-; apply Hk; [reflexivity|discriminate]].
          destruct (read C T b (set_ack_early None s1)) as [s3 o] eqn:Er. injection E2 as <- <-.
          pose proof (read_known_key _ _ _ _ (inv_set_ack_early C T None s1 HI1) Er) as [_ Hr].
          specialize (Hr Ek).
          destruct (peer_sig_pubkey s3) as [k|].
          -- exfalso. eapply early_not_connect; [exact Hc|exact E1|exact Eb|]. apply Hr. reflexivity.
          -- split; [reflexivity|]. intros d r k Hin. apply in_app_iff in Hin as [Hin|[Hin|[]]]; [eauto|discriminate]. }
  intros s h pk E. specialize (Hmain s h E). destruct (peer_sig_pubkey s) as [k|].
  - split; [intros [= <-]; exact Hmain|]. intros Hpk. f_equal.
    destruct Hmain as [Hm|(Hm & h1 & d & r & h2 & Eh & H1 & H2)], Hpk as [Hq|(Hq & h1' & d' & r' & h2' & Eh' & H1' & H2')];
      try congruence.
    assert (h1 = h1' /\ d = d') as [_ <-].
    { subst h. revert h1' Eh' H2'. clear -H1 H1' H2. induction h1 as [|e h1 IH]; intros [|e' h1'] Eh' H2'; cbn [app] in Eh'.
      - injection Eh' as <- <- <-. auto.
      - injection Eh' as <- Eh'. exfalso. eapply H2'; [left; reflexivity|exact H1].
      - injection Eh' as -> Eh'. exfalso. eapply H2; [left; reflexivity|exact H1'].
      - injection Eh' as <- Eh'. destruct (IH (fun d' r' pk' Hi => H2 d' r' pk' (or_intror Hi)) h1' Eh'
          (fun d' r' pk' Hi => H2' d' r' pk' (or_intror Hi))) as [-> ->]. auto. }
    destruct H1 as (L & epk & H1), H1' as (L' & epk' & H1').
    assert (DFrame d L (KConnect epk k) = DFrame d L' (KConnect epk' pk)) as H
      by (eapply datagram_unique; eassumption). congruence.
  - destruct Hmain as [-> Hm]. split; [discriminate|].
    intros [H|(_ & h1 & d & r & h2 & -> & H1 & _)]; [discriminate|].
    exfalso. eapply Hm; [apply in_app_iff; right; left; reflexivity|exact H1].
Qed.

(** ** Nonces *)

Theorem sent_history r cfg pin s0 cs s h :
  create C r cfg pin = Ok s0 -> run C T s0 cs = (s, h) -> N.of_nat (count written h) < 2 ^ 64 ->
  next_nonce_sent s = N.of_nat (count written h).
Proof.
  intros Hc E Hb. destruct (created_fresh C r cfg pin s0 Hc) as (_ & _ & _ & H0).
  rewrite (sent_count C T s0 cs s h); [rewrite H0; reflexivity| |exact E|rewrite H0; exact Hb].
  eapply reach_create, Hc.
Qed.

Theorem received_history r cfg pin s0 cs s h :
  create C r cfg pin = Ok s0 -> run C T s0 cs = (s, h) -> len h < 2 ^ 64 -> lossless h ->
  exists l, accounts C T s (submitted h) h l /\
    forall n, received s n <-> In n (map (fun e => snd (fst e)) l).
Proof.
  intros Hc E Hb Hl. destruct (linv_created C T HL r cfg pin s0 cs s h Hc E Hb) as (l & pend & [] & _).
  exists l. split; [exact li_acc|]. intros n. rewrite (li_exact Hl n).
  destruct (created_fresh C r cfg pin s0 Hc) as (F1 & F2 & _). unfold received.
  rewrite F1, F2. cbn [In]. unfold nonce_of. split; [intros [[H|[]]|H]; [lia|exact H]|auto].
Qed.

(** ** Counts of delivered messages *)

Lemma step_delivers_connect s c s' r :
  Inv C T s -> call_step C T s c = (s', r) ->
  (length (filter is_connect (delivered r)) <= if connect_accepted (c, r) then 1 else 0)%nat /\
  (length (filter is_ack (delivered r)) <= if ack_accepted (c, r) then 1 else 0)%nat.
Proof.
  intros HI E. destruct r as [o|o|o|o w|o|o].
  - destruct o as [[m|]|e|p]; cbn; try lia. destruct m; cbn; lia.
  - destruct o as [l|e|p]; [|cbn; lia..]. cbn [delivered].
    assert (forall m, In m l -> is_user m = true) as Hu.
    { destruct c; cbn [call_step] in E;
        repeat match type of E with context [let '(_, _) := ?x in _] => destruct x eqn:? end;
        try discriminate.
      injection E as -> ->. unfold drain_tmp_stack_user_msgs in Heqp.
      intros m Hm. destruct (drain_loop_user C T _ _ _ _ _ (inv_queue C T s HI) Heqp m Hm) as [[]|H]. exact H. }
    assert (forall p, (forall m, is_user m = true -> p m = false) -> filter p l = []) as Hf.
    { intros p Hp. clear -Hu Hp. induction l as [|m l IH]; [reflexivity|]. cbn [filter].
      rewrite (Hp m (Hu m (or_introl eq_refl))). apply IH. intros m' Hm'. apply Hu. right; exact Hm'. }
    rewrite (Hf is_connect), (Hf is_ack) by (intros []; cbn; congruence). cbn [length].
    split; apply Nat.le_0_l.
  - cbn; lia.
  - cbn; lia.
  - cbn; lia.
  - cbn; lia.
Qed.

Lemma count_app p h1 h2 : count p (h1 ++ h2) = (count p h1 + count p h2)%nat.
Proof. unfold count. rewrite filter_app, app_length. reflexivity. Qed.

Lemma run_delivers_connect s cs s' h :
  Inv C T s -> run C T s cs = (s', h) ->
  (length (deliveries is_connect h) <= count connect_accepted h)%nat /\
  (length (deliveries is_ack h) <= count ack_accepted h)%nat.
Proof.
  revert s s' h. induction cs as [|c cs IH]; intros s s' h HI E; cbn [run] in E.
  - injection E as <- <-. cbn. lia.
  - destruct (call_step C T s c) as [s1 r] eqn:E1. destruct (run C T s1 cs) as [s2 h2] eqn:E2.
    injection E as <- <-.
    assert (Inv C T s1) as HI1.
    { pose proof (inv_step C T s c HI) as H. rewrite E1 in H. exact H. }
    destruct (IH _ _ _ HI1 E2) as [H1 H2]. destruct (step_delivers_connect _ _ _ _ HI E1) as [H3 H4].
    unfold deliveries, count in *. cbn [flat_map filter snd]. rewrite !app_length.
    destruct (connect_accepted (c, r)), (ack_accepted (c, r)); cbn [length]; lia.
Qed.

Theorem negotiation_at_most_once r0 cfg pin s0 cs s h :
  create C r0 cfg pin = Ok s0 -> run C T s0 cs = (s, h) ->
  (count connect_created h <= 1)%nat /\ (count ack_created h <= 1)%nat /\
  (length (deliveries is_connect h) <= 1)%nat /\ (length (deliveries is_ack h) <= 1)%nat.
Proof.
  intros Hc E. destruct (bounded_run C T _ _ _ _ _ _ _ Hc E) as (H1 & H2 & H3 & H4 & _).
  destruct (run_delivers_connect _ _ _ _ (inv_create C T _ _ _ _ Hc) E) as [H5 H6]. lia.
Qed.

(** ** Packaged forms used by Properties/ *)

Theorem read_panics_iff s d :
  reachable C T s -> ((exists p, snd (read C T d s) = Panic p) <-> panic_cause C T s d).
Proof. intros HR. apply read_panic_iff; [exact HL|]. apply inv_reachable, HR. Qed.

Theorem read_fails_connection_iff s d e :
  reachable C T s -> ~ failed C s ->
  (snd (read C T d s) = Err e /\ failed C (fst (read C T d s)) <-> failure_cause C T s d e).
Proof. intros HR. apply read_fails_iff; [exact HL|]. apply inv_reachable, HR. Qed.

Theorem write_too_early s data w s' w' o :
  ~ established s -> write_message C T data s w = (s', w', o) ->
  w' = w /\ failed C s' /\
  (failed C s -> o = Err ConnectionHadFail) /\
  (~ failed C s -> o = Err NegoMustHaveBeenSuccessful).
Proof.
  intros Hne E. destruct (write_before_success C T s data w s' w' o Hne E) as (-> & Hf & ->).
  split; [reflexivity|]. split; [exact Hf|]. rewrite failed_iff.
  destruct (msl_status s); split; intros H; try reflexivity; try discriminate; congruence.
Qed.

Theorem early_queue_grows s k d n data m :
  reachable C T s -> wants_only_ack s -> session_key s = Some k -> opens C T k d n data ->
  exists s', run C T s (repeat (CRead d) m) = (s', repeat (CRead d, RMsg (Ok None)) m) /\
    length (tmp_stack_user_msgs s') = (length (tmp_stack_user_msgs s) + m)%nat.
Proof.
  intros HR Hw Hk Ho. eapply early_queue_unbounded; try eassumption.
  destruct (inv_nego C T s (inv_reachable C T s HR) _ _ Hw) as (H1 & H2 & _).
  unfold received. rewrite H1, H2. cbn [In]. intros [H|[]]. lia.
Qed.

Theorem negotiation_iff r0 cfg pin s0 cs s h :
  create C r0 cfg pin = Ok s0 -> run C T s0 cs = (s, h) -> panic_free h ->
  (established s <-> negotiated h).
Proof.
  intros Hc E Hp. exact (negotiation_exact C T _ _ _ _ _ _ _ Hc E (panic_free_no_panic _ Hp)).
Qed.

End WithEnv.

(** ** The frames of Spec/Wire.v *)

Theorem frames_unambiguous :
  (forall e p c e' p' c', length e = 32%nat -> length e' = 32%nat -> length p = 32%nat -> length p' = 32%nat ->
     connect_frame e p c = connect_frame e' p' c' -> e = e' /\ p = p' /\ c = c') /\
  (forall x c x' c', length x = 32%nat -> length x' = 32%nat ->
     ack_frame x c = ack_frame x' c' -> x = x' /\ c = c') /\
  (forall n d n' d', n < 2 ^ 64 -> n' < 2 ^ 64 -> user_frame n d = user_frame n' d' -> n = n' /\ d = d') /\
  (forall e p c x c', connect_frame e p c <> ack_frame x c') /\
  (forall e p c n d, connect_frame e p c <> user_frame n d) /\
  (forall x c n d, ack_frame x c <> user_frame n d).
Proof.
  split; [exact connect_frame_inj|]. split; [intros; apply ack_frame_inj; [congruence|assumption]|].
  split; [exact user_frame_inj|].
  repeat split; intros; intros E; apply frame_inj in E as [E _]; try reflexivity; discriminate.
Qed.

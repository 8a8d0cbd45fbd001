(** What each expected datagram does to the layer that reads it. *)

From Coq Require Import Arith ZifyBool ZifyNat ZifyN.
From Verif.Model Require Import Minimal.
From Verif.Spec Require Import Wire Datagram Trace ReadSpec Accept Session Writers Attacks.
From Verif.Proofs Require Import BaseFacts IoFacts CipherFacts ReaderFacts ReadCases WindowFacts Invariant
  Negotiation Failure DatagramFacts ReadSpecFacts Accept Keys TraceInv UserReads Ledger Nonces Sending Early
  Histories Corollaries.

Section WithEnv.
Context (C : Crypto) (T : target) (HL : CryptoLaws C).

(** ** CONNECT *)
Lemma connect_is_datagram s seed epk c :
  length epk = 32%nat -> 86 + len c < 2 ^ usize_bits T ->
  is_datagram C T s (signed_connect C seed epk c) (signed_connect C seed epk c)
    (2 + len (connect_content epk (ed25519_public C seed) c)) (KConnect epk (ed25519_public C seed)).
Proof.
  intros He Hb. apply clear_datagram; [|reflexivity].
  apply connect_class; [apply len_32, He|apply len_32, (law_ed25519_public_len C HL)|].
  apply own_length_field. rewrite connect_content_len; [lia|exact He|apply (law_ed25519_public_len C HL)].
Qed.

(** The layer after accepting a CONNECT from [pk] carrying [epk]. *)
Definition after_connect (l : local_thread) (epk pk : bytes) (k : secret_key) (s : msl) : msl :=
  set_secret (Some (WithChacha k)) (set_ephemeral None (set_peer_epk (Some epk)
    (set_status (OngoingNegotiation l ValidConnectMsgReceived) (set_peer_sig_pubkey (Some pk) s)))).

Lemma read_connect_fwd s sk l seed epk c k :
  Inv C T s -> key_acceptable s (ed25519_public C seed) ->
  msl_status s = OngoingNegotiation l WaitConnectMsg ->
  (forall kp, ephemeral s = Some kp -> ekp_priv kp = sk) ->
  derived_secret C sk epk = Some k ->
  length epk = 32%nat -> 86 + len c < 2 ^ usize_bits T ->
  read C T (signed_connect C seed epk c) s
    = (after_connect l epk (ed25519_public C seed) k s,
       Ok (Some (MConnect [x00; x00; x00; x00] (ed25519_public C seed) (nonempty c)))).
Proof.
  intros HI Hka Hst Hsk Hk He Hb.
  destruct (inv_wait C T s HI l Hst) as (Hep & _ & _).
  destruct (ephemeral s) as [kp|] eqn:Ekp; [|contradiction]. specialize (Hsk kp eq_refl).
  unfold derived_secret in Hk. destruct (x25519_agree C sk epk) as [z|] eqn:Ez; [|discriminate].
  destruct (read C T (signed_connect C seed epk c) s) as [s' o] eqn:E.
  assert (o = Ok (Some (MConnect [x00; x00; x00; x00] (ed25519_public C seed) (nonempty c)))) as Ho.
  { replace o with (snd (read C T (signed_connect C seed epk c) s)) by (rewrite E; reflexivity).
    apply (connect_delivered_iff C T HL s HI). exists epk, c. split; [|auto].
    split; [apply len_32, He|]. split; [apply len_32, (law_ed25519_public_len C HL)|].
    split; [apply connect_signed; assumption|]. split; [exact Hka|]. split; [exists l; exact Hst|].
    exists kp, z. split; [exact Ekp|congruence]. }
  apply (read_connect_result C T HL s HI _ _ _ _ _ _ _ (connect_is_datagram s seed epk c He Hb)) in E.
  destruct E as [?|? ?|? ? ?|? ? ? ? ?|? ? ? ? ? ? ?|s' _ _ _ _ _ Hcn]; try discriminate Ho.
  rewrite Ho. f_equal. destruct Hcn as (l' & kp' & Hst' & Hkp' & ->).
  rewrite Hst in Hst'. injection Hst' as <-. rewrite Ekp in Hkp'. injection Hkp' as <-.
  rewrite Hsk, Ez. unfold after_connect.
  assert (pin (ed25519_public C seed) s = set_peer_sig_pubkey (Some (ed25519_public C seed)) s) as ->.
  { unfold pin. destruct Hka as [Hka|Hka]; rewrite Hka; [reflexivity|]. rewrite <- Hka. destruct s. reflexivity. }
  assert (forall a b : secret_key, Some a = Some b -> a = b) as Hinj by congruence.
  apply Hinj in Hk. subst k. clear Hinj.
  destruct (inv_kp C T s HI kp Ekp) as [Hp1 Hp2]. rewrite Hp2, Hsk.
  rewrite larger_gtb; [reflexivity|].
  unfold len. rewrite (law_x25519_public_len C HL), He. reflexivity.
Qed.

(** ** ACK *)
Lemma read_ack_fwd s r seed c st :
  Inv C T s -> peer_sig_pubkey s = Some (ed25519_public C seed) ->
  msl_status s = OngoingNegotiation ConnectMsgSent r ->
  apply_action (msl_status s) (Receive TAck) = (st, Ok None) ->
  50 + len c < 2 ^ usize_bits T ->
  read C T (signed_ack C seed (ephemeral_pubkey s) c) s = (set_status st s, Ok (Some (MAck (nonempty c)))).
Proof.
  intros HI Hpk Hst Hap Hb.
  assert (length (sha256 C (ephemeral_pubkey s)) = 32%nat) as Hch by (apply law_sha256_len; exact HL).
  destruct (read C T (signed_ack C seed (ephemeral_pubkey s) c) s) as [s' o] eqn:E.
  assert (o = Ok (Some (MAck (nonempty c)))) as Ho.
  { replace o with (snd (read C T (signed_ack C seed (ephemeral_pubkey s) c) s)) by (rewrite E; reflexivity).
    apply (ack_delivered_iff C T HL s HI). exists (ed25519_public C seed), c. split; [|reflexivity].
    split; [apply ack_signed; assumption|]. split; [exact Hpk|exists r; exact Hst]. }
  apply (read_ack_result C T HL s _ _ _ _ _ _ (ack_is_datagram C T s _ c _ Hch Hb)) in E.
  destruct E; try discriminate Ho. rewrite Ho. f_equal. congruence.
Qed.

Lemma read_ack_early_fwd s seed c :
  Inv C T s -> peer_sig_pubkey s = None -> ack_msg_recv_too_early s = None ->
  50 + len c < 2 ^ usize_bits T ->
  read C T (signed_ack C seed (ephemeral_pubkey s) c) s
    = (set_ack_early (Some (signed_ack C seed (ephemeral_pubkey s) c)) s, Ok None).
Proof.
  intros HI Hpk He Hb.
  assert (length (sha256 C (ephemeral_pubkey s)) = 32%nat) as Hch by (apply law_sha256_len; exact HL).
  destruct (read C T (signed_ack C seed (ephemeral_pubkey s) c) s) as [s' o] eqn:E.
  apply (read_ack_result C T HL s _ _ _ _ _ _ (ack_is_datagram C T s _ c _ Hch Hb)) in E.
  destruct E; try congruence; reflexivity.
Qed.

(** ** User messages *)
Lemma set_window_same s : set_window (next_nonce_expected s) (orphan_nonce_list s) s = s.
Proof. destruct s. reflexivity. Qed.
Lemma set_window_twice a b c d s : set_window a b (set_window c d s) = set_window a b s.
Proof. reflexivity. Qed.

Lemma read_user_fwd s k d n data :
  Inv C T s -> established s -> session_key s = Some k -> opens C T k d n data ->
  window_room s n -> used s + 1 < 2 ^ 64 ->
  exists v l, read C T d s = (set_window v l s, Ok (Some (MMessage (nonempty data)))) /\
    Inv C T (set_window v l s) /\ used (set_window v l s) = used s + 1 /\
    (forall m, received (set_window v l s) m <-> received s m \/ m = n).
Proof.
  intros HI He Hk Ho Hroom Hu.
  pose proof (proj2 (delivered_when C T HL s k d n data HI He Hk Ho Hu) Hroom) as Hdel.
  destruct (read C T d s) as [s' o] eqn:E. cbn [snd] in Hdel.
  pose proof (inv_read C T s d HI) as HI'. rewrite E in HI'. cbn [fst] in HI'.
  destruct (opens_class C T HL k d n data Ho) as (text & L & _ & Hc & _). rewrite <- Hk in Hc.
  apply (read_user_result C T HL s HI d text L n s' o Hc) in E as Hx.
  assert (exists v l, s' = set_window v l s) as (v & l & ->).
  { destruct Hx; try (rewrite Hdel in *; discriminate).
    match goal with H : update_window _ _ _ = _ |- _ => apply update_window_shape in H as [(v & l & -> & _)|[_ H]];
        [eauto|discriminate] end. }
  rewrite Hdel in *. exists v, l. split; [reflexivity|]. split; [exact HI'|].
  destruct (read_user_step C T HL _ _ _ _ HI E Hu)
    as [k' n' data' Hk1 Ho' _ _ _ He' Hst Hus Hrv|? ? _ _ _ _ _ Heq|Hy|Hno]; try discriminate.
  - assert (k' = k) by congruence. subst k'.
    destruct (opens_inj C T HL k d n data n' data' Ho Ho') as [<- <-]. auto.
  - exfalso. eapply Hno. reflexivity.
Qed.

Lemma read_queue_fwd s k n data :
  Inv C T s -> wants_only_ack s -> session_key s = Some k -> keystream_ok C k ->
  n < 2 ^ 64 -> 26 + len data < 2 ^ usize_bits T ->
  read C T (user_datagram C k n data) s
    = (set_stack (tmp_stack_user_msgs s ++ [hashed C (user_frame n data)]) s, Ok None).
Proof.
  intros HI Hw Hk Hks Hn Hb.
  destruct (inv_nego C T s HI _ _ Hw) as (W1 & W2 & _).
  pose proof (opens_user_datagram C T k n data Hn Hks Hb) as Ho.
  destruct (opens_class C T HL k _ n data Ho) as (text & L & Hd & Hc & _). rewrite <- Hk in Hc.
  apply (seal_inj C HL k) in Hd. subst text.
  destruct (read C T (user_datagram C k n data) s) as [s' o] eqn:E.
  apply (read_user_result C T HL s HI _ _ L n s' o Hc) in E.
  assert (~ received s n) as Hnr by (unfold received; rewrite W1, W2; cbn [In]; lia).
  assert (~ established s) as Hne by (rewrite established_iff, Hw; discriminate).
  destruct E; try contradiction; reflexivity.
Qed.

(** Nonces taken one after the other, each acceptable after the ones before. *)
Inductive taken : list N -> list N -> Prop :=
| taken_nil ns : taken ns []
| taken_cons ns n l : nonce_acceptable ns n -> taken (ns ++ [n]) l -> taken ns (n :: l).

Lemma taken_app ns a b : taken ns (a ++ b) <-> taken ns a /\ taken (ns ++ a) b.
Proof.
  revert ns. induction a as [|n a IH]; intros ns; cbn [app].
  - rewrite app_nil_r. split; [intros H; split; [constructor|exact H]|intros [_ H]; exact H].
  - split.
    + intros H. inversion H as [|? ? ? H1 H2]; subst. apply IH in H2 as [H2 H3].
      split; [constructor; assumption|]. rewrite <- app_assoc in H3. exact H3.
    + intros [H H3]. inversion H as [|? ? ? H1 H2]; subst. constructor; [exact H1|].
      apply IH. split; [exact H2|]. rewrite <- app_assoc. exact H3.
Qed.

Lemma taken_NoDup ns l : NoDup ns -> taken ns l -> NoDup (ns ++ l).
Proof.
  revert ns. induction l as [|n l IH]; intros ns Hn H; [rewrite app_nil_r; exact Hn|].
  inversion H as [|? ? ? [H1 _] H2]; subst.
  replace (ns ++ n :: l) with ((ns ++ [n]) ++ l) by (rewrite <- app_assoc; reflexivity).
  apply IH; [|exact H2]. apply NoDup_app_intro_snoc; assumption.
Qed.

Lemma drain_fwd k (xs : list (N * bytes)) ns acc s :
  Inv C T s -> established s -> session_key s = Some k -> keystream_ok C k ->
  Forall (fun x : N * bytes => fst x < 2 ^ 64 /\ 26 + len (snd x) < 2 ^ usize_bits T) xs ->
  NoDup ns -> (forall m, received s m <-> In m ns) -> taken ns (map fst xs) ->
  used s + len xs < 2 ^ 64 ->
  exists v l, drain_loop C T (map (fun x => hashed C (user_frame (fst x) (snd x))) xs) acc s
      = (set_window v l s, Ok (acc ++ drained xs)) /\
    Inv C T (set_window v l s) /\ used (set_window v l s) = used s + len xs /\
    (forall m, received (set_window v l s) m <-> In m (ns ++ map fst xs)).
Proof.
  intros HI He Hk Hks Hb. revert ns acc s HI He Hk.
  induction Hb as [|x xs [Hn Hx] Hb IH]; intros ns acc s HI He Hk Hnd Hrv Ht Hu; cbn [drain_loop map].
  - exists (next_nonce_expected s), (orphan_nonce_list s). rewrite !app_nil_r, set_window_same, len_nil, N.add_0_r. auto.
  - rewrite len_cons in Hu. inversion Ht as [|? ? ? Ha Ht']; subst.
    pose proof (opens_user_datagram C T k (fst x) (snd x) Hn Hks Hx) as Ho.
    destruct (opens_class C T HL k _ _ _ Ho) as (text & L & Hd & _ & _ & Hq & _).
    apply (seal_inj C HL k) in Hd. subst text.
    erewrite (read_inner_sealed C T HL k _ s Hk Hks); [|exact Hq].
    destruct (read_user_fwd s k _ _ _ HI He Hk Ho
      (proj2 (acceptable_room C T s ns (fst x) HI Hnd Hrv) Ha) ltac:(lia)) as (v1 & l1 & E1 & HI1 & Hu1 & Hr1).
    unfold user_datagram in E1. rewrite E1.
    set (s1 := set_window v1 l1 s) in *.
    destruct (IH (ns ++ [fst x]) (acc ++ [MMessage (nonempty (snd x))]) s1 HI1) as (v2 & l2 & E2 & HI2 & Hu2 & Hr2).
    + apply established_iff. apply established_iff in He. exact He.
    + exact Hk.
    + apply NoDup_app_intro_snoc; [exact Hnd|apply Ha].
    + intros m. rewrite Hr1, Hrv, in_app_iff. cbn [In]. intuition congruence.
    + exact Ht'.
    + lia.
    + exists v2, l2. rewrite E2. unfold s1. rewrite set_window_twice. fold s1.
      cbn [drained map]. rewrite <- app_assoc. split; [reflexivity|].
      unfold s1 in HI2, Hu2, Hr2. rewrite set_window_twice in HI2, Hu2.
      split; [exact HI2|]. split; [rewrite len_cons; fold s1 in Hu2; lia|].
      intros m. rewrite <- app_assoc in Hr2. rewrite <- Hr2. rewrite set_window_twice. reflexivity.
Qed.

End WithEnv.

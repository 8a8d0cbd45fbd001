(** Keys, secrets and negotiation messages along a whole history. *)

From Coq Require Import Arith ZifyBool ZifyNat ZifyN.
From Verif.Model Require Import Minimal.
From Verif.Spec Require Import Wire Datagram Trace ReadSpec Accept Session.
From Verif.Proofs Require Import BaseFacts CipherFacts ReaderFacts ReadCases WindowFacts Invariant
  Negotiation Failure DatagramFacts ReadSpecFacts Accept Keys.

Section WithEnv.
Context (C : Crypto) (T : target) (HL : CryptoLaws C).

Lemma len_eq_length (a : bytes) n : length a = n -> len a = N.of_nat n.
Proof. unfold len. intros ->. reflexivity. Qed.

Lemma carries_epk_inj d e1 e2 : carries_epk d e1 -> carries_epk d e2 -> e1 = e2.
Proof.
  intros (L1 & l1 & p1 & r1 & _ & E1) (L2 & l2 & p2 & r2 & _ & E2). rewrite E1 in E2.
  apply app_inv_head in E2. apply app_inv_head in E2.
  apply app_inv_len in E2 as [_ E2]; [|reflexivity].
  apply app_inv_head in E2.
  apply app_inv_len in E2 as [E2 _]; [exact E2|unfold len in *; lia].
Qed.

(** Drained messages are user messages. *)
Lemma rcase_queued_user d s s' m :
  queued T d -> rcase C T false d s s' (Ok (Some m)) -> is_user m = true.
Proof.
  intros Hq H.
  destruct (reader_read_queued C T d (encrypt_algo_with_secret s) Hq)
    as (L & n0 & rest & ue & HL' & Hn & Hd & Hue & Hr).
  remember (Ok (Some m)) as o0 eqn:Eo.
  destruct H; try discriminate Eo;
    match goal with
    | H1 : reader_read _ _ _ _ _ = Ok ?dd |- _ =>
        rewrite Hr in H1; injection H1 as <-; cbn [dd_headers] in *; try discriminate
    | H1 : reader_read _ _ _ _ _ = _ |- _ => rewrite Hr in H1; discriminate
    end; try congruence;
    (destruct o; try discriminate Eo;
     match goal with Hg : get_message _ = _ |- _ => apply get_message_kind in Hg as (Hk & _) end;
     apply Hk; eexists; reflexivity).
Qed.

Lemma drain_loop_user bs acc s s' l :
  Forall (queued T) bs -> drain_loop C T bs acc s = (s', Ok l) ->
  forall m, In m l -> In m acc \/ is_user m = true.
Proof.
  revert acc s. induction bs as [|b bs IH]; intros acc s Hq E m Hm; cbn [drain_loop] in E.
  - injection E as <- <-. auto.
  - destruct (read_inner C T false b s) as [s1 o1] eqn:E1.
    apply read_inner_cases in E1. pose proof (Forall_inv Hq) as Hb. apply Forall_inv_tail in Hq.
    destruct o1 as [[m1|]|e|p]; try discriminate.
    + apply rcase_queued_user in E1; [|exact Hb].
      destruct (IH _ _ Hq E m Hm) as [H|H]; [|auto].
      apply in_app_iff in H as [H|[<-|[]]]; auto.
    + eapply IH; eassumption.
Qed.

(** The two reading calls are reads of some datagram. *)
Lemma take_ack_read s :
  take_ack_msg_recv_too_early C T s =
  match ack_msg_recv_too_early s with
  | Some b => read C T b (set_ack_early None s)
  | None => (s, Ok None)
  end.
Proof. reflexivity. Qed.

Lemma inv_set_ack_early v s : Inv C T s -> Inv C T (set_ack_early v s).
Proof. intros []. constructor; assumption. Qed.

Lemma session_key_secret s s' :
  encrypt_algo_with_secret s' = encrypt_algo_with_secret s -> session_key s' = session_key s.
Proof. unfold session_key. intros ->. reflexivity. Qed.

Lemma connected_fields s epk pk s' :
  connected C s epk pk s' ->
  exists l kp, msl_status s = OngoingNegotiation l WaitConnectMsg /\ ephemeral s = Some kp /\
    msl_status s' = OngoingNegotiation l ValidConnectMsgReceived /\
    peer_epk s' = Some epk /\ ephemeral s' = None /\
    encrypt_algo_with_secret s' =
      (match x25519_agree C (ekp_priv kp) epk with
            | Some key => Some (WithChacha (secret_key_new
                (pbkdf2 C PBKDF2_HMAC_SHA384 3
                   (if bytes_gtb (ephemeral_pubkey s) epk then ephemeral_pubkey s else epk) key 48)))
            | None => None
            end).
Proof.
  intros (l & kp & Hst & Hkp & ->). exists l, kp. split; [exact Hst|]. split; [exact Hkp|].
  repeat split.
Qed.

Lemma connected_secret s sk epk pk s' :
  ephemeral_pubkey s = x25519_public C sk ->
  (forall kp, ephemeral s = Some kp -> ekp_priv kp = sk) ->
  len epk = 32 ->
  connected C s epk pk s' -> session_key s' = derived_secret C sk epk.
Proof.
  intros Hpub Hpriv Hle H. apply connected_fields in H as (l & kp & _ & Hkp & _ & _ & _ & Hs).
  rewrite (Hpriv _ Hkp) in Hs. unfold session_key, derived_secret. rewrite Hs.
  destruct (x25519_agree C sk epk) as [z|]; [|reflexivity].
  f_equal. rewrite Hpub. rewrite larger_gtb.
  - reflexivity.
  - rewrite (len_eq_length _ _ (law_x25519_public_len C HL sk)). symmetry. exact Hle.
Qed.

(** ** One read *)
Lemma clear_ack_pub s s' b :
  ephemeral_pubkey s' = ephemeral_pubkey s -> clear_ack C T s b -> clear_ack C T s' b.
Proof. unfold clear_ack. intros ->. auto. Qed.

Lemma clear_ack_not_connect s b s' o :
  clear_ack C T s b -> Inv C T s -> read C T b s = (s', o) ->
  connect_accepted (CRead b, RMsg o) = false /\ ~ exists epk, carries_epk b epk.
Proof.
  intros [L Hc] HI E. pose proof (Hc (session_key s)) as Hc'.
  split.
  - apply (read_ack_result C T HL s b _ _ _ _ _ Hc') in E.
    destruct E as [| | | | |k e ? ? ? ? He|k st]; try reflexivity.
    + destruct He as [[_ ->]|[_ ->]]; reflexivity.
    + destruct (get_message_exact T b L (KAck (sha256 C (ephemeral_pubkey s)))) as [(_ & _ & ->)|[_ ->]]; reflexivity.
  - intros (epk & Hl & l' & pk & r & Hp & ->).
    apply datagram_frame in Hc' as (_ & _ & (th & rest & Ht & Hh) & _).
    inversion Hh as [| |ch0 rest0 Lc E1 E2 E3]. subst th.
    apply app_inv_head in Ht. apply app_inv_head in Ht.
    apply app_inv_len in Ht as [_ Ht]; [|reflexivity]. discriminate.
Qed.

(** ** The invariant *)
Section Created.
Context (sk : bytes) (pin0 : option bytes).
Let epk0 := x25519_public C sk.

Record TInv (s : msl) (h : history) : Prop := {
  ti_inv : Inv C T s;
  ti_pub : ephemeral_pubkey s = epk0;
  ti_priv : forall kp, ephemeral s = Some kp -> ekp_priv kp = sk;
  ti_pin : forall k, pin0 = Some k -> peer_sig_pubkey s = Some k;
  ti_early : forall b, ack_msg_recv_too_early s = Some b ->
    In (CRead b, RMsg (Ok None)) h /\ clear_ack C T s b;
  ti_neg : forall k, key_acceptable s k -> forall h1 e h2 m,
    h = h1 ++ e :: h2 -> In m (delivered (snd e)) -> negotiation_ok C T k epk0 h1 e m;
  ti_peer : forall epk, peer_epk s = Some epk -> exists d r,
    In (CRead d, r) h /\ carries_epk d epk /\
    (connect_accepted (CRead d, r) = true \/ panics r = true);
  ti_acc : forall e, In e h -> connect_accepted e = true ->
    exists d epk, fst e = CRead d /\ carries_epk d epk /\ peer_epk s = Some epk;
  ti_secret : session_key s =
    match peer_epk s with Some epk => derived_secret C sk epk | None => None end
}.

Lemma acceptable_mono s s' k :
  (forall k, peer_sig_pubkey s = Some k -> peer_sig_pubkey s' = Some k) ->
  key_acceptable s' k -> key_acceptable s k.
Proof.
  intros H [Hk|Hk]; unfold key_acceptable; destruct (peer_sig_pubkey s) as [k0|] eqn:E; auto;
    rewrite (H k0 eq_refl) in Hk; [discriminate|auto].
Qed.

(** Steps that leave the keys alone and deliver no negotiation message. *)
Lemma tinv_quiet s h s' c r :
  TInv s h -> Inv C T s' -> keys s' = keys s ->
  connect_accepted (c, r) = false ->
  (forall m, In m (delivered r) -> is_user m = true) ->
  TInv s' (h ++ [(c, r)]).
Proof.
  intros [] HI Hk Ha Hm. unfold keys in Hk. injection Hk as K1 K2 K3 K4 K5 K6.
  constructor.
  - exact HI.
  - congruence.
  - rewrite K1. assumption.
  - rewrite K4. assumption.
  - rewrite K6. intros b Hb. destruct (ti_early0 b Hb) as [H1 H2].
    split; [apply in_app_iff; auto|]. eapply clear_ack_pub; eassumption.
  - intros k Hk h1 e h2 m Eh Hin. unfold key_acceptable in Hk. rewrite K4 in Hk.
    destruct h2 as [|e2 h2] using rev_ind.
    + apply app_inj_tail in Eh as [<- <-]. cbn [snd] in Hin. apply Hm in Hin.
      destruct m; try discriminate. exact I.
    + clear IHh2. rewrite app_comm_cons, app_assoc in Eh. apply app_inj_tail in Eh as [Eh _].
      eapply ti_neg0; eassumption.
  - rewrite K3. intros epk He. destruct (ti_peer0 epk He) as (d & r0 & H1 & H2 & H3).
    exists d, r0. rewrite in_app_iff. auto.
  - intros e He Hc. apply in_app_iff in He as [He|[<-|[]]]; [|congruence].
    rewrite K3. auto.
  - unfold session_key. rewrite K5, K3. exact ti_secret0.
Qed.

(** A read of [d], either the incoming datagram or the early ACK. *)
Lemma tinv_read s h s' c d o :
  TInv s h -> (c = CRead d \/ c = CTakeAck /\ In (CRead d, RMsg (Ok None)) h /\ clear_ack C T s d) ->
  (ack_msg_recv_too_early s = None \/ c = CRead d) ->
  read C T d s = (s', o) -> TInv s' (h ++ [(c, RMsg o)]).
Proof.
  intros HT Hc Hea E. pose proof HT as [].
  pose proof (read_keys C T HL s d s' o ti_inv0 E) as (R1 & R2 & R3 & R4 & R5).
  assert (forall k, key_acceptable s' k -> key_acceptable s k) as Hmono
    by (intros k; apply acceptable_mono; exact R2).
  assert (connect_accepted (c, RMsg o) = connect_accepted (CRead d, RMsg o)) as Hca by reflexivity.
  constructor.
  - pose proof (inv_step C T s (CRead d) ti_inv0) as H. cbn [call_step] in H. rewrite E in H. exact H.
  - congruence.
  - destruct R4 as [(_ & _ & -> & _)|(epk & pk & _ & Hcn & _)]; [assumption|].
    apply connected_fields in Hcn as (l & kp & _ & _ & _ & _ & -> & _). discriminate.
  - intros k Hk. apply R2, ti_pin0, Hk.
  - intros b Hb. destruct R5 as [R5|(_ & -> & R5 & _ & Hcl)].
    + rewrite R5 in Hb. destruct (ti_early0 b Hb) as [H1 H2].
      split; [apply in_app_iff; auto|]. eapply clear_ack_pub; eassumption.
    + rewrite R5 in Hb. injection Hb as <-. split; [|eapply clear_ack_pub; eassumption].
      apply in_app_iff. destruct Hc as [-> |(_ & Hc & _)]; [right; left; reflexivity|left; exact Hc].
  - intros k Hk h1 e h2 m Eh Hin.
    destruct h2 as [|e2 h2] using rev_ind.
    2:{ clear IHh2. rewrite app_comm_cons, app_assoc in Eh. apply app_inj_tail in Eh as [Eh _].
        eapply ti_neg0; eauto. }
    apply app_inj_tail in Eh as [<- <-]. cbn [snd] in Hin.
    assert (source h (c, RMsg o) d) as Hsrc.
    { destruct Hc as [-> |(-> & Hc & _)]; [reflexivity|exact Hc]. }
    destruct o as [[m0|]|e|p]; cbn [delivered] in Hin; try contradiction.
    destruct Hin as [-> |[]]. assert (snd (read C T d s) = Ok (Some m)) as Hs by (rewrite E; reflexivity).
    destruct m as [a pk o1|o1|o1]; cbn [negotiation_ok]; [| |exact I].
    + apply (connect_delivered_iff C T HL s ti_inv0) in Hs as (epk & cd & (Le & Lp & Hsf & Hka & _) & -> & ->).
      assert (k = pk) as ->.
      { destruct R4 as [(_ & _ & _ & R4)|(e' & pk' & Hcar & Hcn & _)]; [discriminate|].
        assert (exists L, is_datagram C T s d d L (KConnect epk pk)) as [L Hd].
        { destruct Hsf as (L & sig & Hlf & Ed & _). exists L.
          rewrite Ed. apply clear_datagram; [|reflexivity]. apply connect_class; assumption. }
        apply (read_connect_result C T HL s ti_inv0 d d L epk pk) in E; [|exact Hd].
        assert (peer_sig_pubkey s' = Some pk) as Hp.
        { inversion E as [| | | | |s2 ? ? ? ? ? Hcn2]; subst.
          destruct Hcn2 as (l2 & kp2 & _ & _ & ->). apply pin_acceptable. exact Hka. }
        destruct Hk as [Hk|Hk]; congruence. }
      split; [reflexivity|]. exists d, epk, cd. auto.
    + apply (ack_delivered_iff C T HL s ti_inv0) in Hs as (pk & cd & (Hsf & Hpk & _) & ->).
      assert (k = pk) as ->.
      { apply Hmono in Hk. destruct Hk as [Hk|Hk]; congruence. }
      exists d, cd. rewrite ti_pub0 in Hsf. exact (conj Hsrc (conj eq_refl Hsf)).
  - intros epk He. destruct R4 as [(R4 & _)|(e' & pk' & Hcar & Hcn & _ & Ho)].
    + rewrite R4 in He. destruct (ti_peer0 epk He) as (d0 & r0 & H1 & H2 & H3).
      exists d0, r0. rewrite in_app_iff. auto.
    + apply connected_fields in Hcn as (l & kp & _ & _ & _ & Hp & _).
      assert (e' = epk) by congruence. subst e'.
      destruct Hc as [-> |(_ & _ & Hcl)].
      * exists d, (RMsg o). rewrite in_app_iff. cbn [In]. auto.
      * exfalso. destruct (clear_ack_not_connect _ _ _ _ Hcl ti_inv0 E) as [_ Hn]. eauto.
  - intros e He Ha. apply in_app_iff in He as [He|[<-|[]]].
    + destruct (ti_acc0 e He Ha) as (d0 & epk & H1 & H2 & H3). exists d0, epk.
      split; [exact H1|]. split; [exact H2|].
      destruct R4 as [(R4 & _)|(e' & pk' & _ & Hcn & _)]; [congruence|].
      apply connected_fields in Hcn as (l & kp & Hst & _).
      destruct (inv_wait C T s ti_inv0 l Hst) as (_ & Hn & _). congruence.
    + rewrite Hca in Ha. destruct R4 as [(_ & _ & _ & R4)|(e' & pk' & Hcar & Hcn & _)]; [congruence|].
      apply connected_fields in Hcn as (l & kp & _ & _ & _ & Hp & _).
      destruct Hc as [-> |(_ & _ & Hcl)]; [exists d, e'; auto|].
      exfalso. destruct (clear_ack_not_connect _ _ _ _ Hcl ti_inv0 E) as [_ Hn]. eauto.
  - destruct R4 as [(R4 & R4' & _)|(e' & pk' & Hcar & Hcn & _)].
    + rewrite R4. rewrite (session_key_secret _ _ R4'). exact ti_secret0.
    + rewrite (connected_secret s sk e' pk' s' ti_pub0 ti_priv0 (proj1 Hcar) Hcn).
      apply connected_fields in Hcn as (l & kp & _ & _ & _ & -> & _). reflexivity.
Qed.

Lemma tinv_step s h c s' r :
  TInv s h -> call_step C T s c = (s', r) -> TInv s' (h ++ [(c, r)]).
Proof.
  intros HT E. pose proof (ti_inv _ _ HT) as HI.
  pose proof (inv_step C T s c HI) as HI'. rewrite E in HI'. cbn [fst] in HI'.
  destruct c.
  - cbn [call_step] in E. destruct (read C T incoming s) as [s1 o] eqn:Er. injection E as <- <-.
    eapply tinv_read; eauto.
  - cbn [call_step] in E. rewrite take_ack_read in E.
    destruct (ack_msg_recv_too_early s) as [b|] eqn:Eb.
    + destruct (read C T b (set_ack_early None s)) as [s1 o] eqn:Er. injection E as <- <-.
      destruct (ti_early _ _ HT b Eb) as [Hin Hcl].
      eapply (tinv_read (set_ack_early None s)); [|right; split; [reflexivity|split; [exact Hin|exact Hcl]]|left; reflexivity|exact Er].
      destruct HT. constructor; try assumption; try discriminate.
      apply inv_set_ack_early, HI.
    + injection E as <- <-. eapply tinv_quiet; eauto.
  - pose proof E as E0. cbn [call_step] in E0.
    destruct (drain_tmp_stack_user_msgs C T s) as [s1 o] eqn:Er. injection E0 as <- <-.
    eapply tinv_quiet; eauto.
    + eapply step_keys; try eassumption; discriminate.
    + destruct o as [l| |]; cbn [delivered]; try contradiction. intros m Hm.
      unfold drain_tmp_stack_user_msgs in Er.
      eapply drain_loop_user in Er; [|apply (inv_queue C T s HI)|exact Hm].
      destruct Er as [[]|Er]. exact Er.
  - pose proof E as E0. cbn [call_step] in E0.
    destruct (create_connect_message C public_key cd s) as [s1 o]. injection E0 as <- <-.
    eapply tinv_quiet; eauto; eapply step_keys; try eassumption; discriminate.
  - pose proof E as E0. cbn [call_step] in E0.
    destruct (create_ack_message C cd s) as [s1 o]. injection E0 as <- <-.
    eapply tinv_quiet; eauto; eapply step_keys; try eassumption; discriminate.
  - pose proof E as E0. cbn [call_step] in E0.
    destruct (write_message C T data s w) as [[s1 w'] o]. injection E0 as <- <-.
    eapply tinv_quiet; eauto; eapply step_keys; try eassumption; discriminate.
  - pose proof E as E0. cbn [call_step] in E0.
    destruct (try_clone s) as [s1 o]. injection E0 as <- <-.
    eapply tinv_quiet; eauto; eapply step_keys; try eassumption; discriminate.
  - pose proof E as E0. cbn [call_step] in E0.
    destruct (change_config cfg s) as [s1 o]. injection E0 as <- <-.
    eapply tinv_quiet; eauto; eapply step_keys; try eassumption; discriminate.
Qed.

Lemma tinv_run cfg s0 cs s h :
  create C (RngKey sk) cfg pin0 = Ok s0 -> run C T s0 cs = (s, h) -> TInv s h.
Proof.
  intros Hc. revert s h. induction cs as [|c cs IH] using rev_ind; intros s h E.
  - injection E as <- <-. pose proof (inv_create C T _ _ _ _ Hc) as HI.
    cbn in Hc. injection Hc as <-.
    constructor; cbn [ephemeral ephemeral_pubkey peer_sig_pubkey ack_msg_recv_too_early peer_epk]; auto;
      try discriminate.
    + intros kp [= <-]. reflexivity.
    + intros k _ [|x0 l0] e h2 m Eh; discriminate.
    + intros e [].
  - rewrite run_snoc in E. destruct (run C T s0 cs) as [s1 h1] eqn:E1.
    destruct (call_step C T s1 c) as [s2 r] eqn:E2. injection E as <- <-.
    eapply tinv_step; eauto.
Qed.

End Created.
End WithEnv.

(** [read_inner] flattened into its outcomes. *)

From Coq Require Import Arith ZifyBool ZifyNat ZifyN.
From Verif.Model Require Import Minimal.
From Verif.Proofs Require Import BaseFacts.

Definition pin (pk : bytes) (s : msl) : msl :=
  match peer_sig_pubkey s with Some _ => s | None => set_peer_sig_pubkey (Some pk) s end.

Section WithEnv.
Context (C : Crypto) (T : target).

Inductive rcase (chk : bool) (d : bytes) (s : msl) : msl -> outcome (option message) -> Prop :=
| rc_reader_panic p :
    reader_read C T (encrypt_algo_with_secret s) d chk = Panic p -> rcase chk d s s (Panic p)
| rc_reader_err e :
    reader_read C T (encrypt_algo_with_secret s) d chk = Err e ->
    rcase chk d s (set_status Fail s) (Err e)
(* CONNECT *)
| rc_conn_mismatch dd epk al pk k :
    reader_read C T (encrypt_algo_with_secret s) d chk = Ok dd ->
    dd_headers dd = HConnect epk al pk ->
    peer_sig_pubkey s = Some k -> pk <> k ->
    rcase chk d s s (Err UnexpectedRemoteSigPubKey)
| rc_conn_sig_panic dd epk al pk p :
    reader_read C T (encrypt_algo_with_secret s) d chk = Ok dd ->
    dd_headers dd = HConnect epk al pk ->
    peer_sig_pubkey (pin pk s) = Some pk ->
    verify_sig C (dd_data dd) pk (dd_user_msg_end dd) = Panic p ->
    rcase chk d s (pin pk s) (Panic p)
| rc_conn_bad_sig dd epk al pk :
    reader_read C T (encrypt_algo_with_secret s) d chk = Ok dd ->
    dd_headers dd = HConnect epk al pk ->
    peer_sig_pubkey (pin pk s) = Some pk ->
    verify_sig C (dd_data dd) pk (dd_user_msg_end dd) = Ok false ->
    rcase chk d s (pin pk s) (Err (RecvInvalidMsg InvalidHashOrSig))
| rc_conn_status dd epk al pk st e :
    reader_read C T (encrypt_algo_with_secret s) d chk = Ok dd ->
    dd_headers dd = HConnect epk al pk ->
    peer_sig_pubkey (pin pk s) = Some pk ->
    verify_sig C (dd_data dd) pk (dd_user_msg_end dd) = Ok true ->
    apply_action (msl_status s) (Receive TConnect) = (st, Err e) ->
    rcase chk d s (set_status st (pin pk s)) (Err e)
| rc_conn_ok dd epk al pk st se s' o :
    reader_read C T (encrypt_algo_with_secret s) d chk = Ok dd ->
    dd_headers dd = HConnect epk al pk ->
    peer_sig_pubkey (pin pk s) = Some pk ->
    verify_sig C (dd_data dd) pk (dd_user_msg_end dd) = Ok true ->
    apply_action (msl_status s) (Receive TConnect) = (st, Ok se) ->
    compute_shared_secret C epk (set_peer_epk (Some epk) (set_status st (pin pk s))) = (s', o) ->
    rcase chk d s s'
      (match o with Ok _ => get_message dd | Err e => Err e | Panic p => Panic p end)
(* ACK *)
| rc_ack_challenge dd ch :
    reader_read C T (encrypt_algo_with_secret s) d chk = Ok dd ->
    dd_headers dd = HAck ch -> ch <> sha256 C (ephemeral_pubkey s) ->
    rcase chk d s s (Err (RecvInvalidMsg InvalidChallenge))
| rc_ack_early dd ch :
    reader_read C T (encrypt_algo_with_secret s) d chk = Ok dd ->
    dd_headers dd = HAck ch -> ch = sha256 C (ephemeral_pubkey s) ->
    peer_sig_pubkey s = None -> ack_msg_recv_too_early s = None ->
    rcase chk d s (set_ack_early (Some d) s) (Ok None)
| rc_ack_early_twice dd ch b :
    reader_read C T (encrypt_algo_with_secret s) d chk = Ok dd ->
    dd_headers dd = HAck ch -> ch = sha256 C (ephemeral_pubkey s) ->
    peer_sig_pubkey s = None -> ack_msg_recv_too_early s = Some b ->
    rcase chk d s (set_status Fail s) (Err (RecvInvalidMsg UnexpectedAckMsg))
| rc_ack_sig_panic dd ch k p :
    reader_read C T (encrypt_algo_with_secret s) d chk = Ok dd ->
    dd_headers dd = HAck ch -> ch = sha256 C (ephemeral_pubkey s) ->
    peer_sig_pubkey s = Some k ->
    verify_sig C (dd_data dd) k (dd_user_msg_end dd) = Panic p ->
    rcase chk d s s (Panic p)
| rc_ack_bad_sig dd ch k :
    reader_read C T (encrypt_algo_with_secret s) d chk = Ok dd ->
    dd_headers dd = HAck ch -> ch = sha256 C (ephemeral_pubkey s) ->
    peer_sig_pubkey s = Some k ->
    verify_sig C (dd_data dd) k (dd_user_msg_end dd) = Ok false ->
    rcase chk d s s (Err (RecvInvalidMsg InvalidHashOrSig))
| rc_ack_status dd ch k st e :
    reader_read C T (encrypt_algo_with_secret s) d chk = Ok dd ->
    dd_headers dd = HAck ch -> ch = sha256 C (ephemeral_pubkey s) ->
    peer_sig_pubkey s = Some k ->
    verify_sig C (dd_data dd) k (dd_user_msg_end dd) = Ok true ->
    apply_action (msl_status s) (Receive TAck) = (st, Err e) ->
    rcase chk d s (set_status st s) (Err e)
| rc_ack_ok dd ch k st se :
    reader_read C T (encrypt_algo_with_secret s) d chk = Ok dd ->
    dd_headers dd = HAck ch -> ch = sha256 C (ephemeral_pubkey s) ->
    peer_sig_pubkey s = Some k ->
    verify_sig C (dd_data dd) k (dd_user_msg_end dd) = Ok true ->
    apply_action (msl_status s) (Receive TAck) = (st, Ok se) ->
    rcase chk d s (set_status st s) (get_message dd)
(* USER *)
| rc_user_nonce dd n :
    reader_read C T (encrypt_algo_with_secret s) d chk = Ok dd ->
    dd_headers dd = HUserMsg n ->
    (n < next_nonce_expected s \/ In n (orphan_nonce_list s)) ->
    rcase chk d s s (Err (RecvInvalidMsg InvalidNonce))
| rc_user_status dd n e :
    reader_read C T (encrypt_algo_with_secret s) d chk = Ok dd ->
    dd_headers dd = HUserMsg n ->
    next_nonce_expected s <= n -> ~ In n (orphan_nonce_list s) ->
    apply_action (msl_status s) (Receive TUserMsg) = (Fail, Err e) ->
    rcase chk d s (set_status Fail s) (Err e)
| rc_user_push dd n :
    reader_read C T (encrypt_algo_with_secret s) d chk = Ok dd ->
    dd_headers dd = HUserMsg n ->
    next_nonce_expected s <= n -> ~ In n (orphan_nonce_list s) ->
    msl_status s = OngoingNegotiation ConnectMsgSent AckMsgSent ->
    rcase chk d s (set_stack (tmp_stack_user_msgs s ++ [dd_data dd]) s) (Ok None)
| rc_user_hash_panic dd n p :
    reader_read C T (encrypt_algo_with_secret s) d chk = Ok dd ->
    dd_headers dd = HUserMsg n ->
    next_nonce_expected s <= n -> ~ In n (orphan_nonce_list s) ->
    msl_status s = NegotiationSuccessful ->
    len (dd_data dd) < dd_user_msg_end dd -> p = PSliceRange ->
    rcase chk d s s (Panic p)
| rc_user_bad_hash dd n :
    reader_read C T (encrypt_algo_with_secret s) d chk = Ok dd ->
    dd_headers dd = HUserMsg n ->
    next_nonce_expected s <= n -> ~ In n (orphan_nonce_list s) ->
    msl_status s = NegotiationSuccessful ->
    dd_user_msg_end dd <= len (dd_data dd) ->
    skipn (N.to_nat (dd_user_msg_end dd)) (dd_data dd)
      <> sha256 C (firstn (N.to_nat (dd_user_msg_end dd)) (dd_data dd)) ->
    rcase chk d s s (Err (RecvInvalidMsg InvalidHashOrSig))
| rc_user_window dd n s' o :
    reader_read C T (encrypt_algo_with_secret s) d chk = Ok dd ->
    dd_headers dd = HUserMsg n ->
    next_nonce_expected s <= n -> ~ In n (orphan_nonce_list s) ->
    msl_status s = NegotiationSuccessful ->
    dd_user_msg_end dd <= len (dd_data dd) ->
    skipn (N.to_nat (dd_user_msg_end dd)) (dd_data dd)
      = sha256 C (firstn (N.to_nat (dd_user_msg_end dd)) (dd_data dd)) ->
    update_window T n s = (s', o) ->
    rcase chk d s s'
      (match o with Ok _ => get_message dd | Err e => Err e | Panic p => Panic p end).

Lemma set_status_same s : set_status (msl_status s) s = s.
Proof. destruct s; reflexivity. Qed.

Lemma set_contains_In n l : set_contains n l = true <-> In n l.
Proof.
  unfold set_contains. rewrite existsb_exists. split.
  - intros (x & Hx & E). apply N.eqb_eq in E. congruence.
  - intros H. exists n. split; [exact H|apply N.eqb_refl].
Qed.

Lemma set_contains_nIn n l : set_contains n l = false <-> ~ In n l.
Proof. rewrite <- set_contains_In, not_true_iff_false. reflexivity. Qed.

Lemma apply_action_not_panic st a p : snd (apply_action st a) <> Panic p.
Proof.
  destruct st as [|[] []|]; destruct a as [[]|[]]; cbn; discriminate.
Qed.

Lemma verify_sig_not_err data k ue e : verify_sig C data k ue <> Err e.
Proof.
  unfold verify_sig. destruct (slice_to data ue) eqn:E1; cbn [obind]; try discriminate.
  - destruct (slice_from data ue) eqn:E2; cbn [obind]; try discriminate.
    exfalso; eapply slice_from_no_err; eauto.
  - exfalso; eapply slice_to_no_err; eauto.
Qed.

Lemma get_message_not_err dd e : get_message dd <> Err e.
Proof.
  unfold get_message. destruct (slice _ _ _) eqn:E; cbn [obind]; try discriminate.
  exfalso; eapply slice_no_err; eauto.
Qed.

Lemma read_inner_cases chk d s s' o :
  read_inner C T chk d s = (s', o) -> rcase chk d s s' o.
Proof.
  unfold read_inner.
  destruct (reader_read C T (encrypt_algo_with_secret s) d chk) as [dd|e|p] eqn:Er.
  2: { intros E; injection E as <- <-. eapply rc_reader_err; eassumption. }
  2: { intros E; injection E as <- <-. eapply rc_reader_panic; eassumption. }
  destruct (dd_headers dd) as [epk al pk|ch|n] eqn:Eh.
  - (* CONNECT *)
    unfold read_connect.
    assert (forall k, peer_sig_pubkey s = Some k ->
              bytes_eqb pk k = true -> peer_sig_pubkey (pin pk s) = Some pk) as Hpin1.
    { intros k Hk E. apply bytes_eqb_eq in E. subst k. unfold pin. rewrite Hk. exact Hk. }
    assert (peer_sig_pubkey s = None -> peer_sig_pubkey (pin pk s) = Some pk) as Hpin2.
    { intros Hk. unfold pin. rewrite Hk. reflexivity. }
    assert (forall sp, sp = pin pk s -> peer_sig_pubkey sp = Some pk ->
      match verify_sig C (dd_data dd) pk (dd_user_msg_end dd) with
      | Ok true =>
          let '(st, r) := apply_action (msl_status sp) (Receive TConnect) in
          match r with
          | Ok _ =>
              let (s0, o0) :=
                compute_shared_secret C epk (set_peer_epk (Some epk) (set_status st sp)) in
              match o0 with
              | Ok _ => (s0, get_message dd)
              | Err e => (s0, Err e)
              | Panic p => (s0, Panic p)
              end
          | Err e => (set_status st sp, Err e)
          | Panic p => (set_status st sp, Panic p)
          end
      | Ok false => (sp, Err (RecvInvalidMsg InvalidHashOrSig))
      | Err e => (sp, Err e)
      | Panic p => (sp, Panic p)
      end = (s', o) -> rcase chk d s s' o) as Hrest.
    { intros sp Hsp Hpk.
      assert (msl_status sp = msl_status s) as Hst.
      { subst sp. unfold pin. destruct (peer_sig_pubkey s); reflexivity. }
      rewrite Hst. subst sp.
      destruct (verify_sig C (dd_data dd) pk (dd_user_msg_end dd)) as [[|]|e|p] eqn:Ev.
      - destruct (apply_action (msl_status s) (Receive TConnect)) as [st [se|e|p]] eqn:Ea.
        + destruct (compute_shared_secret C epk _) as [s0 o0] eqn:Ec.
          intros E.
          assert (s' = s0 /\ o = match o0 with Ok _ => get_message dd | Err e => Err e
                                | Panic p => Panic p end) as [-> ->]
            by (destruct o0; injection E as <- <-; auto).
          eapply rc_conn_ok; eassumption.
        + intros E; injection E as <- <-. eapply rc_conn_status; eassumption.
        + exfalso. apply (apply_action_not_panic (msl_status s) (Receive TConnect) p).
          rewrite Ea. reflexivity.
      - intros E; injection E as <- <-. eapply rc_conn_bad_sig; eassumption.
      - exfalso; eapply verify_sig_not_err; eassumption.
      - intros E; injection E as <- <-. eapply rc_conn_sig_panic; eassumption. }
    destruct (peer_sig_pubkey s) as [k|] eqn:Ek.
    + destruct (bytes_eqb pk k) eqn:Epk; cbn [negb].
      * intros E. eapply Hrest; [| |exact E].
        -- unfold pin. rewrite Ek. reflexivity.
        -- apply bytes_eqb_eq in Epk. congruence.
      * intros E; injection E as <- <-.
        eapply rc_conn_mismatch; try eassumption. apply bytes_eqb_neq; exact Epk.
    + intros E. eapply Hrest; [| |exact E].
      * unfold pin. rewrite Ek. reflexivity.
      * reflexivity.
  - (* ACK *)
    unfold read_ack.
    destruct (bytes_eqb ch (sha256 C (ephemeral_pubkey s))) eqn:Ech; cbn [negb].
    2: { intros E; injection E as <- <-. eapply rc_ack_challenge; try eassumption.
         apply bytes_eqb_neq; exact Ech. }
    apply bytes_eqb_eq in Ech.
    destruct (peer_sig_pubkey s) as [k|] eqn:Ek.
    + destruct (verify_sig C (dd_data dd) k (dd_user_msg_end dd)) as [[|]|e|p] eqn:Ev.
      * destruct (apply_action (msl_status s) (Receive TAck)) as [st [se|e|p]] eqn:Ea;
          intros E; injection E as <- <-.
        -- eapply rc_ack_ok; eassumption.
        -- eapply rc_ack_status; eassumption.
        -- exfalso. apply (apply_action_not_panic (msl_status s) (Receive TAck) p).
           rewrite Ea. reflexivity.
      * intros E; injection E as <- <-. eapply rc_ack_bad_sig; eassumption.
      * exfalso; eapply verify_sig_not_err; eassumption.
      * intros E; injection E as <- <-. eapply rc_ack_sig_panic; eassumption.
    + destruct (ack_msg_recv_too_early s) as [b|] eqn:Eb; intros E; injection E as <- <-.
      * eapply rc_ack_early_twice; eassumption.
      * eapply rc_ack_early; eassumption.
  - (* USER *)
    unfold read_user.
    destruct ((n <? next_nonce_expected s) || set_contains n (orphan_nonce_list s)) eqn:En.
    + intros E; injection E as <- <-. eapply rc_user_nonce; try eassumption.
      apply orb_true_iff in En as [En|En]; [left; apply N.ltb_lt; exact En|
        right; apply set_contains_In; exact En].
    + apply orb_false_iff in En as [En1 En2].
      apply N.ltb_ge in En1. apply set_contains_nIn in En2.
      destruct (msl_status s) as [|l r|] eqn:Est; cbn [apply_action].
      * intros E; injection E as <- <-. eapply rc_user_status; try eassumption.
        rewrite Est. reflexivity.
      * destruct r, l; intros E; injection E as <- <-;
          try (eapply rc_user_status; try eassumption; rewrite Est; reflexivity).
        rewrite <- Est, set_status_same. eapply rc_user_push; eassumption.
      * cbv zeta. rewrite <- Est, set_status_same.
        unfold slice_to, slice_from.
        destruct (N.leb_spec (dd_user_msg_end dd) (len (dd_data dd))) as [Hl|Hl]; cbn [obind].
        -- destruct (bytes_eqb _ _) eqn:Eb.
           ++ destruct (update_window T n s) as [s0 o0] eqn:Eu. intros E.
              assert (s' = s0 /\ o = match o0 with Ok _ => get_message dd | Err e => Err e
                                | Panic p => Panic p end) as [-> ->]
                by (destruct o0; injection E as <- <-; auto).
              eapply rc_user_window; try eassumption. apply bytes_eqb_eq; exact Eb.
           ++ intros E; injection E as <- <-. eapply rc_user_bad_hash; try eassumption.
              apply bytes_eqb_neq; exact Eb.
        -- intros E; injection E as <- <-. eapply rc_user_hash_panic; try eassumption.
           reflexivity.
Qed.

(** [compute_shared_secret] flattened. *)
Lemma compute_shared_secret_cases epk s s' o :
  compute_shared_secret C epk s = (s', o) ->
  (exists kp key, ephemeral s = Some kp /\ x25519_agree C (ekp_priv kp) epk = Some key /\
     s' = set_secret (Some (WithChacha (secret_key_new
            (pbkdf2 C PBKDF2_HMAC_SHA384 3
               (if bytes_gtb (ekp_pub kp) epk then ekp_pub kp else epk) key 48))))
            (set_ephemeral None s) /\ o = Ok tt) \/
  (exists kp, ephemeral s = Some kp /\ x25519_agree C (ekp_priv kp) epk = None /\
     s' = set_ephemeral None s /\ o = Err FailToComputeAgreement) \/
  (ephemeral s = None /\ exists a, encrypt_algo_with_secret s = Some a /\ s' = s /\ o = Ok tt) \/
  (ephemeral s = None /\ encrypt_algo_with_secret s = None /\ s' = s /\ o = Panic PNoEphemeralKp).
Proof.
  unfold compute_shared_secret, ekp_compute_shared_secret.
  destruct (ephemeral s) as [kp|] eqn:Ek.
  - destruct (x25519_agree C (ekp_priv kp) epk) as [key|] eqn:Eg.
    + destruct (cfg_encrypt_algo (conf s)). cbn [algo_shared_secret_len derive algo_build].
      intros E; injection E as <- <-. left. exists kp, key. auto.
    + intros E; injection E as <- <-. right; left. exists kp. auto.
  - destruct (encrypt_algo_with_secret s) as [a|] eqn:Es; intros E; injection E as <- <-.
    + right; right; left. eauto.
    + right; right; right. auto.
Qed.

End WithEnv.

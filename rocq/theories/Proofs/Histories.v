(** Consequences of the trace invariant: layouts, peer key, secrets, early
    ACKs, internal panics. *)

From Coq Require Import Arith ZifyBool ZifyNat ZifyN.
From Verif.Model Require Import Minimal.
From Verif.Spec Require Import Wire Datagram Trace ReadSpec Accept Session Writers.
From Verif.Proofs Require Import BaseFacts IoFacts CipherFacts ReaderFacts ReadCases WindowFacts Invariant
  Negotiation Failure DatagramFacts ReadSpecFacts Accept Keys TraceInv UserReads Ledger Nonces Sending Early.

Section WithEnv.
Context (C : Crypto) (T : target) (HL : CryptoLaws C).

(** The state before an event of a run. *)
Lemma run_at s0 cs s h1 e h2 :
  run C T s0 cs = (s, h1 ++ e :: h2) ->
  exists cs1 cs2 s1 s2, run C T s0 cs1 = (s1, h1) /\ call_step C T s1 (fst e) = (s2, snd e) /\
    run C T s2 cs2 = (s, h2) /\ run C T s0 (cs1 ++ [fst e]) = (s2, h1 ++ [e]).
Proof.
  intros E. apply run_split in E as (cs1 & cs2 & s1 & -> & E1 & E2).
  destruct cs2 as [|c cs2]; [discriminate|]. cbn [run] in E2.
  destruct (call_step C T s1 c) as [s2 r2] eqn:E3.
  destruct (run C T s2 cs2) as [s3 h3] eqn:E4. injection E2 as -> <- ->.
  exists cs1, cs2, s1, s2. cbn [fst snd]. split; [exact E1|]. split; [exact E3|]. split; [exact E4|].
  rewrite run_snoc, E1, E3. reflexivity.
Qed.

(** ** C01 *)
Theorem connect_layout sk cfg pin s0 cs s h pk cd b :
  create C (RngKey sk) cfg pin = Ok s0 -> run C T s0 cs = (s, h) ->
  In (CConnect pk cd, RBytes (Ok b)) h ->
  b = connect_frame (x25519_public C sk) pk (custom cd).
Proof.
  intros Hc E Hin. apply in_split in Hin as (h1 & h2 & ->).
  destruct (run_at _ _ _ _ _ _ E) as (cs1 & cs2 & s1 & s2 & E1 & E2 & _).
  cbn [fst snd call_step] in E2. destruct (create_connect_message C pk cd s1) as [s3 o] eqn:Ec.
  injection E2 as -> ->.
  rewrite <- (ti_pub _ _ _ _ _ _ (tinv_run C T HL sk pin cfg s0 cs1 s1 h1 Hc E1)).
  apply create_connect_cases in Ec as [(r & _ & _ & Ho)|(_ & e & Ho & _)]; [|discriminate].
  injection Ho as ->. reflexivity.
Qed.

(** ** C02 *)
Theorem ack_layout sk cfg pin s0 cs s h1 cd b h2 :
  create C (RngKey sk) cfg pin = Ok s0 ->
  run C T s0 cs = (s, h1 ++ (CAck cd, RBytes (Ok b)) :: h2) -> panic_free h1 ->
  exists d epk r, In (CRead d, r) h1 /\ connect_accepted (CRead d, r) = true /\ carries_epk d epk /\
    b = ack_frame (sha256 C epk) (custom cd).
Proof.
  intros Hc E Hp.
  destruct (run_at _ _ _ _ _ _ E) as (cs1 & cs2 & s1 & s2 & E1 & E2 & _).
  cbn [fst snd call_step] in E2. destruct (create_ack_message C cd s1) as [s3 o] eqn:Ec.
  injection E2 as -> ->.
  pose proof (tinv_run C T HL sk pin cfg s0 cs1 s1 h1 Hc E1) as HT.
  apply (create_ack_cases C T) in Ec as [(st & epk & _ & _ & Hpe & Ho)|(_ & e & Ho & _)];
    [|discriminate|exact (ti_inv _ _ _ _ _ _ HT)].
  injection Ho as ->.
  destruct (ti_peer _ _ _ _ _ _ HT epk Hpe) as (d & r & Hin & Hcar & [Ha|Ha]).
  - exists d, epk, r. auto.
  - pose proof (Hp _ Hin) as Hq. cbn [snd] in Hq. congruence.
Qed.

(** ** C19 *)
Theorem secret_is_final s cs s' h k :
  reachable C T s -> run C T s cs = (s', h) -> session_key s = Some k -> session_key s' = Some k.
Proof. apply run_secret_mono. exact HL. Qed.

Theorem secret_origin sk cfg pin s0 cs s h k :
  create C (RngKey sk) cfg pin = Ok s0 -> run C T s0 cs = (s, h) -> session_key s = Some k ->
  ephemeral s = None /\
  exists d epk r, In (CRead d, r) h /\ carries_epk d epk /\
    (connect_accepted (CRead d, r) = true \/ panics r = true) /\
    derived_secret C sk epk = Some k.
Proof.
  intros Hc E Hk. pose proof (tinv_run C T HL sk pin cfg s0 cs s h Hc E) as HT.
  split.
  { apply (inv_secret C T s (ti_inv _ _ _ _ _ _ HT)). apply session_key_some in Hk. congruence. }
  pose proof (ti_secret _ _ _ _ _ _ HT) as Hs. rewrite Hk in Hs.
  destruct (peer_epk s) as [epk|] eqn:Ep; [|discriminate].
  destruct (ti_peer _ _ _ _ _ _ HT epk Ep) as (d & r & Hin & Hcar & Ha).
  exists d, epk, r. auto.
Qed.

(** Every accepted CONNECT, agreed or not, decides the secret. *)
Theorem accepted_connect_decides sk cfg pin s0 cs s h d r epk :
  create C (RngKey sk) cfg pin = Ok s0 -> run C T s0 cs = (s, h) ->
  In (CRead d, r) h -> connect_accepted (CRead d, r) = true -> carries_epk d epk ->
  session_key s = derived_secret C sk epk /\ ephemeral s = None.
Proof.
  intros Hc E Hin Ha Hcar. pose proof (tinv_run C T HL sk pin cfg s0 cs s h Hc E) as HT.
  destruct (ti_acc _ _ _ _ _ _ HT _ Hin Ha) as (d' & epk' & Hd & Hcar' & Hp).
  cbn [fst] in Hd. injection Hd as <-. rewrite (carries_epk_inj _ _ _ Hcar Hcar') in *.
  rewrite (ti_secret _ _ _ _ _ _ HT), Hp. split; [reflexivity|].
  pose proof (ti_inv _ _ _ _ _ _ HT) as HI.
  clear - HT HI Hp Hin Ha Hc E HL.
  (* the private key is dropped when the CONNECT is accepted, and never comes back *)
  apply in_split in Hin as (h1 & h2 & ->).
  destruct (run_at _ _ _ _ _ _ E) as (cs1 & cs2 & s1 & s2 & E1 & E2 & E3 & _).
  cbn [fst snd] in E2.
  pose proof (tinv_run C T HL sk pin cfg s0 cs1 s1 h1 Hc E1) as HT1.
  pose proof (ti_inv _ _ _ _ _ _ HT1) as HI1.
  assert (ephemeral s2 = None) as H2.
  { cbn [call_step] in E2. destruct (read C T d s1) as [s3 o] eqn:Er. injection E2 as -> <-.
    pose proof (read_keys C T HL _ _ _ _ HI1 Er) as (_ & _ & _ & R4 & _).
    destruct R4 as [(_ & _ & _ & R4)|(e & pk & _ & Hcn & _)]; [congruence|].
    apply connected_fields in Hcn as (l & kp & _ & _ & _ & _ & He & _). exact He. }
  assert (Inv C T s2) as HI2.
  { pose proof (inv_step C T s1 (CRead d) HI1) as H. rewrite E2 in H. exact H. }
  clear - HL E3 H2 HI2. revert s2 h2 H2 HI2 E3.
  induction cs2 as [|c cs IH]; intros s2 h2 H2 HI2 E3; cbn [run] in E3; [injection E3 as <- <-; exact H2|].
  destruct (call_step C T s2 c) as [s3 r3] eqn:E2. destruct (run C T s3 cs) as [s4 h4] eqn:E4.
  injection E3 as <- <-.
  eapply IH; [| |exact E4].
  - destruct c;
      try (assert (keys s3 = keys s2) as HK
           by (eapply step_keys; [exact HI2|exact E2|discriminate|discriminate]);
           unfold keys in HK; congruence).
    + cbn [call_step] in E2. destruct (read C T incoming s2) as [s5 o] eqn:Er. injection E2 as -> <-.
      pose proof (read_keys C T HL _ _ _ _ HI2 Er) as (_ & _ & _ & R4 & _).
      destruct R4 as [(_ & _ & R4 & _)|(e & pk & _ & Hcn & _)]; [congruence|].
      apply connected_fields in Hcn as (l & kp & _ & _ & _ & _ & He & _). exact He.
    + cbn [call_step] in E2. rewrite take_ack_read in E2.
      destruct (ack_msg_recv_too_early s2) as [b|]; [|injection E2 as <- <-; exact H2].
      destruct (read C T b (set_ack_early None s2)) as [s5 o] eqn:Er. injection E2 as -> <-.
      pose proof (read_keys C T HL _ _ _ _ (inv_set_ack_early C T None s2 HI2) Er) as (_ & _ & _ & R4 & _).
      destruct R4 as [(_ & _ & R4 & _)|(e & pk & _ & Hcn & _)]; [cbn in R4; congruence|].
      apply connected_fields in Hcn as (l & kp & _ & _ & _ & _ & He & _). exact He.
  - pose proof (inv_step C T s2 c HI2) as H. rewrite E2 in H. exact H.
Qed.

(** ** C20, C21 *)
Theorem pinned_key_only sk cfg pk s0 cs s h1 e h2 m :
  create C (RngKey sk) cfg (Some pk) = Ok s0 -> run C T s0 cs = (s, h1 ++ e :: h2) ->
  In m (delivered (snd e)) -> negotiation_ok C T pk (x25519_public C sk) h1 e m.
Proof.
  intros Hc E Hm. pose proof (tinv_run C T HL sk (Some pk) cfg s0 cs s _ Hc E) as HT.
  eapply (ti_neg _ _ _ _ _ _ HT pk); [|reflexivity|exact Hm].
  right. apply (ti_pin _ _ _ _ _ _ HT). reflexivity.
Qed.

Theorem one_peer_key sk cfg pin s0 cs s h :
  create C (RngKey sk) cfg pin = Ok s0 -> run C T s0 cs = (s, h) ->
  exists pk, (forall k, pin = Some k -> pk = k) /\
    forall h1 e h2 m, h = h1 ++ e :: h2 -> In m (delivered (snd e)) ->
      negotiation_ok C T pk (x25519_public C sk) h1 e m.
Proof.
  intros Hc E. pose proof (tinv_run C T HL sk pin cfg s0 cs s _ Hc E) as HT.
  destruct (peer_sig_pubkey s) as [pk|] eqn:Ep.
  - exists pk. split.
    + intros k Hk. pose proof (ti_pin _ _ _ _ _ _ HT k Hk). congruence.
    + apply (ti_neg _ _ _ _ _ _ HT pk). right. exact Ep.
  - exists []. split.
    + intros k Hk. pose proof (ti_pin _ _ _ _ _ _ HT k Hk). congruence.
    + apply (ti_neg _ _ _ _ _ _ HT []). left. exact Ep.
Qed.

(** ** C23 *)
Lemma frame_len_inj L L' ty ty' c c' r r' :
  length ty = length ty' -> length c = length c' ->
  frame_len L ty c ++ r = frame_len L' ty' c' ++ r' ->
  u64_be L = u64_be L' /\ ty = ty' /\ c = c' /\ r = r'.
Proof.
  intros Ht Hc. unfold frame_len. rewrite <- !app_assoc. intros E.
  do 2 (apply app_inv_head in E).
  apply app_inv_len in E as [E1 E]; [|reflexivity].
  apply app_inv_len in E as [E2 E]; [|exact Ht].
  apply app_inv_len in E as [E3 E]; [|exact Hc]. auto.
Qed.

Theorem ack_fresh sk cfg pin s0 cs s h1 e h2 o :
  create C (RngKey sk) cfg pin = Ok s0 -> run C T s0 cs = (s, h1 ++ e :: h2) ->
  In (MAck o) (delivered (snd e)) ->
  exists d pk cd, source h1 e d /\ o = nonempty cd /\
    signed_frame C T pk [x00; x02] (sha256 C (x25519_public C sk) ++ cd) d /\
    (forall epk' cd' L sig, d = frame_len L [x00; x02] (sha256 C epk' ++ cd') ++ sig ->
       sha256 C epk' = sha256 C (x25519_public C sk)).
Proof.
  intros Hc E Hm. destruct (one_peer_key _ _ _ _ _ _ _ Hc E) as (pk & _ & Hok).
  destruct (Hok h1 e h2 (MAck o) eq_refl Hm) as (d & cd & H1 & H2 & H3).
  exists d, pk, cd. split; [exact H1|]. split; [exact H2|]. split; [exact H3|].
  intros epk' cd' L sig Hd. destruct H3 as (L0 & sig0 & _ & Hd0 & _). rewrite Hd in Hd0.
  unfold frame_len in Hd0. rewrite <- !app_assoc in Hd0.
  do 2 (apply app_inv_head in Hd0). apply app_inv_len in Hd0 as [_ Hd0]; [|reflexivity].
  apply app_inv_head in Hd0. apply app_inv_len in Hd0 as [Hd0 _]; [exact Hd0|].
  rewrite !(law_sha256_len C HL). reflexivity.
Qed.

(** ** C37, C38 *)
Lemma larger_comm a b : len a = len b -> larger a b = larger b a.
Proof.
  intros Hl. unfold larger.
  destruct (N.ltb_spec (be_decode b) (be_decode a)), (N.ltb_spec (be_decode a) (be_decode b)); try lia; auto.
  assert (be_decode a = be_decode b) as He by lia.
  rewrite <- (be_encode_decode a), <- (be_encode_decode b), He. f_equal. unfold len in Hl. lia.
Qed.

Lemma derived_secret_comm skA skB :
  derived_secret C skA (x25519_public C skB) = derived_secret C skB (x25519_public C skA).
Proof.
  unfold derived_secret. rewrite (law_x25519_comm C HL skA skB).
  rewrite (larger_comm (x25519_public C skA) (x25519_public C skB)); [reflexivity|].
  unfold len. rewrite !(law_x25519_public_len C HL). reflexivity.
Qed.

Theorem same_secret skA cfgA pinA a0 csA a hA dA rA skB cfgB pinB b0 csB b hB dB rB :
  create C (RngKey skA) cfgA pinA = Ok a0 -> run C T a0 csA = (a, hA) ->
  create C (RngKey skB) cfgB pinB = Ok b0 -> run C T b0 csB = (b, hB) ->
  In (CRead dB, rA) hA -> connect_accepted (CRead dB, rA) = true -> carries_epk dB (x25519_public C skB) ->
  In (CRead dA, rB) hB -> connect_accepted (CRead dA, rB) = true -> carries_epk dA (x25519_public C skA) ->
  session_key a = session_key b.
Proof.
  intros H1 H2 H3 H4 H5 H6 H7 H8 H9 H10.
  destruct (accepted_connect_decides _ _ _ _ _ _ _ _ _ _ H1 H2 H5 H6 H7) as [-> _].
  destruct (accepted_connect_decides _ _ _ _ _ _ _ _ _ _ H3 H4 H8 H9 H10) as [-> _].
  apply derived_secret_comm.
Qed.

Theorem derivation sk cfg pin s0 cs s h k :
  create C (RngKey sk) cfg pin = Ok s0 -> run C T s0 cs = (s, h) -> session_key s = Some k ->
  exists d epk r z salt, In (CRead d, r) h /\ carries_epk d epk /\
    x25519_agree C sk epk = Some z /\
    (salt = x25519_public C sk \/ salt = epk) /\
    be_decode (x25519_public C sk) <= be_decode salt /\ be_decode epk <= be_decode salt /\
    sk_key k ++ sk_nonce k ++ sk_aad k = pbkdf2 C PBKDF2_HMAC_SHA384 3 salt z 48 /\
    length (sk_key k) = 32%nat /\ length (sk_nonce k) = 12%nat /\ length (sk_aad k) = 4%nat.
Proof.
  intros Hc E Hk. destruct (secret_origin _ _ _ _ _ _ _ _ Hc E Hk) as (_ & d & epk & r & H1 & H2 & _ & H4).
  unfold derived_secret in H4. destruct (x25519_agree C sk epk) as [z|] eqn:Ez; [|discriminate].
  match type of H4 with Some ?x = _ => assert (Hkk : k = x) by congruence end.
  clear H4. subst k. exists d, epk, r, z, (larger (x25519_public C sk) epk).
  split; [exact H1|]. split; [exact H2|]. split; [exact Ez|].
  cbn [sk_key sk_nonce sk_aad].
  pose proof (law_pbkdf2_len C HL PBKDF2_HMAC_SHA384 3 (larger (x25519_public C sk) epk) z 48) as Hlen.
  set (out := pbkdf2 C PBKDF2_HMAC_SHA384 3 (larger (x25519_public C sk) epk) z 48) in *.
  split; [unfold larger; destruct (_ <? _); auto|].
  split; [unfold larger; destruct (N.ltb_spec (be_decode epk) (be_decode (x25519_public C sk))); lia|].
  split; [unfold larger; destruct (N.ltb_spec (be_decode epk) (be_decode (x25519_public C sk))); lia|].
  split.
  { rewrite <- (firstn_skipn 32 out) at 4. f_equal.
    replace (skipn 44 out) with (skipn 12 (skipn 32 out)) by (rewrite skipn_skipn; reflexivity).
    rewrite <- (firstn_skipn 12 (skipn 32 out)) at 3. f_equal. apply firstn_all2. 
    rewrite !skipn_length. lia. }
  rewrite !firstn_length, !skipn_length. lia.
Qed.

(** ** C25 *)
(** When an ACK is kept: the challenge is right and no peer key is known yet. *)
Theorem early_ack_kept_iff s d :
  reachable C T s -> starts_clear d = true ->
  (snd (read C T d s) = Ok None <->
   (exists L, is_datagram C T s d d L (KAck (sha256 C (ephemeral_pubkey s)))) /\
   peer_sig_pubkey s = None /\ ack_msg_recv_too_early s = None).
Proof.
  intros HR Hcl. pose proof (inv_reachable C T s HR) as HI.
  destruct (datagram_total C T HL (session_key s) d) as [c Hc].
  assert (forall text L k, is_datagram C T s d text L k -> c = DFrame text L k) as Hu
    by (intros; eapply datagram_unique; eassumption).
  destruct c as [|e| |text L k].
  { destruct (read_of_panic C T HL s d Hc) as [p ->]. split; [discriminate|].
    intros ((L & H) & _). apply Hu in H. discriminate. }
  { rewrite (read_of_reject C T HL s d e Hc). split; [discriminate|].
    intros ((L & H) & _). apply Hu in H. discriminate. }
  { rewrite (read_of_undecryptable C T HL s d Hc). split; [discriminate|].
    intros ((L & H) & _). apply Hu in H. discriminate. }
  pose proof (datagram_frame C T _ _ _ _ _ Hc) as (_ & _ & _ & Hd).
  pose proof (get_message_exact T text L k) as Hg.
  destruct (read C T d s) as [s' o] eqn:E. cbn [snd].
  destruct k as [epk pk|ch|n]; cbn [must_be_sealed] in Hd.
  - split.
    + intros ->. remember (Ok None) as o eqn:Eo.
      apply (read_connect_result C T HL s HI d text L epk pk) in E; [|exact Hc].
      destruct E; try discriminate. destruct Hg as [(_ & _ & Hg)|[_ Hg]]; rewrite Hg in Eo; discriminate.
    + intros ((L' & H) & _). apply Hu in H. discriminate.
  - destruct Hd as [[_ Hd]|[Hd _]]; [|discriminate]. subst d.
    apply (read_ack_result C T HL s text text L ch) in E; [|exact Hc].
    split.
    + intros ->. remember (Ok None) as o eqn:Eo. destruct E; try discriminate.
      * subst ch. split; [exists L; exact Hc|auto].
      * destruct Hg as [(_ & _ & Hg)|[_ Hg]]; rewrite Hg in Eo; discriminate.
    + intros ((L' & H) & Hp & He). apply Hu in H. injection H as -> ->. destruct E; try congruence.
  - destruct Hd as [[Hd _]|(_ & Hnm & _)]; [discriminate|]. exfalso.
    apply starts_clear_iff in Hcl as [r ->]. eapply Hnm. reflexivity.
Qed.

(** What is kept is the datagram itself, and nothing else changes. *)
Theorem early_ack_kept s d :
  reachable C T s -> starts_clear d = true -> snd (read C T d s) = Ok None ->
  fst (read C T d s) = set_ack_early (Some d) s.
Proof.
  intros HR Hcl H. pose proof (proj1 (early_ack_kept_iff s d HR Hcl) H) as ((L & Hd) & Hp & He).
  destruct (read C T d s) as [s' o] eqn:E. cbn [fst snd] in *. subst o.
  apply (read_ack_result C T HL s d d L _ _ _ Hd) in E.
  remember (Ok None) as o eqn:Eo. remember (sha256 C (ephemeral_pubkey s)) as ch eqn:Ech.
  destruct E; try congruence.
Qed.

(** A layer that knows its peer's key keeps no ACK. *)
Lemma read_keeps_ack_early d s s' o :
  peer_sig_pubkey s <> None -> read C T d s = (s', o) ->
  ack_msg_recv_too_early s' = ack_msg_recv_too_early s.
Proof.
  intros Hp E. apply read_inner_cases in E.
  destruct E; try congruence;
    try match goal with H : compute_shared_secret _ _ _ = _ |- _ =>
      unfold compute_shared_secret in H;
      repeat match type of H with
      | context[match ?x with _ => _ end] => destruct x
      end; injection H as <- <- end;
    try match goal with H : update_window _ _ _ = _ |- _ =>
        apply update_window_shape in H as [(v & l & -> & _)|[-> _]] end;
    try match goal with |- context[pin ?pk s] => destruct (pin_fields pk s) as [? ->] end;
    reflexivity.
Qed.

(** Taking it reads it now, and once. *)
Theorem early_ack_taken s :
  reachable C T s ->
  match ack_msg_recv_too_early s with
  | None => take_ack_msg_recv_too_early C T s = (s, Ok None)
  | Some d =>
      take_ack_msg_recv_too_early C T s = read C T d (set_ack_early None s) /\
      (forall o, snd (take_ack_msg_recv_too_early C T s) = Ok (Some (MAck o)) <->
         exists pk cd, ack_delivery C T s d pk cd /\ o = nonempty cd) /\
      (peer_sig_pubkey s <> None -> let s' := fst (take_ack_msg_recv_too_early C T s) in
         take_ack_msg_recv_too_early C T s' = (s', Ok None))
  end.
Proof.
  intros HR. rewrite take_ack_read. destruct (ack_msg_recv_too_early s) as [d|]; [|reflexivity].
  split; [reflexivity|]. split.
  { intros o. pose proof (inv_set_ack_early C T None s (inv_reachable C T s HR)) as HI.
    rewrite (ack_delivered_iff C T HL _ HI d o). reflexivity. }
  intros Hp. destruct (read C T d (set_ack_early None s)) as [s' o] eqn:E. cbn [fst].
  apply read_keeps_ack_early in E; [|exact Hp]. cbn [set_ack_early ack_msg_recv_too_early] in E.
  rewrite take_ack_read, E. reflexivity.
Qed.

End WithEnv.

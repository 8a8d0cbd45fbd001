(** Wire format, round trips and attacks, from the characterisations of [read]. *)

From Coq Require Import Arith ZifyBool ZifyNat ZifyN.
From Verif.Model Require Import Minimal.
From Verif.Spec Require Import Wire Datagram Trace ReadSpec Accept Session Writers Attacks.
From Verif.Proofs Require Import BaseFacts IoFacts CipherFacts ReaderFacts ReadCases WindowFacts Invariant
  Negotiation Failure DatagramFacts ReadSpecFacts Accept Keys TraceInv UserReads Ledger Nonces Sending Early
  Histories.

Section WithEnv.
Context (C : Crypto) (T : target) (HL : CryptoLaws C).

(** ** C04 *)
Lemma frame_inj ty ty' c c' :
  length ty = 2%nat -> length ty' = 2%nat -> frame ty c = frame ty' c' -> ty = ty' /\ c = c'.
Proof.
  unfold frame, frame_len. intros H1 H2 E. do 2 (apply app_inv_head in E).
  apply app_inv_len in E as [_ E]; [|reflexivity].
  apply app_inv_len in E as [-> ->]; [auto|congruence].
Qed.

Lemma connect_frame_inj e p c e' p' c' :
  length e = 32%nat -> length e' = 32%nat -> length p = 32%nat -> length p' = 32%nat ->
  connect_frame e p c = connect_frame e' p' c' -> e = e' /\ p = p' /\ c = c'.
Proof.
  intros H1 H2 H3 H4 E. apply frame_inj in E as [_ E]; [|reflexivity..]. unfold connect_content in E.
  apply app_inv_len in E as [-> E]; [|congruence]. apply app_inv_head in E.
  apply app_inv_len in E as [-> ->]; [auto|congruence].
Qed.

Lemma ack_frame_inj x c x' c' :
  length x = length x' -> ack_frame x c = ack_frame x' c' -> x = x' /\ c = c'.
Proof.
  intros H E. apply frame_inj in E as [_ E]; [|reflexivity..].
  apply app_inv_len in E as [-> ->]; auto.
Qed.

Lemma user_frame_inj n d n' d' :
  n < 2 ^ 64 -> n' < 2 ^ 64 -> user_frame n d = user_frame n' d' -> n = n' /\ d = d'.
Proof.
  intros H1 H2 E. apply frame_inj in E as [_ E]; [|reflexivity..].
  apply app_inv_len in E as [E ->]; [|reflexivity]. apply u64_be_inj in E; auto.
Qed.

Lemma hashed_inj f f' : hashed C f = hashed C f' -> f = f'.
Proof.
  unfold hashed. intros E. pose proof (f_equal (@length _) E) as El. rewrite !app_length, !(law_sha256_len C HL) in El.
  apply app_inv_len in E as [-> _]; [reflexivity|lia].
Qed.

Lemma seal_inj k t t' : seal C k t = seal C k t' -> t = t'.
Proof.
  intros E. pose proof (f_equal (@length _) E) as El. rewrite !seal_length in El by exact HL.
  unfold seal in E. apply app_inv_len in E as [E _]; [apply ciphertext_inj in E; exact E|].
  rewrite !ciphertext_length. lia.
Qed.

Theorem user_datagram_inj k n d n' d' :
  n < 2 ^ 64 -> n' < 2 ^ 64 -> user_datagram C k n d = user_datagram C k n' d' -> n = n' /\ d = d'.
Proof.
  intros H1 H2 E. apply seal_inj, hashed_inj in E. apply user_frame_inj in E; assumption.
Qed.

Lemma Ok_inj {A} (a b : A) : Ok a = Ok b -> a = b.
Proof. congruence. Qed.

(** Bytes produced for two messages, by layers with these keys. *)
Theorem wire_unambiguous m1 epk1 p1 m2 epk2 p2 b :
  length epk1 = 32%nat -> length epk2 = 32%nat ->
  message_to_bytes C m1 epk1 p1 = Ok b -> message_to_bytes C m2 epk2 p2 = Ok b ->
  match m1, m2 with
  | RConnect a1 k1 c1, RConnect a2 k2 c2 =>
      length a1 = 4%nat -> length a2 = 4%nat -> length k1 = 32%nat -> length k2 = 32%nat ->
      epk1 = epk2 /\ a1 = a2 /\ k1 = k2 /\ custom c1 = custom c2
  | RAck c1, RAck c2 =>
      (exists e1 e2, p1 = Some e1 /\ p2 = Some e2 /\ sha256 C e1 = sha256 C e2) /\ custom c1 = custom c2
  | RMessage d1 n1, RMessage d2 n2 => n1 < 2 ^ 64 -> n2 < 2 ^ 64 -> n1 = n2 /\ custom d1 = custom d2
  | _, _ => False
  end.
Proof.
  intros H1 H2 E1 E2. unfold message_to_bytes in *.
  destruct m1 as [a1 k1 c1|c1|d1 n1], m2 as [a2 k2 c2|c2|d2 n2]; cbn [prepare_message obind] in *;
    try (destruct p1 as [e1|]; cbn [obind] in E1; [|discriminate]);
    try (destruct p2 as [e2|]; cbn [obind] in E2; [|discriminate]);
    apply Ok_inj in E1; apply Ok_inj in E2; rewrite <- E2 in E1; clear E2;
    do 2 (apply app_inv_head in E1);
    (apply app_inv_len in E1 as [_ E1]; [|rewrite !length_be_encode; reflexivity]);
    unfold CONNECT_MSG_TYPE, ACK_MSG_TYPE, USER_MSG_TYPE in E1; try discriminate E1;
    rewrite <- !app_assoc in E1; apply app_inv_head in E1.
  - intros A1 A2 K1 K2.
    apply app_inv_len in E1 as [-> E1]; [|congruence].
    apply app_inv_len in E1 as [-> E1]; [|congruence].
    apply app_inv_len in E1 as [-> E1]; [|congruence]. auto.
  - apply app_inv_len in E1 as [Es E1]; [|rewrite !(law_sha256_len C HL); reflexivity].
    split; [eauto|exact E1].
  - intros N1 N2. apply app_inv_len in E1 as [Es E1]; [|rewrite !length_be_encode; reflexivity].
    rewrite <- !u64_be_model in Es. apply u64_be_inj in Es; auto.
Qed.

(** ** C05, C06 *)
Lemma length_field_64 L n : usize_width T = P64 -> length_field T L n -> L = n.
Proof.
  intros H (H1 & H2 & _). unfold usize_bits in H2. rewrite H in H2. rewrite N.mod_small in H2 by exact H1. exact H2.
Qed.

Theorem connect_canonical s d a pk o :
  reachable C T s -> snd (read C T d s) = Ok (Some (MConnect a pk o)) ->
  a = [x00; x00; x00; x00] /\ length pk = 32%nat /\
  exists L epk cd sig,
    length_field T L (2 + len (connect_content epk pk cd)) /\ length epk = 32%nat /\ length sig = 64%nat /\
    d = frame_len L [x00; x01] (connect_content epk pk cd) ++ sig /\ o = nonempty cd /\
    ed25519_verify C pk (frame_len L [x00; x01] (connect_content epk pk cd)) sig = true /\
    (usize_width T = P64 -> d = connect_frame epk pk cd ++ sig).
Proof.
  intros HR H. apply (connect_delivered_iff C T HL s (inv_reachable C T s HR)) in H
    as (epk & cd & (H1 & H2 & (L & sig & H3 & H4 & H5) & _) & H6 & H7).
  split; [exact H6|]. split; [unfold len in H2; lia|].
  exists L, epk, cd, sig. repeat split; try assumption; try apply H3.
  - unfold len in H1; lia.
  - eapply law_ed25519_verify_len; eassumption.
  - intros HT. rewrite (length_field_64 _ _ HT H3) in H4. exact H4.
Qed.

Theorem ack_canonical s d o :
  reachable C T s -> snd (read C T d s) = Ok (Some (MAck o)) ->
  exists L pk cd sig,
    peer_sig_pubkey s = Some pk /\
    length_field T L (2 + len (sha256 C (ephemeral_pubkey s) ++ cd)) /\ length sig = 64%nat /\
    d = frame_len L [x00; x02] (sha256 C (ephemeral_pubkey s) ++ cd) ++ sig /\ o = nonempty cd /\
    ed25519_verify C pk (frame_len L [x00; x02] (sha256 C (ephemeral_pubkey s) ++ cd)) sig = true /\
    (usize_width T = P64 -> d = ack_frame (sha256 C (ephemeral_pubkey s)) cd ++ sig).
Proof.
  intros HR H. apply (ack_delivered_iff C T HL s (inv_reachable C T s HR)) in H
    as (pk & cd & ((L & sig & H3 & H4 & H5) & H1 & H2) & H7).
  exists L, pk, cd, sig. repeat split; try assumption; try apply H3.
  - eapply law_ed25519_verify_len; eassumption.
  - intros HT. rewrite (length_field_64 _ _ HT H3) in H4. exact H4.
Qed.

Theorem user_canonical s d o :
  reachable C T s -> snd (read C T d s) = Ok (Some (MMessage o)) ->
  exists k n data L,
    session_key s = Some k /\ n < 2 ^ 64 /\ o = nonempty data /\
    length_field T L (2 + len (u64_be n ++ data)) /\
    d = seal C k (hashed C (frame_len L [x00; x00] (u64_be n ++ data))) /\
    (usize_width T = P64 -> d = user_datagram C k n data).
Proof.
  intros HR H. apply (user_delivered_iff C T HL s (inv_reachable C T s HR)) in H
    as (k & n & data & (H1 & _ & H2 & (text & (L & H3 & ->) & H4) & _) & H5).
  exists k, n, data, L. repeat split; try assumption; try apply H3.
  intros HT. rewrite (length_field_64 _ _ HT H3) in H4. exact H4.
Qed.

(** ** C24 *)
Theorem sealed_user_only s d m :
  reachable C T s -> snd (read C T d s) = Ok (Some m) ->
  (is_user m = true <-> starts_clear d = false).
Proof.
  intros HR H. destruct m as [a pk o|o|o].
  - apply (connect_delivered_iff C T HL s (inv_reachable C T s HR)) in H
      as (epk & cd & (_ & _ & (L & sig & _ & -> & _) & _) & _). split; [discriminate|].
    intros Hs. exfalso. match type of Hs with starts_clear ?x = _ => assert (starts_clear x = true) by
      (apply starts_clear_iff; unfold frame_len; rewrite <- !app_assoc; eexists; reflexivity) end. congruence.
  - apply (ack_delivered_iff C T HL s (inv_reachable C T s HR)) in H
      as (pk & cd & ((L & sig & _ & -> & _) & _) & _). split; [discriminate|].
    intros Hs. exfalso. match type of Hs with starts_clear ?x = _ => assert (starts_clear x = true) by
      (apply starts_clear_iff; unfold frame_len; rewrite <- !app_assoc; eexists; reflexivity) end. congruence.
  - apply (user_delivered_iff C T HL s (inv_reachable C T s HR)) in H
      as (k & n & data & (_ & Hk & _ & (text & (L & _ & ->) & ->) & _) & _).
    split; [intros _|reflexivity].
    destruct (starts_clear _) eqn:E; [|reflexivity]. exfalso. apply starts_clear_iff in E as [r E].
    unfold hashed, frame_len in E. rewrite <- !app_assoc in E. exact (proj1 (seal_magic_iff C HL k _) Hk r E).
Qed.

(** ** C07 *)
Lemma usize_le_64 : 2 ^ usize_bits T <= 2 ^ 64.
Proof. apply N.pow_le_mono_r; [lia|]. unfold usize_bits. destruct (usize_width T); lia. Qed.

Lemma own_length_field n : 16 + n < 2 ^ usize_bits T -> length_field T n n.
Proof.
  intros H. pose proof usize_le_64. unfold length_field. split; [lia|]. split; [apply N.mod_small; lia|exact H].
Qed.

Lemma len_32 (l : bytes) : length l = 32%nat -> len l = 32.
Proof. unfold len. intros ->. reflexivity. Qed.

Lemma connect_content_len e p c :
  length e = 32%nat -> length p = 32%nat -> len (connect_content e p c) = 68 + len c.
Proof.
  intros H1 H2. unfold connect_content. rewrite !len_app, (len_32 e), (len_32 p) by assumption. 
  change (len [x00; x00; x00; x00]) with 4. lia.
Qed.

Lemma connect_signed epk seed cd :
  length epk = 32%nat -> 86 + len cd < 2 ^ usize_bits T ->
  let f := connect_frame epk (ed25519_public C seed) cd in
  signed_frame C T (ed25519_public C seed) [x00; x01] (connect_content epk (ed25519_public C seed) cd)
    (f ++ ed25519_sign C seed f).
Proof.
  intros H1 H2 f. exists (2 + len (connect_content epk (ed25519_public C seed) cd)), (ed25519_sign C seed f).
  split; [|split; [reflexivity|apply law_ed25519_correct; exact HL]].
  apply own_length_field. rewrite connect_content_len by (try apply (law_ed25519_public_len C HL); assumption). lia.
Qed.

Lemma ack_signed ch seed cd :
  length ch = 32%nat -> 50 + len cd < 2 ^ usize_bits T ->
  let f := ack_frame ch cd in
  signed_frame C T (ed25519_public C seed) [x00; x02] (ch ++ cd) (f ++ ed25519_sign C seed f).
Proof.
  intros H1 H2 f. exists (2 + len (ch ++ cd)), (ed25519_sign C seed f).
  split; [|split; [reflexivity|apply law_ed25519_correct; exact HL]].
  apply own_length_field. rewrite len_app, len_32 by assumption. lia.
Qed.

Lemma reachable_epk s : reachable C T s -> length (ephemeral_pubkey s) = 32%nat.
Proof.
  intros HR. destruct (inv_pub C T s (inv_reachable C T s HR)) as [sk ->]. apply law_x25519_public_len. exact HL.
Qed.

Theorem connect_round_trip a a' b seed cd r :
  reachable C T a -> reachable C T r ->
  create_connect_message C (ed25519_public C seed) cd a = (a', Ok b) ->
  86 + len (custom cd) < 2 ^ usize_bits T ->
  key_acceptable r (ed25519_public C seed) -> wants_connect r ->
  agreement_possible C r (ephemeral_pubkey a) ->
  snd (read C T (b ++ ed25519_sign C seed b) r)
    = Ok (Some (MConnect [x00; x00; x00; x00] (ed25519_public C seed) (nonempty (custom cd)))).
Proof.
  intros Ha Hr E Hb Hk Hw Hag.
  apply create_connect_cases in E as [(r0 & _ & _ & Ho)|(_ & e & Ho & _)]; [|discriminate].
  injection Ho as ->.
  apply (connect_delivered_iff C T HL r (inv_reachable C T r Hr)).
  exists (ephemeral_pubkey a), (custom cd). split; [|auto].
  split; [apply len_32, reachable_epk, Ha|]. split; [apply len_32, (law_ed25519_public_len C HL)|].
  split; [apply connect_signed; [apply reachable_epk, Ha|exact Hb]|]. auto.
Qed.

Theorem ack_round_trip a a' b seed cd r :
  reachable C T a -> reachable C T r ->
  create_ack_message C cd a = (a', Ok b) ->
  50 + len (custom cd) < 2 ^ usize_bits T ->
  peer_epk a = Some (ephemeral_pubkey r) ->
  peer_sig_pubkey r = Some (ed25519_public C seed) -> wants_ack r ->
  snd (read C T (b ++ ed25519_sign C seed b) r) = Ok (Some (MAck (nonempty (custom cd)))).
Proof.
  intros Ha Hr E Hb Hpe Hk Hw.
  apply (create_ack_cases C T) in E as [(st & epk & _ & _ & Hp & Ho)|(_ & e & Ho & _)];
    [|discriminate|exact (inv_reachable C T a Ha)].
  injection Ho as ->. rewrite Hpe in Hp. injection Hp as <-.
  apply (ack_delivered_iff C T HL r (inv_reachable C T r Hr)).
  exists (ed25519_public C seed), (custom cd). split; [|reflexivity].
  split; [|auto]. apply ack_signed; [apply law_sha256_len; exact HL|exact Hb].
Qed.

(** ** C08 *)
Theorem user_round_trip a a' w w' data k r :
  reachable C T a -> reachable C T r ->
  takes_all w -> write_message C T data a w = (a', w', Ok tt) ->
  session_key a = Some k -> session_key r = Some k -> keystream_ok C k ->
  26 + len data < 2 ^ usize_bits T ->
  established r -> window_room r (next_nonce_sent a) -> ~ last_nonce T r (next_nonce_sent a) ->
  exists d, output w' = output w ++ d /\
    snd (read C T d r) = Ok (Some (MMessage (nonempty data))).
Proof.
  intros Ha Hr Hw E Hka Hkr Hks Hb He Hroom Hlast.
  pose proof (inv_sent C T a (inv_reachable C T a Ha)) as Hn.
  exists (user_datagram C k (next_nonce_sent a) data). split.
  - destruct (write_ok C T HL data a w a' w' (or_introl Hw) E) as (k' & Hk' & _ & Ho).
    congruence.
  - apply (user_delivered_iff C T HL r (inv_reachable C T r Hr)).
    exists k, (next_nonce_sent a), data. split; [|reflexivity].
    destruct (opens_user_datagram C T k (next_nonce_sent a) data Hn Hks Hb) as (_ & _ & Ht).
    unfold user_delivery. auto 10.
Qed.

Theorem bad_keystream_never_delivers k r d o :
  reachable C T r -> session_key r = Some k -> ~ keystream_ok C k ->
  snd (read C T d r) <> Ok (Some (MMessage o)).
Proof.
  intros HR Hk Hbad H. apply (user_delivered_iff C T HL r (inv_reachable C T r HR)) in H
    as (k' & n & data & (H1 & H2 & _) & _).
  assert (k' = k) by congruence. subst k'. contradiction.
Qed.

(** ** C10 *)
Theorem well_framed_total s d L th k rest p :
  reachable C T s ->
  d = magic ++ version ++ u64_be L ++ th -> headers th k rest ->
  headers_size k <= L -> 16 + L <= len d -> len d < 2 ^ usize_bits T ->
  snd (read C T d s) <> Panic p.
Proof.
  intros HR Hd Hh H1 H2 H3 Hp.
  pose proof usize_le_64 as H64. pose proof (pow_bits T) as Hpb.
  assert (text_end T L = 16 + L) as Hte by (unfold text_end; apply N.mod_small; lia).
  assert (~ end_overflows T L) as Hov
    by (unfold end_overflows; rewrite N.mod_small by lia; lia).
  assert (datagram T C (session_key s) d (check_sealed false (DFrame d L k))) as Hc.
  { rewrite Hd. apply dg_clear. eapply tx_frame; [lia|tauto|exact Hh]. }
  assert (panic_cause C T s d) as Hpc.
  { apply (read_panic_iff C T HL s (inv_reachable C T s HR)). eauto. }
  assert (forall c, datagram T C (session_key s) d c -> c = check_sealed false (DFrame d L k)) as Hu
    by (intros; eapply datagram_unique; eassumption).
  destruct Hpc as [Hx|text L' epk pk Hx _ Hy|text L' pk Hx _ Hy|text L' n Hx _ _ Hy|
                   text L' epk pk Hx _ _ _ _ Hy|text L' pk Hx _ _ _ Hy|text L' n Hx _ _ _ _ Hy|text L' n Hx];
    apply Hu in Hx; destruct k; cbn [check_sealed must_be_sealed Bool.eqb headers_size] in *; try discriminate;
    injection Hx; intros; subst; lia.
Qed.

(** ** C22 *)
Theorem rejected_no_trace s d e :
  reachable C T s -> snd (read C T d s) = Err e -> harmless e = true -> e <> FailToComputeAgreement ->
  fst (read C T d s) = s \/
  (e = RecvInvalidMsg InvalidHashOrSig /\ peer_sig_pubkey s = None /\
   exists L epk pk rest, length pk = 32%nat /\
     d = magic ++ version ++ u64_be L ++ [x00; x01] ++ epk ++ [x00; x00; x00; x00] ++ pk ++ rest /\
     fst (read C T d s) = set_peer_sig_pubkey (Some pk) s).
Proof.
  intros HR H He Hne. pose proof (inv_reachable C T s HR) as HI.
  destruct (read C T d s) as [s' o] eqn:E. cbn [fst snd] in *. subst o.
  assert (s' = set_status Fail s -> s' = s) as Hfail.
  { intros Hs. destruct (msl_status s) eqn:Est.
    - rewrite <- Est in Hs. rewrite set_status_same in Hs. exact Hs.
    - exfalso. assert (call_step C T s (CRead d) = (s', RMsg (Err e))) as Ec by (cbn [call_step]; rewrite E; reflexivity).
      apply step_evolves in Ec; [|exact HI]. rewrite Hs in Ec. cbn [set_status msl_status] in Ec.
      apply evolves_to_fail in Ec; [|congruence]. unfold fatal in Ec. cbn [snd] in Ec. rewrite He in Ec. discriminate.
    - exfalso. assert (call_step C T s (CRead d) = (s', RMsg (Err e))) as Ec by (cbn [call_step]; rewrite E; reflexivity).
      apply step_evolves in Ec; [|exact HI]. rewrite Hs in Ec. cbn [set_status msl_status] in Ec.
      apply evolves_to_fail in Ec; [|congruence]. unfold fatal in Ec. cbn [snd] in Ec. rewrite He in Ec. discriminate. }
  destruct (datagram_total C T HL (session_key s) d) as [c Hc].
  destruct c as [|e0| |text L k].
  { destruct (read_of_panic C T HL s d Hc) as [p Hp]. congruence. }
  { rewrite (read_of_reject C T HL s d e0 Hc) in E. injection E as <- <-. left. apply Hfail. reflexivity. }
  { rewrite (read_of_undecryptable C T HL s d Hc) in E. injection E as <- <-. left. apply Hfail. reflexivity. }
  pose proof (datagram_frame C T _ _ _ _ _ Hc) as (HL64 & _ & (th & rest & Ht & Hh) & Hd).
  pose proof (get_message_exact T text L k) as Hg.
  remember (Err e) as o eqn:Eo.
  destruct k as [epk pk|ch|n]; cbn [must_be_sealed] in Hd.
  - destruct Hd as [[_ Hd]|[Hd _]]; [|discriminate].
    inversion Hh as [|epk0 pk0 rest0 Le Lp E1 E2 E3|]; subst epk0 pk0 rest0 th. rewrite <- Hd in Ht.
    apply (read_connect_result C T HL s HI d text L epk pk) in E; [|exact Hc].
    destruct E; try discriminate Eo; auto.
    + injection Eo as <-. destruct (peer_sig_pubkey s) as [k|] eqn:Ep.
      * left. unfold pin. rewrite Ep. reflexivity.
      * right. split; [reflexivity|]. split; [reflexivity|]. exists L, epk, pk, rest.
        split; [unfold len in Lp; lia|]. split; [exact Ht|]. unfold pin. rewrite Ep. reflexivity.
    + injection Eo as <-. match goal with H : _ \/ (_ /\ e0 = _) |- _ => destruct H as [[_ ->]|[_ ->]] end; discriminate.
    + congruence.
    + destruct Hg as [(_ & _ & Hg)|[_ Hg]]; rewrite Hg in Eo; discriminate.
  - apply (read_ack_result C T HL s d text L ch) in E; [|exact Hc].
    destruct E; try discriminate Eo; auto.
    destruct Hg as [(_ & _ & Hg)|[_ Hg]]; rewrite Hg in Eo; discriminate.
  - apply (read_user_result C T HL s HI d text L n) in E; [|exact Hc].
    destruct E; try discriminate Eo; auto.
    destruct Hg as [(_ & _ & Hg)|[_ Hg]]; rewrite Hg in Eo; discriminate.
Qed.

(** A forged CONNECT poisons an unpinned layer. *)
Theorem forged_connect_pins s epk pk cd junk :
  reachable C T s -> peer_sig_pubkey s = None ->
  length epk = 32%nat -> length pk = 32%nat -> 86 + len cd < 2 ^ usize_bits T ->
  ed25519_verify C pk (connect_frame epk pk cd) junk = false ->
  read C T (connect_frame epk pk cd ++ junk) s
    = (set_peer_sig_pubkey (Some pk) s, Err (RecvInvalidMsg InvalidHashOrSig)).
Proof.
  intros HR Hp H1 H2 Hb Hv. pose proof (inv_reachable C T s HR) as HI.
  set (d := connect_frame epk pk cd ++ junk) in *. set (L := 2 + len (connect_content epk pk cd)).
  assert (length_field T L L) as Hf.
  { apply own_length_field. unfold L. rewrite connect_content_len by assumption. lia. }
  assert (is_datagram C T s d d L (KConnect epk pk)) as Hd.
  { apply clear_datagram; [|reflexivity]. apply connect_class; try (apply len_32; assumption). exact Hf. }
  destruct (read C T d s) as [s' o] eqn:E.
  apply (read_connect_result C T HL s HI d d L epk pk) in E; [|exact Hd].
  apply field_text_end in Hf as [Hte _].
  assert (len (connect_frame epk pk cd) = 16 + L) as Hlf.
  { unfold connect_frame, frame, frame_len. rewrite !len_app, len_u64_be. unfold L.
    change (len magic) with 4. change (len version) with 4. change (len [x00; x01]) with 2. lia. }
  assert (text_end T L <= len d) as Hle by (rewrite Hte; unfold d; rewrite len_app; lia).
  assert (~ signed_by C T pk d L) as Hns.
  { intros [_ Hs]. rewrite Hte in Hs. unfold d in Hs.
    replace (N.to_nat (16 + L)) with (length (connect_frame epk pk cd)) in Hs by (unfold len in Hlf; lia).
    rewrite firstn_exact, skipn_exact in Hs. congruence. }
  assert (key_acceptable s pk) as Hka by (left; exact Hp).
  destruct E; try contradiction; try lia.
  unfold pin. rewrite Hp. reflexivity.
Qed.

(** From then on the key of every other peer is refused. *)
Lemma pinned_step s c s' r k :
  reachable C T s -> peer_sig_pubkey s = Some k -> call_step C T s c = (s', r) -> peer_sig_pubkey s' = Some k.
Proof.
  intros HR Hk E. pose proof (inv_reachable C T s HR) as HI.
  destruct c;
    try (assert (keys s' = keys s) as HK
         by (eapply step_keys; [exact HI|exact E|discriminate|discriminate]);
         unfold keys in HK; congruence).
  - cbn [call_step] in E. destruct (read C T incoming s) as [s1 o] eqn:Er. injection E as <- <-.
    apply (read_keys C T HL _ _ _ _ HI Er). exact Hk.
  - cbn [call_step] in E. rewrite take_ack_read in E.
    destruct (ack_msg_recv_too_early s) as [b|]; [|injection E as <- <-; exact Hk].
    destruct (read C T b (set_ack_early None s)) as [s1 o] eqn:Er. injection E as <- <-.
    apply (read_keys C T HL _ _ _ _ (inv_set_ack_early C T None s HI) Er). exact Hk.
Qed.

Theorem pinned_run s cs s' h k :
  reachable C T s -> peer_sig_pubkey s = Some k -> run C T s cs = (s', h) -> peer_sig_pubkey s' = Some k.
Proof.
  intros HR Hk. revert s HR Hk h. induction cs as [|c cs IH]; intros s HR Hk h E; cbn [run] in E.
  - injection E as <- <-. exact Hk.
  - destruct (call_step C T s c) as [s1 r] eqn:E1. destruct (run C T s1 cs) as [s2 h2] eqn:E2.
    injection E as <- <-. eapply IH; [| |exact E2].
    + pose proof (reach_step C T s c HR) as H. rewrite E1 in H. exact H.
    + eapply pinned_step; eassumption.
Qed.

Theorem pinned_refuses s k d L epk pk :
  reachable C T s -> peer_sig_pubkey s = Some k -> is_datagram C T s d d L (KConnect epk pk) -> pk <> k ->
  read C T d s = (s, Err UnexpectedRemoteSigPubKey).
Proof.
  intros HR Hk Hd Hne. pose proof (inv_reachable C T s HR) as HI.
  destruct (read C T d s) as [s' o] eqn:E.
  apply (read_connect_result C T HL s HI d d L epk pk) in E; [|exact Hd].
  assert (~ key_acceptable s pk) as Hka by (intros [H|H]; congruence).
  destruct E; try contradiction. reflexivity.
Qed.

(** The attack: after the forged CONNECT, in whatever history follows, the
    honest peer's signed CONNECT is refused. *)
Theorem forged_connect_blocks s epk pk cd junk cs s1 h seed epk' cd' :
  reachable C T s -> peer_sig_pubkey s = None ->
  length epk = 32%nat -> length pk = 32%nat -> 86 + len cd < 2 ^ usize_bits T ->
  ed25519_verify C pk (connect_frame epk pk cd) junk = false ->
  run C T s (CRead (connect_frame epk pk cd ++ junk) :: cs) = (s1, h) ->
  length epk' = 32%nat -> 86 + len cd' < 2 ^ usize_bits T -> ed25519_public C seed <> pk ->
  let f := connect_frame epk' (ed25519_public C seed) cd' in
  read C T (f ++ ed25519_sign C seed f) s1 = (s1, Err UnexpectedRemoteSigPubKey).
Proof.
  intros HR Hp H1 H2 Hb Hv E H1' Hb' Hne f.
  cbn [run call_step] in E.
  pose proof (reach_step C T s (CRead (connect_frame epk pk cd ++ junk)) HR) as HR2. cbn [call_step] in HR2.
  rewrite (forged_connect_pins s epk pk cd junk HR Hp H1 H2 Hb Hv) in E, HR2. cbn [fst] in HR2.
  destruct (run C T (set_peer_sig_pubkey (Some pk) s) cs) as [s3 h3] eqn:E3. injection E as <- <-.
  eapply pinned_refuses with (k := pk) (L := 2 + len (connect_content epk' (ed25519_public C seed) cd')) (epk := epk').
  - eapply run_reachable; eassumption.
  - eapply pinned_run; [exact HR2|reflexivity|exact E3].
  - apply clear_datagram; [|reflexivity].
    apply connect_class; [apply len_32; exact H1'|apply len_32, (law_ed25519_public_len C HL)|].
    apply own_length_field. rewrite connect_content_len by (try apply (law_ed25519_public_len C HL); assumption). lia.
  - exact Hne.
Qed.

(** ** C26 *)
Lemma ack_is_datagram s ch cd tail :
  length ch = 32%nat -> 50 + len cd < 2 ^ usize_bits T ->
  is_datagram C T s (ack_frame ch cd ++ tail) (ack_frame ch cd ++ tail) (2 + len (ch ++ cd)) (KAck ch).
Proof.
  intros H1 Hb. apply clear_datagram; [|reflexivity]. apply ack_class; [apply len_32; exact H1|].
  apply own_length_field. rewrite len_app, len_32 by exact H1. lia.
Qed.

Theorem forged_early_ack s cd junk cd' sig :
  reachable C T s -> peer_sig_pubkey s = None -> ack_msg_recv_too_early s = None ->
  50 + len cd < 2 ^ usize_bits T -> 50 + len cd' < 2 ^ usize_bits T ->
  let ch := sha256 C (ephemeral_pubkey s) in
  exists s1 s2,
    read C T (ack_frame ch cd ++ junk) s = (s1, Ok None) /\
    read C T (ack_frame ch cd' ++ sig) s1 = (s2, Err (RecvInvalidMsg UnexpectedAckMsg)) /\
    failed C s2.
Proof.
  intros HR Hp Ha Hb Hb' ch.
  assert (length ch = 32%nat) as Hch by (apply law_sha256_len; exact HL).
  set (d1 := ack_frame ch cd ++ junk).
  exists (set_ack_early (Some d1) s), (set_status Fail (set_ack_early (Some d1) s)).
  split; [|split].
  - assert (ch = sha256 C (ephemeral_pubkey s)) as Hc1 by reflexivity.
    destruct (read C T d1 s) as [s' o] eqn:E.
    apply (read_ack_result C T HL s d1 d1 _ ch _ _ (ack_is_datagram s ch cd junk Hch Hb)) in E.
    destruct E; try reflexivity; try contradiction; congruence.
  - set (s1 := set_ack_early (Some d1) s). set (d2 := ack_frame ch cd' ++ sig).
    destruct (read C T d2 s1) as [s' o] eqn:E.
    apply (read_ack_result C T HL s1 d2 d2 _ ch _ _ (ack_is_datagram s1 ch cd' sig Hch Hb')) in E.
    assert (peer_sig_pubkey s1 = None) as Hp1 by exact Hp.
    assert (ack_msg_recv_too_early s1 = Some d1) as Ha1 by reflexivity.
    assert (ch = sha256 C (ephemeral_pubkey s1)) as Hc1 by reflexivity.
    destruct E; try reflexivity; try contradiction; congruence.
  - apply failed_iff. reflexivity.
Qed.

(** ** C42 *)
Lemma xor2_stream key nonce i a b :
  xor2 (xor_stream C key nonce i a) (xor_stream C key nonce i b) = xor2 a b.
Proof.
  revert i b. induction a as [|x a IH]; intros i [|y b]; cbn [xor_stream xor2]; try reflexivity.
  rewrite IH. f_equal.
  rewrite (byte_xor_comm y), byte_xor_assoc, <- (byte_xor_assoc _ _ y), byte_xor_nilpotent, (byte_xor_comm x00), byte_xor_0_r.
  reflexivity.
Qed.

Lemma without_tag_seal k t : without_tag (seal C k t) = ciphertext C k t.
Proof.
  unfold without_tag. rewrite seal_length by exact HL. unfold seal.
  apply firstn_app_exact. rewrite ciphertext_length. lia.
Qed.

Theorem keystream_reuse k n1 d1 n2 d2 :
  xor2 (without_tag (user_datagram C k n1 d1)) (without_tag (user_datagram C k n2 d2))
  = xor2 (hashed C (user_frame n1 d1)) (hashed C (user_frame n2 d2)).
Proof.
  unfold user_datagram. rewrite !without_tag_seal, <- !xor_stream_spec. apply xor2_stream.
Qed.

Lemma xor2_cancel a b : xor2 (xor2 a b) a = firstn (length a) b.
Proof.
  revert b. induction a as [|x a IH]; intros [|y b]; cbn [xor2 length firstn]; try reflexivity.
  rewrite IH, (byte_xor_comm x y), byte_xor_invol. reflexivity.
Qed.

(** Two writers that share a key: what the eavesdropper sees, and gets when they
    know one of the two messages. *)
Theorem keystream_reuse_written a a' wa wa' da b b' wb wb' db k :
  takes_all wa -> takes_all wb ->
  write_message C T da a wa = (a', wa', Ok tt) -> write_message C T db b wb = (b', wb', Ok tt) ->
  session_key a = Some k -> session_key b = Some k ->
  exists x y, output wa' = output wa ++ x /\ output wb' = output wb ++ y /\
    let ta := hashed C (user_frame (next_nonce_sent a) da) in
    let tb := hashed C (user_frame (next_nonce_sent b) db) in
    xor2 (without_tag x) (without_tag y) = xor2 ta tb /\
    xor2 (xor2 (without_tag x) (without_tag y)) ta = firstn (length ta) tb.
Proof.
  intros Ha Hb Ea Eb Ka Kb.
  destruct (write_ok C T HL _ _ _ _ _ (or_introl Ha) Ea) as (k1 & K1 & _ & O1).
  destruct (write_ok C T HL _ _ _ _ _ (or_introl Hb) Eb) as (k2 & K2 & _ & O2).
  assert (k1 = k) by congruence. assert (k2 = k) by congruence. subst k1 k2.
  do 2 eexists. split; [exact O1|]. split; [exact O2|]. cbv zeta.
  rewrite keystream_reuse. split; [reflexivity|]. apply xor2_cancel.
Qed.

(** ** A whole negotiation *)

(** Any created layer that accepts the key of [seed] completes a negotiation
    with whoever signs with [seed] and announces [epk]. *)
Theorem handshake sk cfg pin0 s0 mypk cd1 seed epk cd2 cd3 cd4 z :
  create C (RngKey sk) cfg pin0 = Ok s0 ->
  (pin0 = None \/ pin0 = Some (ed25519_public C seed)) ->
  length epk = 32%nat -> x25519_agree C sk epk = Some z ->
  86 + len cd2 < 2 ^ usize_bits T -> 50 + len cd4 < 2 ^ usize_bits T ->
  exists s, run C T s0 [CConnect mypk cd1; CRead (signed_connect C seed epk cd2);
                        CAck cd3; CRead (signed_ack C seed (x25519_public C sk) cd4)] =
    (s, [(CConnect mypk cd1, RBytes (Ok (connect_frame (x25519_public C sk) mypk (custom cd1))));
         (CRead (signed_connect C seed epk cd2),
          RMsg (Ok (Some (MConnect [x00; x00; x00; x00] (ed25519_public C seed) (nonempty cd2)))));
         (CAck cd3, RBytes (Ok (ack_frame (sha256 C epk) (custom cd3))));
         (CRead (signed_ack C seed (x25519_public C sk) cd4),
          RMsg (Ok (Some (MAck (nonempty cd4)))))]) /\
    established s /\ session_key s = derived_secret C sk epk /\
    next_nonce_expected s = 0 /\ orphan_nonce_list s = [] /\ next_nonce_sent s = 0.
Proof.
  intros Hc Hpin Hepk Hz Hb2 Hb4.
  assert (reachable C T s0) as HR0 by (eapply reach_create; exact Hc).
  destruct (created_fresh C _ _ _ _ Hc) as (F1 & F2 & F3 & F4).
  assert (msl_status s0 = OngoingNegotiation Created WaitConnectMsg /\ ephemeral_pubkey s0 = x25519_public C sk /\
          ephemeral s0 = Some {| ekp_priv := sk; ekp_pub := x25519_public C sk |} /\ peer_sig_pubkey s0 = pin0)
    as (S1 & S2 & S3 & S4) by (cbn in Hc; injection Hc as <-; repeat split; reflexivity).
  (* CONNECT *)
  destruct (create_connect_message C mypk cd1 s0) as [s1 o1] eqn:E1.
  pose proof (reach_step C T s0 (CConnect mypk cd1) HR0) as HR1. cbn [call_step] in HR1. rewrite E1 in HR1. cbn [fst] in HR1.
  apply create_connect_cases in E1 as Hx.
  destruct Hx as [(r & Hr & -> & ->)|(_ & e & _ & He)]; [|rewrite S1 in He; discriminate].
  rewrite S1 in Hr. injection Hr as <-. rewrite S2 in *.
  set (s1 := set_status (OngoingNegotiation ConnectMsgSent WaitConnectMsg) s0) in *.
  (* read CONNECT *)
  destruct (read C T (signed_connect C seed epk cd2) s1) as [s2 o2] eqn:E2.
  pose proof (reach_step C T s1 (CRead (signed_connect C seed epk cd2)) HR1) as HR2. cbn [call_step] in HR2. rewrite E2 in HR2. cbn [fst] in HR2.
  assert (o2 = Ok (Some (MConnect [x00; x00; x00; x00] (ed25519_public C seed) (nonempty cd2)))) as ->.
  { replace o2 with (snd (read C T (signed_connect C seed epk cd2) s1)) by (rewrite E2; reflexivity).
    apply (connect_delivered_iff C T HL s1 (inv_reachable C T s1 HR1)).
    exists epk, cd2. split; [|auto].
    split; [apply len_32, Hepk|]. split; [apply len_32, (law_ed25519_public_len C HL)|].
    split; [apply connect_signed; assumption|]. split; [|split].
    - unfold key_acceptable. change (peer_sig_pubkey s1) with (peer_sig_pubkey s0). rewrite S4. exact Hpin.
    - exists ConnectMsgSent. reflexivity.
    - eexists _, z. split; [exact S3|exact Hz]. }
  pose proof (read_keys C T HL _ _ _ _ (inv_reachable C T s1 HR1) E2) as (R1 & R2 & R3 & R4 & _).
  destruct R4 as [(_ & _ & _ & R4)|(epk' & pk' & Hcar & Hcn & Hka & _)]; [discriminate|].
  assert (carries_epk (signed_connect C seed epk cd2) epk) as Hcar'.
  { split; [apply len_32, Hepk|]. exists (2 + len (connect_content epk (ed25519_public C seed) cd2)), (ed25519_public C seed).
    eexists. split; [apply len_32, (law_ed25519_public_len C HL)|].
    unfold signed_connect, connect_frame, frame, frame_len, connect_content. rewrite <- !app_assoc. reflexivity. }
  rewrite (carries_epk_inj _ _ _ Hcar Hcar') in *. clear epk' Hcar.
  pose proof (connected_secret C HL s1 sk epk pk' s2 S2) as Hsec.
  specialize (Hsec (fun kp H => ltac:(change (ephemeral s1) with (ephemeral s0) in H; rewrite S3 in H; injection H as <-; reflexivity))
    (len_32 _ Hepk) Hcn).
  assert (peer_sig_pubkey s2 = Some (ed25519_public C seed)) as Hpk2.
  { destruct (peer_sig_pubkey s1) as [k|] eqn:Ek.
    - rewrite (R2 k eq_refl). change (peer_sig_pubkey s1) with (peer_sig_pubkey s0) in Ek. rewrite S4 in Ek.
      destruct Hpin as [Hpin|Hpin]; congruence.
    - destruct Hcn as (l & kp & _ & _ & ->). cbn [set_secret set_ephemeral set_peer_epk set_status peer_sig_pubkey].
      unfold pin. rewrite Ek. cbn [set_peer_sig_pubkey peer_sig_pubkey].
      destruct R3 as (L & e3 & pk3 & rest & P1 & P2 & P3 & P4); [reflexivity| |].
      { cbn [set_secret set_ephemeral set_peer_epk set_status peer_sig_pubkey]. unfold pin. rewrite Ek. discriminate. }
      cbn [set_secret set_ephemeral set_peer_epk set_status peer_sig_pubkey] in P3. unfold pin in P3. rewrite Ek in P3.
      cbn [set_peer_sig_pubkey peer_sig_pubkey] in P3. injection P3 as ->.
      unfold signed_connect, connect_frame, frame, frame_len, connect_content in P4. rewrite <- !app_assoc in P4.
      do 2 (apply app_inv_head in P4). apply app_inv_len in P4 as [_ P4]; [|reflexivity].
      apply app_inv_head in P4. apply app_inv_len in P4 as [_ P4]; [|unfold len in *; lia].
      apply app_inv_head in P4. apply app_inv_len in P4 as [P4 _]; [|unfold len in *; rewrite (law_ed25519_public_len C HL); lia].
      congruence. }
  assert (msl_status s2 = OngoingNegotiation ConnectMsgSent ValidConnectMsgReceived /\ peer_epk s2 = Some epk /\
    ephemeral_pubkey s2 = x25519_public C sk /\
    next_nonce_expected s2 = 0 /\ orphan_nonce_list s2 = [] /\ next_nonce_sent s2 = 0) as (Q1 & Q2 & Q3 & Q4 & Q5 & Q6).
  { apply connected_fields in Hcn as (l & kp & Hst & _ & Hst' & Hp & _). injection Hst as <-.
    destruct (inv_nego C T s2 (inv_reachable C T s2 HR2) _ _ Hst') as (W1 & W2 & W3 & _).
    repeat split; try assumption. rewrite R1. exact S2. }
  (* ACK *)
  destruct (create_ack_message C cd3 s2) as [s3 o3] eqn:E3.
  pose proof (reach_step C T s2 (CAck cd3) HR2) as HR3. cbn [call_step] in HR3. rewrite E3 in HR3. cbn [fst] in HR3.
  apply (create_ack_cases C T) in E3 as Hx; [|exact (inv_reachable C T s2 HR2)].
  destruct Hx as [(st & epk3 & Ha & -> & Hp3 & ->)|(_ & e & _ & He)]; [|rewrite Q1 in He; discriminate].
  rewrite Q1 in Ha. cbn [apply_action] in Ha. injection Ha as <-. rewrite Q2 in Hp3. injection Hp3 as <-.
  set (s3 := set_status (OngoingNegotiation ConnectMsgSent AckMsgSent) s2) in *.
  (* read ACK *)
  set (d4 := signed_ack C seed (x25519_public C sk) cd4).
  destruct (read C T d4 s3) as [s4 o4] eqn:E4.
  assert (length (sha256 C (x25519_public C sk)) = 32%nat) as Hch by (apply law_sha256_len; exact HL).
  assert (o4 = Ok (Some (MAck (nonempty cd4)))) as ->.
  { replace o4 with (snd (read C T d4 s3)) by (rewrite E4; reflexivity).
    apply (ack_delivered_iff C T HL s3 (inv_reachable C T s3 HR3)).
    exists (ed25519_public C seed), cd4. split; [|reflexivity].
    split; [|split; [exact Hpk2|exists AckMsgSent; reflexivity]].
    change (ephemeral_pubkey s3) with (ephemeral_pubkey s2). rewrite Q3. apply ack_signed; assumption. }
  apply (read_ack_result C T HL s3 d4 d4 _ _ _ _ (ack_is_datagram s3 _ cd4 _ Hch Hb4)) in E4 as Hr4.
  exists s4. split.
  - cbn [run call_step]. rewrite E1. cbn [run call_step]. rewrite E2. cbn [run call_step]. rewrite E3.
    cbn [run call_step]. fold d4. rewrite E4. reflexivity.
  - remember (Ok (Some (MAck (nonempty cd4)))) as o eqn:Eo. destruct Hr4; try discriminate Eo.
    match goal with H : apply_action _ _ = _ |- _ => cbn in H; injection H as <- end.
    split; [apply established_iff; reflexivity|]. split; [exact Hsec|]. auto.
Qed.

(** ** C40 *)
Theorem reflection s data w w' s' k :
  reachable C T s -> takes_all w -> write_message C T data s w = (s', w', Ok tt) ->
  session_key s = Some k -> keystream_ok C k -> 26 + len data < 2 ^ usize_bits T ->
  window_room s (next_nonce_sent s) -> ~ last_nonce T s (next_nonce_sent s) ->
  exists d, output w' = output w ++ d /\
    snd (read C T d s') = Ok (Some (MMessage (nonempty data))).
Proof.
  intros HR Hw E Hk Hks Hb Hroom Hlast.
  pose proof (inv_sent C T s (inv_reachable C T s HR)) as Hn.
  destruct (write_ok C T HL data s w s' w' (or_introl Hw) E) as (k' & Hk' & He & Ho).
  assert (k' = k) by congruence. subst k'. exists (user_datagram C k (next_nonce_sent s) data). split; [exact Ho|].
  pose proof (reach_step C T s (CWrite data w) HR) as HR'. cbn [call_step] in HR'. rewrite E in HR'. cbn [fst] in HR'.
  apply (user_delivered_iff C T HL s' (inv_reachable C T s' HR')).
  exists k, (next_nonce_sent s), data. split; [|reflexivity].
  destruct (opens_user_datagram C T k (next_nonce_sent s) data Hn Hks Hb) as (_ & _ & Ht).
  apply write_message_cases in E
    as [(_ & _ & _ & [(l & r & _ & H)|(_ & H)])|[(_ & _ & _ & _ & H)|(Hst & k2 & o1 & _ & _ &
        [(e & _ & H & _)|[(_ & n & _ & -> & _)|(_ & p & _ & _ & H)]])]]; try discriminate.
  split; [exact Hk|]. split; [exact Hks|]. split; [exact Hn|]. split; [exact Ht|].
  split; [apply established_iff; exact Hst|]. split; [exact Hroom|exact Hlast].
Qed.

(** A layer negotiates with itself: its own CONNECT and ACK are sent back. *)
Theorem self_negotiation sk cfg s0 seed cd1 cd2 z :
  create C (RngKey sk) cfg None = Ok s0 -> x25519_agree C sk (x25519_public C sk) = Some z ->
  86 + len (custom cd1) < 2 ^ usize_bits T -> 50 + len (custom cd2) < 2 ^ usize_bits T ->
  exists s1 s2 s3 s4 b1 b2 k,
    create_connect_message C (ed25519_public C seed) cd1 s0 = (s1, Ok b1) /\
    read C T (b1 ++ ed25519_sign C seed b1) s1 =
      (s2, Ok (Some (MConnect [x00; x00; x00; x00] (ed25519_public C seed) (nonempty (custom cd1))))) /\
    create_ack_message C cd2 s2 = (s3, Ok b2) /\
    read C T (b2 ++ ed25519_sign C seed b2) s3 = (s4, Ok (Some (MAck (nonempty (custom cd2))))) /\
    established s4 /\ session_key s4 = Some k.
Proof.
  intros Hc Hz H1 H2.
  destruct (handshake sk cfg None s0 (ed25519_public C seed) cd1 seed (x25519_public C sk) (custom cd1) cd2 (custom cd2) z
    Hc (or_introl eq_refl) (law_x25519_public_len C HL sk) Hz H1 H2) as (s & Hr & He & Hk & _).
  cbn [run call_step] in Hr.
  destruct (create_connect_message C (ed25519_public C seed) cd1 s0) as [s1 o1] eqn:E1.
  destruct (read C T (signed_connect C seed (x25519_public C sk) (custom cd1)) s1) as [s2 o2] eqn:E2.
  destruct (create_ack_message C cd2 s2) as [s3 o3] eqn:E3.
  destruct (read C T (signed_ack C seed (x25519_public C sk) (custom cd2)) s3) as [s4 o4] eqn:E4.
  injection Hr as -> -> -> -> ->.
  unfold derived_secret in Hk. rewrite Hz in Hk.
  exists s1, s2, s3, s. do 3 eexists. split; [reflexivity|]. split; [exact E2|]. split; [exact E3|].
  split; [exact E4|]. split; [exact He|exact Hk].
Qed.

(** ** C41 *)
(** [A] has key seed [sa], the attacker [sm], [B] [sb].  The attacker relays
    everything, signing A's frames again with the key of [sm]. *)
Theorem misbinding skA skB cfgA cfgB a0 b0 sa sb sm cdA cdB ackA ackB z :
  create C (RngKey skA) cfgA (Some (ed25519_public C sb)) = Ok a0 ->
  create C (RngKey skB) cfgB (Some (ed25519_public C sm)) = Ok b0 ->
  x25519_agree C skA (x25519_public C skB) = Some z ->
  86 + len (custom cdA) < 2 ^ usize_bits T -> 86 + len (custom cdB) < 2 ^ usize_bits T ->
  50 + len (custom ackA) < 2 ^ usize_bits T -> 50 + len (custom ackB) < 2 ^ usize_bits T ->
  exists a b k,
    run C T a0 [CConnect (ed25519_public C sa) cdA; CRead (signed_connect C sb (x25519_public C skB) (custom cdB));
                CAck ackA; CRead (signed_ack C sb (x25519_public C skA) (custom ackB))] =
      (a, [(CConnect (ed25519_public C sa) cdA, RBytes (Ok (connect_frame (x25519_public C skA) (ed25519_public C sa) (custom cdA))));
           (CRead (signed_connect C sb (x25519_public C skB) (custom cdB)),
            RMsg (Ok (Some (MConnect [x00; x00; x00; x00] (ed25519_public C sb) (nonempty (custom cdB))))));
           (CAck ackA, RBytes (Ok (ack_frame (sha256 C (x25519_public C skB)) (custom ackA))));
           (CRead (signed_ack C sb (x25519_public C skA) (custom ackB)), RMsg (Ok (Some (MAck (nonempty (custom ackB))))))]) /\
    run C T b0 [CConnect (ed25519_public C sb) cdB; CRead (signed_connect C sm (x25519_public C skA) (custom cdA));
                CAck ackB; CRead (signed_ack C sm (x25519_public C skB) (custom ackA))] =
      (b, [(CConnect (ed25519_public C sb) cdB, RBytes (Ok (connect_frame (x25519_public C skB) (ed25519_public C sb) (custom cdB))));
           (CRead (signed_connect C sm (x25519_public C skA) (custom cdA)),
            RMsg (Ok (Some (MConnect [x00; x00; x00; x00] (ed25519_public C sm) (nonempty (custom cdA))))));
           (CAck ackB, RBytes (Ok (ack_frame (sha256 C (x25519_public C skA)) (custom ackB))));
           (CRead (signed_ack C sm (x25519_public C skB) (custom ackA)), RMsg (Ok (Some (MAck (nonempty (custom ackA))))))]) /\
    established a /\ established b /\ session_key a = Some k /\ session_key b = Some k.
Proof.
  intros HA HB Hz B1 B2 B3 B4.
  assert (x25519_agree C skB (x25519_public C skA) = Some z) as Hz' by (rewrite (law_x25519_comm C HL); exact Hz).
  destruct (handshake skA cfgA _ a0 (ed25519_public C sa) cdA sb (x25519_public C skB) (custom cdB) ackA (custom ackB) z
    HA (or_intror eq_refl) (law_x25519_public_len C HL skB) Hz B2 B4) as (a & Ra & Ea & Ka & _).
  destruct (handshake skB cfgB _ b0 (ed25519_public C sb) cdB sm (x25519_public C skA) (custom cdA) ackB (custom ackA) z
    HB (or_intror eq_refl) (law_x25519_public_len C HL skA) Hz' B1 B3) as (b & Rb & Eb & Kb & _).
  rewrite (derived_secret_comm C HL) in Kb.
  destruct (derived_secret C skA (x25519_public C skB)) as [k|] eqn:Ek;
    [|unfold derived_secret in Ek; rewrite Hz in Ek; discriminate].
  exists a, b, k. auto 10.
Qed.

End WithEnv.

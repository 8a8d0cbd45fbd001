(** Message boundaries: the first 16 bytes of a delivered datagram fix its
    length, so nothing glued to it, and no part of it, is delivered. *)

From Verif.Model Require Import Complete.
From Verif.Spec Require Import Wire Datagram Trace ReadSpec Accept Session Writers Attacks CompleteTrace.
From Verif.Proofs Require Import BaseFacts CipherFacts DatagramFacts ReadCases Invariant ReadSpecFacts Accept
  Sending Histories Corollaries Writing CompleteFacts.

Section WithEnv.
Context (C : Crypto) (T : target) (HL : CryptoLaws C).

Notation prefix16 L := (magic ++ version ++ u64_be L).

Lemma prefix16_length L : length (prefix16 L) = 16%nat.
Proof. pose proof (len_u64_be L) as H. rewrite !app_length. unfold len in H. cbn [length magic version]. lia. Qed.

Lemma frame_prefix L ty c r : frame_len L ty c ++ r = prefix16 L ++ (ty ++ c ++ r).
Proof. unfold frame_len. rewrite <- !app_assoc. reflexivity. Qed.

(** What [read] delivered announces its length. *)
Lemma delivered_shape s d m :
  reachable C T s -> snd (read C T d s) = Ok (Some m) ->
  exists L n rest, length_field T L n /\
    (is_user m = false -> d = prefix16 L ++ rest /\ len d = 80 + n) /\
    (is_user m = true -> exists k, session_key s = Some k /\ d = seal C k (prefix16 L ++ rest) /\ len d = 64 + n).
Proof.
  intros HR H. destruct m as [a pk o|o|o].
  - apply (connect_canonical C T HL s d a pk o HR) in H as (_ & _ & L & epk & cd & sig & HF & _ & Hs & Hd & _).
    exists L, (2 + len (connect_content epk pk cd)), ([x00; x01] ++ connect_content epk pk cd ++ sig).
    split; [exact HF|]. split; [intros _|discriminate]. subst d. split; [apply frame_prefix|].
    rewrite len_app, len_frame_len by reflexivity. apply len_length in Hs. rewrite Hs. lia.
  - apply (ack_canonical C T HL s d o HR) in H as (L & pk & cd & sig & _ & HF & Hs & Hd & _).
    exists L, (2 + len (sha256 C (ephemeral_pubkey s) ++ cd)), ([x00; x02] ++ (sha256 C (ephemeral_pubkey s) ++ cd) ++ sig).
    split; [exact HF|]. split; [intros _|discriminate]. subst d. split; [apply frame_prefix|].
    rewrite len_app, len_frame_len by reflexivity. apply len_length in Hs. rewrite Hs. lia.
  - apply (user_canonical C T HL s d o HR) in H as (k & n & data & L & Hk & _ & _ & HF & Hd & _).
    exists L, (2 + len (u64_be n ++ data)),
      ([x00; x00] ++ (u64_be n ++ data) ++ sha256 C (frame_len L [x00; x00] (u64_be n ++ data))).
    split; [exact HF|]. split; [discriminate|intros _]. exists k. split; [exact Hk|]. subst d.
    split; [unfold hashed; rewrite frame_prefix; reflexivity|].
    rewrite len_seal by exact HL. unfold hashed. rewrite len_app, len_frame_len by reflexivity.
    pose proof (law_sha256_len C HL (frame_len L [x00; x00] (u64_be n ++ data))) as Hh.
    apply len_length in Hh. rewrite Hh. lia.
Qed.

Lemma ciphertext_firstn k i t : firstn i (ciphertext C k t) = ciphertext C k (firstn i t).
Proof.
  rewrite <- !xor_stream_spec. generalize 0%nat as j. revert i.
  induction t as [|b t IH]; intros [|i] j; cbn [firstn xor_stream]; try reflexivity.
  rewrite IH. reflexivity.
Qed.

Lemma seal_prefix16 k L rest : firstn 16 (seal C k (prefix16 L ++ rest)) = ciphertext C k (prefix16 L).
Proof.
  unfold seal. rewrite firstn_app. rewrite ciphertext_firstn.
  rewrite ciphertext_length, app_length, prefix16_length.
  replace (16 - (16 + length rest))%nat with 0%nat by lia. rewrite firstn_O, app_nil_r.
  rewrite <- (prefix16_length L). rewrite firstn_exact. reflexivity.
Qed.

Lemma firstn_prefix16 L r : firstn 16 (prefix16 L ++ r) = prefix16 L.
Proof. rewrite <- (prefix16_length L). apply firstn_exact. Qed.

Lemma prefix16_inj L L' : L < 2 ^ 64 -> L' < 2 ^ 64 -> prefix16 L = prefix16 L' -> L = L'.
Proof. intros H H' E. do 2 apply app_inv_head in E. apply u64_be_inj; assumption. Qed.

Lemma field_unique L n n' : length_field T L n -> length_field T L n' -> n = n'.
Proof. intros (_ & <- & _) (_ & H & _). exact H. Qed.

Lemma firstn_clear d d' : firstn 16 d = firstn 16 d' -> starts_clear d = starts_clear d'.
Proof.
  intros H. unfold starts_clear. f_equal.
  transitivity (firstn 4 (firstn 16 d)); [rewrite firstn_firstn; reflexivity|].
  rewrite H, firstn_firstn. reflexivity.
Qed.

Theorem length_announced s1 s2 d1 d2 m1 m2 :
  reachable C T s1 -> reachable C T s2 ->
  snd (read C T d1 s1) = Ok (Some m1) -> snd (read C T d2 s2) = Ok (Some m2) ->
  (is_user m1 = true -> session_key s1 = session_key s2) ->
  firstn 16 d1 = firstn 16 d2 -> len d1 = len d2.
Proof.
  intros R1 R2 H1 H2 Hk E.
  pose proof (sealed_user_only C T HL s1 d1 m1 R1 H1) as U1.
  pose proof (sealed_user_only C T HL s2 d2 m2 R2 H2) as U2.
  rewrite (firstn_clear d1 d2 E) in U1.
  destruct (delivered_shape s1 d1 m1 R1 H1) as (L1 & n1 & r1 & F1 & A1 & B1).
  destruct (delivered_shape s2 d2 m2 R2 H2) as (L2 & n2 & r2 & F2 & A2 & B2).
  assert (is_user m2 = is_user m1) as Eu.
  { destruct (is_user m1); [apply U2, U1; reflexivity|].
    destruct (is_user m2); [|reflexivity]. symmetry. apply U1, U2. reflexivity. }
  rewrite Eu in A2, B2. destruct (is_user m1).
  - destruct (B1 eq_refl) as (k & Hk1 & Hd1 & ->). destruct (B2 eq_refl) as (k' & Hk2 & Hd2 & ->).
    rewrite <- (Hk eq_refl), Hk1 in Hk2. injection Hk2 as <-.
    subst d1 d2. rewrite !seal_prefix16 in E. apply ciphertext_inj in E.
    apply prefix16_inj in E; [|apply F1|apply F2]. subst L2. rewrite (field_unique _ _ _ F1 F2). reflexivity.
  - destruct (A1 eq_refl) as (Hd1 & ->). destruct (A2 eq_refl) as (Hd2 & ->).
    subst d1 d2. rewrite !firstn_prefix16 in E.
    apply prefix16_inj in E; [|apply F1|apply F2]. subst L2. rewrite (field_unique _ _ _ F1 F2). reflexivity.
Qed.

Lemma delivered_16 s d m : reachable C T s -> snd (read C T d s) = Ok (Some m) -> (16 <= length d)%nat.
Proof.
  intros R H. destruct (delivered_shape s d m R H) as (L & n & r & _ & A & B).
  destruct (is_user m).
  - destruct (B eq_refl) as (_ & _ & _ & Hl). unfold len in Hl. lia.
  - destruct (A eq_refl) as (_ & Hl). unfold len in Hl. lia.
Qed.

Theorem prefix_free s1 s2 d e m1 m2 :
  reachable C T s1 -> reachable C T s2 ->
  snd (read C T d s1) = Ok (Some m1) -> snd (read C T (d ++ e) s2) = Ok (Some m2) ->
  (is_user m1 = true -> session_key s1 = session_key s2) -> e = [].
Proof.
  intros R1 R2 H1 H2 Hk.
  assert (len d = len (d ++ e)) as Hl.
  { apply (length_announced s1 s2 d (d ++ e) m1 m2); try assumption.
    rewrite firstn_app. pose proof (delivered_16 s1 d m1 R1 H1).
    replace (16 - length d)%nat with 0%nat by lia. rewrite firstn_O, app_nil_r. reflexivity. }
  rewrite len_app in Hl. destruct e; [reflexivity|]. rewrite len_cons in Hl. lia.
Qed.

(** ** What glued datagrams do *)
Lemma not_signed pk L n content ty sig e :
  length_field T L n -> len ty = 2 -> n = 2 + len content -> length sig = 64%nat -> e <> [] ->
  let text := frame_len L ty content ++ sig ++ e in
  text_end T L <= len text /\ ~ signed_by C T pk text L.
Proof.
  intros HF Hty Hn Hs He text. unfold text.
  destruct (field_text_end T L n HF) as [Ht _].
  pose proof (len_frame_len L ty content Hty) as Hl.
  assert (text_end T L = len (frame_len L ty content)) as Hte by (rewrite Ht; lia).
  split; [rewrite Hte, len_app; lia|].
  intros [_ H]. rewrite Hte in H. unfold len in H. rewrite Nnat.Nat2N.id, firstn_exact, skipn_exact in H.
  apply (law_ed25519_verify_len C HL) in H. rewrite app_length in H. destruct e; [contradiction|cbn in H; lia].
Qed.

Theorem glued_connect s d a pk o e :
  reachable C T s -> snd (read C T d s) = Ok (Some (MConnect a pk o)) -> e <> [] ->
  exists s', read C T (d ++ e) s = (s', Err (RecvInvalidMsg InvalidHashOrSig)) /\
    (s' = s \/ peer_sig_pubkey s = None /\ s' = set_peer_sig_pubkey (Some pk) s).
Proof.
  intros R H He.
  apply (connect_delivered_iff C T HL s (inv_reachable C T s R)) in H
    as (epk & cd & (H1 & H2 & (L & sig & HF & Hd & Hv) & Hka & _) & _).
  pose proof (law_ed25519_verify_len C HL _ _ _ Hv) as Hs. subst d. rewrite <- app_assoc.
  destruct (not_signed pk L _ _ [x00; x01] sig e HF eq_refl eq_refl Hs He) as [Hle Hns].
  assert (is_datagram C T s (frame_len L [x00; x01] (connect_content epk pk cd) ++ sig ++ e)
            (frame_len L [x00; x01] (connect_content epk pk cd) ++ sig ++ e) L (KConnect epk pk)) as Hdg.
  { apply clear_datagram; [|reflexivity]. apply connect_class; assumption. }
  destruct (read C T _ s) as [s' r] eqn:E.
  apply (read_connect_result C T HL s (inv_reachable C T s R) _ _ _ _ _ _ _ Hdg) in E.
  destruct E; try contradiction; try lia.
  exists (pin pk s). split; [reflexivity|]. unfold pin. destruct (peer_sig_pubkey s); auto.
Qed.

Theorem glued_ack s d o e :
  reachable C T s -> snd (read C T d s) = Ok (Some (MAck o)) -> e <> [] ->
  read C T (d ++ e) s = (s, Err (RecvInvalidMsg InvalidHashOrSig)).
Proof.
  intros R H He.
  apply (ack_delivered_iff C T HL s (inv_reachable C T s R)) in H
    as (pk & cd & ((L & sig & HF & Hd & Hv) & Hp & _) & _).
  pose proof (law_ed25519_verify_len C HL _ _ _ Hv) as Hs. subst d. rewrite <- app_assoc.
  destruct (not_signed pk L _ _ [x00; x02] sig e HF eq_refl eq_refl Hs He) as [Hle Hns].
  assert (is_datagram C T s (frame_len L [x00; x02] (sha256 C (ephemeral_pubkey s) ++ cd) ++ sig ++ e)
            (frame_len L [x00; x02] (sha256 C (ephemeral_pubkey s) ++ cd) ++ sig ++ e) L
            (KAck (sha256 C (ephemeral_pubkey s)))) as Hdg.
  { apply clear_datagram; [|reflexivity]. apply ack_class; [|assumption].
    pose proof (law_sha256_len C HL (ephemeral_pubkey s)) as Hh. apply len_length in Hh. exact Hh. }
  destruct (read C T _ s) as [s' r] eqn:E.
  apply (read_ack_result C T HL s _ _ _ _ _ _ Hdg) in E.
  destruct E; try contradiction; try congruence; try lia.
Qed.

Theorem glued_user s d o e k :
  reachable C T s -> snd (read C T d s) = Ok (Some (MMessage o)) -> session_key s = Some k ->
  (forall text, d ++ e <> seal C k text) ->
  exists s', read C T (d ++ e) s = (s', Err (FailToDecryptData DecTagMismatch)) /\ failed C s'.
Proof.
  intros R H Hk Hn. pose proof (sealed_user_only C T HL s d _ R H) as [U _]. specialize (U eq_refl).
  pose proof (delivered_16 s d _ R H) as Hl.
  destruct (cut_at (d ++ e) 4) as (m & r & E & Hm). { rewrite len_app. unfold len. lia. }
  assert (m <> magic) as Hne.
  { intros ->. unfold starts_clear in U. apply bytes_eqb_neq in U. apply U.
    assert (firstn 4 (d ++ e) = firstn 4 d) as <-.
    { rewrite firstn_app. replace (4 - length d)%nat with 0%nat by lia. rewrite firstn_O, app_nil_r. reflexivity. }
    rewrite E. reflexivity. }
  exists (set_status Fail s). split; [|reflexivity].
  apply (read_of_undecryptable C T HL). rewrite E in Hn |- *. apply (dg_forged T C _ m r k); try assumption.
  rewrite <- E, len_app. unfold len. lia.
Qed.

(** ** Two messages in one writer *)
Lemma opens_shape k d n data : opens C T k d n data ->
  exists L m rest, length_field T L m /\ d = seal C k (prefix16 L ++ rest) /\ len d = 64 + m.
Proof.
  intros (_ & _ & text & (L & HF & ->) & ->).
  exists L, (2 + len (u64_be n ++ data)),
    ([x00; x00] ++ (u64_be n ++ data) ++ sha256 C (frame_len L [x00; x00] (u64_be n ++ data))).
  split; [exact HF|]. split; [unfold hashed; rewrite frame_prefix; reflexivity|].
  rewrite len_seal by exact HL. unfold hashed. rewrite len_app, len_frame_len by reflexivity.
  pose proof (law_sha256_len C HL (frame_len L [x00; x00] (u64_be n ++ data))) as Hh.
  apply len_length in Hh. rewrite Hh. lia.
Qed.

Theorem glued_not_delivered k d n data e s m :
  opens C T k d n data -> e <> [] -> reachable C T s -> session_key s = Some k ->
  snd (read C T (d ++ e) s) <> Ok (Some m).
Proof.
  intros Ho He R Hk H. destruct (opens_shape k d n data Ho) as (L1 & n1 & r1 & F1 & Hd & Hl).
  destruct Ho as (_ & Hks & _).
  pose proof (sealed_user_only C T HL s (d ++ e) m R H) as [_ U].
  destruct (delivered_shape s (d ++ e) m R H) as (L2 & n2 & r2 & F2 & _ & B).
  assert (is_user m = true) as Hm.
  { apply U. destruct (starts_clear (d ++ e)) eqn:Es; [|reflexivity]. exfalso.
    unfold starts_clear in Es. apply bytes_eqb_eq in Es.
    apply (proj1 (seal_magic_iff C HL k (version ++ u64_be L1 ++ r1)) Hks (skipn 4 d)).
    assert (firstn 4 d = magic) as Hf.
    { assert (firstn 4 (d ++ e) = firstn 4 d) as <-.
      { rewrite firstn_app. unfold len in Hl. replace (4 - length d)%nat with 0%nat by lia.
        rewrite firstn_O, app_nil_r. reflexivity. }
      exact Es. }
    rewrite <- Hf at 2. rewrite firstn_skipn. rewrite Hd, <- !app_assoc. reflexivity. }
  destruct (B Hm) as (k' & Hk' & Hd2 & Hl2). rewrite Hk in Hk'. injection Hk' as <-.
  assert (firstn 16 d = firstn 16 (d ++ e)) as E.
  { rewrite firstn_app. unfold len in Hl. replace (16 - length d)%nat with 0%nat by lia.
    rewrite firstn_O, app_nil_r. reflexivity. }
  rewrite Hd2, Hd, !seal_prefix16 in E. apply ciphertext_inj in E.
  apply prefix16_inj in E; [|apply F1|apply F2]. subst L2. pose proof (field_unique _ _ _ F1 F2).
  rewrite len_app in Hl2. destruct e; [contradiction|]. rewrite len_cons in Hl2. lia.
Qed.

Theorem one_writer a a1 a2 w w1 w2 data1 data2 k s m :
  takes_all w -> output w = [] ->
  write_message C T data1 a w = (a1, w1, Ok tt) -> write_message C T data2 a1 w1 = (a2, w2, Ok tt) ->
  session_key a = Some k -> keystream_ok C k -> next_nonce_sent a < 2 ^ 64 ->
  26 + len data1 < 2 ^ usize_bits T ->
  reachable C T s -> session_key s = Some k ->
  snd (read C T (output w2) s) <> Ok (Some m).
Proof.
  intros Hw Ho E1 E2 Hk Hks Hn Hb R Hks'.
  apply (message_appended C T) in E1 as (k1 & Hk1 & Hw1 & O1); [|exact Hw].
  rewrite Hk in Hk1. injection Hk1 as <-.
  apply (message_appended C T) in E2 as (k2 & Hk2 & _ & O2); [|exact Hw1].
  rewrite O2, O1, Ho. cbn [app].
  apply (glued_not_delivered k _ (next_nonce_sent a) data1).
  - apply (opens_user_datagram C T); assumption.
  - intros E. apply (f_equal len) in E. unfold user_datagram in E. rewrite len_seal in E by exact HL. cbn in E. lia.
  - exact R.
  - exact Hks'.
Qed.

(** ** The same in complete mode *)
Context (Z : Zip).

Definition same_kind (m : message) (i : incoming_binary_message) : Prop :=
  match m, i with
  | MConnect _ pk _, IConnect _ pk' => pk = pk' | MAck _, IAck _ => True | MMessage _, IMessage _ => True | _, _ => False
  end.

Lemma read_bin_first d a i l :
  sreachable C Z T a -> snd (read_bin C Z T d a) = Ok (i :: l) ->
  exists m, snd (read C T d (minimal a)) = Ok (Some m) /\ same_kind m i.
Proof.
  intros R H. apply (sreachable_minimal C Z T) in R. unfold read_bin in H.
  destruct (read C T d (minimal a)) as [m [[[c pk x|x|x]|]|e|p]] eqn:Er; cbn [snd] in H |- *; try discriminate.
  - eexists. split; [reflexivity|].
    destruct (uncompress_opt Z x); cbn [snd] in H; try discriminate.
    destruct (take_ack_msg_recv_too_early C T m) as [m2 [[[c2 pk2 x2|x2|x2]|]|e|p]]; cbn [snd] in H; try discriminate;
      try (injection H as <- _; reflexivity).
    destruct (uncompress_opt Z x2); cbn [obind] in H; try discriminate. injection H as <- _. reflexivity.
  - eexists. split; [reflexivity|].
    pose proof (reach_step C T (minimal a) (CRead d) R) as Hm. cbn [call_step] in Hm. rewrite Er in Hm. cbn [fst] in Hm.
    destruct (uncompress_opt Z x) as [y| |]; cbn [snd] in H; try discriminate.
    destruct (drain_tmp_stack_user_msgs C T m) as [m2 [l2|e|p]] eqn:Et; cbn [snd] in H; try discriminate.
    pose proof (drain_users C T m m2 l2 Hm Et) as Hu.
    destruct (uncompress_msgs_ok Z l2 [IAck y] _ H Hu) as (l' & E & _). injection E as -> _. exact I.
  - eexists. split; [reflexivity|].
    destruct (uncompress_opt Z x) as [y| |]; cbn [obind] in H; try discriminate. injection H as <- _. exact I.
Qed.

Theorem glued_connect_complete a d cd pk l e :
  sreachable C Z T a -> snd (read_bin C Z T d a) = Ok (IConnect cd pk :: l) -> e <> [] ->
  snd (read_bin C Z T (d ++ e) a) = Err (RecvInvalidMsg InvalidHashOrSig).
Proof.
  intros R H He. destruct (read_bin_first d a _ l R H) as ([c pk' o|o|o] & Hr & Hk); try contradiction.
  apply (sreachable_minimal C Z T) in R.
  destruct (glued_connect _ d c pk' o e R Hr He) as (s' & E & _). unfold read_bin. rewrite E. reflexivity.
Qed.

Theorem glued_ack_complete a d cd l e :
  sreachable C Z T a -> snd (read_bin C Z T d a) = Ok (IAck cd :: l) -> e <> [] ->
  read_bin C Z T (d ++ e) a = (a, Err (RecvInvalidMsg InvalidHashOrSig)).
Proof.
  intros R H He. destruct (read_bin_first d a _ l R H) as ([c pk' o|o|o] & Hr & Hk); try contradiction.
  apply (sreachable_minimal C Z T) in R. unfold read_bin. rewrite (glued_ack _ d o e R Hr He).
  unfold set_minimal. destruct a; reflexivity.
Qed.

Theorem one_writer_complete a a1 a2 w w1 w2 data1 data2 k b i l :
  takes_all w -> output w = [] ->
  write_bin C Z T data1 a w = (a1, w1, Ok tt) -> write_bin C Z T data2 a1 w1 = (a2, w2, Ok tt) ->
  session_key (minimal a) = Some k -> keystream_ok C k -> next_nonce_sent (minimal a) < 2 ^ 64 ->
  26 + len (packed Z (Some data1) a) < 2 ^ usize_bits T ->
  sreachable C Z T b -> session_key (minimal b) = Some k ->
  snd (read_bin C Z T (output w2) b) <> Ok (i :: l).
Proof.
  intros Hw Ho E1 E2 Hk Hks Hn Hb R Hks' H.
  destruct (read_bin_first _ b i l R H) as (m & Hr & _).
  apply (sreachable_minimal C Z T) in R. revert Hr.
  apply (message_appended_complete C Z T) in E1 as (k1 & Hk1 & Hw1 & O1); [|exact Hw].
  rewrite Hk in Hk1. injection Hk1 as <-.
  apply (message_appended_complete C Z T) in E2 as (k2 & Hk2 & _ & O2); [|exact Hw1].
  rewrite O2, O1, Ho. cbn [app].
  apply (glued_not_delivered k _ (next_nonce_sent (minimal a)) (packed Z (Some data1) a)).
  - apply (opens_user_datagram C T); assumption.
  - intros E. apply (f_equal len) in E. unfold user_datagram in E. rewrite len_seal in E by exact HL. cbn in E. lia.
  - exact R.
  - exact Hks'.
Qed.

End WithEnv.

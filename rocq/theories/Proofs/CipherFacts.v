(** The model's frames and cipher agree with Spec/Wire.v. *)

From Coq Require Import Arith ZifyBool ZifyNat ZifyN.
From Verif.Model Require Import Message.
From Verif.Spec Require Import Wire.
From Verif.Proofs Require Import BaseFacts IoFacts.

(** ** Numbers *)

Lemma byte_at_model n k : byte_at n k = byte_of_N (n / 256 ^ k).
Proof. reflexivity. Qed.

Lemma u64_be_model n : u64_be n = be_encode 8 n.
Proof.
  unfold u64_be. cbn [map be_encode app]. rewrite !byte_at_model.
  rewrite !N.div_div by lia.
  cbn [N.mul Pos.mul Pos.add]. change (256 ^ 0) with 1. rewrite N.div_1_r.
  reflexivity.
Qed.

Lemma len_u64_be n : len (u64_be n) = 8.
Proof. reflexivity. Qed.

Lemma u64_be_inj a b : a < 2 ^ 64 -> b < 2 ^ 64 -> u64_be a = u64_be b -> a = b.
Proof. rewrite !u64_be_model. apply be_encode8_inj. Qed.

Lemma be_decode_u64_be n : n < 2 ^ 64 -> be_decode (u64_be n) = n.
Proof. rewrite u64_be_model. apply be_decode_encode8. Qed.

Lemma u64_be_decode l : length l = 8%nat -> u64_be (be_decode l) = l.
Proof. intros H. rewrite u64_be_model. rewrite <- H at 1. apply be_encode_decode. Qed.

(** ** Frames *)

Lemma len_frame_len L ty c : len ty = 2 -> len (frame_len L ty c) = 18 + len c.
Proof.
  intros H. unfold frame_len. rewrite !len_app, len_u64_be, H.
  change (len magic) with 4. change (len version) with 4. lia.
Qed.

Lemma len_frame ty c : len ty = 2 -> len (frame ty c) = 18 + len c.
Proof. apply len_frame_len. Qed.

Section WithCrypto.
Context (C : Crypto).

Lemma to_bytes_connect pk cd epk peer :
  message_to_bytes C (RConnect SIG_ALGO_ED25519 pk cd) epk peer
  = Ok (connect_frame epk pk (custom cd)).
Proof.
  unfold message_to_bytes, connect_frame, frame, frame_len, connect_content. cbn [prepare_message obind].
  rewrite u64_be_model. do 3 f_equal. rewrite <- !app_assoc.
  change (opt_bytes cd) with (custom cd).
  f_equal.
  - f_equal. rewrite !len_app. change (len CONNECT_MSG_TYPE) with 2. change (len SIG_ALGO_ED25519) with 4. change (len [x00; x00; x00; x00]) with 4. lia.
Qed.

Lemma to_bytes_ack cd epk peer :
  message_to_bytes C (RAck cd) epk (Some peer) = Ok (ack_frame (sha256 C peer) (custom cd)).
Proof.
  unfold message_to_bytes, ack_frame, frame, frame_len. cbn [prepare_message obind].
  rewrite u64_be_model. do 3 f_equal. rewrite <- !app_assoc.
  change (opt_bytes cd) with (custom cd).
  f_equal. f_equal. rewrite !len_app. change (len ACK_MSG_TYPE) with 2. lia.
Qed.

Lemma to_bytes_user data n epk peer :
  message_to_bytes C (RMessage (Some data) n) epk peer = Ok (user_frame n data).
Proof.
  unfold message_to_bytes, user_frame, frame, frame_len. cbn [prepare_message obind].
  rewrite !u64_be_model. do 3 f_equal. rewrite <- !app_assoc. cbn [opt_bytes].
  f_equal. f_equal. rewrite !len_app. change (len USER_MSG_TYPE) with 2. lia.
Qed.

(** ** Stream cipher *)

Lemma xor_stream_length key nonce i t : length (xor_stream C key nonce i t) = length t.
Proof. revert i; induction t as [|b t IH]; intros i; cbn; auto. Qed.

Lemma xor_stream_spec_gen key nonce i t :
  xor_stream C key nonce i t =
  map (fun p => byte_xor (fst p) (chacha20_keystream C key nonce (snd p)))
      (combine t (seq i (length t))).
Proof.
  revert i; induction t as [|b t IH]; intros i; [reflexivity|].
  cbn [xor_stream length seq combine map fst snd]. rewrite IH. reflexivity.
Qed.

Lemma xor_stream_spec k t :
  xor_stream C (sk_key k) (sk_nonce k) 0 t = ciphertext C k t.
Proof. apply xor_stream_spec_gen. Qed.

Lemma xor_stream_invol key nonce i t :
  xor_stream C key nonce i (xor_stream C key nonce i t) = t.
Proof.
  revert i; induction t as [|b t IH]; intros i; cbn [xor_stream]; [reflexivity|].
  rewrite byte_xor_invol, IH. reflexivity.
Qed.

Lemma ciphertext_invol k t : ciphertext C k (ciphertext C k t) = t.
Proof. rewrite <- !xor_stream_spec. apply xor_stream_invol. Qed.

Lemma ciphertext_length k t : length (ciphertext C k t) = length t.
Proof. rewrite <- xor_stream_spec. apply xor_stream_length. Qed.

Lemma len_ciphertext k t : len (ciphertext C k t) = len t.
Proof. unfold len. rewrite ciphertext_length. reflexivity. Qed.

Lemma ciphertext_inj k a b : ciphertext C k a = ciphertext C k b -> a = b.
Proof. intros H. rewrite <- (ciphertext_invol k a), H. apply ciphertext_invol. Qed.

Lemma xor_stream_app key nonce i a b :
  xor_stream C key nonce i (a ++ b)
  = xor_stream C key nonce i a ++ xor_stream C key nonce (i + length a) b.
Proof.
  revert i; induction a as [|x a IH]; intros i; cbn [app xor_stream length].
  - rewrite Nat.add_0_r. reflexivity.
  - rewrite IH. rewrite Nat.add_succ_comm. reflexivity.
Qed.

(** The ciphertext starts with the text's first four bytes exactly when the key
    stream starts with four zero bytes. *)
Lemma ciphertext_prefix4 k t :
  4 <= len t ->
  (firstn 4 (ciphertext C k t) = firstn 4 t <->
   forall i, (i < 4)%nat -> chacha20_keystream C (sk_key k) (sk_nonce k) i = x00).
Proof.
  intros Hl. rewrite <- xor_stream_spec.
  destruct t as [|b0 [|b1 [|b2 [|b3 t]]]]; try (cbn in Hl; lia).
  cbn [xor_stream firstn]. split.
  - intros H. injection H as H0 H1 H2 H3.
    apply byte_xor_eq_0 in H0, H1, H2, H3.
    intros i Hi. destruct i as [|[|[|[|i]]]]; auto; lia.
  - intros H. rewrite (H 0%nat), (H 1%nat), (H 2%nat), (H 3%nat) by lia.
    rewrite !byte_xor_0_r. reflexivity.
Qed.

(** ** Authenticated encryption *)

Lemma seal_length (L : CryptoLaws C) k t : length (seal C k t) = (length t + 16)%nat.
Proof. unfold seal. rewrite app_length, ciphertext_length, law_mac_len by exact L. reflexivity. Qed.

Lemma chacha_decrypt_seal (L : CryptoLaws C) T k t : chacha_decrypt C T (seal C k t) k = Ok t.
Proof.
  unfold chacha_decrypt.
  assert (len (seal C k t) = len t + 16) as Hs by (unfold len; rewrite seal_length by exact L; lia).
  rewrite Hs. change CHACHA20_TAG_SIZE with 16.
  destruct (N.ltb_spec (len t + 16) 16) as [H|_]; [lia|].
  replace (len t + 16 - 16) with (len t) by lia.
  unfold seal.
  rewrite firstn_app_exact, skipn_app_exact by (rewrite ciphertext_length; unfold len; lia).
  unfold aead_open. rewrite bytes_eqb_refl.
  rewrite xor_stream_spec, ciphertext_invol. reflexivity.
Qed.

(** Decryption accepts nothing but sealings, without any assumption. *)
Lemma chacha_decrypt_Ok T d k t : chacha_decrypt C T d k = Ok t -> d = seal C k t.
Proof.
  unfold chacha_decrypt. destruct (N.ltb_spec (len d) CHACHA20_TAG_SIZE) as [H|H]; [discriminate|].
  unfold aead_open.
  set (ct := firstn (N.to_nat (len d - CHACHA20_TAG_SIZE)) d).
  destruct (bytes_eqb _ _) eqn:E; [|discriminate].
  apply bytes_eqb_eq in E. intros Ht; injection Ht as <-.
  unfold seal. rewrite xor_stream_spec, ciphertext_invol, <- E.
  unfold ct. symmetry. apply firstn_skipn.
Qed.

(** ** Block-wise writing *)

Lemma chunks64_concat fuel t : (length t <= fuel)%nat -> concat (chunks64 fuel t) = t.
Proof.
  revert t; induction fuel as [|fuel IH]; intros t Hl.
  - destruct t; [reflexivity|cbn in Hl; lia].
  - destruct t as [|b t]; [reflexivity|].
    cbn [chunks64 concat]. rewrite IH.
    + apply firstn_skipn.
    + rewrite skipn_length. cbn [length] in *. lia.
Qed.

Lemma write_chunks_ok w l w' :
  write_chunks w l = (w', None) ->
  bw_bytes w' = bw_bytes w ++ concat l /\ bw_cap w' = bw_cap w.
Proof.
  revert w; induction l as [|c l IH]; intros w; cbn [write_chunks concat].
  - intros E; injection E as <-. rewrite app_nil_r. auto.
  - destruct (bw_write_all w c) as [w1 [e|]] eqn:Ew; [discriminate|].
    apply bw_write_all_ok in Ew as [H1 H2].
    intros E. apply IH in E as [E1 E2]. rewrite E1, H1, app_assoc. split; congruence.
Qed.

Lemma write_chunks_err w l w' e :
  write_chunks w l = (w', e) ->
  exists k, bw_bytes w' = bw_bytes w ++ firstn k (concat l).
Proof.
  revert w; induction l as [|c l IH]; intros w; cbn [write_chunks concat].
  - intros E; injection E as <- <-. exists O. cbn. rewrite app_nil_r. reflexivity.
  - destruct (bw_write_all w c) as [w1 [e1|]] eqn:Ew.
    + apply bw_write_all_bytes in Ew as (_ & k & H1 & H2 & _).
      intros E; injection E as <- <-. exists k.
      rewrite firstn_app. replace (k - length c)%nat with O by lia.
      rewrite firstn_O, app_nil_r. exact H2.
    + apply bw_write_all_ok in Ew as [H1 _].
      intros E. apply IH in E as [k E]. exists (length c + k)%nat.
      rewrite E, H1, firstn_app_2, app_assoc. reflexivity.
Qed.

Lemma write_chunks_accepting w l :
  accepting w ->
  exists w', write_chunks w l = (w', None) /\ accepting w' /\
             bw_bytes w' = bw_bytes w ++ concat l /\ bw_cap w' = bw_cap w.
Proof.
  revert w; induction l as [|c l IH]; intros w Ha; cbn [write_chunks concat].
  - exists w. rewrite app_nil_r. auto.
  - destruct (bw_write_all_accepting w c Ha) as (w1 & E & Ha1 & H1 & H2). rewrite E.
    destruct (IH w1 Ha1) as (w2 & E2 & Ha2 & H3 & H4).
    exists w2. rewrite E2, H3, H1, app_assoc. repeat split; auto. congruence.
Qed.

Lemma encrypt_accepting t k w :
  accepting w ->
  exists w', encrypt C t (WithChacha k) w = (w', Ok tt) /\ accepting w' /\
             bw_bytes w' = bw_bytes w ++ seal C k t /\ bw_cap w' = bw_cap w.
Proof.
  intros Ha. cbn [encrypt]. unfold chacha_encrypt. rewrite xor_stream_spec.
  destruct (write_chunks_accepting w (chunks64 (length (ciphertext C k t)) (ciphertext C k t)) Ha)
    as (w1 & E1 & Ha1 & H1 & H1'). rewrite E1.
  destruct (bw_write_accepting w1
    (poly1305_mac C (sk_key k) (sk_nonce k) (sk_aad k) (ciphertext C k t)) Ha1)
    as (w2 & E2 & Ha2 & H2 & H2').
  rewrite E2. exists w2. repeat split; auto; [|congruence].
  rewrite H2, H1, chunks64_concat by lia. unfold seal. rewrite app_assoc. reflexivity.
Qed.

(** On any sink, provided the buffer is larger than the tag, success means the
    whole datagram was handed over. *)
Lemma encrypt_ok_complete (L : CryptoLaws C) t k w w' :
  16 < bw_cap w ->
  encrypt C t (WithChacha k) w = (w', Ok tt) ->
  bw_bytes w' = bw_bytes w ++ seal C k t.
Proof.
  intros Hcap. cbn [encrypt]. unfold chacha_encrypt. rewrite xor_stream_spec.
  destruct (write_chunks w _) as [w1 [e|]] eqn:E1; [discriminate|].
  apply write_chunks_ok in E1 as [H1 H1']. rewrite chunks64_concat in H1 by lia.
  set (tag := poly1305_mac C (sk_key k) (sk_nonce k) (sk_aad k) (ciphertext C k t)).
  destruct (bw_write w1 tag) as [w2 [n|e]] eqn:E2; [|discriminate].
  intros E; injection E as <-.
  apply bw_write_bytes in E2 as (_ & _ & H3 & H4 & H5).
  assert (len tag = 16) as Ht by (unfold len, tag; rewrite law_mac_len by exact L; reflexivity).
  rewrite H1', Ht in H5. specialize (H5 Hcap). subst n.
  rewrite H4, H1. rewrite firstn_all2 by (unfold len in Ht; lia).
  unfold seal. rewrite app_assoc. reflexivity.
Qed.

(** Any outcome: what was handed over is a prefix of the datagram. *)
Lemma encrypt_prefix t k w w' r :
  encrypt C t (WithChacha k) w = (w', r) ->
  exists j, bw_bytes w' = bw_bytes w ++ firstn j (seal C k t).
Proof.
  cbn [encrypt]. unfold chacha_encrypt. rewrite xor_stream_spec.
  set (ct := ciphertext C k t).
  destruct (write_chunks w _) as [w1 [e|]] eqn:E1.
  - apply write_chunks_err in E1 as [j H1]. rewrite chunks64_concat in H1 by lia.
    intros E; injection E as <- <-. exists (Nat.min j (length ct)).
    unfold seal. fold ct. rewrite firstn_app.
    replace (Nat.min j (length ct) - length ct)%nat with O by lia.
    rewrite firstn_O, app_nil_r.
    rewrite H1. f_equal. rewrite <- (firstn_all ct) at 1. rewrite firstn_firstn. reflexivity.
  - apply write_chunks_ok in E1 as [H1 H1']. rewrite chunks64_concat in H1 by lia.
    destruct (bw_write w1 _) as [w2 [n|e]] eqn:E2; intros E; injection E as <- <-;
      apply bw_write_bytes in E2 as (_ & _ & H3).
    + destruct H3 as (_ & H4 & _). exists (length ct + N.to_nat n)%nat.
      unfold seal. fold ct. rewrite firstn_app_2, app_assoc, <- H1. exact H4.
    + destruct H3 as (H4 & _). exists (length ct). unfold seal. fold ct.
      rewrite firstn_app_exact by reflexivity. rewrite H4, H1. reflexivity.
Qed.

End WithCrypto.

(** What the reader accepts, refuses and panics on. *)

From Coq Require Import Arith ZifyBool ZifyNat ZifyN.
From Verif.Model Require Import Reader.
From Verif.Spec Require Import Wire.
From Verif.Proofs Require Import BaseFacts CipherFacts.

(** Complete type headers at the head of a byte string, and their length. *)
Inductive headers_of : bytes -> msg_type_headers -> N -> Prop :=
| ho_user n rest :
    n < 2 ^ 64 -> headers_of ([x00; x00] ++ u64_be n ++ rest) (HUserMsg n) 10
| ho_connect epk pk rest :
    length epk = 32%nat -> length pk = 32%nat ->
    headers_of ([x00; x01] ++ epk ++ [x00; x00; x00; x00] ++ pk ++ rest)
               (HConnect epk [x00; x00; x00; x00] pk) 70
| ho_ack ch rest :
    length ch = 32%nat -> headers_of ([x00; x02] ++ ch ++ rest) (HAck ch) 34.

Lemma split_at {A} (l : list A) n :
  (n <= length l)%nat -> l = firstn n l ++ skipn n l /\ length (firstn n l) = n.
Proof. intros H. rewrite firstn_skipn, firstn_length. split; [reflexivity|lia]. Qed.

Lemma read_type_headers_fwd th h l :
  headers_of th h l -> read_type_headers th = Ok (h, l).
Proof.
  intros H. destruct H as [n rest Hn|epk pk rest He Hp|ch rest Hc]; unfold read_type_headers.
  - rewrite slice_to_app by reflexivity. cbn [obind].
    change (bytes_eqb [x00; x00] USER_MSG_TYPE) with true. cbv iota.
    rewrite (slice_app [x00; x00] (u64_be n) rest) by reflexivity. cbn [obind].
    rewrite be_decode_u64_be by exact Hn. reflexivity.
  - rewrite slice_to_app by reflexivity. cbn [obind].
    change (bytes_eqb [x00; x01] USER_MSG_TYPE) with false.
    change (bytes_eqb [x00; x01] CONNECT_MSG_TYPE) with true. cbv iota.
    rewrite (slice_app [x00; x01] epk) by (try reflexivity; unfold len; rewrite He; reflexivity).
    cbn [obind].
    assert (forall i j, i = 34 -> j = 38 ->
      slice ([x00; x01] ++ epk ++ [x00; x00; x00; x00] ++ pk ++ rest) i j
      = Ok [x00; x00; x00; x00]) as Halgo.
    { intros i j -> ->. rewrite app_assoc.
      apply slice_app; [|reflexivity].
      rewrite len_app. unfold len. rewrite He. reflexivity. }
    rewrite Halgo by reflexivity. cbn [obind].
    change (bytes_eqb [x00; x00; x00; x00] SIG_ALGO_ED25519) with true. cbv iota.
    rewrite Halgo by reflexivity. cbn [obind].
    replace ([x00; x01] ++ epk ++ [x00; x00; x00; x00] ++ pk ++ rest)
      with (([x00; x01] ++ epk ++ [x00; x00; x00; x00]) ++ pk ++ rest)
      by (rewrite <- !app_assoc; reflexivity).
    rewrite slice_app.
    + reflexivity.
    + rewrite !len_app. unfold len. rewrite He. reflexivity.
    + unfold len. rewrite Hp. reflexivity.
  - rewrite slice_to_app by reflexivity. cbn [obind].
    change (bytes_eqb [x00; x02] USER_MSG_TYPE) with false.
    change (bytes_eqb [x00; x02] CONNECT_MSG_TYPE) with false.
    change (bytes_eqb [x00; x02] ACK_MSG_TYPE) with true. cbv iota.
    rewrite (slice_app [x00; x02] ch) by (try reflexivity; unfold len; rewrite Hc; reflexivity).
    reflexivity.
Qed.

Lemma obind_Ok {A B} (o : outcome A) (f : A -> outcome B) b :
  obind o f = Ok b -> exists a, o = Ok a /\ f a = Ok b.
Proof. destruct o as [a|e|p]; cbn [obind]; intros H; try discriminate. eauto. Qed.

Lemma read_type_headers_inv th h l :
  read_type_headers th = Ok (h, l) -> headers_of th h l.
Proof.
  unfold read_type_headers. intros H.
  apply obind_Ok in H as (ty & Hty & H).
  apply slice_to_Ok in Hty as [Hl ->]. change (N.to_nat MSG_TYPE_LEN) with 2%nat in *.
  change MSG_TYPE_LEN with 2 in *.
  destruct th as [|b0 [|b1 th]]; try (cbn in Hl; lia).
  change (firstn 2 (b0 :: b1 :: th)) with [b0; b1] in H.
  change (b0 :: b1 :: th) with ([b0; b1] ++ th).
  change (b0 :: b1 :: th) with ([b0; b1] ++ th) in H.
  destruct (bytes_eqb [b0; b1] USER_MSG_TYPE) eqn:E0.
  - apply bytes_eqb_eq in E0. rewrite E0 in *. clear E0.
    apply obind_Ok in H as (nb & Hn & H). injection H as <- <-.
    apply slice_Ok in Hn as (_ & Hn & ->). change (2 + NONCE_SIZE) with 10 in *.
    rewrite len_app in Hn. change (len USER_MSG_TYPE) with 2 in Hn.
    change (N.to_nat (10 - 2)) with 8%nat. change (N.to_nat 2) with 2%nat.
    rewrite skipn_app_exact by reflexivity.
    destruct (split_at th 8) as [Hs Hs']; [unfold len in Hn; lia|].
    rewrite Hs at 1. rewrite <- (u64_be_decode (firstn 8 th) Hs') at 1.
    apply ho_user.
    eapply N.lt_le_trans; [apply be_decode_lt|]. unfold len. rewrite Hs'.
    apply N.le_refl.
  - destruct (bytes_eqb [b0; b1] CONNECT_MSG_TYPE) eqn:E1.
    + apply bytes_eqb_eq in E1. rewrite E1 in *. clear E1 E0.
      apply obind_Ok in H as (epk & He & H).
      apply obind_Ok in H as (algo & Ha & H).
      destruct (bytes_eqb algo SIG_ALGO_ED25519) eqn:Eal; [|discriminate].
      apply bytes_eqb_eq in Eal. subst algo.
      change (2 + EPK_SIZE + SIG_ALGO_LEN) with SIG_PUBKEY_BEGIN in H.
      rewrite Ha in H. cbn [obind] in H.
      apply obind_Ok in H as (pk & Hp & H). injection H as <- <-.
      apply slice_Ok in He as (_ & He & ->).
      apply slice_Ok in Ha as (_ & Ha & Ha').
      apply slice_Ok in Hp as (_ & Hp & ->).
      change (2 + EPK_SIZE) with 34 in *. change SIG_PUBKEY_BEGIN with 38 in *.
      change (38 + 32) with 70 in *.
      change (N.to_nat (34 - 2)) with 32%nat. change (N.to_nat 2) with 2%nat.
      change (N.to_nat (38 - 34)) with 4%nat in *. change (N.to_nat 34) with 34%nat in *.
      change (N.to_nat (70 - 38)) with 32%nat. change (N.to_nat 38) with 38%nat.
      change SIG_ALGO_ED25519 with [x00; x00; x00; x00] in *.
      rewrite len_app in Hp. change (len CONNECT_MSG_TYPE) with 2 in Hp.
      assert (68 <= length th)%nat as Hlen by (unfold len in Hp; lia).
      change (skipn 34 (CONNECT_MSG_TYPE ++ th)) with (skipn 32 th) in *.
      change (skipn 38 (CONNECT_MSG_TYPE ++ th)) with (skipn 36 th) in *.
      change (skipn 2 (CONNECT_MSG_TYPE ++ th)) with th in *.
      assert (th = firstn 32 th ++ [x00; x00; x00; x00] ++ firstn 32 (skipn 36 th) ++ skipn 68 th)
        as Hth.
      { rewrite <- (firstn_skipn 32 th) at 1. f_equal.
        rewrite <- (firstn_skipn 4 (skipn 32 th)), <- Ha'. f_equal.
        rewrite skipn_skipn. change (4 + 32)%nat with 36%nat.
        rewrite <- (firstn_skipn 32 (skipn 36 th)) at 1. f_equal.
        rewrite skipn_skipn. reflexivity. }
      change (CONNECT_MSG_TYPE ++ th) with ([x00; x01] ++ th). rewrite Hth at 1.
      apply ho_connect.
      * rewrite firstn_length. lia.
      * rewrite firstn_length, skipn_length. lia.
    + destruct (bytes_eqb [b0; b1] ACK_MSG_TYPE) eqn:E2; [|discriminate].
      apply bytes_eqb_eq in E2. rewrite E2 in *. clear E0 E1 E2.
      apply obind_Ok in H as (ch & Hc & H). injection H as <- <-.
      apply slice_Ok in Hc as (_ & Hc & ->). change (2 + CHALLENGE_SIZE) with 34 in *.
      rewrite len_app in Hc. change (len ACK_MSG_TYPE) with 2 in Hc.
      change (N.to_nat (34 - 2)) with 32%nat. change (N.to_nat 2) with 2%nat.
      change (skipn 2 (ACK_MSG_TYPE ++ th)) with th in *.
      destruct (split_at th 32) as [Hs Hs']; [unfold len in Hc; lia|].
      rewrite Hs at 1. change ACK_MSG_TYPE with [x00; x02].
      apply ho_ack. exact Hs'.
Qed.

Lemma headers_of_len th h l : headers_of th h l -> l <= len th.
Proof.
  intros H. destruct H as [n rest Hn|epk pk rest He Hp|ch rest Hc]; rewrite !len_app.
  - change (len [x00; x00]) with 2. rewrite len_u64_be. lia.
  - change (len [x00; x01]) with 2. change (len [x00; x00; x00; x00]) with 4.
    unfold len. rewrite He, Hp. lia.
  - change (len [x00; x02]) with 2. unfold len. rewrite Hc. lia.
Qed.

Section WithEnv.
Context (C : Crypto) (T : target).

(** A clear text split into header, length field and the rest. *)
Lemma read_parse_fwd chk enc L th h l ue :
  L < 2 ^ 64 ->
  usize_add T 16 (L mod 2 ^ usize_bits T) = Ok ue ->
  headers_of th h l ->
  (chk = true -> enc = must_be_encrypted h) ->
  read_parse T chk enc (magic ++ version ++ u64_be L ++ th)
  = Ok {| dd_data := magic ++ version ++ u64_be L ++ th;
          dd_user_msg_begin := 16 + l; dd_user_msg_end := ue; dd_headers := h |}.
Proof.
  intros HL Hue Hh Hchk. unfold read_parse.
  rewrite slice_to_app by reflexivity. cbn [obind].
  change (bytes_eqb magic MAGIC_VALUE) with true. cbn [negb].
  rewrite (slice_app magic version) by reflexivity. cbn [obind].
  change (bytes_eqb version CURRENT_VERSION) with true. cbn [negb].
  replace (magic ++ version ++ u64_be L ++ th) with ((magic ++ version) ++ u64_be L ++ th)
    by (rewrite <- app_assoc; reflexivity).
  rewrite slice_app by reflexivity. cbn [obind].
  rewrite be_decode_u64_be by exact HL. unfold u64_as_usize.
  change ENCAPSULED_MSG_BEGIN with 16. rewrite Hue. cbn [obind].
  replace ((magic ++ version) ++ u64_be L ++ th) with ((magic ++ version ++ u64_be L) ++ th)
    by (rewrite <- !app_assoc; reflexivity).
  rewrite slice_from_app by reflexivity. cbn [obind].
  rewrite (read_type_headers_fwd _ _ _ Hh). cbn [obind].
  assert (chk && negb (Bool.eqb enc (must_be_encrypted h)) = false) as ->.
  { destruct chk; [|reflexivity]. rewrite (Hchk eq_refl), Bool.eqb_reflx. reflexivity. }
  rewrite <- !app_assoc. reflexivity.
Qed.

Lemma read_parse_inv chk enc d dd :
  read_parse T chk enc d = Ok dd ->
  exists L th h l ue,
    L < 2 ^ 64 /\ d = magic ++ version ++ u64_be L ++ th /\
    usize_add T 16 (L mod 2 ^ usize_bits T) = Ok ue /\
    headers_of th h l /\ (chk = true -> enc = must_be_encrypted h) /\
    dd = {| dd_data := d; dd_user_msg_begin := 16 + l; dd_user_msg_end := ue; dd_headers := h |}.
Proof.
  unfold read_parse. intros H.
  apply obind_Ok in H as (mg & Hm & H). apply slice_to_Ok in Hm as [Hm ->].
  destruct (bytes_eqb _ MAGIC_VALUE) eqn:Em; [|discriminate]. cbn [negb] in H.
  apply bytes_eqb_eq in Em.
  apply obind_Ok in H as (vs & Hv & H). apply slice_Ok in Hv as (_ & Hv & ->).
  destruct (bytes_eqb _ CURRENT_VERSION) eqn:Ev; [|discriminate]. cbn [negb] in H.
  apply bytes_eqb_eq in Ev.
  apply obind_Ok in H as (sz & Hs & H). apply slice_Ok in Hs as (_ & Hs & Esz).
  apply obind_Ok in H as (ue & Hue & H).
  apply obind_Ok in H as (th & Hth & H). apply slice_from_Ok in Hth as [_ ->].
  apply obind_Ok in H as ([h l] & Hh & H).
  destruct (chk && negb (Bool.eqb enc (must_be_encrypted h))) eqn:Ec; [discriminate|].
  injection H as <-.
  change (N.to_nat MAGIC_VALUE_END) with 4%nat in *.
  change (N.to_nat (VERSION_END - MAGIC_VALUE_END)) with 4%nat in *.
  change (N.to_nat (ENCAPSULED_MSG_BEGIN - VERSION_END)) with 8%nat in *.
  change (N.to_nat VERSION_END) with 8%nat in *.
  change (N.to_nat ENCAPSULED_MSG_BEGIN) with 16%nat in *.
  change ENCAPSULED_MSG_BEGIN with 16 in *.
  assert (length sz = 8%nat) as Lsz.
  { rewrite Esz, firstn_length, skipn_length. unfold len in Hs. lia. }
  exists (be_decode sz), (skipn 16 d), h, l, ue.
  split.
  { eapply N.lt_le_trans; [apply be_decode_lt|]. unfold len. rewrite Lsz. apply N.le_refl. }
  split.
  { rewrite u64_be_decode by exact Lsz.
    rewrite <- (firstn_skipn 4 d) at 1. rewrite Em. f_equal.
    rewrite <- (firstn_skipn 4 (skipn 4 d)), Ev. f_equal.
    rewrite skipn_skipn. change (4 + 4)%nat with 8%nat.
    rewrite <- (firstn_skipn 8 (skipn 8 d)) at 1. rewrite <- Esz. f_equal.
    rewrite skipn_skipn. reflexivity. }
  split; [exact Hue|].
  split; [apply read_type_headers_inv; exact Hh|].
  split; [|reflexivity].
  intros ->. cbn [andb] in Ec. apply negb_false_iff in Ec.
  apply Bool.eqb_prop in Ec. exact Ec.
Qed.

(** Decryption step. *)
Lemma read_decrypt_inv sec d enc plain :
  read_decrypt C T sec d = Ok (enc, plain) ->
  (enc = false /\ plain = d /\ exists rest, d = magic ++ rest) \/
  (enc = true /\ (forall rest, d <> magic ++ rest) /\
   exists k, sec = Some (WithChacha k) /\ d = seal C k plain).
Proof.
  unfold read_decrypt. intros H.
  apply obind_Ok in H as (mg & Hm & H). apply slice_to_Ok in Hm as [Hm ->].
  change (N.to_nat MAGIC_VALUE_END) with 4%nat in *.
  destruct (bytes_eqb _ MAGIC_VALUE) eqn:Em.
  - injection H as <- <-. left. repeat split. exists (skipn 4 d).
    apply bytes_eqb_eq in Em. change magic with MAGIC_VALUE. rewrite <- Em.
    symmetry; apply firstn_skipn.
  - right. apply bytes_eqb_neq in Em.
    destruct sec as [[k]|]; [|discriminate].
    apply obind_Ok in H as (pl & Hp & H). injection H as <- <-.
    split; [reflexivity|]. split.
    + intros rest ->. apply Em. reflexivity.
    + exists k. split; [reflexivity|]. apply chacha_decrypt_Ok in Hp. exact Hp.
Qed.

Lemma read_decrypt_clear sec rest :
  read_decrypt C T sec (magic ++ rest) = Ok (false, magic ++ rest).
Proof.
  unfold read_decrypt. rewrite slice_to_app by reflexivity. reflexivity.
Qed.

Lemma seal_not_magic (L : CryptoLaws C) k t rest0 :
  keystream_ok C k -> seal C k (magic ++ t) <> magic ++ rest0.
Proof.
  intros Hk H. apply Hk.
  apply (proj1 (ciphertext_prefix4 C k (magic ++ t) ltac:(rewrite len_app; change (len magic) with 4; lia))).
  assert (firstn 4 (seal C k (magic ++ t)) = magic) as H4 by (rewrite H; reflexivity).
  unfold seal in H4. rewrite firstn_app in H4.
  rewrite ciphertext_length in H4. rewrite app_length in H4. cbn [length magic Nat.add] in H4.
  cbn [Nat.sub firstn] in H4. rewrite app_nil_r in H4. exact H4.
Qed.

Lemma read_decrypt_sealed (L : CryptoLaws C) k t :
  keystream_ok C k ->
  read_decrypt C T (Some (WithChacha k)) (seal C k (magic ++ t)) = Ok (true, magic ++ t).
Proof.
  intros Hk. unfold read_decrypt.
  assert (4 <= len (seal C k (magic ++ t))) as Hlen.
  { unfold len. rewrite seal_length by exact L. rewrite app_length.
    change (length magic) with 4%nat. lia. }
  change MAGIC_VALUE_END with 4. rewrite slice_to_le by exact Hlen. cbn [obind].
  destruct (bytes_eqb (firstn (N.to_nat 4) (seal C k (magic ++ t))) MAGIC_VALUE) eqn:E.
  - exfalso. apply bytes_eqb_eq in E.
    apply (seal_not_magic L k t (skipn 4 (seal C k (magic ++ t))) Hk).
    rewrite <- (firstn_skipn 4 (seal C k (magic ++ t))) at 1.
    change (N.to_nat 4) with 4%nat in E. rewrite E. reflexivity.
  - cbn [decrypt]. rewrite chacha_decrypt_seal by exact L. reflexivity.
Qed.

End WithEnv.

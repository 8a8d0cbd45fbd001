(** The reader computes the classification of Spec/Datagram.v. *)

From Coq Require Import Arith ZifyBool ZifyNat ZifyN.
From Verif.Model Require Import Minimal.
From Verif.Spec Require Import Wire Datagram.
From Verif.Proofs Require Import BaseFacts CipherFacts ReaderFacts.

Definition content_headers (k : content) : msg_type_headers :=
  match k with
  | KConnect epk pk => HConnect epk [x00; x00; x00; x00] pk
  | KAck ch => HAck ch
  | KUser n => HUserMsg n
  end.

Lemma length_of_len {A} (l : list A) n : len l = N.of_nat n -> length l = n.
Proof. unfold len. lia. Qed.

Lemma headers_headers_of th k rest :
  headers th k rest -> headers_of th (content_headers k) (headers_size k).
Proof.
  intros H. destruct H as [n rest Hn|epk pk rest H1 H2|ch rest H1]; cbn [content_headers headers_size].
  - constructor; exact Hn.
  - constructor; apply length_of_len; assumption.
  - constructor; apply length_of_len; assumption.
Qed.

Lemma headers_of_headers th h l :
  headers_of th h l -> exists k rest, headers th k rest /\ h = content_headers k /\ l = headers_size k.
Proof.
  intros H. destruct H as [n rest Hn|epk pk rest H1 H2|ch rest H1].
  - exists (KUser n), rest. repeat split. constructor; exact Hn.
  - exists (KConnect epk pk), rest. repeat split. constructor; unfold len; lia.
  - exists (KAck ch), rest. repeat split. constructor; unfold len; lia.
Qed.

(** Type headers: the three other outcomes. *)
Lemma slice_panic d a b : slice d a b = Panic PSliceRange \/ exists x, slice d a b = Ok x.
Proof. unfold slice. destruct (_ && _); eauto. Qed.

Lemma slice_short d a b : len d < b -> slice d a b = Panic PSliceRange.
Proof.
  intros H. unfold slice. destruct (N.leb_spec b (len d)); [lia|]. rewrite andb_false_r. reflexivity.
Qed.
Lemma slice_to_short d b : len d < b -> slice_to d b = Panic PSliceRange.
Proof. intros H. unfold slice_to. destruct (N.leb_spec b (len d)); [lia|reflexivity]. Qed.
Lemma slice_from_short d b : len d < b -> slice_from d b = Panic PSliceRange.
Proof. intros H. unfold slice_from. destruct (N.leb_spec b (len d)); [lia|reflexivity]. Qed.

Lemma type_headers_cut th : headers_cut th -> read_type_headers th = Panic PSliceRange.
Proof.
  intros H. unfold read_type_headers. destruct H as [th H|r H|r H|epk r He H|r H].
  - rewrite slice_to_short by exact H. reflexivity.
  - rewrite slice_to_app by reflexivity. cbn [obind].
    change (bytes_eqb [x00; x00] USER_MSG_TYPE) with true. cbv iota.
    rewrite slice_short; [reflexivity|]. rewrite len_app. change (len [x00; x00]) with 2.
    change (MSG_TYPE_LEN + NONCE_SIZE) with 10. lia.
  - rewrite slice_to_app by reflexivity. cbn [obind].
    change (bytes_eqb [x00; x01] USER_MSG_TYPE) with false.
    change (bytes_eqb [x00; x01] CONNECT_MSG_TYPE) with true. cbv iota.
    destruct (slice_panic ([x00; x01] ++ r) MSG_TYPE_LEN (MSG_TYPE_LEN + EPK_SIZE)) as [->|[x ->]];
      cbn [obind]; [reflexivity|].
    rewrite slice_short; [reflexivity|]. rewrite len_app. change (len [x00; x01]) with 2.
    change SIG_PUBKEY_BEGIN with 38. lia.
  - rewrite slice_to_app by reflexivity. cbn [obind].
    change (bytes_eqb [x00; x01] USER_MSG_TYPE) with false.
    change (bytes_eqb [x00; x01] CONNECT_MSG_TYPE) with true. cbv iota.
    rewrite (slice_app [x00; x01] epk) by (rewrite ?He; reflexivity). cbn [obind].
    replace ([x00; x01] ++ epk ++ [x00; x00; x00; x00] ++ r)
      with (([x00; x01] ++ epk) ++ [x00; x00; x00; x00] ++ r) by (rewrite <- app_assoc; reflexivity).
    rewrite slice_app; [|rewrite len_app, He; reflexivity|reflexivity].
    cbn [obind]. change (bytes_eqb [x00; x00; x00; x00] SIG_ALGO_ED25519) with true. cbv iota.
    rewrite slice_app; [|rewrite len_app, He; reflexivity|reflexivity].
    cbn [obind]. rewrite slice_short; [reflexivity|].
    rewrite !len_app, He. change (len [x00; x01]) with 2. change (len [x00; x00; x00; x00]) with 4.
    change (SIG_PUBKEY_BEGIN + 32) with 70. lia.
  - rewrite slice_to_app by reflexivity. cbn [obind].
    change (bytes_eqb [x00; x02] USER_MSG_TYPE) with false.
    change (bytes_eqb [x00; x02] CONNECT_MSG_TYPE) with false.
    change (bytes_eqb [x00; x02] ACK_MSG_TYPE) with true. cbv iota.
    rewrite slice_short; [reflexivity|]. rewrite len_app. change (len [x00; x02]) with 2.
    change (MSG_TYPE_LEN + CHALLENGE_SIZE) with 34. lia.
Qed.

Lemma type_headers_unknown th e :
  headers_unknown th e -> read_type_headers th = Err (RecvInvalidMsg e).
Proof.
  intros H. unfold read_type_headers. destruct H as [a b r H|epk al r He Hl H].
  - change (a :: b :: r) with ([a; b] ++ r). rewrite slice_to_app by reflexivity. cbn [obind].
    assert (forall c, bytes_eqb [a; b] [x00; c] = true -> a = x00 /\ b = c) as Hx.
    { intros c E. apply bytes_eqb_eq in E. injection E as -> ->. auto. }
    unfold USER_MSG_TYPE, CONNECT_MSG_TYPE, ACK_MSG_TYPE.
    destruct (bytes_eqb [a; b] [x00; x00]) eqn:E1; [apply Hx in E1 as [-> ->]; tauto|].
    destruct (bytes_eqb [a; b] [x00; x01]) eqn:E2; [apply Hx in E2 as [-> ->]; tauto|].
    destruct (bytes_eqb [a; b] [x00; x02]) eqn:E3; [apply Hx in E3 as [-> ->]; tauto|].
    reflexivity.
  - rewrite slice_to_app by reflexivity. cbn [obind].
    change (bytes_eqb [x00; x01] USER_MSG_TYPE) with false.
    change (bytes_eqb [x00; x01] CONNECT_MSG_TYPE) with true. cbv iota.
    rewrite (slice_app [x00; x01] epk) by (rewrite ?He; reflexivity). cbn [obind].
    replace ([x00; x01] ++ epk ++ al ++ r) with (([x00; x01] ++ epk) ++ al ++ r)
      by (rewrite <- app_assoc; reflexivity).
    rewrite slice_app; [|rewrite len_app, He; reflexivity|rewrite Hl; reflexivity].
    cbn [obind]. destruct (bytes_eqb al SIG_ALGO_ED25519) eqn:E; [|reflexivity].
    apply bytes_eqb_eq in E. contradiction.
Qed.

Lemma cut_at {A} (l : list A) n : n <= len l -> exists a b, l = a ++ b /\ len a = n.
Proof.
  intros H. exists (firstn (N.to_nat n) l), (skipn (N.to_nat n) l).
  split; [symmetry; apply firstn_skipn|]. unfold len in *. rewrite firstn_length. lia.
Qed.

(** Every byte string is one of the three. *)
Lemma headers_total th :
  headers_cut th \/ (exists e, headers_unknown th e) \/ (exists k rest, headers th k rest).
Proof.
  destruct th as [|a [|b r]].
  - left. apply hc_type. reflexivity.
  - left. apply hc_type. reflexivity.
  - destruct (Byte.byte_eq_dec a x00) as [->|Ha].
    2: { right; left. eexists. apply hu_type. auto. }
    destruct (Byte.byte_eq_dec b x00) as [->|Hb0];
      [|destruct (Byte.byte_eq_dec b x01) as [->|Hb1];
        [|destruct (Byte.byte_eq_dec b x02) as [->|Hb2]]].
    + destruct (N.ltb_spec (len r) 8) as [Hl|Hl].
      * left. apply (hc_user r Hl).
      * right; right. destruct (cut_at r 8 Hl) as (n & rest & -> & Hn).
        exists (KUser (be_decode n)), rest.
        rewrite <- (u64_be_decode n) at 1 by (apply (length_of_len n 8); exact Hn).
        apply (hd_user (be_decode n) rest).
        eapply N.lt_le_trans; [apply be_decode_lt|]. rewrite Hn. apply N.le_refl.
    + destruct (N.ltb_spec (len r) 36) as [Hl|Hl].
      * left. apply (hc_connect r Hl).
      * destruct (cut_at r 32 ltac:(lia)) as (epk & r1 & -> & He). rewrite len_app, He in Hl.
        destruct (cut_at r1 4 ltac:(lia)) as (al & r2 & -> & Hal).
        destruct (bytes_eq_dec al [x00; x00; x00; x00]) as [->|Hne].
        -- destruct (N.ltb_spec (len r2) 32) as [Hl2|Hl2].
           ++ left. apply (hc_connect_key epk r2 He Hl2).
           ++ right; right. destruct (cut_at r2 32 Hl2) as (pk & rest & -> & Hp).
              exists (KConnect epk pk), rest. apply (hd_connect epk pk rest He Hp).
        -- right; left. exists UnsupportedSigAlgo. apply (hu_algo epk al r2 He Hal Hne).
    + destruct (N.ltb_spec (len r) 32) as [Hl|Hl].
      * left. apply (hc_ack r Hl).
      * right; right. destruct (cut_at r 32 Hl) as (ch & rest & -> & Hc).
        exists (KAck ch), rest. apply (hd_ack ch rest Hc).
    + right; left. eexists. apply hu_type. auto.
Qed.

Section WithEnv.
Context (C : Crypto) (T : target).

Lemma usize_add_16 L :
  (usize_add T 16 (L mod 2 ^ usize_bits T) = Panic POverflow /\
   overflow_checks T = true /\ end_overflows T L) \/
  (usize_add T 16 (L mod 2 ^ usize_bits T) = Ok (text_end T L) /\
   ~ (overflow_checks T = true /\ end_overflows T L)).
Proof.
  unfold usize_add, end_overflows, text_end.
  assert (16 < 2 ^ usize_bits T) as H16
    by (unfold usize_bits; destruct (usize_width T); reflexivity).
  set (B := 2 ^ usize_bits T) in *.
  assert ((16 + L mod B) mod B = (16 + L) mod B) as Hm.
  { rewrite N.add_mod_idemp_r by lia. reflexivity. }
  destruct (N.ltb_spec (16 + L mod B) B) as [H|H].
  - right. split; [|intros [_ ?]; lia]. rewrite <- Hm, (N.mod_small (16 + L mod B)) by exact H. reflexivity.
  - destruct (overflow_checks T); [left; auto|right]. split; [|intros [? _]; discriminate].
    rewrite Hm. reflexivity.
Qed.

(** Outcome of the second half of the reader, for each class. *)
Definition frame_data (text : bytes) (L : N) (k : content) : decrypted_data :=
  {| dd_data := text; dd_user_msg_begin := 16 + headers_size k;
     dd_user_msg_end := text_end T L; dd_headers := content_headers k |}.

Definition class_outcome (c : dclass) (o : outcome decrypted_data) : Prop :=
  match c with
  | DPanic => exists p, o = Panic p
  | DReject e => o = Err (RecvInvalidMsg e)
  | DUndecryptable => o = Err (FailToDecryptData DecTagMismatch)
  | DFrame text L k => o = Ok (frame_data text L k)
  end.

Lemma must_be_sealed_encrypted k : must_be_encrypted (content_headers k) = must_be_sealed k.
Proof. destruct k; reflexivity. Qed.

Lemma read_parse_class enc p c :
  text_class T p c ->
  class_outcome (check_sealed enc c) (read_parse T true enc p).
Proof.
  intros H. destruct H as [p H|m r Hm H|r H|v r Hv H|r H|L th HL Ho H|L th HL Ho H|L th e HL Ho H|
                           L th k rest HL Ho H]; unfold read_parse.
  - rewrite slice_to_short by exact H. cbn. eauto.
  - rewrite slice_to_app by exact Hm. cbn [obind].
    destruct (bytes_eqb m MAGIC_VALUE) eqn:E; [apply bytes_eqb_eq in E; contradiction|].
    reflexivity.
  - rewrite slice_to_app by reflexivity. cbn [obind].
    change (bytes_eqb magic MAGIC_VALUE) with true. cbn [negb].
    rewrite slice_short; [cbn; eauto|]. rewrite len_app. change (len magic) with 4.
    change VERSION_END with 8. lia.
  - rewrite slice_to_app by reflexivity. cbn [obind].
    change (bytes_eqb magic MAGIC_VALUE) with true. cbn [negb].
    rewrite (slice_app magic v) by (rewrite ?Hv; reflexivity). cbn [obind].
    destruct (bytes_eqb v CURRENT_VERSION) eqn:E; [apply bytes_eqb_eq in E; contradiction|].
    reflexivity.
  - rewrite slice_to_app by reflexivity. cbn [obind].
    change (bytes_eqb magic MAGIC_VALUE) with true. cbn [negb].
    rewrite (slice_app magic version) by reflexivity. cbn [obind].
    change (bytes_eqb version CURRENT_VERSION) with true. cbn [negb].
    rewrite slice_short; [cbn; eauto|]. rewrite !len_app. change (len magic) with 4.
    change (len version) with 4. change ENCAPSULED_MSG_BEGIN with 16. lia.
  - rewrite slice_to_app by reflexivity. cbn [obind].
    change (bytes_eqb magic MAGIC_VALUE) with true. cbn [negb].
    rewrite (slice_app magic version) by reflexivity. cbn [obind].
    change (bytes_eqb version CURRENT_VERSION) with true. cbn [negb].
    replace (magic ++ version ++ u64_be L ++ th) with ((magic ++ version) ++ u64_be L ++ th)
      by (rewrite <- app_assoc; reflexivity).
    rewrite slice_app by reflexivity. cbn [obind].
    rewrite be_decode_u64_be by exact HL. unfold u64_as_usize.
    change ENCAPSULED_MSG_BEGIN with 16.
    destruct (usize_add_16 L) as [(-> & _)|(_ & Hn)]; [cbn; eauto|]. exfalso; auto.
  - rewrite slice_to_app by reflexivity. cbn [obind].
    change (bytes_eqb magic MAGIC_VALUE) with true. cbn [negb].
    rewrite (slice_app magic version) by reflexivity. cbn [obind].
    change (bytes_eqb version CURRENT_VERSION) with true. cbn [negb].
    replace (magic ++ version ++ u64_be L ++ th) with ((magic ++ version) ++ u64_be L ++ th)
      by (rewrite <- app_assoc; reflexivity).
    rewrite slice_app by reflexivity. cbn [obind].
    rewrite be_decode_u64_be by exact HL. unfold u64_as_usize.
    change ENCAPSULED_MSG_BEGIN with 16.
    destruct (usize_add_16 L) as [(_ & Hn)|(-> & _)]; [contradiction|]. cbn [obind].
    replace ((magic ++ version) ++ u64_be L ++ th) with ((magic ++ version ++ u64_be L) ++ th)
      by (rewrite <- !app_assoc; reflexivity).
    rewrite slice_from_app by reflexivity. cbn [obind].
    rewrite (type_headers_cut th H). cbn. eauto.
  - rewrite slice_to_app by reflexivity. cbn [obind].
    change (bytes_eqb magic MAGIC_VALUE) with true. cbn [negb].
    rewrite (slice_app magic version) by reflexivity. cbn [obind].
    change (bytes_eqb version CURRENT_VERSION) with true. cbn [negb].
    replace (magic ++ version ++ u64_be L ++ th) with ((magic ++ version) ++ u64_be L ++ th)
      by (rewrite <- app_assoc; reflexivity).
    rewrite slice_app by reflexivity. cbn [obind].
    rewrite be_decode_u64_be by exact HL. unfold u64_as_usize.
    change ENCAPSULED_MSG_BEGIN with 16.
    destruct (usize_add_16 L) as [(_ & Hn)|(-> & _)]; [contradiction|]. cbn [obind].
    replace ((magic ++ version) ++ u64_be L ++ th) with ((magic ++ version ++ u64_be L) ++ th)
      by (rewrite <- !app_assoc; reflexivity).
    rewrite slice_from_app by reflexivity. cbn [obind].
    rewrite (type_headers_unknown th e H). reflexivity.
  - rewrite slice_to_app by reflexivity. cbn [obind].
    change (bytes_eqb magic MAGIC_VALUE) with true. cbn [negb].
    rewrite (slice_app magic version) by reflexivity. cbn [obind].
    change (bytes_eqb version CURRENT_VERSION) with true. cbn [negb].
    replace (magic ++ version ++ u64_be L ++ th) with ((magic ++ version) ++ u64_be L ++ th)
      by (rewrite <- app_assoc; reflexivity).
    rewrite slice_app by reflexivity. cbn [obind].
    rewrite be_decode_u64_be by exact HL. unfold u64_as_usize.
    change ENCAPSULED_MSG_BEGIN with 16.
    destruct (usize_add_16 L) as [(_ & Hn)|(-> & _)]; [contradiction|]. cbn [obind].
    replace ((magic ++ version) ++ u64_be L ++ th) with ((magic ++ version ++ u64_be L) ++ th)
      by (rewrite <- !app_assoc; reflexivity).
    rewrite slice_from_app by reflexivity. cbn [obind].
    rewrite (read_type_headers_fwd _ _ _ (headers_headers_of _ _ _ H)). cbn [obind].
    rewrite must_be_sealed_encrypted. cbn [check_sealed andb].
    destruct (Bool.eqb enc (must_be_sealed k)); cbn [negb class_outcome]; [|reflexivity].
    rewrite <- !app_assoc. reflexivity.
Qed.

Lemma text_class_total p : exists c, text_class T p c.
Proof.
  destruct (N.ltb_spec (len p) 4) as [H|H]; [eexists; apply tx_short; exact H|].
  destruct (cut_at p 4 H) as (m & r & -> & Hm).
  destruct (bytes_eq_dec m magic) as [->|Hne]; [|eexists; apply tx_magic; assumption].
  destruct (N.ltb_spec (len r) 4) as [Hr|Hr]; [eexists; apply tx_version_cut; exact Hr|].
  destruct (cut_at r 4 Hr) as (v & r1 & -> & Hv).
  destruct (bytes_eq_dec v version) as [->|Hne]; [|eexists; apply tx_version; assumption].
  destruct (N.ltb_spec (len r1) 8) as [Hr1|Hr1]; [eexists; apply tx_length_cut; exact Hr1|].
  destruct (cut_at r1 8 Hr1) as (sz & th & -> & Hs).
  apply (length_of_len sz 8) in Hs as Hs'.
  assert (be_decode sz < 2 ^ 64) as HL.
  { eapply N.lt_le_trans; [apply be_decode_lt|]. rewrite Hs. apply N.le_refl. }
  rewrite <- (u64_be_decode sz Hs').
  destruct (usize_add_16 (be_decode sz)) as [(_ & Ho & He)|(_ & Hno)].
  - eexists. apply tx_overflow; assumption.
  - destruct (headers_total th) as [Hh|[(e & Hh)|(k & rest & Hh)]].
    + eexists. apply tx_headers_cut; eassumption.
    + eexists. apply tx_headers_unknown; eassumption.
    + eexists. eapply tx_frame; eassumption.
Qed.

Definition key_of (a : option algo_with_secret) : option secret_key :=
  match a with Some (WithChacha k) => Some k | None => None end.

Lemma chacha_decrypt_not_seal k d :
  (forall text, d <> seal C k text) -> 16 <= len d ->
  chacha_decrypt C T d k = Err (FailToDecryptData DecTagMismatch).
Proof.
  intros Hn Hl. unfold chacha_decrypt. change CHACHA20_TAG_SIZE with 16.
  destruct (N.ltb_spec (len d) 16) as [H|_]; [lia|].
  destruct (aead_open C k _ _) as [t|e|p] eqn:E.
  - exfalso. apply (Hn t). apply (chacha_decrypt_Ok C T). unfold chacha_decrypt.
    change CHACHA20_TAG_SIZE with 16. destruct (N.ltb_spec (len d) 16) as [H|_]; [lia|exact E].
  - unfold aead_open in E. destruct (bytes_eqb _ _); congruence.
  - unfold aead_open in E. destruct (bytes_eqb _ _); congruence.
Qed.

(** The reader computes the class of its input... *)
Theorem reader_read_class (HL : CryptoLaws C) sec d c :
  datagram T C (key_of sec) d c -> class_outcome c (reader_read C T sec d true).
Proof.
  intros H. unfold reader_read, read_decrypt.
  destruct H as [d H|r c H|m r Hm Hne Hk|m r k Hm Hne Hk H|m r k Hm Hne Hk H1 H2|
                 m r k text c Hm Hne Hk Hs H].
  - rewrite slice_to_short by exact H. cbn. eauto.
  - rewrite slice_to_app by reflexivity. cbn [obind].
    change (bytes_eqb magic MAGIC_VALUE) with true. cbv iota. cbn [obind].
    apply read_parse_class. exact H.
  - rewrite slice_to_app by exact Hm. cbn [obind].
    destruct (bytes_eqb m MAGIC_VALUE) eqn:E; [apply bytes_eqb_eq in E; contradiction|].
    destruct sec as [[k]|]; [discriminate|]. reflexivity.
  - rewrite slice_to_app by exact Hm. cbn [obind].
    destruct (bytes_eqb m MAGIC_VALUE) eqn:E; [apply bytes_eqb_eq in E; contradiction|].
    destruct sec as [[k']|]; [|discriminate]. injection Hk as ->.
    cbn [decrypt]. unfold chacha_decrypt. change CHACHA20_TAG_SIZE with 16.
    destruct (N.ltb_spec (len (m ++ r)) 16); [|lia]. cbn. eauto.
  - rewrite slice_to_app by exact Hm. cbn [obind].
    destruct (bytes_eqb m MAGIC_VALUE) eqn:E; [apply bytes_eqb_eq in E; contradiction|].
    destruct sec as [[k']|]; [|discriminate]. injection Hk as ->.
    cbn [decrypt]. rewrite chacha_decrypt_not_seal by assumption. reflexivity.
  - rewrite slice_to_app by exact Hm. cbn [obind].
    destruct (bytes_eqb m MAGIC_VALUE) eqn:E; [apply bytes_eqb_eq in E; contradiction|].
    destruct sec as [[k']|]; [|discriminate]. injection Hk as ->.
    cbn [decrypt]. rewrite Hs, chacha_decrypt_seal by exact HL. cbn [obind].
    apply read_parse_class. exact H.
Qed.

(** ... and every datagram has a class. *)
Theorem datagram_total (HL : CryptoLaws C) key d : exists c, datagram T C key d c.
Proof.
  destruct (N.ltb_spec (len d) 4) as [H|H]; [eexists; apply dg_short; exact H|].
  destruct (cut_at d 4 H) as (m & r & -> & Hm).
  destruct (bytes_eq_dec m magic) as [->|Hne].
  { destruct (text_class_total (magic ++ r)) as [c Hc]. eexists. apply dg_clear. exact Hc. }
  destruct key as [k|]; [|eexists; apply dg_no_key; auto].
  destruct (N.ltb_spec (len (m ++ r)) 16) as [Hl|Hl]; [eexists; eapply dg_tag_cut; eauto|].
  destruct (chacha_decrypt C T (m ++ r) k) as [t|e|p] eqn:E.
  - apply chacha_decrypt_Ok in E. destruct (text_class_total t) as [c Hc].
    eexists. eapply dg_sealed; eauto.
  - eexists. eapply dg_forged; eauto. intros t Ht. rewrite Ht in E.
    rewrite chacha_decrypt_seal in E by exact HL. discriminate.
  - exfalso. unfold chacha_decrypt in E. change CHACHA20_TAG_SIZE with 16 in E.
    destruct (N.ltb_spec (len (m ++ r)) 16); [lia|]. unfold aead_open in E.
    destruct (bytes_eqb _ _); discriminate.
Qed.

Lemma text_class_frame p text L k :
  text_class T p (DFrame text L k) ->
  p = text /\ L < 2 ^ 64 /\ ~ (overflow_checks T = true /\ end_overflows T L) /\
  exists th rest, text = magic ++ version ++ u64_be L ++ th /\ headers th k rest.
Proof.
  intros H. inversion H; subst. split; [reflexivity|]. split; [assumption|]. split; [assumption|].
  do 2 eexists. split; [reflexivity|eassumption].
Qed.

Lemma check_sealed_frame b c text L k :
  check_sealed b c = DFrame text L k -> c = DFrame text L k /\ b = must_be_sealed k.
Proof.
  destruct c as [|e| |t l j]; cbn [check_sealed]; try discriminate.
  destruct (Bool.eqb b (must_be_sealed j)) eqn:E; [|discriminate].
  intros H; injection H as <- <- <-. split; [reflexivity|]. apply eqb_prop; exact E.
Qed.

(** What a framed datagram is made of. *)
Lemma datagram_frame key d text L k :
  datagram T C key d (DFrame text L k) ->
  L < 2 ^ 64 /\ ~ (overflow_checks T = true /\ end_overflows T L) /\
  (exists th rest, text = magic ++ version ++ u64_be L ++ th /\ headers th k rest) /\
  ((must_be_sealed k = false /\ d = text) \/
   (must_be_sealed k = true /\ (forall r, d <> magic ++ r) /\
    exists sk, key = Some sk /\ d = seal C sk text)).
Proof.
  intros H. inversion H as [|r c Hc E1 E2| | | |m r sk t c Hm Hne Hk Hs Hc E1 E2]; subst.
  - apply check_sealed_frame in E2 as [-> Hb].
    apply text_class_frame in Hc as (Hp & H1 & H2 & H3). repeat (split; [assumption|]).
    left. auto.
  - apply check_sealed_frame in E2 as [-> Hb].
    apply text_class_frame in Hc as (Hp & H1 & H2 & H3). subst t. repeat (split; [assumption|]).
    right. split; [auto|]. split; [|eauto].
    intros r' E. apply app_inv_len in E as [E _]; [contradiction|]. apply (length_of_len m 4) in Hm. rewrite Hm. reflexivity.
Qed.

Theorem datagram_unique (HL : CryptoLaws C) key d c1 c2 :
  datagram T C key d c1 -> datagram T C key d c2 -> c1 = c2.
Proof.
  intros H1 H2.
  assert (forall key, exists sec, key_of sec = key) as Hsec.
  { intros [k|]; [exists (Some (WithChacha k))|exists None]; reflexivity. }
  destruct (Hsec key) as [sec <-].
  pose proof (reader_read_class HL sec d c1 H1) as O1.
  pose proof (reader_read_class HL sec d c2 H2) as O2.
  destruct c1 as [|e1| |t1 L1 k1], c2 as [|e2| |t2 L2 k2]; cbn [class_outcome] in *;
    try reflexivity; repeat match goal with H : exists _, _ |- _ => destruct H end;
    repeat match goal with H : reader_read _ _ _ _ _ = _ |- _ => revert H end; intros O1 O2;
    rewrite O1 in O2; try discriminate; [injection O2 as <-; reflexivity|].
  apply datagram_frame in H1 as (HL1 & _ & (th1 & r1 & E1 & _) & _).
  apply datagram_frame in H2 as (HL2 & _ & (th2 & r2 & E2 & _) & _).
  unfold frame_data in O2. injection O2 as <- _ _ Hk.
  assert (k1 = k2) as <- by (destruct k1, k2; cbn in Hk; congruence).
  rewrite E1 in E2. do 2 apply app_inv_head in E2.
  apply app_inv_len in E2 as [E2 _]; [|reflexivity].
  apply u64_be_inj in E2; [|exact HL1|exact HL2]. congruence.
Qed.

End WithEnv.

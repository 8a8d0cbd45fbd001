(** Typed reads and writes. *)

From Coq Require Import Arith ZifyBool ZifyNat ZifyN.
From Verif.Model Require Import Serde.
From Verif.Spec Require Import Wire Datagram Trace ReadSpec Accept Session Writers Attacks CompleteTrace Typed.
From Verif.Proofs Require Import BaseFacts CompleteFacts CompleteMode CompleteStates.

(** ** Format headers *)
Lemma header_as_ref f : format_as_ref f = header f.
Proof. destruct f; reflexivity. Qed.
Lemma header_length f : length (header f) = 4%nat.
Proof. destruct f; reflexivity. Qed.
Lemma header_injective f g : header f = header g -> f = g.
Proof. destruct f, g; intros H; try reflexivity; discriminate. Qed.

Lemma format_read F h f : format_try_from F h = inl f <-> format_enabled F f = true /\ h = header f.
Proof.
  unfold format_try_from.
  split.
  - destruct (feat_bin F) eqn:E1; cbn [andb]; [destruct (bytes_eqb h BINCODE) eqn:H1|];
      (destruct (feat_cbor F) eqn:E2; cbn [andb]; [destruct (bytes_eqb h CBOR) eqn:H2|]);
      (destruct (bytes_eqb h RAW_BINARY) eqn:H3);
      (destruct (feat_json F) eqn:E4; cbn [andb]; [destruct (bytes_eqb h UTF8_JSON) eqn:H4|]);
      (destruct (bytes_eqb h UTF8_PLAIN_TEXT) eqn:H5);
      intros H; try discriminate; injection H as <-; cbn [format_enabled header];
      (split; [assumption || reflexivity|]);
      match goal with
      | H : bytes_eqb h _ = true |- _ => apply bytes_eqb_eq in H; exact H
      end.
  - intros [Hf ->]. destruct f; cbn [format_enabled] in Hf; rewrite ?Hf; cbn;
      destruct (feat_bin F), (feat_cbor F), (feat_json F); reflexivity.
Qed.

Lemma format_unknown F h :
  (forall f, format_enabled F f = true -> h <> header f) -> format_try_from F h = inr UnknownMessageFormat.
Proof.
  intros H. destruct (format_try_from F h) as [f|e] eqn:E.
  - apply format_read in E as [Hf ->]. exfalso. exact (H f Hf eq_refl).
  - unfold format_try_from in E.
    repeat match type of E with context [if ?b then _ else _] => destruct b end; congruence.
Qed.

Section WithCodec.
Context (F : features) {M : Type} (K : Codec M).

(** ** Payloads *)
Lemma deserialize_split h r : length h = 4%nat ->
  deserialize F K (h ++ r) =
  match format_try_from F h with
  | inr e => Err (RecvInvalidMsg e)
  | inl f => deserialize_inner K r f
  end.
Proof.
  intros Hh. unfold deserialize, HEADER_FORMAT_LEN.
  assert (len (h ++ r) <? 4 = false) as -> by (rewrite len_app; unfold len; lia).
  unfold slice_to, slice_from. rewrite len_app.
  assert (4 <=? len h + len r = true) as Hle by (unfold len; lia).
  rewrite Hle. cbn [obind].
  rewrite firstn_app, skipn_app.
  replace (N.to_nat 4 - length h)%nat with 0%nat by lia.
  rewrite firstn_all2, skipn_all2 by lia. cbn [firstn skipn]. rewrite app_nil_r. cbn [app].
  destruct (format_try_from F h); reflexivity.
Qed.

Lemma payload_split (p : bytes) : 4 <= len p -> exists h r : bytes, p = h ++ r /\ length h = 4%nat.
Proof.
  intros H. exists (firstn 4 p), (skipn 4 p). split; [symmetry; apply firstn_skipn|].
  rewrite firstn_length. unfold len in H. lia.
Qed.

Theorem payload_read p o : deserialize F K p = o <-> payload_result F K p o.
Proof.
  split.
  - intros E. destruct (len p <? 4) eqn:Hlen.
    + unfold deserialize, HEADER_FORMAT_LEN in E. rewrite Hlen in E. subst o. constructor. lia.
    + destruct (payload_split p ltac:(lia)) as (h & r & -> & Hh).
      rewrite (deserialize_split h r Hh) in E.
      destruct (format_try_from F h) as [f|e] eqn:Ef.
      * apply format_read in Ef as [Hf ->]. unfold deserialize_inner in E. destruct f; subst o.
        -- apply pr_raw.
        -- apply pr_text.
        -- destruct (json_de K r) as [m|c] eqn:Ed.
           ++ eapply (pr_value F K Utf8Json); [exact Hf|reflexivity|exact Ed].
           ++ eapply (pr_error F K Utf8Json); [exact Hf|reflexivity|exact Ed].
        -- destruct (cbor_de K r) as [m|c] eqn:Ed.
           ++ eapply (pr_value F K Cbor); [exact Hf|reflexivity|exact Ed].
           ++ eapply (pr_error F K Cbor); [exact Hf|reflexivity|exact Ed].
        -- destruct (bincode_de K r) as [m|c] eqn:Ed.
           ++ eapply (pr_value F K Bincode); [exact Hf|reflexivity|exact Ed].
           ++ eapply (pr_error F K Bincode); [exact Hf|reflexivity|exact Ed].
      * subst o.
        assert (forall f, format_enabled F f = true -> h <> header f) as Hu.
        { intros f Hf Hc. assert (format_try_from F h = inl f) as H by (apply format_read; auto). congruence. }
        rewrite (format_unknown F h Hu) in Ef. injection Ef as <-. apply pr_unknown; assumption.
  - intros H. destruct H as [p H|h r Hh Hu|r|r|f de r m Hf Hd Hm|f de r c Hf Hd Hm].
    + unfold deserialize, HEADER_FORMAT_LEN. apply N.ltb_lt in H. rewrite H. reflexivity.
    + rewrite (deserialize_split h r Hh), (format_unknown F h Hu). reflexivity.
    + rewrite (deserialize_split _ r (header_length RawBinary)).
      rewrite (proj2 (format_read F (header RawBinary) RawBinary)); [reflexivity|split; reflexivity].
    + rewrite (deserialize_split _ r (header_length Utf8PlainText)).
      rewrite (proj2 (format_read F (header Utf8PlainText) Utf8PlainText)); [reflexivity|split; reflexivity].
    + rewrite (deserialize_split _ r (header_length f)), (proj2 (format_read F (header f) f)) by auto.
      destruct f; try discriminate Hd; cbn [decoder] in Hd; injection Hd as <-; cbn [deserialize_inner];
        rewrite Hm; reflexivity.
    + rewrite (deserialize_split _ r (header_length f)), (proj2 (format_read F (header f) f)) by auto.
      destruct f; try discriminate Hd; cbn [decoder] in Hd; injection Hd as <-; cbn [deserialize_inner];
        rewrite Hm; reflexivity.
Qed.

(** ** Lists of messages *)
Lemma deserialize_opt_cases o :
  (exists x, deserialize_opt F K o = Ok x /\ value_of F K o x) \/
  (exists p r, o = Some p /\ payload_result F K p r /\ same_failure r (deserialize_opt F K o)).
Proof.
  destruct o as [p|]; cbn [deserialize_opt]; [|left; exists None; split; [reflexivity|exact I]].
  destruct (deserialize F K p) as [m|e|q] eqn:E; cbn [obind].
  - left. exists (Some m). split; [reflexivity|]. cbn [value_of]. apply payload_read. exact E.
  - right. exists p, (Err e). split; [reflexivity|]. split; [apply payload_read; exact E|reflexivity].
  - right. exists p, (Panic q). split; [reflexivity|]. split; [apply payload_read; exact E|reflexivity].
Qed.

Lemma same_failure_bind {A B D} (r : outcome A) (o : outcome B) (g : B -> outcome D) :
  same_failure r o -> same_failure r (obind o g).
Proof. destruct r, o; cbn; intros H; try contradiction; exact H. Qed.

Lemma deserialize_msgs_result l acc :
  (exists ts, deserialize_msgs F K l acc = Ok (acc ++ ts) /\ Forall2 (typed_as F K) l ts) \/
  (exists l1 ts i l2 p r, l = l1 ++ i :: l2 /\ Forall2 (typed_as F K) l1 ts /\
     payload i = Some p /\ payload_result F K p r /\ same_failure r (deserialize_msgs F K l acc)).
Proof.
  revert acc. induction l as [|i l IH]; intros acc.
  - left. exists []. split; [cbn; rewrite app_nil_r; reflexivity|constructor].
  - assert (exists g, (forall x, typed_as F K i (g x) <-> value_of F K (payload i) x) /\
       deserialize_msgs F K (i :: l) acc =
       (do x <- deserialize_opt F K (payload i); deserialize_msgs F K l (acc ++ [g x]))) as (g & Hg & ->).
    { destruct i as [o pk|o|o].
      - exists (fun x => TMConnect x pk). split; [cbn; intuition auto|reflexivity].
      - exists TMAck. split; [reflexivity|reflexivity].
      - exists TMMessage. split; [reflexivity|reflexivity]. }
    destruct (deserialize_opt_cases (payload i)) as [(x & Ex & Hx)|(p & r & Hp & Hr & Hs)].
    + rewrite Ex. cbn [obind]. destruct (IH (acc ++ [g x])) as [(ts & E & Hts)|(l1 & ts & j & l2 & p & r & -> & H1 & H2 & H3 & H4)].
      * left. exists (g x :: ts). rewrite E, <- app_assoc. split; [reflexivity|].
        constructor; [apply Hg; exact Hx|exact Hts].
      * right. exists (i :: l1), (g x :: ts), j, l2, p, r. split; [reflexivity|].
        split; [constructor; [apply Hg; exact Hx|exact H1]|]. auto.
    + right. exists [], [], i, l, p, r. split; [reflexivity|]. split; [constructor|]. split; [exact Hp|].
      split; [exact Hr|]. apply same_failure_bind. exact Hs.
Qed.

(** ** Serialising *)
Lemma serialize_ok m f b : serialize K m f = Ok b ->
  exists en c, encoder K f = Some en /\ en m = inl c /\ b = header f ++ c.
Proof.
  unfold serialize, serialize_inner. destruct f; cbn [obind]; try discriminate.
  - destruct (json_ser K m) as [c|c] eqn:E; cbn [obind]; intros H; [injection H as <-|discriminate].
    exists (json_ser K), c. auto.
  - destruct (cbor_ser K m) as [c|c] eqn:E; cbn [obind]; intros H; [injection H as <-|discriminate].
    exists (cbor_ser K), c. auto.
  - destruct (bincode_ser K m) as [c|c] eqn:E; cbn [obind]; intros H; [injection H as <-|discriminate].
    exists (bincode_ser K), c. auto.
Qed.

Lemma codec_roundtrip (HK : CodecLaws K) m f en de c :
  encoder K f = Some en -> decoder K f = Some de -> en m = inl c -> de c = inl m.
Proof.
  destruct f; cbn; intros [= <-] [= <-] H; [apply (law_json K HK)|apply (law_cbor K HK)|apply (law_bincode K HK)]; exact H.
Qed.

Lemma serialized_payload (HK : CodecLaws K) m f b :
  serialize K m f = Ok b -> format_enabled F f = true -> payload_result F K b (Ok m).
Proof.
  intros E Hf. destruct (serialize_ok m f b E) as (en & c & He & Hc & ->).
  assert (exists de, decoder K f = Some de) as [de Hd].
  { destruct f; cbn in He |- *; try discriminate; eauto. }
  eapply pr_value; [exact Hf|exact Hd|]. exact (codec_roundtrip HK m f en de c He Hd Hc).
Qed.

(** A format this build does not have. *)
Lemma disabled_payload m f b :
  serialize K m f = Ok b -> format_enabled F f = false ->
  payload_result F K b (Err (RecvInvalidMsg UnknownMessageFormat)).
Proof.
  intros E Hf. destruct (serialize_ok m f b E) as (en & c & He & Hc & ->).
  apply pr_unknown; [apply header_length|]. intros g Hg H. apply header_injective in H. congruence.
Qed.

End WithCodec.

Section WithEnv.
Context (C : Crypto) (Z : Zip) (T : target) (F : features).
Context {M : Type} (K : Codec M).

(** ** The typed calls are the binary ones around a serialiser *)
Theorem typed_connect cd s w :
  sl_write_connect_msg C Z K cd s w =
  match cd with
  | None => write_connect_msg_bin C Z None s w
  | Some m => match serialize K m (cfg_message_format (conf (minimal s))) with
              | Ok b => write_connect_msg_bin C Z (Some b) s w
              | Err e => (s, w, Err e)
              | Panic p => (s, w, Panic p)
              end
  end.
Proof.
  unfold sl_write_connect_msg, serialize_compress_opt. destruct cd as [m|]; [|reflexivity].
  destruct (serialize K m _); reflexivity.
Qed.
Theorem typed_ack cd s w :
  sl_write_ack_msg C Z K cd s w =
  match cd with
  | None => write_ack_msg_bin C Z None s w
  | Some m => match serialize K m (cfg_message_format (conf (minimal s))) with
              | Ok b => write_ack_msg_bin C Z (Some b) s w
              | Err e => (s, w, Err e)
              | Panic p => (s, w, Panic p)
              end
  end.
Proof.
  unfold sl_write_ack_msg, serialize_compress_opt. destruct cd as [m|]; [|reflexivity].
  destruct (serialize K m _); reflexivity.
Qed.
Theorem typed_write m s w :
  sl_write C Z T K m s w =
  match serialize K m (cfg_message_format (conf (minimal s))) with
  | Ok b => write_bin C Z T b s w
  | Err e => (s, w, Err e)
  | Panic p => (s, w, Panic p)
  end.
Proof. reflexivity. Qed.

Lemma typed_read_ok d s s' l :
  read_bin C Z T d s = (s', Ok l) -> sl_read C Z T F K d s = (s', deserialize_msgs F K l []).
Proof. intros E. unfold sl_read. rewrite E. reflexivity. Qed.

(** Every typed read: the binary read, then each payload in turn. *)
Theorem typed_read d s s' o :
  read_bin C Z T d s = (s', o) ->
  exists o', sl_read C Z T F K d s = (s', o') /\
    match o with
    | Ok l => typed_result F K l o'
    | Err e => o' = Err e
    | Panic p => o' = Panic p
    end.
Proof.
  intros E. destruct o as [l|e|p].
  - exists (deserialize_msgs F K l []). split; [apply typed_read_ok, E|].
    destruct (deserialize_msgs_result F K l []) as [(ts & E1 & H)|H]; [left; exists ts; split; [exact E1|exact H]|right; exact H].
  - exists (Err e). unfold sl_read. rewrite E. auto.
  - exists (Panic p). unfold sl_read. rewrite E. auto.
Qed.

(** The state of a layer used with typed calls is one of the binary calls. *)
Theorem typed_reachable s :
  sreachable C Z T s ->
  (forall d, sreachable C Z T (fst (sl_read C Z T F K d s))) /\
  (forall cd w, sreachable C Z T (fst (fst (sl_write_connect_msg C Z K cd s w)))) /\
  (forall cd w, sreachable C Z T (fst (fst (sl_write_ack_msg C Z K cd s w)))) /\
  (forall m w, sreachable C Z T (fst (fst (sl_write C Z T K m s w)))).
Proof.
  intros H. split; [|split; [|split]].
  - intros d. pose proof (sreach_step C Z T s (SRead d) H) as H1. cbn [scall_step] in H1.
    unfold sl_read. destruct (read_bin C Z T d s) as [s' [l|e|p]]; exact H1.
  - assert (forall x w, sreachable C Z T (fst (fst (write_connect_msg_bin C Z x s w)))) as HC.
    { intros x w. pose proof (sreach_step C Z T s (SConnect x w) H) as H1. cbn [scall_step] in H1.
      destruct (write_connect_msg_bin C Z x s w) as [[s' w'] o]. exact H1. }
    intros cd w. rewrite typed_connect. destruct cd as [m|]; [|apply HC].
    destruct (serialize K m _); [apply HC|exact H|exact H].
  - assert (forall x w, sreachable C Z T (fst (fst (write_ack_msg_bin C Z x s w)))) as HC.
    { intros x w. pose proof (sreach_step C Z T s (SAck x w) H) as H1. cbn [scall_step] in H1.
      destruct (write_ack_msg_bin C Z x s w) as [[s' w'] o]. exact H1. }
    intros cd w. rewrite typed_ack. destruct cd as [m|]; [|apply HC].
    destruct (serialize K m _); [apply HC|exact H|exact H].
  - intros m w. rewrite typed_write. destruct (serialize K m _); [|exact H|exact H].
    pose proof (sreach_step C Z T s (SWrite a w) H) as H1. cbn [scall_step] in H1.
    destruct (write_bin C Z T a s w) as [[s' w'] o]. exact H1.
Qed.

(** ** Round trips *)
Lemma value_read o x : value_of F K o x -> deserialize_opt F K o = Ok x.
Proof.
  destruct o as [p|], x as [m|]; cbn [value_of deserialize_opt]; intros H; try contradiction; [|reflexivity].
  apply payload_read in H. rewrite H. reflexivity.
Qed.

Lemma typed_read_snd d s l : snd (read_bin C Z T d s) = Ok l -> snd (sl_read C Z T F K d s) = deserialize_msgs F K l [].
Proof. unfold sl_read. destruct (read_bin C Z T d s) as [s' o]. cbn [snd]. intros ->. reflexivity. Qed.

Lemma serialized_value (HK : CodecLaws K) (m : M) a b :
  serialize K m (cfg_message_format (conf (minimal a))) = Ok b -> understood F (Some m) a ->
  value_of F K (Some b) (Some m).
Proof. intros E Hf. cbn [value_of]. eapply serialized_payload; [exact HK|exact E|]. apply Hf. discriminate. Qed.

Theorem typed_connect_roundtrip (HL : CryptoLaws C) (HZ : ZipLaws Z) (HK : CodecLaws K) cd a w a' w' :
  sreachable C Z T a -> takes_all w -> sl_write_connect_msg C Z K cd a w = (a', w', Ok tt) ->
  exists seed d, sig_key_pair a = Some seed /\ output w' = output w ++ d /\
  forall b, sreachable C Z T b -> len d < 2 ^ usize_bits T -> understood F cd a ->
    key_acceptable (minimal b) (ed25519_public C seed) -> wants_connect (minimal b) ->
    agreement_possible C (minimal b) (ephemeral_pubkey (minimal a)) ->
    (ack_msg_recv_too_early (minimal b) = None ->
       snd (sl_read C Z T F K d b) = Ok [TMConnect cd (ed25519_public C seed)]) /\
    (forall p x c', wants_ack (minimal b) -> deflated Z p c' -> value_of F K p x ->
       50 + len c' < 2 ^ usize_bits T ->
       ack_msg_recv_too_early (minimal b) = Some (signed_ack C seed (ephemeral_pubkey (minimal b)) c') ->
       snd (sl_read C Z T F K d b) = Ok [TMConnect cd (ed25519_public C seed); TMAck x]).
Proof.
  intros Ha Hw E. rewrite typed_connect in E.
  assert (exists o, write_connect_msg_bin C Z o a w = (a', w', Ok tt) /\
    (understood F cd a -> value_of F K o cd)) as (o & E1 & Hv).
  { destruct cd as [m|]; [|exists None; split; [exact E|intros _; exact I]].
    destruct (serialize K m _) as [b|e|p] eqn:Es; try discriminate.
    exists (Some b). split; [exact E|]. apply serialized_value; assumption. }
  destruct (connect_roundtrip C Z T HL HZ o a w a' w' Ha Hw E1) as (seed & d & Hs & Ho & H).
  exists seed, d. split; [exact Hs|]. split; [exact Ho|].
  intros b Hb Hlen Hf H1 H2 H3. destruct (H b Hb Hlen H1 H2 H3) as [HA HB]. specialize (Hv Hf). split.
  - intros H4. rewrite (typed_read_snd _ _ _ (HA H4)). cbn [deserialize_msgs].
    rewrite (value_read o cd Hv). reflexivity.
  - intros p x c' H4 H5 H6 H7 H8. rewrite (typed_read_snd _ _ _ (HB p c' H4 H5 H7 H8)). cbn [deserialize_msgs].
    rewrite (value_read o cd Hv), (value_read p x H6). reflexivity.
Qed.

Theorem typed_ack_roundtrip (HL : CryptoLaws C) (HZ : ZipLaws Z) (HK : CodecLaws K) cd a w a' w' :
  sreachable C Z T a -> takes_all w -> sl_write_ack_msg C Z K cd a w = (a', w', Ok tt) ->
  exists seed d, sig_key_pair a = Some seed /\ output w' = output w ++ d /\
  forall b, sreachable C Z T b -> len d < 2 ^ usize_bits T -> understood F cd a ->
    peer_sig_pubkey (minimal b) = Some (ed25519_public C seed) -> wants_ack (minimal b) ->
    peer_epk (minimal a) = Some (ephemeral_pubkey (minimal b)) ->
    tmp_stack_user_msgs (minimal b) = [] ->
    snd (sl_read C Z T F K d b) = Ok [TMAck cd].
Proof.
  intros Ha Hw E. rewrite typed_ack in E.
  assert (exists o, write_ack_msg_bin C Z o a w = (a', w', Ok tt) /\
    (understood F cd a -> value_of F K o cd)) as (o & E1 & Hv).
  { destruct cd as [m|]; [|exists None; split; [exact E|intros _; exact I]].
    destruct (serialize K m _) as [b|e|p] eqn:Es; try discriminate.
    exists (Some b). split; [exact E|]. apply serialized_value; assumption. }
  destruct (ack_roundtrip C Z T HL HZ o a w a' w' Ha Hw E1) as (seed & d & Hs & Ho & H).
  exists seed, d. split; [exact Hs|]. split; [exact Ho|].
  intros b Hb Hlen Hf H1 H2 H3 H4. specialize (Hv Hf).
  rewrite (typed_read_snd _ _ _ (H b Hb Hlen H1 H2 H3 H4)). cbn [deserialize_msgs].
  rewrite (value_read o cd Hv). reflexivity.
Qed.

Theorem typed_message_roundtrip (HL : CryptoLaws C) (HZ : ZipLaws Z) (HK : CodecLaws K) m a w a' w' :
  sreachable C Z T a -> takes_all w -> sl_write C Z T K m a w = (a', w', Ok tt) ->
  exists k d, session_key (minimal a) = Some k /\ output w' = output w ++ d /\
  forall b, sreachable C Z T b -> len d < 2 ^ usize_bits T -> understood F (Some m) a -> sestablished b ->
    session_key (minimal b) = Some k -> keystream_ok C k ->
    window_room (minimal b) (next_nonce_sent (minimal a)) ->
    ~ last_nonce T (minimal b) (next_nonce_sent (minimal a)) ->
    snd (sl_read C Z T F K d b) = Ok [TMMessage (Some m)].
Proof.
  intros Ha Hw E. rewrite typed_write in E.
  destruct (serialize K m _) as [p|e|p] eqn:Es; try discriminate.
  destruct (message_roundtrip C Z T HL HZ p a w a' w' Ha Hw E) as (k & d & Hk & Ho & H).
  exists k, d. split; [exact Hk|]. split; [exact Ho|].
  intros b Hb Hlen Hf H1 H2 H3 H4 H5.
  rewrite (typed_read_snd _ _ _ (H b Hb Hlen H1 H2 H3 H4 H5)). cbn [deserialize_msgs].
  rewrite (value_read _ _ (serialized_value HK m a p Es Hf)). reflexivity.
Qed.

(** A peer whose build has a format this one does not have. *)
Theorem typed_message_disabled (HL : CryptoLaws C) (HZ : ZipLaws Z) m a w a' w' :
  sreachable C Z T a -> takes_all w -> sl_write C Z T K m a w = (a', w', Ok tt) ->
  format_enabled F (cfg_message_format (conf (minimal a))) = false ->
  exists k d, session_key (minimal a) = Some k /\ output w' = output w ++ d /\
  forall b, sreachable C Z T b -> len d < 2 ^ usize_bits T -> sestablished b ->
    session_key (minimal b) = Some k -> keystream_ok C k ->
    window_room (minimal b) (next_nonce_sent (minimal a)) ->
    ~ last_nonce T (minimal b) (next_nonce_sent (minimal a)) ->
    snd (sl_read C Z T F K d b) = Err (RecvInvalidMsg UnknownMessageFormat).
Proof.
  intros Ha Hw E Hf. rewrite typed_write in E.
  destruct (serialize K m _) as [p|e|p] eqn:Es; try discriminate.
  destruct (message_roundtrip C Z T HL HZ p a w a' w' Ha Hw E) as (k & d & Hk & Ho & H).
  exists k, d. split; [exact Hk|]. split; [exact Ho|].
  intros b Hb Hlen H1 H2 H3 H4 H5.
  rewrite (typed_read_snd _ _ _ (H b Hb Hlen H1 H2 H3 H4 H5)). cbn [deserialize_msgs deserialize_opt].
  pose proof (disabled_payload F K m _ p Es Hf) as Hp. apply payload_read in Hp. rewrite Hp. reflexivity.
Qed.

(** ** Errors before anything happens *)
Theorem serialize_fails m f :
  (f = RawBinary -> serialize K m f = Err (SerdeError UseSuffixedBinFunctions)) /\
  (f = Utf8PlainText -> serialize K m f = Panic PUnimplemented) /\
  (forall en c, encoder K f = Some en -> en m = inr c -> serialize K m f = Err (back_end_error f c)).
Proof.
  split; [intros ->; reflexivity|]. split; [intros ->; reflexivity|].
  intros en c He Hc. destruct f; cbn in He; try discriminate; injection He as <-;
    unfold serialize, serialize_inner; rewrite Hc; reflexivity.
Qed.

Theorem unserialisable_no_effect m s e w :
  unserialisable K m (cfg_message_format (conf (minimal s))) e ->
  sl_write_connect_msg C Z K (Some m) s w = (s, w, Err e) /\
  sl_write_ack_msg C Z K (Some m) s w = (s, w, Err e) /\
  sl_write C Z T K m s w = (s, w, Err e).
Proof.
  intros H. rewrite typed_connect, typed_ack, typed_write.
  assert (serialize K m (cfg_message_format (conf (minimal s))) = Err e) as ->; [|auto].
  destruct (serialize_fails m (cfg_message_format (conf (minimal s)))) as (H1 & _ & H3).
  destruct H as [[Hf ->]|(en & c & He & Hc & ->)]; eauto.
Qed.

Theorem plain_text_write_panics m s w :
  cfg_message_format (conf (minimal s)) = Utf8PlainText ->
  sl_write_connect_msg C Z K (Some m) s w = (s, w, Panic PUnimplemented) /\
  sl_write_ack_msg C Z K (Some m) s w = (s, w, Panic PUnimplemented) /\
  sl_write C Z T K m s w = (s, w, Panic PUnimplemented).
Proof. intros H. rewrite typed_connect, typed_ack, typed_write, H. auto. Qed.

(** A session peer. *)
Theorem plain_text_message_panics (HL : CryptoLaws C) (HZ : ZipLaws Z) r a w a' w' :
  sreachable C Z T a -> takes_all w ->
  write_bin C Z T (header Utf8PlainText ++ r) a w = (a', w', Ok tt) ->
  exists k d, session_key (minimal a) = Some k /\ output w' = output w ++ d /\
  forall b, sreachable C Z T b -> len d < 2 ^ usize_bits T -> sestablished b ->
    session_key (minimal b) = Some k -> keystream_ok C k ->
    window_room (minimal b) (next_nonce_sent (minimal a)) ->
    ~ last_nonce T (minimal b) (next_nonce_sent (minimal a)) ->
    snd (sl_read C Z T F K d b) = Panic PUnimplemented.
Proof.
  intros Ha Hw E.
  destruct (message_roundtrip C Z T HL HZ _ a w a' w' Ha Hw E) as (k & d & Hk & Ho & H).
  exists k, d. split; [exact Hk|]. split; [exact Ho|].
  intros b Hb Hlen H1 H2 H3 H4 H5.
  rewrite (typed_read_snd _ _ _ (H b Hb Hlen H1 H2 H3 H4 H5)). cbn [deserialize_msgs deserialize_opt].
  pose proof (pr_text F K r) as Hp. apply payload_read in Hp. rewrite Hp. reflexivity.
Qed.

(** Anyone with a signing key the layer accepts, before any session. *)
Theorem plain_text_connect_panics (HL : CryptoLaws C) (HZ : ZipLaws Z) r a w a' w' :
  sreachable C Z T a -> takes_all w ->
  write_connect_msg_bin C Z (Some (header Utf8PlainText ++ r)) a w = (a', w', Ok tt) ->
  exists seed d, sig_key_pair a = Some seed /\ output w' = output w ++ d /\
  forall b, sreachable C Z T b -> len d < 2 ^ usize_bits T ->
    key_acceptable (minimal b) (ed25519_public C seed) -> wants_connect (minimal b) ->
    agreement_possible C (minimal b) (ephemeral_pubkey (minimal a)) ->
    ack_msg_recv_too_early (minimal b) = None ->
    snd (sl_read C Z T F K d b) = Panic PUnimplemented.
Proof.
  intros Ha Hw E.
  destruct (connect_roundtrip C Z T HL HZ _ a w a' w' Ha Hw E) as (seed & d & Hk & Ho & H).
  exists seed, d. split; [exact Hk|]. split; [exact Ho|].
  intros b Hb Hlen H1 H2 H3 H4. destruct (H b Hb Hlen H1 H2 H3) as [H5 _].
  rewrite (typed_read_snd _ _ _ (H5 H4)). cbn [deserialize_msgs deserialize_opt].
  pose proof (pr_text F K r) as Hp. apply payload_read in Hp. rewrite Hp. reflexivity.
Qed.

(** ** Payloads that cannot be decoded are consumed *)
Theorem typed_undecodable_consumed (HL : CryptoLaws C) d s s' l o :
  sreachable C Z T s ->
  next_nonce_expected (minimal s) + len (orphan_nonce_list (minimal s)) + 1 < 2 ^ 64 ->
  snd (read_bin C Z T d s) = Ok l -> sl_read C Z T F K d s = (s', o) -> fails o ->
  ~ sfailed C s' /\ exists x, In x [UnexpectedConnectMsg; UnexpectedAckMsg; InvalidNonce] /\
    snd (sl_read C Z T F K d s') = Err (RecvInvalidMsg x).
Proof.
  intros Hs Hu E0 E1 Hf.
  assert (read_bin C Z T d s = (s', Ok l)) as E.
  { unfold sl_read in E1. destruct (read_bin C Z T d s) as [s1 o1]. cbn [snd] in E0. subst o1.
    injection E1 as -> _. reflexivity. }
  assert (took (Ok l)) as Ht.
  { destruct l as [|i l]; [|exact I]. rewrite (typed_read_ok _ _ _ _ E) in E1. injection E1 as <-. contradiction. }
  destruct (taken_consumed C Z T HL d s s' (Ok l) Hs Hu E Ht) as [H1 (x & Hx & H2)]. split; [exact H1|].
  exists x. split; [exact Hx|]. unfold sl_read.
  destruct (read_bin C Z T d s') as [s2 o2]. cbn [snd] in H2. subst o2. reflexivity.
Qed.

End WithEnv.

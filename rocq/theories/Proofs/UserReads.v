(** Reading user messages: effect on the replay window and the early queue. *)

From Coq Require Import Arith ZifyBool ZifyNat ZifyN.
From Verif.Model Require Import Minimal.
From Verif.Spec Require Import Wire Datagram Trace ReadSpec Accept Session.
From Verif.Proofs Require Import BaseFacts CipherFacts ReaderFacts ReadCases WindowFacts Invariant
  Negotiation Failure DatagramFacts ReadSpecFacts Accept Keys.

Section WithEnv.
Context (C : Crypto) (T : target) (HL : CryptoLaws C).

Lemma session_key_some s k :
  session_key s = Some k <-> encrypt_algo_with_secret s = Some (WithChacha k).
Proof.
  unfold session_key. destruct (encrypt_algo_with_secret s) as [[k']|]; split; congruence.
Qed.

(** Draining a queued text is reading the datagram it came from. *)
Lemma read_inner_sealed k b s :
  session_key s = Some k -> keystream_ok C k -> queued T b ->
  read_inner C T false b s = read C T (seal C k b) s.
Proof.
  intros Hk Hks Hq. apply session_key_some in Hk.
  destruct (reader_read_queued C T b (encrypt_algo_with_secret s) Hq)
    as (L & n & rest & ue & H1 & H2 & H3 & H4 & H5).
  unfold read, read_inner. rewrite H5.
  assert (reader_read C T (encrypt_algo_with_secret s) (seal C k b) true
    = Ok {| dd_data := b; dd_user_msg_begin := 26; dd_user_msg_end := ue; dd_headers := HUserMsg n |}) as ->.
  { rewrite Hk, H3. unfold reader_read. rewrite (read_decrypt_sealed C T HL k _ Hks). cbn [obind].
    rewrite (read_parse_fwd T true true L _ (HUserMsg n) 10 ue);
      [reflexivity|exact H1|exact H4|constructor; exact H2|reflexivity]. }
  reflexivity.
Qed.

(** ** Authentic datagrams *)

Lemma seal_inj k a b : seal C k a = seal C k b -> a = b.
Proof.
  intros E.
  pose proof (chacha_decrypt_seal C HL T k a) as Ha.
  pose proof (chacha_decrypt_seal C HL T k b) as Hb. rewrite E in Ha. congruence.
Qed.

Lemma opens_class k d n data :
  opens C T k d n data ->
  exists text L, d = seal C k text /\ datagram T C (Some k) d (DFrame text L (KUser n)) /\
    hash_ok C T text L /\ queued T text /\
    get_message (frame_data T text L (KUser n)) = Ok (Some (MMessage (nonempty data))).
Proof.
  intros (Hn & Hks & text & (L & Hf & Ht) & Hd).
  pose proof (user_class T L n data (sha256 C (frame_len L [x00; x00] (u64_be n ++ data))) Hn Hf) as Hc.
  unfold hashed in Ht. rewrite <- Ht in Hc.
  pose proof (sealed_datagram C T HL k _ _ _ Hc eq_refl Hks) as Hdg. rewrite <- Hd in Hdg.
  exists text, L. split; [exact Hd|]. split; [exact Hdg|].
  destruct (field_text_end T _ _ Hf) as [Hte Hov].
  assert (len (frame_len L [x00; x00] (u64_be n ++ data)) = text_end T L) as Hfl.
  { rewrite len_frame_len by reflexivity. lia. }
  assert (N.to_nat (text_end T L) = length (frame_len L [x00; x00] (u64_be n ++ data))) as Hnl
    by (unfold len in Hfl; lia).
  split; [|split].
  - split.
    + rewrite Ht, len_app. lia.
    + rewrite Ht, Hnl, skipn_exact, firstn_exact by reflexivity. reflexivity.
  - pose proof (datagram_frame C T _ _ _ _ _ Hdg) as (HL64 & Hno & _).
    assert (reader_read C T (Some (WithChacha k)) d true = Ok (frame_data T text L (KUser n))) as Hr.
    { apply (reader_read_class C T HL (Some (WithChacha k))) in Hdg. exact Hdg. }
    apply (reader_read_user C T (Some (WithChacha k)) d true _ n) in Hr; [|reflexivity].
    apply Hr.
  - pose proof (datagram_frame C T _ _ _ _ _ Hdg) as (HL64 & Hno & (th & rest & Hth & Hh) & _).
    destruct (user_split T text L n th rest Hth Hh HL64) as (data' & tail & _ & Hf' & Htx & _ & _ & Hg).
    + assert (len (u64_be n ++ data) = 8 + len data) as Hl by (rewrite len_app, len_u64_be; reflexivity). lia.
    + rewrite Ht, len_app. lia.
    + rewrite Hg. repeat f_equal.
      rewrite Ht in Htx. unfold frame_len in Htx. rewrite <- !app_assoc in Htx.
      do 5 (apply app_inv_head in Htx).
      apply app_inv_len in Htx as [Htx _]; [symmetry; exact Htx|].
      destruct Hf as (_ & Hf & _), Hf' as (_ & Hf' & _). rewrite !len_app, !len_u64_be in *.
      unfold len in *. lia.
Qed.

Lemma opens_inj k d n data n' data' :
  opens C T k d n data -> opens C T k d n' data' -> n = n' /\ data = data'.
Proof.
  intros (Hn & _ & text & (L & Hf & Ht) & Hd) (Hn' & _ & text' & (L' & Hf' & Ht') & Hd').
  assert (text = text') as <- by (apply (seal_inj k); congruence).
  rewrite Ht in Ht'. unfold hashed, frame_len in Ht'. rewrite <- !app_assoc in Ht'.
  do 2 (apply app_inv_head in Ht').
  apply app_inv_len in Ht' as [EL Ht']; [|reflexivity].
  apply u64_be_inj in EL; [|apply Hf|apply Hf']. subst L'.
  apply app_inv_head in Ht'.
  apply app_inv_len in Ht' as [En Ht']; [|reflexivity].
  apply u64_be_inj in En; [|exact Hn|exact Hn']. subst n'.
  split; [reflexivity|].
  apply app_inv_len in Ht' as [E _]; [exact E|].
  destruct Hf as (_ & Hf & _), Hf' as (_ & Hf' & _). rewrite !len_app, !len_u64_be in *.
  unfold len in *. lia.
Qed.

(** ** One read *)
Definition used (s : msl) : N := next_nonce_expected s + len (orphan_nonce_list s).
Definition same_window (s s' : msl) : Prop :=
  next_nonce_expected s' = next_nonce_expected s /\ orphan_nonce_list s' = orphan_nonce_list s.

Inductive user_step (s : msl) (d : bytes) (s' : msl) (o : outcome (option message)) : Prop :=
| us_deliver k n data :
    session_key s = Some k -> opens C T k d n data -> established s -> ~ received s n ->
    o = Ok (Some (MMessage (nonempty data))) ->
    established s' -> tmp_stack_user_msgs s' = tmp_stack_user_msgs s ->
    used s' = used s + 1 -> (forall m, received s' m <-> received s m \/ m = n) ->
    user_step s d s' o
| us_push k text :
    session_key s = Some k -> keystream_ok C k -> d = seal C k text -> queued T text ->
    wants_only_ack s -> o = Ok None ->
    s' = set_stack (tmp_stack_user_msgs s ++ [text]) s -> user_step s d s' o
| us_lost : (* accepted by the window, then panic *)
    panics (RMsg o) = true -> tmp_stack_user_msgs s' = tmp_stack_user_msgs s ->
    used s' = used s + 1 -> (forall m, received s m -> received s' m) ->
    user_step s d s' o
| us_none :
    (forall x, o <> Ok (Some (MMessage x))) ->
    tmp_stack_user_msgs s' = tmp_stack_user_msgs s -> same_window s s' ->
    user_step s d s' o.

Lemma pin_window pk s :
  tmp_stack_user_msgs (pin pk s) = tmp_stack_user_msgs s /\ same_window s (pin pk s).
Proof. destruct (pin_fields pk s) as [v ->]. repeat split. Qed.

Lemma read_user_step s d s' o :
  Inv C T s -> read C T d s = (s', o) -> used s + 1 < 2 ^ 64 -> user_step s d s' o.
Proof.
  intros HI E Hb.
  destruct (datagram_total C T HL (session_key s) d) as [c Hc].
  assert (forall s1 o1, (s1 = s \/ s1 = set_status Fail s) -> (s1, o1) = (s', o) ->
    (forall x, o1 <> Ok (Some (MMessage x))) -> user_step s d s' o) as Hsame.
  { intros s1 o1 Hs1 Eq Ho1. injection Eq as <- <-.
    apply us_none; [exact Ho1| |]; destruct Hs1 as [-> | ->]; repeat split. }
  destruct c as [|e| |text L k].
  { destruct (read_of_panic C T HL s d Hc) as [p Hp]. rewrite Hp in E.
    eapply Hsame; [left; reflexivity|exact E|discriminate]. }
  { rewrite (read_of_reject C T HL s d e Hc) in E.
    eapply Hsame; [right; reflexivity|exact E|discriminate]. }
  { rewrite (read_of_undecryptable C T HL s d Hc) in E.
    eapply Hsame; [right; reflexivity|exact E|discriminate]. }
  pose proof (datagram_frame C T _ _ _ _ _ Hc) as (HL64 & _ & (th & rest & Ht & Hh) & Hd).
  pose proof (get_message_exact T text L k) as Hg.
  destruct k as [epk pk|ch|n]; cbn [must_be_sealed headers_size] in Hd, Hg.
  - destruct (pin_window pk s) as (P1 & P2).
    apply (read_connect_result C T HL s HI d text L epk pk) in E; [|exact Hc].
    destruct E as [|?|?|e ? ? ? He|s' ? ? ? ? ? Hcn|s' ? ? ? ? ? Hcn];
      try (apply us_none; [discriminate|exact P1|exact P2]).
    + apply us_none; [discriminate|reflexivity|split; reflexivity].
    + destruct Hcn as (l & kp & _ & _ & ->). apply us_none; [discriminate|exact P1|exact P2].
    + destruct Hcn as (l & kp & _ & _ & ->). apply us_none; [|exact P1|exact P2].
      destruct Hg as [(_ & _ & ->)|[_ ->]]; discriminate.
  - apply (read_ack_result C T HL s d text L ch) in E; [|exact Hc].
    destruct E as [| | | | |k e ? ? ? ? He|k st]; try (apply us_none; [discriminate|reflexivity|split; reflexivity]).
    apply us_none; [|reflexivity|split; reflexivity].
    destruct Hg as [(_ & _ & ->)|[_ ->]]; discriminate.
  - destruct Hd as [[Hd _]|(_ & Hnm & k & Hk & Hseal)]; [discriminate|].
    assert (keystream_ok C k) as Hks.
    { apply (proj2 (seal_magic_iff C HL k (version ++ u64_be L ++ th))).
      intros r' Er. rewrite <- Ht, <- Hseal in Er. exact (Hnm _ Er). }
    assert (reader_read C T (encrypt_algo_with_secret s) d true = Ok (frame_data T text L (KUser n))) as Hr
      by exact (reader_of_class C T HL s d _ Hc).
    apply (reader_read_user C T _ d true _ n) in Hr as (Hq & Hn64 & _); [|reflexivity]. cbn [frame_data dd_data] in Hq.
    apply (read_user_result C T HL s HI d text L n) in E; [|exact Hc].
    destruct (inv_window C T s HI) as (Hnd & Hfa & Hlo & Hne).
    assert (forall s1 o1, update_window T n s = (s1, o1) -> ~ received s n -> o1 <> Err TooManyUnorderedMsgs ->
       o1 = Ok tt /\ used s1 = used s + 1 /\ (forall m, received s1 m <-> received s m \/ m = n)) as Huw.
    { intros s1 o1 Hu Hnr Ho1. apply not_received in Hnr as [N1 N2].
      destruct (update_window_seen T n s s1 o1 Hu Hnd N1 N2 Hb) as [(-> & A & B)|(-> & _)]; [|congruence].
      repeat split; [exact A|apply B|apply B]. }
    destruct E as [Hrc|e Hrc ? ? He|Hrc Hw|Hrc He Hl|Hrc He Hl ?|Hrc He Hh' ? ?|s' p Hrc He Hh' ? ? ? Hu|s' Hrc He Hh' Hroom Hlast Hu Hnf].
    + apply us_none; [discriminate|reflexivity|split; reflexivity].
    + apply us_none; [discriminate|reflexivity|split; reflexivity].
    + eapply us_push; eauto.
    + apply us_none; [discriminate|reflexivity|split; reflexivity].
    + apply us_none; [discriminate|reflexivity|split; reflexivity].
    + apply us_none; [discriminate|reflexivity|split; reflexivity].
    + destruct (Huw _ _ Hu Hrc ltac:(discriminate)) as [? _]. discriminate.
    + destruct (Huw _ _ Hu Hrc ltac:(discriminate)) as (_ & U1 & U2).
      assert (tmp_stack_user_msgs s' = tmp_stack_user_msgs s /\ msl_status s' = msl_status s) as [Hstk Hst'].
      { apply update_window_shape in Hu as [(v & l & -> & _)|[-> Hx]]; [split; reflexivity|discriminate]. }
      destruct Hh' as [Hle Hhash].
      destruct Hg as [(Hg1 & Hg2 & Hg)|[_ Hg]].
      * assert (16 + headers_size (KUser n) = 26) as E26 by reflexivity.
        destruct (user_split T text L n th rest Ht Hh HL64) as (data & tail & _ & Hf & Htx & Hfst & Hskp & Hg').
        { exact Hg1. } { exact Hg2. }
        assert (opens C T k d n data) as Ho.
        { split; [exact Hn64|]. split; [exact Hks|]. exists text. split; [|exact Hseal].
          exists L. split; [exact Hf|]. rewrite Htx at 1. unfold hashed. f_equal.
          rewrite <- Hskp, Hhash, Hfst. reflexivity. }
        eapply us_deliver; try eassumption.
        { apply established_iff. apply established_iff in He. congruence. }
      * rewrite Hg. apply us_lost; [reflexivity|exact Hstk|exact U1|].
        intros m Hm. apply U2. auto.
Qed.

End WithEnv.

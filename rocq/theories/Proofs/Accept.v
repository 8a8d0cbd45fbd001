(** Exact conditions for delivery. *)

From Coq Require Import Arith ZifyBool ZifyNat ZifyN.
From Verif.Model Require Import Minimal.
From Verif.Spec Require Import Wire Datagram Trace ReadSpec Accept.
From Verif.Proofs Require Import BaseFacts CipherFacts ReaderFacts ReadCases WindowFacts Invariant
  Negotiation Failure DatagramFacts ReadSpecFacts.

Section WithEnv.
Context (C : Crypto) (T : target).

Lemma pow_bits : 2 ^ 32 <= 2 ^ usize_bits T.
Proof. unfold usize_bits. destruct (usize_width T); cbn; lia. Qed.

Lemma text_end_field L h :
  16 <= h -> L < 2 ^ 64 -> h <= text_end T L -> length_field T L (text_end T L - 16).
Proof.
  intros Hh HL Hle. unfold length_field, text_end in *. pose proof pow_bits as Hb.
  set (b := 2 ^ usize_bits T) in *. assert (b <> 0) as Hb0 by lia.
  rewrite <- N.add_mod_idemp_r in * by exact Hb0.
  pose proof (N.mod_lt L b Hb0) as Hm. set (l := L mod b) in *.
  destruct (N.lt_ge_cases (16 + l) b) as [Hlt|Hge].
  - rewrite N.mod_small in * by exact Hlt. repeat split; lia.
  - replace (16 + l) with ((16 + l - b) + 1 * b) in Hle by lia.
    rewrite N.mod_add in Hle by exact Hb0. rewrite N.mod_small in Hle by lia. lia.
Qed.

Lemma field_text_end L n :
  length_field T L n -> text_end T L = 16 + n /\ ~ end_overflows T L.
Proof.
  intros (_ & Hm & Hlt). unfold text_end, end_overflows. pose proof pow_bits.
  rewrite <- N.add_mod_idemp_r by lia. rewrite Hm. rewrite N.mod_small by lia. split; lia.
Qed.

Lemma firstn_exact {A} (a b : list A) : firstn (length a) (a ++ b) = a.
Proof. apply firstn_app_exact. reflexivity. Qed.
Lemma skipn_exact {A} (a b : list A) : skipn (length a) (a ++ b) = b.
Proof. apply skipn_app_exact. reflexivity. Qed.

(** A text cut at its announced end. *)
Lemma split_end (pre rest : bytes) te :
  len pre <= te -> te <= len (pre ++ rest) ->
  exists cd tail, rest = cd ++ tail /\ len cd = te - len pre /\
    firstn (N.to_nat te) (pre ++ rest) = pre ++ cd /\
    skipn (N.to_nat te) (pre ++ rest) = tail /\
    firstn (N.to_nat (te - len pre)) (skipn (N.to_nat (len pre)) (pre ++ rest)) = cd.
Proof.
  intros H1 H2. rewrite len_app in H2.
  destruct (cut_at rest (te - len pre) ltac:(lia)) as (cd & tail & -> & Hc).
  exists cd, tail. split; [reflexivity|]. split; [exact Hc|].
  assert (N.to_nat te = length (pre ++ cd)) as E1 by (rewrite app_length; unfold len in *; lia).
  assert (N.to_nat (len pre) = length pre) as E2 by (unfold len; lia).
  assert (N.to_nat (te - len pre) = length cd) as E3 by (unfold len in *; lia).
  split; [rewrite app_assoc, E1; apply firstn_exact|].
  split; [rewrite app_assoc, E1; apply skipn_exact|].
  rewrite E2, E3, skipn_exact. apply firstn_exact.
Qed.

Lemma nonempty_message m h : message_from_bytes m h =
  match h with
  | HUserMsg _ => MMessage (nonempty m)
  | HConnect _ al pk => MConnect al pk (nonempty m)
  | HAck _ => MAck (nonempty m)
  end.
Proof. unfold message_from_bytes, nonempty. destruct m, h; reflexivity. Qed.

(** ** From an accepted text to its fields *)

Lemma connect_split text L epk pk th rest :
  text = magic ++ version ++ u64_be L ++ th -> headers th (KConnect epk pk) rest ->
  L < 2 ^ 64 -> 86 <= text_end T L -> text_end T L <= len text ->
  exists cd tail, len epk = 32 /\ len pk = 32 /\
    length_field T L (2 + len (connect_content epk pk cd)) /\
    text = frame_len L [x00; x01] (connect_content epk pk cd) ++ tail /\
    firstn (N.to_nat (text_end T L)) text = frame_len L [x00; x01] (connect_content epk pk cd) /\
    skipn (N.to_nat (text_end T L)) text = tail /\
    get_message (frame_data T text L (KConnect epk pk))
      = Ok (Some (MConnect [x00; x00; x00; x00] pk (nonempty cd))).
Proof.
  intros Ht Hh HL Hle Hlen.
  inversion Hh; subst; clear Hh.
  pose proof (get_message_exact T (magic ++ version ++ u64_be L ++ [x00; x01] ++ epk ++ [x00; x00; x00; x00] ++ pk ++ rest) L (KConnect epk pk)) as Hg.
  set (pre := magic ++ version ++ u64_be L ++ [x00; x01] ++ epk ++ [x00; x00; x00; x00] ++ pk) in *.
  replace (magic ++ version ++ u64_be L ++ [x00; x01] ++ epk ++ [x00; x00; x00; x00] ++ pk ++ rest)
    with (pre ++ rest) in * by (unfold pre; rewrite <- !app_assoc; reflexivity).
  assert (len pre = 86) as Hpre.
  { unfold pre. rewrite !len_app, len_u64_be. change (len magic) with 4. change (len version) with 4.
    change (len [x00; x01]) with 2. change (len [x00;x00;x00;x00]) with 4. lia. }
  destruct (split_end pre rest (text_end T L)) as (cd & tail & -> & Hcd & E1 & E2 & E3);
    [lia|lia|].
  exists cd, tail. split; [assumption|]. split; [assumption|].
  assert (frame_len L [x00; x01] (connect_content epk pk cd) = pre ++ cd) as Ef.
  { unfold frame_len, connect_content, pre. rewrite <- !app_assoc. reflexivity. }
  assert (len (connect_content epk pk cd) = 68 + len cd) as Hc.
  { unfold connect_content. rewrite !len_app. change (len [x00;x00;x00;x00]) with 4. lia. }
  split.
  { rewrite Hc. replace (2 + (68 + len cd)) with (text_end T L - 16) by lia.
    apply (text_end_field L 86); lia. }
  rewrite Ef. split; [rewrite <- app_assoc; reflexivity|]. split; [exact E1|]. split; [exact E2|].
  cbn [headers_size] in Hg. destruct Hg as [(_ & _ & ->)|[Hb _]]; [|lia].
  change (16 + 70) with 86. rewrite <- Hpre, E3. rewrite nonempty_message. reflexivity.
Qed.

Lemma ack_split text L ch th rest :
  text = magic ++ version ++ u64_be L ++ th -> headers th (KAck ch) rest ->
  L < 2 ^ 64 -> 50 <= text_end T L -> text_end T L <= len text ->
  exists cd tail, len ch = 32 /\
    length_field T L (2 + len (ch ++ cd)) /\
    text = frame_len L [x00; x02] (ch ++ cd) ++ tail /\
    firstn (N.to_nat (text_end T L)) text = frame_len L [x00; x02] (ch ++ cd) /\
    skipn (N.to_nat (text_end T L)) text = tail /\
    get_message (frame_data T text L (KAck ch)) = Ok (Some (MAck (nonempty cd))).
Proof.
  intros Ht Hh HL Hle Hlen.
  inversion Hh; subst; clear Hh.
  pose proof (get_message_exact T (magic ++ version ++ u64_be L ++ [x00; x02] ++ ch ++ rest) L (KAck ch)) as Hg.
  set (pre := magic ++ version ++ u64_be L ++ [x00; x02] ++ ch) in *.
  replace (magic ++ version ++ u64_be L ++ [x00; x02] ++ ch ++ rest)
    with (pre ++ rest) in * by (unfold pre; rewrite <- !app_assoc; reflexivity).
  assert (len pre = 50) as Hpre.
  { unfold pre. rewrite !len_app, len_u64_be. change (len magic) with 4. change (len version) with 4.
    change (len [x00; x02]) with 2. lia. }
  destruct (split_end pre rest (text_end T L)) as (cd & tail & -> & Hcd & E1 & E2 & E3);
    [lia|lia|].
  exists cd, tail. split; [assumption|].
  assert (frame_len L [x00; x02] (ch ++ cd) = pre ++ cd) as Ef.
  { unfold frame_len, pre. rewrite <- !app_assoc. reflexivity. }
  split.
  { rewrite len_app. replace (2 + (len ch + len cd)) with (text_end T L - 16) by lia.
    apply (text_end_field L 50); lia. }
  rewrite Ef. split; [rewrite <- app_assoc; reflexivity|]. split; [exact E1|]. split; [exact E2|].
  cbn [headers_size] in Hg. destruct Hg as [(_ & _ & ->)|[Hb _]]; [|lia].
  change (16 + 34) with 50. rewrite <- Hpre, E3. rewrite nonempty_message. reflexivity.
Qed.

Lemma user_split text L n th rest :
  text = magic ++ version ++ u64_be L ++ th -> headers th (KUser n) rest ->
  L < 2 ^ 64 -> 26 <= text_end T L -> text_end T L <= len text ->
  exists data tail, n < 2 ^ 64 /\
    length_field T L (2 + len (u64_be n ++ data)) /\
    text = frame_len L [x00; x00] (u64_be n ++ data) ++ tail /\
    firstn (N.to_nat (text_end T L)) text = frame_len L [x00; x00] (u64_be n ++ data) /\
    skipn (N.to_nat (text_end T L)) text = tail /\
    get_message (frame_data T text L (KUser n)) = Ok (Some (MMessage (nonempty data))).
Proof.
  intros Ht Hh HL Hle Hlen.
  inversion Hh; subst; clear Hh.
  pose proof (get_message_exact T (magic ++ version ++ u64_be L ++ [x00; x00] ++ u64_be n ++ rest) L (KUser n)) as Hg.
  set (pre := magic ++ version ++ u64_be L ++ [x00; x00] ++ u64_be n) in *.
  replace (magic ++ version ++ u64_be L ++ [x00; x00] ++ u64_be n ++ rest)
    with (pre ++ rest) in * by (unfold pre; rewrite <- !app_assoc; reflexivity).
  assert (len pre = 26) as Hpre.
  { unfold pre. rewrite !len_app, !len_u64_be. reflexivity. }
  destruct (split_end pre rest (text_end T L)) as (cd & tail & -> & Hcd & E1 & E2 & E3);
    [lia|lia|].
  exists cd, tail. split; [assumption|].
  assert (frame_len L [x00; x00] (u64_be n ++ cd) = pre ++ cd) as Ef.
  { unfold frame_len, pre. rewrite <- !app_assoc. reflexivity. }
  split.
  { rewrite len_app, len_u64_be. replace (2 + (8 + len cd)) with (text_end T L - 16) by lia.
    apply (text_end_field L 26); lia. }
  rewrite Ef. split; [rewrite <- app_assoc; reflexivity|]. split; [exact E1|]. split; [exact E2|].
  cbn [headers_size] in Hg. destruct Hg as [(_ & _ & ->)|[Hb _]]; [|lia].
  change (16 + 10) with 26. rewrite <- Hpre, E3. rewrite nonempty_message. reflexivity.
Qed.

(** ** From a frame to its class *)

Lemma frame_class L n ty content tail k th :
  length_field T L n -> th = ty ++ content ++ tail ->
  (exists rest, headers th k rest) ->
  text_class T (frame_len L ty content ++ tail) (DFrame (frame_len L ty content ++ tail) L k).
Proof.
  intros Hf -> [rest Hh]. unfold frame_len. rewrite <- !app_assoc.
  destruct (field_text_end _ _ Hf) as [_ Ho]. destruct Hf as [HL _].
  eapply tx_frame; [exact HL| |exact Hh]. intros [_ H]; contradiction.
Qed.

Lemma connect_class L epk pk cd tail :
  len epk = 32 -> len pk = 32 -> length_field T L (2 + len (connect_content epk pk cd)) ->
  text_class T (frame_len L [x00; x01] (connect_content epk pk cd) ++ tail)
    (DFrame (frame_len L [x00; x01] (connect_content epk pk cd) ++ tail) L (KConnect epk pk)).
Proof.
  intros H1 H2 Hf. eapply frame_class; [exact Hf|reflexivity|].
  exists (cd ++ tail). unfold connect_content. rewrite <- !app_assoc. apply hd_connect; assumption.
Qed.
Lemma ack_class L ch cd tail :
  len ch = 32 -> length_field T L (2 + len (ch ++ cd)) ->
  text_class T (frame_len L [x00; x02] (ch ++ cd) ++ tail)
    (DFrame (frame_len L [x00; x02] (ch ++ cd) ++ tail) L (KAck ch)).
Proof.
  intros H1 Hf. eapply frame_class; [exact Hf|reflexivity|].
  exists (cd ++ tail). rewrite <- !app_assoc. apply hd_ack; assumption.
Qed.
Lemma user_class L n data tail :
  n < 2 ^ 64 -> length_field T L (2 + len (u64_be n ++ data)) ->
  text_class T (frame_len L [x00; x00] (u64_be n ++ data) ++ tail)
    (DFrame (frame_len L [x00; x00] (u64_be n ++ data) ++ tail) L (KUser n)).
Proof.
  intros H1 Hf. eapply frame_class; [exact Hf|reflexivity|].
  exists (data ++ tail). rewrite <- !app_assoc. apply hd_user; assumption.
Qed.

Lemma clear_datagram key text L k :
  text_class T text (DFrame text L k) -> must_be_sealed k = false ->
  datagram T C key text (DFrame text L k).
Proof.
  intros H Hk. pose proof H as H'. apply text_class_frame in H' as (_ & _ & _ & th & rest & Ht & _).
  rewrite Ht in H |- *. apply (dg_clear T C key) in H. cbn [check_sealed] in H.
  rewrite Hk in H. exact H.
Qed.

Lemma len_seal (HL : CryptoLaws C) k t : len (seal C k t) = len t + 16.
Proof. unfold len. rewrite seal_length by exact HL. lia. Qed.

Lemma seal_prefix4 (HL : CryptoLaws C) k t :
  4 <= len t -> firstn 4 (seal C k t) = firstn 4 (ciphertext C k t).
Proof.
  intros H. unfold seal. rewrite firstn_app.
  assert (4 - length (ciphertext C k t) = 0)%nat as ->
    by (rewrite ciphertext_length; unfold len in H; lia).
  rewrite firstn_O, app_nil_r. reflexivity.
Qed.

Lemma seal_magic_iff (HL : CryptoLaws C) k r :
  keystream_ok C k <-> (forall r', seal C k (magic ++ r) <> magic ++ r').
Proof.
  assert (4 <= len (magic ++ r)) as Hl by (rewrite len_app; change (len magic) with 4; lia).
  pose proof (ciphertext_prefix4 C k (magic ++ r) Hl) as Hp.
  pose proof (seal_prefix4 HL k (magic ++ r) Hl) as Hs.
  change (firstn 4 (magic ++ r)) with magic in Hp.
  unfold keystream_ok. rewrite <- Hp, <- Hs. split.
  - intros H r' E. apply H. rewrite E. reflexivity.
  - intros H E. apply (H (skipn 4 (seal C k (magic ++ r)))). 
    rewrite <- E at 2. symmetry. apply firstn_skipn.
Qed.

Lemma sealed_datagram (HL : CryptoLaws C) k text L c :
  text_class T text (DFrame text L c) -> must_be_sealed c = true -> keystream_ok C k ->
  datagram T C (Some k) (seal C k text) (DFrame text L c).
Proof.
  intros H Hc Hk. pose proof H as H'. apply text_class_frame in H' as (_ & _ & _ & th & rest & Ht & _).
  assert (4 <= len (seal C k text)) as Hl.
  { rewrite len_seal by exact HL. lia. }
  destruct (cut_at _ _ Hl) as (m & r & E & Hm).
  rewrite E.
  assert (m <> magic) as Hne.
  { intros ->. rewrite Ht in E. apply (proj1 (seal_magic_iff HL k _) Hk) in E. exact E. }
  pose proof (dg_sealed T C (Some k) m r k text _ Hm Hne eq_refl (eq_sym E) H) as Hd.
  cbn [check_sealed] in Hd. rewrite Hc in Hd. exact Hd.
Qed.

(** ** Delivery *)
Section Read.
Context (HL : CryptoLaws C) (s : msl) (HI : Inv C T s) (d : bytes).

Theorem connect_delivered_iff a pk o :
  snd (read C T d s) = Ok (Some (MConnect a pk o)) <->
  exists epk cd, connect_delivery C T s d epk pk cd /\ a = [x00; x00; x00; x00] /\ o = nonempty cd.
Proof.
  destruct (read C T d s) as [s' r] eqn:E. cbn [snd]. split.
  - intros ->. destruct (datagram_total C T HL (session_key s) d) as [c Hc].
    destruct c as [|e| |text L k].
    { destruct (read_of_panic C T HL s d Hc) as [p Hp]. congruence. }
    { rewrite (read_of_reject C T HL s d e Hc) in E. discriminate. }
    { rewrite (read_of_undecryptable C T HL s d Hc) in E. discriminate. }
    pose proof (datagram_frame C T _ _ _ _ _ Hc) as (HL64 & _ & (th & rest & Ht & Hh) & Hd).
    pose proof (get_message_exact T text L k) as Hg.
    destruct k as [epk pk'|ch|n]; cbn [must_be_sealed headers_size] in Hd, Hg.
    + apply (read_connect_result C T HL s HI d text L epk pk') in E; [|exact Hc].
      inversion E as [| | | | |s1 Hk Hs Hw Ha Hst Hcn Es Eo]; subst s1.
      rewrite Eo in Hg. destruct Hg as [(G1 & G2 & G3)|[_ G3]]; [|discriminate].
      destruct (connect_split text L epk pk' th rest Ht Hh HL64 ltac:(lia) G2)
        as (cd & tail & L1 & L2 & Hf & Etext & E1 & E2 & E3).
      rewrite E3 in Eo. injection Eo as <- <- <-.
      exists epk, cd. split; [|auto].
      destruct Hs as [_ Hv]. rewrite E1, E2 in Hv.
      destruct Hd as [[_ ->]|[Hd _]]; [|discriminate].
      repeat split; try assumption. exists L, tail. auto.
    + exfalso. apply (read_ack_result C T HL s d text L ch) in E; [|exact Hc].
      inversion E as [| | | | | |k st Hk Hs Hw Ha Hst Es Es' Eo]. rewrite Eo in Hg.
      destruct Hg as [(G1 & G2 & G3)|[_ G3]]; [|discriminate].
      rewrite nonempty_message in G3. discriminate.
    + exfalso. apply (read_user_result C T HL s HI d text L n) in E; [|exact Hc].
      inversion E; match goal with H : get_message _ = _ |- _ => rename H into Eo end.
      rewrite Eo in Hg.
      destruct Hg as [(G1 & G2 & G3)|[_ G3]]; [|discriminate].
      rewrite nonempty_message in G3. discriminate.
  - intros (epk & cd & (L1 & L2 & (L & sig & Hf & Hd & Hv) & Hk & Hw & Ha) & -> & ->).
    pose proof (connect_class L epk pk cd sig L1 L2 Hf) as Hc.
    pose proof (clear_datagram (session_key s) _ _ _ Hc eq_refl) as Hdg. rewrite <- Hd in Hdg.
    destruct (field_text_end _ _ Hf) as [Hte _].
    assert (len (connect_content epk pk cd) = 68 + len cd) as Hcl.
    { unfold connect_content. rewrite !len_app. change (len [x00;x00;x00;x00]) with 4. lia. }
    assert (len (frame_len L [x00; x01] (connect_content epk pk cd)) = text_end T L) as Hfl.
    { rewrite len_frame_len by reflexivity. lia. }
    assert (N.to_nat (text_end T L) = length (frame_len L [x00; x01] (connect_content epk pk cd))) as Hn
      by (unfold len in Hfl; lia).
    assert (text_end T L <= len d) as Hle by (rewrite Hd, len_app; lia).
    assert (signed_by C T pk d L) as Hs.
    { split; [exact Hle|]. rewrite Hd, Hn, firstn_exact, skipn_exact. exact Hv. }
    pose proof (datagram_frame C T _ _ _ _ _ Hdg) as (HL64 & _ & (th & rest & Ht & Hh) & _).
    destruct (connect_split d L epk pk th rest Ht Hh HL64 ltac:(lia) Hle)
      as (cd' & tail & _ & _ & _ & _ & E1 & _ & E3).
    assert (cd' = cd) as ->.
    { rewrite Hd, Hn, firstn_exact in E1. unfold frame_len, connect_content in E1.
      repeat apply app_inv_head in E1. congruence. }
    apply (read_connect_result C T HL s HI d d L epk pk) in E; [|exact Hdg].
    destruct E; try contradiction; try lia. exact E3.
Qed.

Theorem ack_delivered_iff o :
  snd (read C T d s) = Ok (Some (MAck o)) <->
  exists pk cd, ack_delivery C T s d pk cd /\ o = nonempty cd.
Proof.
  destruct (read C T d s) as [s' r] eqn:E. cbn [snd]. split.
  - intros ->. destruct (datagram_total C T HL (session_key s) d) as [c Hc].
    destruct c as [|e| |text L k].
    { destruct (read_of_panic C T HL s d Hc) as [p Hp]. congruence. }
    { rewrite (read_of_reject C T HL s d e Hc) in E. discriminate. }
    { rewrite (read_of_undecryptable C T HL s d Hc) in E. discriminate. }
    pose proof (datagram_frame C T _ _ _ _ _ Hc) as (HL64 & _ & (th & rest & Ht & Hh) & Hd).
    pose proof (get_message_exact T text L k) as Hg.
    destruct k as [epk pk'|ch|n]; cbn [must_be_sealed headers_size] in Hd, Hg.
    + exfalso. apply (read_connect_result C T HL s HI d text L epk pk') in E; [|exact Hc].
      inversion E as [| | | | |s1 Hk Hs Hw Ha Hst Hcn Es Eo]; subst s1.
      rewrite Eo in Hg. destruct Hg as [(G1 & G2 & G3)|[_ G3]]; [|discriminate].
      rewrite nonempty_message in G3. discriminate.
    + apply (read_ack_result C T HL s d text L ch) in E; [|exact Hc].
      inversion E as [| | | | | |k st Hch Hk Hs Hw Hst Ha Es Eo]. rewrite Eo in Hg.
      destruct Hg as [(G1 & G2 & G3)|[_ G3]]; [|discriminate].
      destruct (ack_split text L ch th rest Ht Hh HL64 ltac:(lia) G2)
        as (cd & tail & L1 & Hf & Etext & E1 & E2 & E3).
      rewrite E3 in Eo. injection Eo as <-.
      exists k, cd. split; [|auto].
      destruct Hs as [_ Hv]. rewrite E1, E2 in Hv.
      destruct Hd as [[_ ->]|[Hd _]]; [|discriminate]. subst ch.
      repeat split; try assumption. exists L, tail. auto.
    + exfalso. apply (read_user_result C T HL s HI d text L n) in E; [|exact Hc].
      inversion E; match goal with H : get_message _ = _ |- _ => rename H into Eo end.
      rewrite Eo in Hg.
      destruct Hg as [(G1 & G2 & G3)|[_ G3]]; [|discriminate].
      rewrite nonempty_message in G3. discriminate.
  - intros (pk & cd & ((L & sig & Hf & Hd & Hv) & Hk & Hw) & ->).
    set (ch := sha256 C (ephemeral_pubkey s)) in *.
    assert (len ch = 32) as L1 by (unfold len, ch; rewrite law_sha256_len by exact HL; reflexivity).
    pose proof (ack_class L ch cd sig L1 Hf) as Hc.
    pose proof (clear_datagram (session_key s) _ _ _ Hc eq_refl) as Hdg. rewrite <- Hd in Hdg.
    destruct (field_text_end _ _ Hf) as [Hte _].
    assert (len (frame_len L [x00; x02] (ch ++ cd)) = text_end T L) as Hfl.
    { rewrite len_frame_len by reflexivity. lia. }
    assert (N.to_nat (text_end T L) = length (frame_len L [x00; x02] (ch ++ cd))) as Hn
      by (unfold len in Hfl; lia).
    assert (text_end T L <= len d) as Hle by (rewrite Hd, len_app; lia).
    assert (signed_by C T pk d L) as Hs.
    { split; [exact Hle|]. rewrite Hd, Hn, firstn_exact, skipn_exact. exact Hv. }
    pose proof (datagram_frame C T _ _ _ _ _ Hdg) as (HL64 & _ & (th & rest & Ht & Hh) & _).
    rewrite len_app in Hte.
    destruct (ack_split d L ch th rest Ht Hh HL64 ltac:(lia) Hle)
      as (cd' & tail & _ & _ & _ & E1 & _ & E3).
    assert (cd' = cd) as ->.
    { rewrite Hd, Hn, firstn_exact in E1. unfold frame_len in E1.
      repeat apply app_inv_head in E1. congruence. }
    apply (read_ack_result C T HL s d d L ch) in E; [|exact Hdg].
    destruct E; try contradiction; try congruence; try lia.
Qed.

Theorem user_delivered_iff o :
  snd (read C T d s) = Ok (Some (MMessage o)) <->
  exists k n data, user_delivery C T s d k n data /\ o = nonempty data.
Proof.
  destruct (read C T d s) as [s' r] eqn:E. cbn [snd]. split.
  - intros ->. destruct (datagram_total C T HL (session_key s) d) as [c Hc].
    destruct c as [|e| |text L k].
    { destruct (read_of_panic C T HL s d Hc) as [p Hp]. congruence. }
    { rewrite (read_of_reject C T HL s d e Hc) in E. discriminate. }
    { rewrite (read_of_undecryptable C T HL s d Hc) in E. discriminate. }
    pose proof (datagram_frame C T _ _ _ _ _ Hc) as (HL64 & _ & (th & rest & Ht & Hh) & Hd).
    pose proof (get_message_exact T text L k) as Hg.
    destruct k as [epk pk'|ch|n]; cbn [must_be_sealed headers_size] in Hd, Hg.
    + exfalso. apply (read_connect_result C T HL s HI d text L epk pk') in E; [|exact Hc].
      inversion E as [| | | | |s1 Hk Hs Hw Ha Hst Hcn Es Eo]; subst s1.
      rewrite Eo in Hg. destruct Hg as [(G1 & G2 & G3)|[_ G3]]; [|discriminate].
      rewrite nonempty_message in G3. discriminate.
    + exfalso. apply (read_ack_result C T HL s d text L ch) in E; [|exact Hc].
      inversion E as [| | | | | |k st Hch Hk Hs Hw Hst Ha Es Eo]. rewrite Eo in Hg.
      destruct Hg as [(G1 & G2 & G3)|[_ G3]]; [|discriminate].
      rewrite nonempty_message in G3. discriminate.
    + apply (read_user_result C T HL s HI d text L n) in E; [|exact Hc].
      inversion E as [| | | | | | |s1 Hr He Hhash Hroom Hlast Hup Hst Es Eo]; subst s1.
      rewrite Eo in Hg.
      destruct Hg as [(G1 & G2 & G3)|[_ G3]]; [|discriminate].
      destruct (user_split text L n th rest Ht Hh HL64 ltac:(lia) G2)
        as (data & tail & L1 & Hf & Etext & E1 & E2 & E3).
      rewrite E3 in Eo. injection Eo as <-.
      destruct Hd as [[Hd _]|(_ & Hnm & sk & Hsk & Hseal)]; [discriminate|].
      exists sk, n, data. split; [|auto].
      destruct Hhash as [_ Hv]. rewrite E1, E2 in Hv.
      split; [exact Hsk|]. split.
      { apply (proj2 (seal_magic_iff HL sk (version ++ u64_be L ++ th))).
        intros r' Er. rewrite <- Ht, <- Hseal in Er. exact (Hnm _ Er). }
      split; [exact L1|]. split.
      { exists text. split; [|exact Hseal]. exists L. split; [exact Hf|]. rewrite Etext, Hv. reflexivity. }
      repeat split; assumption.
  - intros (k & n & data & (Hk & Hks & Hn64 & (text & (L & Hf & Htext) & Hd) & He & (Hr & Hroom) & Hlast) & ->).
    pose proof (user_class L n data (sha256 C (frame_len L [x00; x00] (u64_be n ++ data))) Hn64 Hf) as Hc.
    unfold hashed in Htext. rewrite <- Htext in Hc.
    pose proof (sealed_datagram HL k _ _ _ Hc eq_refl Hks) as Hdg. rewrite <- Hd, <- Hk in Hdg.
    destruct (field_text_end _ _ Hf) as [Hte _].
    assert (len (frame_len L [x00; x00] (u64_be n ++ data)) = text_end T L) as Hfl.
    { rewrite len_frame_len by reflexivity. lia. }
    assert (N.to_nat (text_end T L) = length (frame_len L [x00; x00] (u64_be n ++ data))) as Hn
      by (unfold len in Hfl; lia).
    assert (text_end T L <= len text) as Hle by (rewrite Htext, len_app; lia).
    assert (hash_ok C T text L) as Hs.
    { split; [exact Hle|]. rewrite Htext, Hn, firstn_exact, skipn_exact. reflexivity. }
    pose proof (datagram_frame C T _ _ _ _ _ Hdg) as (HL64 & _ & (th & rest & Ht & Hh) & _).
    rewrite len_app, len_u64_be in Hte.
    destruct (user_split text L n th rest Ht Hh HL64 ltac:(lia) Hle)
      as (data' & tail & _ & _ & _ & E1 & _ & E3).
    assert (data' = data) as ->.
    { rewrite Htext, Hn, firstn_exact in E1. unfold frame_len in E1.
      repeat apply app_inv_head in E1. congruence. }
    apply (read_user_result C T HL s HI d text L n) in E; [|exact Hdg].
    unfold last_nonce in Hlast.
    destruct E; try contradiction; try tauto; try lia.
    + exfalso. apply established_iff in He. unfold wants_only_ack in *. congruence.
Qed.

End Read.
End WithEnv.

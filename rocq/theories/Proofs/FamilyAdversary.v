(** Authenticity through any number of handles. *)

From Coq Require Import Arith ZifyBool ZifyNat ZifyN.
From Verif.Model Require Import Complete.
From Verif.Spec Require Import Wire Datagram Trace ReadSpec Accept Session Writers Adversary CompleteTrace Projection CompleteAdversary Family FamilyAdversary.
From Verif.Proofs Require Import BaseFacts IoFacts CipherFacts ReaderFacts DatagramFacts Invariant UserReads Ledger Nonces Sending Corollaries
  CompleteFacts CompleteMode Split CompleteAdversary Lives Family SFamily FamilyReceiver.

Lemma flat_map_nil {A B} (p : A -> list B) l : (forall x, In x l -> p x = []) -> flat_map p l = [].
Proof.
  induction l as [|a l IH]; intros H; cbn [flat_map]; [reflexivity|]. rewrite (H a (or_introl eq_refl)), IH; [reflexivity|].
  intros x Hx. apply H. right. exact Hx.
Qed.

Lemma events_in {E} (tr : trace E) ts e : In e (events tr ts) -> exists i, In (i, e) tr.
Proof.
  intros H. apply in_flat_map in H as (t & _ & H). destruct (nth_error tr t) as [[i e']|] eqn:Et; [|destruct H].
  destruct H as [<-|[]]. exists i. eapply nth_error_In, Et.
Qed.

(** The calls of one kind, all made on one handle, are all in its life. *)
Section Only.
Context {E B : Type} (cl : E -> bool) (p : E -> list B).
Definition one_of (e : E) : Prop := flat_map p [e] <> [].

Lemma only_life tr n j : wf cl tr n -> (j < n)%nat -> only one_of tr j ->
  flat_map p (events tr (Family.life cl tr j)) = flat_map p (map snd tr).
Proof.
  induction 1 as [|tr n i e HW IH Hi]; intros Hj Ho.
  { destruct j as [|j]; [reflexivity|lia]. }
  pose proof (lives_ok cl tr n HW) as L. pose proof (life_snoc_cases cl tr i e n (lv_len _ _ _ L) Hi) as [_ HB].
  assert (only one_of tr j) as Ho' by (intros i' e' Hin; apply Ho; apply in_app_iff; left; exact Hin).
  rewrite map_app, flat_map_app.
  assert (i = j \/ flat_map p [e] = []) as Hie.
  { destruct (flat_map p [e]) as [|b l] eqn:Ee; [right; reflexivity|left].
    apply (Ho i e); [apply in_app_iff; right; left; reflexivity|]. unfold one_of. rewrite Ee. discriminate. }
  destruct (HB j Hj) as [(Hjn & Hne & ->)|[[-> | ->] ->]].
  - rewrite events_snoc_old by (apply (lv_lt _ _ _ L); exact Hjn). rewrite (IH Hjn Ho').
    destruct Hie as [-> |He]; [congruence|]. cbn [map snd]. rewrite He, app_nil_r. reflexivity.
  - rewrite (life_events_new cl tr i e n L Hi), flat_map_app, (IH Hi Ho'). reflexivity.
  - rewrite (life_events_new cl tr i e n L Hi), flat_map_app. cbn [map snd]. f_equal.
    assert (forall i' e', In (i', e') tr -> p e' = []) as Hnil.
    { intros i' e' Hin. destruct (p e') eqn:Ee; [reflexivity|]. exfalso.
      assert (i' = n) as -> by (eapply Ho'; [exact Hin|unfold one_of; cbn [flat_map]; rewrite Ee; discriminate]).
      apply In_nth_error in Hin as (t & Ht). destruct (wf_handle cl tr n t _ _ HW Ht) as (m & Hm & Hlt).
      clear - HW Ht. revert Ht. enough (forall q, nth_error tr t = Some (q, e') -> (q < n)%nat) as X by (intros Ht; apply X in Ht; lia).
      intros q. induction HW as [|tr n i e HW IH Hi]; intros Ht; [destruct t; discriminate|].
      apply nth_error_snoc in Ht as [Ht|[_ Ht]]; [specialize (IH Ht); lia|]. injection Ht as -> _. lia. }
    transitivity (@nil B).
    + apply flat_map_nil. intros x Hx. apply events_in in Hx as (i' & Hx). eapply Hnil, Hx.
    + symmetry. apply flat_map_nil. intros x Hx. apply in_map_iff in Hx as ([i' e'] & <- & Hx). eapply Hnil, Hx.
Qed.

Lemma only_past tr n t j e : wf cl tr n -> only one_of tr j -> nth_error tr t = Some (j, e) ->
  flat_map p (events tr (Family.past cl tr t)) = flat_map p (map snd (firstn t tr)).
Proof.
  intros HW Ho Ht. destruct (past_events cl tr n t j e HW Ht) as [_ <-].
  destruct (wf_handle cl tr n t j e HW Ht) as (m & Hm & Hj). apply (only_life _ m); [exact Hm|exact Hj|].
  intros i' e' Hin. apply Ho. rewrite <- (firstn_skipn t tr). apply in_app_iff. left. exact Hin.
Qed.
End Only.

Section WithEnv.
Context (C : Crypto) (Z : Zip) (T : target) (HL : CryptoLaws C) (HZ : ZipLaws Z).
Local Notation sevent := (scall * sreply)%type.

Lemma past_short {E} (cl : E -> bool) p tr n t i e :
  wf cl tr n -> nth_error tr t = Some (i, e) -> len tr < 2 ^ 64 -> N.of_nat (number cl p tr t) < 2 ^ 64.
Proof.
  intros HW Ht Hb. pose proof (number_le cl p tr n t HW).
  assert (t < length tr)%nat by (apply nth_error_Some; congruence). unfold len in Hb. lia.
Qed.

Lemma opens_written k n data n2 data2 :
  n2 < 2 ^ 64 -> opens C T k (user_datagram C k n2 data2) n data -> n = n2 /\ data = data2.
Proof.
  intros Hn2 (Hn & _ & text & (L & HLf & Ht) & Hs). unfold user_datagram in Hs. apply (seal_inj C HL) in Hs. rewrite Ht in Hs.
  apply (hashed_inj C HL) in Hs. unfold user_frame, frame, frame_len in Hs.
  do 2 (apply app_inv_head in Hs). apply app_inv_len in Hs as [_ Hs]; [|reflexivity].
  apply app_inv_head in Hs. apply app_inv_len in Hs as [E1 E2]; [|reflexivity].
  split; [eapply u64_be_inj; [exact Hn|exact Hn2|symmetry; exact E1]|symmetry; exact E2].
Qed.

Theorem family_authentic f tr i s k (W : connection -> Prop) :
  family C T f tr -> len tr < 2 ^ 64 -> nth_error f i = Some s -> session_key s = Some k ->
  (forall c, W c -> family C T (fst c) (snd c) /\ len (snd c) < 2 ^ 64) ->
  unforged_datagrams C k W tr ->
  exists l : list (N * bytes),
    user_deliveries (events tr (Family.life clones tr i)) = map (fun x => nonempty (snd x)) l /\
    NoDup (map fst l) /\
    forall n data, In (n, data) l ->
      exists c t, W c /\ holds c k /\ wrote_as c t data (user_datagram C k n data) /\
        n = N.of_nat (count written (events (snd c) (Family.past clones (snd c) t))).
Proof.
  intros HF Hb Hs Hk HW HU. pose proof (finv_family C T HL f tr HF Hb) as [_ _ (s0 & r0 & cfg & pin & _ & F4) _].
  destruct (F4 i s Hs) as (l & pend & HLi). destruct (li_acc _ _ _ _ _ _ _ _ HLi) as (H1 & _ & H3 & H4).
  exists (map (fun x => (snd (fst x), snd x)) l). split; [rewrite H1, map_map; reflexivity|].
  split; [rewrite map_map; exact H3|].
  intros n data Hin. apply in_map_iff in Hin as ([[j n'] data'] & Eq & Hin). cbn in Eq. injection Eq as -> ->.
  destruct (H4 _ _ _ Hin) as (k' & d & Hk' & Hd & Ho). assert (k' = k) as -> by congruence.
  pose proof Ho as (_ & _ & text & _ & Hd').
  apply nth_error_In in Hd. cbn [app] in Hd. apply in_flat_map in Hd as ([c r] & He & Hd). cbn [fst] in Hd.
  destruct c; cbn [In] in Hd; try contradiction. destruct Hd as [-> |[]]. rewrite Hd' in He. apply events_in in He as (i' & He).
  destruct (HU i' _ r He) as (c & t & data2 & Hc & Hh & Hw). exists c, t. split; [exact Hc|]. split; [exact Hh|].
  destruct (HW c Hc) as [HFc Hbc]. destruct (family_numbers C T HL _ _ HFc Hbc) as (k0 & K1 & K2).
  destruct Hh as (x & Hx & Hkx). assert (k = k0) as <- by (eapply K1; eassumption).
  destruct Hw as (j' & w & w' & Ht & Hw & Hout). destruct (K2 _ _ _ _ _ Ht Hw) as [_ Hout'].
  rewrite Hout in Hout'. apply app_inv_head in Hout'. rewrite Hd', Hout' in Ho. rewrite Hout' in Hout.
  pose proof (fi_wf _ _ _ _ (finv_family C T HL _ _ HFc Hbc)) as HWc.
  apply opens_written in Ho as [-> ->]; [|exact (past_short clones written _ _ _ _ _ HWc Ht Hbc)].
  split; [exists j', w, w'; auto|reflexivity].
Qed.

Lemma sfamily_written f tr t i data w w' k :
  sfamily C Z T f tr -> len tr < 2 ^ 64 -> nth_error tr t = Some (i, (SWrite data w, SWritten (Ok tt) w')) ->
  takes_all w \/ 16 < bw_cap w -> (exists x, In x f /\ session_key (minimal x) = Some k) ->
  exists z, deflated Z (Some data) z /\ output w' = output w ++ user_datagram C k (N.of_nat (number sclones swritten tr t)) z.
Proof.
  intros HF Hb Ht Hw (x & Hx & Hkx). pose proof (sfinv_family C Z T HL f tr HF Hb) as [FW FR (ko & K1 & _) _].
  destruct (sfamily_at C Z T HL f tr t i _ _ HF Hb Ht) as (f1 & s & s' & HF1 & Hs & E & Hk).
  pose proof (sfinv_family C Z T HL f1 _ HF1 (slen_firstn t tr Hb)) as [_ FR1 _ F5].
  pose proof (FR1 s (nth_error_In _ _ Hs)) as HR. pose proof E as E0. rewrite write_bin_step in E. cbn [call_step] in E.
  destruct (write_message C T (compress Z data s) (minimal s) w) as [[m w1] o] eqn:Ew. cbn [fst snd] in E. injection E as <- -> ->.
  destruct (write_ok C T HL _ _ _ _ _ Hw Ew) as (k' & Hsk & _ & Ho).
  pose proof (sstep_secret_mono C Z T HL _ _ _ _ _ HR E0 Hsk) as Hk'.
  pose proof (Hk k' Hk' x Hx) as Hkk. assert (k' = k) as -> by congruence.
  exists (compress Z data s). split; [exact (compressed_deflated Z HZ (Some data) s)|].
  rewrite Ho, (F5 i s Hs). destruct (past_events sclones tr _ t i _ FW Ht) as [_ ->]. reflexivity.
Qed.

Lemma inside_messages sh hs : Forall2 (inside C Z) sh hs ->
  forall L : list (N * bytes), user_deliveries (concat hs) = map (fun x => nonempty (snd x)) L ->
  NoDup (map fst L) ->
  exists L', incl L' L /\ NoDup (map fst L') /\
    Forall2 (fun x o => inflates Z (nonempty (snd x)) o) L' (smessages sh).
Proof.
  induction 1 as [|ev h sh hs Hp Hf IH]; intros L HL0 Hnd.
  - exists []. split; [intros x []|]. split; constructor.
  - cbn [concat] in HL0. unfold user_deliveries in HL0. rewrite flat_map_app in HL0.
    symmetry in HL0. apply map_eq_app in HL0 as (L1 & L2 & -> & E1 & E2). rewrite map_app in Hnd.
    destruct (IH L2 (eq_sym E2) (NoDup_app_r _ _ Hnd)) as (L2' & Hi2 & Hn2 & Hf2).
    assert (smessages (ev :: sh) = smessages [ev] ++ smessages sh) as ->.
    { unfold smessages. cbn [flat_map]. rewrite app_nil_r. reflexivity. }
    assert (exists L1', incl L1' L1 /\ NoDup (map fst L1') /\
      Forall2 (fun x o => inflates Z (nonempty (snd x)) o) L1' (smessages [ev])) as (L1' & Hi1 & Hn1 & Hf1).
    { destruct Hp as [[seed Hp]|[-> (er & w & Hev)]].
      - eapply (kept_messages C Z seed [ev] [h]); [auto| |apply (NoDup_app_l _ _ Hnd)].
        cbn [concat]. rewrite app_nil_r. symmetry. exact E1.
      - exists []. split; [intros x []|]. split; [constructor|]. unfold smessages. cbn [flat_map]. rewrite Hev. constructor. }
    exists (L1' ++ L2'). split; [apply incl_app; [apply incl_appl, Hi1|apply incl_appr, Hi2]|]. split; [|apply Forall2_app; assumption].
    rewrite map_app. clear - Hnd Hi1 Hi2 Hn1 Hn2. induction L1' as [|x L1' IH]; cbn [map app] in *; [exact Hn2|].
    inversion Hn1 as [|a b Hx Hn1' Eq]; subst. constructor; [|apply IH; [intros y Hy; apply Hi1; right; exact Hy|exact Hn1']].
    intros H. apply in_app_iff in H as [H|H]; [contradiction|].
    apply in_map_iff in H as (y & Ey & Hy). apply Hi2 in Hy. specialize (Hi1 x (or_introl eq_refl)).
    apply in_split in Hi1 as (A & B & ->). rewrite map_app in Hnd. cbn [map] in Hnd. rewrite <- app_assoc in Hnd. cbn [app] in Hnd.
    apply NoDup_remove_2 in Hnd. apply Hnd. apply in_app_iff. right. apply in_app_iff. right. rewrite <- Ey. apply in_map, Hy.
Qed.

Theorem sfamily_authentic f tr i s k (W : sconnection -> Prop) :
  sfamily C Z T f tr -> 2 * len tr < 2 ^ 64 -> nth_error f i = Some s -> session_key (minimal s) = Some k ->
  (forall c, W c -> sfamily C Z T (fst c) (snd c) /\ len (snd c) < 2 ^ 64) ->
  sunforged_datagrams C k W tr ->
  exists l : list (N * bytes),
    smessages (events tr (Family.life sclones tr i)) = map (fun x => Some (snd x)) l /\
    NoDup (map fst l) /\
    forall n data, In (n, data) l ->
      exists c t z, W c /\ sholds c k /\ swrote_as c t data (user_datagram C k n z) /\
        n = N.of_nat (length (filter swritten (events (snd c) (Family.past sclones (snd c) t)))).
Proof.
  intros HF Hb Hs Hk HW HU. destruct (inner_family C Z T HL HZ f tr HF Hb) as (m0 & r0 & cfg & pin & _ & HI).
  destruct (HI i s Hs) as [(hs & l & pend & Hf & HLi & _)]. clear HI.
  destruct (li_acc _ _ _ _ _ _ _ _ HLi) as (A1 & _ & A3 & A4).
  destruct (inside_messages _ _ Hf (map (fun e => (snd (fst e), snd e)) l)) as (L' & Hi' & Hn' & Hf').
  { rewrite A1, map_map. reflexivity. }
  { rewrite map_map. exact A3. }
  assert (forall n z, In (n, z) L' -> exists c t data, W c /\ sholds c k /\ swrote_as c t data (user_datagram C k n z) /\
            n = N.of_nat (length (filter swritten (events (snd c) (Family.past sclones (snd c) t)))) /\
            deflated Z (Some data) z) as Hall.
  { intros n z Hin. apply Hi' in Hin. apply in_map_iff in Hin as ([[j n'] z'] & Eq & Hin). cbn in Eq. injection Eq as -> ->.
    destruct (A4 _ _ _ Hin) as (k' & d & Hk' & Hd & Ho). assert (k' = k) as -> by congruence.
    pose proof Ho as (_ & _ & text & _ & Hd').
    apply nth_error_In in Hd. cbn [app] in Hd. apply in_flat_map in Hd as (e & He & Hd). apply in_concat in He as (h & Hh & He).
    destruct (forall2_in_r _ _ _ _ Hf Hh) as ([c r'] & Hev & Hpr).
    assert (In d (submitted h)) as Hsub by (apply in_flat_map; eauto).
    rewrite (inside_submitted _ _ _ _ _ _ Hpr Hsub) in Hev. rewrite Hd' in Hev. apply events_in in Hev as (i' & Hev).
    destruct (HU i' _ r' Hev) as (c' & t & data & Hc & Hh' & Hw). destruct (HW c' Hc) as [HFc Hbc].
    exists c', t, data. split; [exact Hc|]. split; [exact Hh'|].
    pose proof Hw as (j' & w & w' & Ht & Hgw & Hout).
    destruct (sfamily_written _ _ _ _ _ _ _ k HFc Hbc Ht Hgw Hh') as (z2 & Hz2 & Hout').
    rewrite Hout in Hout'. apply app_inv_head in Hout'. rewrite Hout' in Hw. rewrite Hd', Hout' in Ho.
    pose proof (sf_wf _ _ _ _ _ (sfinv_family C Z T HL _ _ HFc Hbc)) as HWc.
    apply opens_written in Ho as [-> ->]; [|exact (past_short sclones swritten _ _ _ _ _ HWc Ht Hbc)].
    split; [exact Hw|]. split; [reflexivity|exact Hz2]. }
  clear - HL HZ Hf' Hn' Hall. remember (smessages (events tr (Family.life sclones tr i))) as ms. clear Heqms.
  assert (exists l, ms = map (fun x => Some (snd x)) l /\ map fst l = map fst L' /\
    forall n data, In (n, data) l -> exists c t z, W c /\ sholds c k /\ swrote_as c t data (user_datagram C k n z) /\
      n = N.of_nat (length (filter swritten (events (snd c) (Family.past sclones (snd c) t))))) as (l & E1 & E2 & E3).
  { clear Hn'. induction Hf' as [|[n z] o L' ms H1 H2 IH]; [exists []; split; [reflexivity|]; split; [reflexivity|intros n data []]|].
    destruct IH as (l & E1 & E2 & E3); [intros; apply Hall; right; assumption|].
    destruct (Hall n z (or_introl eq_refl)) as (c & t & data & Hc & Hh & Hw & Hn & Hdef).
    pose proof (round_trip Z _ _ _ Hdef H1) as Eo.
    exists ((n, data) :: l). split; [cbn; rewrite Eo, E1; reflexivity|]. split; [cbn; rewrite E2; reflexivity|].
    intros n' data' [E|Hin]; [injection E as <- <-; exists c, t, z; auto|apply E3; exact Hin]. }
  exists l. split; [exact E1|]. split; [rewrite E2; exact Hn'|exact E3].
Qed.

(** ** One handle writes there, one handle reads here *)
Lemma count_writes (h : history) : (forall e, In e h -> written e = true -> length (writes [e]) = 1%nat) ->
  (forall e, In e h -> written e = false -> writes [e] = []) -> count written h = length (writes h).
Proof.
  induction h as [|e h IH]; intros H1 H2; [reflexivity|]. unfold count in *. cbn [filter].
  assert (writes (e :: h) = writes [e] ++ writes h) as ->.
  { unfold writes. cbn [flat_map]. rewrite app_nil_r. reflexivity. }
  rewrite app_length, <- IH by (intros; (apply H1 || apply H2); [right|]; assumption).
  destruct (written e) eqn:Ew; [rewrite (H1 e (or_introl eq_refl) Ew)|rewrite (H2 e (or_introl eq_refl) Ew)]; reflexivity.
Qed.

Lemma family_replies f tr i (e : event) : family C T f tr -> In (i, e) tr ->
  (written e = true -> length (writes [e]) = 1%nat) /\ (written e = false -> writes [e] = []).
Proof.
  induction 1 as [|f tr i' s c s' r e' HF IH Hs E Ee]; intros Hin; [destruct Hin|].
  apply in_app_iff in Hin as [Hin|[Hin|[]]]; [auto|]. injection Hin as _ <-. subst e'.
  destruct c; cbn [call_step] in E;
    match type of E with context [let '(_, _) := ?x in _] => destruct x as [? ?] end;
    try (injection E as _ <-; unfold written, writes; cbn; split; [discriminate|reflexivity]).
  destruct p as [? ?]. injection E as _ <-. destruct o; split; cbn; (reflexivity || discriminate).
Qed.

Lemma written_nth {E} (p : E -> list bytes) (tr : trace E) t i e data :
  nth_error tr t = Some (i, e) -> p e = [data] ->
  nth_error (flat_map p (map snd tr)) (length (flat_map p (map snd (firstn t tr)))) = Some data.
Proof.
  intros Ht He. destruct (nth_error_split _ _ Ht) as (a & b & -> & <-).
  rewrite firstn_app, Nat.sub_diag, firstn_all. cbn [firstn]. rewrite app_nil_r, map_app, flat_map_app.
  cbn [map snd flat_map]. rewrite He. rewrite nth_error_app2 by lia. rewrite Nat.sub_diag. reflexivity.
Qed.

Lemma forall_choice {A B} (R : A -> B -> Prop) l : (forall x, In x l -> exists y, R x y) -> exists m, Forall2 R l m.
Proof.
  induction l as [|x l IH]; intros H; [exists []; constructor|].
  destruct (H x (or_introl eq_refl)) as (y & Hy). destruct IH as (m & Hm); [intros; apply H; right; assumption|].
  exists (y :: m). constructor; assumption.
Qed.

(** Where the messages written at some positions stand among all. *)
Lemma positions {E} (p : E -> list bytes) (tr : trace E) (l : list (N * bytes)) :
  NoDup (map fst l) -> forall F : nat -> N,
  (forall n data, In (n, data) l -> exists t i e, nth_error tr t = Some (i, e) /\ p e = [data] /\ n = F t) ->
  exists ps, NoDup ps /\ Forall2 (fun q x => nth_error (flat_map p (map snd tr)) q = Some (snd x)) ps l.
Proof.
  intros Hnd F H. pose (at_ := fun t => length (flat_map p (map snd (firstn t tr)))).
  destruct (forall_choice (fun x t => exists i e, nth_error tr t = Some (i, e) /\ p e = [snd x] /\ fst x = F t) l) as (ts & Hts).
  { intros [n data] Hin. apply (H n data Hin). }
  clear H. exists (map at_ ts). split.
  - assert (forall t, In t ts -> exists i e d, nth_error tr t = Some (i, e) /\ p e = [d]) as Hw.
    { intros t Ht. destruct (forall2_in_r _ _ _ _ Hts Ht) as (x & _ & i & e & H1 & H2 & _). eauto. }
    assert (NoDup ts) as Hn.
    { clear Hw. revert Hnd. induction Hts as [|x t l ts (i & e & H1 & H2 & H3) Hts IH]; intros Hnd; [constructor|].
      cbn [map] in Hnd. inversion Hnd as [|a b Ha Hb]; subst. constructor; [|apply IH, Hb].
      intros Ht. destruct (forall2_in_r _ _ _ _ Hts Ht) as (y & Hy & _ & _ & _ & _ & Hf).
      apply Ha. rewrite H3, <- Hf. apply in_map, Hy. }
    assert (forall t1 t2, (t1 < t2)%nat -> (exists i e d, nth_error tr t1 = Some (i, e) /\ p e = [d]) -> (at_ t1 < at_ t2)%nat) as Hlt.
    { intros t1 t2 Hl (i & e & d & H1 & H2). unfold at_.
      rewrite <- (firstn_skipn t1 (firstn t2 tr)), firstn_firstn, Nat.min_l, map_app, flat_map_app, app_length by lia.
      enough (0 < length (flat_map p (map snd (skipn t1 (firstn t2 tr)))))%nat by lia.
      assert (In (i, e) (skipn t1 (firstn t2 tr))) as Hin.
      { rewrite <- (nth_error_firstn tr t2 t1 Hl) in H1. destruct (nth_error_split _ _ H1) as (a & b & -> & <-).
        rewrite skipn_app, skipn_all, Nat.sub_diag. left. reflexivity. }
      assert (In d (flat_map p (map snd (skipn t1 (firstn t2 tr))))) as Hd.
      { apply in_flat_map. exists e. split; [apply in_map_iff; exists (i, e); auto|rewrite H2; left; reflexivity]. }
      destruct (flat_map p (map snd (skipn t1 (firstn t2 tr)))); [destruct Hd|cbn; lia]. }
    clear Hts. induction ts as [|t ts IH]; [constructor|]. cbn [map]. inversion Hn as [|a b Ha Hb]; subst.
    constructor; [|apply IH; [intros; apply Hw; right; assumption|exact Hb]].
    intros Hin. apply in_map_iff in Hin as (t' & He & Ht').
    destruct (lt_eq_lt_dec t t') as [[Hc|Hc]|Hc].
    + apply Hlt in Hc; [lia|apply Hw; left; reflexivity].
    + subst t'. contradiction.
    + apply Hlt in Hc; [lia|apply Hw; right; exact Ht'].
  - clear Hnd. induction Hts as [|x t l ts (i & e & H1 & H2 & _) Hts IH]; cbn [map]; constructor; [|exact IH].
    exact (written_nth p tr t i e _ H1 H2).
Qed.

Theorem family_one_reading f tr i s k g u :
  family C T f tr -> len tr < 2 ^ 64 -> nth_error f i = Some s -> session_key s = Some k ->
  family C T g u -> len u < 2 ^ 64 -> unforged_datagrams C k (eq (g, u)) tr ->
  only delivers_user tr i ->
  exists ps, NoDup ps /\
    Forall2 (fun p o => exists data, nth_error (writes (map snd u)) p = Some data /\ o = nonempty data)
      ps (user_deliveries (map snd tr)).
Proof.
  intros HF Hb Hs Hk HG Hbu HU Hd.
  destruct (family_authentic f tr i s k (eq (g, u)) HF Hb Hs Hk) as (l & H1 & H2 & H3); [intros c <-; auto|exact HU|].
  pose proof (fi_wf _ _ _ _ (finv_family C T HL _ _ HF Hb)) as HW.
  assert (user_deliveries (map snd tr) = map (fun x => nonempty (snd x)) l) as ->.
  { rewrite <- H1. symmetry. apply (only_life clones _ tr _ i HW); [apply nth_error_Some; congruence|exact Hd]. }
  destruct (positions (fun e => match e with (CWrite data _, RWritten (Ok _) _) => [data] | _ => [] end) u l H2
    (fun t => N.of_nat (count written (events u (Family.past clones u t))))) as (ps & Hp & Hf).
  { intros n data Hin. destruct (H3 n data Hin) as (c & t & <- & _ & (j' & w & w' & Ht & _ & _) & Hn). cbn [fst snd] in *.
    exists t. eexists _, _. split; [exact Ht|]. split; [reflexivity|exact Hn]. }
  exists ps. split; [exact Hp|]. clear - Hf. induction Hf as [|q x ps l Hq Hf IH]; cbn [map]; constructor; [|exact IH].
  exists (snd x). split; [exact Hq|reflexivity].
Qed.

Theorem sfamily_one_reading f tr i s k g u :
  sfamily C Z T f tr -> 2 * len tr < 2 ^ 64 -> nth_error f i = Some s -> session_key (minimal s) = Some k ->
  sfamily C Z T g u -> len u < 2 ^ 64 -> sunforged_datagrams C k (eq (g, u)) tr ->
  only sdelivers_user tr i ->
  exists ps, NoDup ps /\
    Forall2 (fun p o => exists data, nth_error (swrites (map snd u)) p = Some data /\ o = Some data)
      ps (smessages (map snd tr)).
Proof.
  intros HF Hb Hs Hk HG Hbu HU Hd.
  destruct (sfamily_authentic f tr i s k (eq (g, u)) HF Hb Hs Hk) as (l & H1 & H2 & H3); [intros c <-; auto|exact HU|].
  pose proof (sf_wf _ _ _ _ _ (sfinv_family C Z T HL _ _ HF ltac:(lia))) as HW.
  assert (smessages (map snd tr) = map (fun x => Some (snd x)) l) as ->.
  { rewrite <- H1. symmetry. apply (only_life sclones _ tr _ i HW); [apply nth_error_Some; congruence|exact Hd]. }
  destruct (positions (fun e => match e with (SWrite data _, SWritten (Ok _) _) => [data] | _ => [] end) u l H2
    (fun t => N.of_nat (length (filter swritten (events u (Family.past sclones u t)))))) as (ps & Hp & Hf).
  { intros n data Hin. destruct (H3 n data Hin) as (c & t & z & <- & _ & (j' & w & w' & Ht & _ & _) & Hn). cbn [fst snd] in *.
    exists t. eexists _, _. split; [exact Ht|]. split; [reflexivity|exact Hn]. }
  exists ps. split; [exact Hp|]. clear - Hf. induction Hf as [|q x ps l Hq Hf IH]; cbn [map]; constructor; [|exact IH].
  exists (snd x). split; [exact Hq|reflexivity].
Qed.

Theorem family_end_to_end f tr i s k g u j :
  family C T f tr -> len tr < 2 ^ 64 -> nth_error f i = Some s -> session_key s = Some k ->
  family C T g u -> len u < 2 ^ 64 -> unforged_datagrams C k (eq (g, u)) tr ->
  only delivers_user tr i -> only writes_user u j ->
  exists l : list (N * bytes),
    user_deliveries (map snd tr) = map (fun x => nonempty (snd x)) l /\
    NoDup (map fst l) /\
    forall n data, In (n, data) l -> nth_error (writes (map snd u)) (N.to_nat n) = Some data.
Proof.
  intros HF Hb Hs Hk HG Hbu HU Hd Hw.
  destruct (family_authentic f tr i s k (eq (g, u)) HF Hb Hs Hk) as (l & H1 & H2 & H3); [intros c <-; auto|exact HU|].
  pose proof (fi_wf _ _ _ _ (finv_family C T HL _ _ HF Hb)) as HW. pose proof (fi_wf _ _ _ _ (finv_family C T HL _ _ HG Hbu)) as HWu.
  exists l. split; [|split; [exact H2|]].
  - rewrite <- H1. symmetry. apply (only_life clones _ tr _ i HW); [apply nth_error_Some; congruence|exact Hd].
  - intros n data Hin. destruct (H3 n data Hin) as (c & t & <- & _ & (j' & w & w' & Ht & _ & _) & ->). cbn [fst snd] in *.
    assert (j' = j) as -> by (eapply Hw; [eapply nth_error_In, Ht|discriminate]).
    rewrite Nnat.Nat2N.id, count_writes.
    + assert (writes (events u (Family.past clones u t)) = writes (map snd (firstn t u))) as -> by exact (only_past clones _ u _ t j _ HWu Hw Ht).
      exact (written_nth _ u t _ _ data Ht eq_refl).
    + intros e He. apply events_in in He as (i' & He). apply (family_replies _ _ _ _ HG He).
    + intros e He. apply events_in in He as (i' & He). apply (family_replies _ _ _ _ HG He).
Qed.

Theorem sfamily_end_to_end f tr i s k g u j :
  sfamily C Z T f tr -> 2 * len tr < 2 ^ 64 -> nth_error f i = Some s -> session_key (minimal s) = Some k ->
  sfamily C Z T g u -> len u < 2 ^ 64 -> sunforged_datagrams C k (eq (g, u)) tr ->
  only sdelivers_user tr i -> only swrites_user u j ->
  exists l : list (N * bytes),
    smessages (map snd tr) = map (fun x => Some (snd x)) l /\
    NoDup (map fst l) /\
    forall n data, In (n, data) l -> nth_error (swrites (map snd u)) (N.to_nat n) = Some data.
Proof.
  intros HF Hb Hs Hk HG Hbu HU Hd Hw.
  destruct (sfamily_authentic f tr i s k (eq (g, u)) HF Hb Hs Hk) as (l & H1 & H2 & H3); [intros c <-; auto|exact HU|].
  pose proof (sf_wf _ _ _ _ _ (sfinv_family C Z T HL _ _ HF ltac:(lia))) as HW.
  pose proof (sf_wf _ _ _ _ _ (sfinv_family C Z T HL _ _ HG Hbu)) as HWu.
  exists l. split; [|split; [exact H2|]].
  - rewrite <- H1. symmetry. apply (only_life sclones _ tr _ i HW); [apply nth_error_Some; congruence|exact Hd].
  - intros n data Hin. destruct (H3 n data Hin) as (c & t & z & <- & _ & (j' & w & w' & Ht & _ & _) & ->). cbn [fst snd] in *.
    assert (j' = j) as -> by (eapply Hw; [eapply nth_error_In, Ht|discriminate]).
    assert (forall h : list sevent, length (filter swritten h) = length (swrites h)) as Hc.
    { induction h as [|[c r] h IH]; [reflexivity|]. unfold swrites in *. cbn [filter flat_map]. rewrite app_length, <- IH.
      unfold swritten. destruct c; try reflexivity. destruct r as [|[| |]| |]; reflexivity. }
    rewrite Nnat.Nat2N.id, Hc.
    assert (swrites (events u (Family.past sclones u t)) = swrites (map snd (firstn t u))) as -> by exact (only_past sclones _ u _ t j _ HWu Hw Ht).
    exact (written_nth _ u t _ _ data Ht eq_refl).
Qed.

End WithEnv.

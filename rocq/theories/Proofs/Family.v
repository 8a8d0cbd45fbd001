(** One connection, any number of handles. *)

From Coq Require Import Arith ZifyBool ZifyNat ZifyN Permutation.
From Verif.Model Require Import Minimal.
From Verif.Spec Require Import Wire Datagram Trace ReadSpec Accept Session Writers Family.
From Verif.Proofs Require Import BaseFacts IoFacts CipherFacts ReaderFacts ReadCases WindowFacts Invariant
  Negotiation Failure DatagramFacts ReadSpecFacts Accept Keys TraceInv UserReads Ledger Nonces Sending Corollaries Lives.

Section WithEnv.
Context (C : Crypto) (T : target) (HL : CryptoLaws C).
Local Notation life := (Family.life clones).
Local Notation past := (Family.past clones).
Local Notation number := (Lives.number clones written).
Local Notation LivesOk := (Lives.LivesOk clones).

Lemma linv_fields s0 ds0 s c h l pend :
  LInv C T s0 ds0 s h l pend -> reachable C T c -> session_key c = session_key s ->
  next_nonce_expected c = next_nonce_expected s -> orphan_nonce_list c = orphan_nonce_list s ->
  tmp_stack_user_msgs c = tmp_stack_user_msgs s ->
  LInv C T s0 ds0 c h l pend.
Proof.
  intros [] HR Hk Hn Ho Hq. constructor; unfold accounts, queue_ok, received, used in *;
    rewrite ?Hk, ?Hn, ?Ho, ?Hq; assumption.
Qed.

(** Without an ephemeral key the session key is settled. *)
Lemma step_settled_key s c s' r :
  Inv C T s -> call_step C T s c = (s', r) -> ephemeral s = None ->
  ephemeral s' = None /\ session_key s' = session_key s.
Proof.
  intros HI E Hn.
  assert (forall d s s1 o, Inv C T s -> ephemeral s = None -> read C T d s = (s1, o) ->
            ephemeral s1 = None /\ session_key s1 = session_key s) as Hread.
  { clear - HL. intros d s s1 o HI Hn Er. destruct (read_keys C T HL _ _ _ _ HI Er) as (_ & _ & _ & R4 & _).
    destruct R4 as [(_ & R & R' & _)|(epk & pk & _ & (l & kp & _ & Hk & _) & _)]; [|congruence].
    split; [congruence|]. apply session_key_secret. exact R. }
  destruct c;
    try (assert (keys s' = keys s) as HK
           by (eapply step_keys; [exact HI|exact E|discriminate|discriminate]);
         unfold keys in HK; injection HK as HK1 _ _ _ HK _; split; [congruence|apply session_key_secret; exact HK]).
  - cbn [call_step] in E. destruct (read C T incoming s) as [s1 o] eqn:Er. injection E as <- <-. eauto.
  - cbn [call_step] in E. rewrite take_ack_read in E.
    destruct (ack_msg_recv_too_early s) as [b|]; [|injection E as <- <-; auto].
    destruct (read C T b (set_ack_early None s)) as [s1 o] eqn:Er. injection E as <- <-.
    destruct (Hread b _ _ _ (inv_set_ack_early C T None s HI) Hn Er) as [H1 H2]. split; [exact H1|exact H2].
Qed.

(** The invariant of a family. *)
Record FInv (f : list msl) (tr : trace event) : Prop := {
  fi_wf : wf clones tr (length f);
  fi_key : exists ko, (forall s, In s f -> session_key s = ko) /\ 
            ((exists s, f = [s]) \/ forall s, In s f -> ephemeral s = None);
  fi_ledger : exists s0 r cfg pin, create C r cfg pin = Ok s0 /\
     forall i s, nth_error f i = Some s ->
       exists l pend, LInv C T s0 [] s (events tr (life tr i)) l pend;
  fi_sent : forall i s, nth_error f i = Some s ->
       next_nonce_sent s = N.of_nat (count written (events tr (life tr i)))
}.

Lemma clone_fields s s' c : try_clone s = (s', Ok c) ->
  session_key c = session_key s /\ session_key s' = session_key s /\
  next_nonce_expected c = next_nonce_expected s' /\ orphan_nonce_list c = orphan_nonce_list s' /\
  tmp_stack_user_msgs c = tmp_stack_user_msgs s' /\ next_nonce_sent c = next_nonce_sent s'.
Proof.
  unfold try_clone. destruct (msl_status s); intros H; try discriminate. injection H as <- <-.
  repeat (split; [reflexivity|]). reflexivity.
Qed.

Lemma born_clone s c s' r x : call_step C T s c = (s', r) -> In x (born (c, r)) ->
  c = CClone /\ r = RClone (Ok x) /\ try_clone s = (s', Ok x).
Proof.
  intros E Hin. unfold born in Hin. cbn [snd] in Hin. destruct r as [| | | |[y| |]|]; cbn [In] in Hin; try contradiction.
  destruct Hin as [-> |[]].
  destruct c; cbn [call_step] in E;
    repeat match type of E with context [let '(_, _) := ?x in _] => destruct x as [? ?] eqn:? end;
    try discriminate; injection E as -> ->; auto.
Qed.

Lemma born_more e : length (born e) = more clones e.
Proof. unfold born, more, clones. destruct (snd e) as [| | | |[]|]; reflexivity. Qed.

Lemma count_le p (h : history) : (count p h <= length h)%nat.
Proof. unfold count. induction h as [|e h IH]; cbn [filter length]; [lia|]. destruct (p e); cbn [length]; lia. Qed.

Lemma life_len (tr : trace event) n i : LivesOk tr n -> (i < n)%nat -> len (events tr (life tr i)) <= len tr.
Proof.
  intros [_ L0 _ _ _] Hi. pose proof (events_le clones tr (life tr i)). specialize (L0 i Hi). unfold len.
  unfold history, event, trace in *. lia.
Qed.

(** Where the members of a family come from, at the next call. *)
Lemma member_snoc f i s c s' r j x :
  nth_error f i = Some s -> call_step C T s c = (s', r) ->
  nth_error (replace i s' f ++ born (c, r)) j = Some x ->
  (j <> i /\ (j < length f)%nat /\ nth_error f j = Some x) \/
  (j = i /\ x = s') \/
  (j = length f /\ r = RClone (Ok x) /\ c = CClone /\ try_clone s = (s', Ok x)).
Proof.
  intros Hs E Hx. assert (i < length f)%nat as Hi by (apply nth_error_Some; congruence).
  destruct (lt_dec j (length f)) as [Hlt|Hge].
  - rewrite nth_error_app1 in Hx by (rewrite replace_length; lia).
    destruct (Nat.eq_dec j i) as [-> |Hne].
    + right. left. rewrite nth_error_replace_same in Hx by exact Hi. split; congruence.
    + left. rewrite nth_error_replace_other in Hx by assumption. auto.
  - rewrite nth_error_app2, replace_length in Hx by (rewrite ?replace_length; lia).
    pose proof (nth_error_In _ _ Hx) as Hin. destruct (born_clone _ _ _ _ _ E Hin) as (-> & -> & Hc).
    right. right. assert (j - length f < length (born (CClone, RClone (Ok x))))%nat as Hj1 by (apply nth_error_Some; congruence).
    cbn in Hj1.
    split; [lia|auto].
Qed.

Lemma finv_family f tr : family C T f tr -> len tr < 2 ^ 64 -> FInv f tr.
Proof.
  induction 1 as [r cfg pin s Hc|f tr i s c s' r e HF IH Hs E Ee]; intros Hb.
  - constructor.
    + constructor.
    + exists (session_key s). split; [intros x [<-|[]]; reflexivity|left; eauto].
    + exists s, r, cfg, pin. split; [exact Hc|]. intros [|[|i]] x Hx; try discriminate. injection Hx as <-.
      destruct (linv_created C T HL r cfg pin s [] s [] Hc eq_refl) as (l & pend & H & _); [cbn; lia|]. eauto.
    + intros [|[|i]] x Hx; try discriminate. injection Hx as <-. apply (created_fresh C _ _ _ _ Hc).
  - rewrite len_app in Hb. change (len [(i, e)]) with 1 in Hb.
    destruct (IH ltac:(lia)) as [FW (ko & F3 & F3') (s0 & r0 & cfg & pin & Hc & F4) F5].
    pose proof (lives_ok clones _ _ FW) as F1.
    assert (i < length f)%nat as Hi by (apply nth_error_Some; congruence).
    pose proof (life_snoc_cases clones tr i e (length f) (lv_len _ _ _ F1) Hi) as [_ HB]. rewrite <- born_more in HB.
    destruct (F4 i s Hs) as (l & pend & HLi). pose proof (li_reach _ _ _ _ _ _ _ _ HLi) as HR.
    pose proof (inv_reachable C T s HR) as HI.
    assert (forall k, session_key s = Some k -> session_key s' = Some k) as Hk
      by (intros k; eapply step_secret_mono; eassumption).
    pose proof (life_events_new clones tr i e (length f) F1 Hi) as Hev.
    pose proof (life_len tr (length f) i F1 Hi) as Hlen.
    assert (forall j x, nth_error f j = Some x -> events (tr ++ [(i, e)]) (life tr j) = events tr (life tr j)) as Hold.
    { intros j x Hx. apply events_snoc_old. apply (lv_lt _ _ _ F1). apply nth_error_Some. congruence. }
    assert (length (replace i s' f ++ born e) = length f + length (born e))%nat as HlF
      by (rewrite app_length, replace_length by exact Hi; reflexivity).
    destruct (created_fresh C _ _ _ _ Hc) as (G1 & G2 & G3 & _).
    assert (exists l' pend', LInv C T s0 [] s' (events tr (life tr i) ++ [e]) l' pend') as (l' & pend' & HL').
    { subst e. eapply linv_step; [exact HL|exact HLi|exact E|]. unfold used. rewrite G1, G2.
      pose proof (submitted_len (events tr (life tr i))) as Hsub. unfold len in *. cbn [length]. unfold history, event, trace in *. lia. }
    assert (next_nonce_sent s' = N.of_nat (count written (events tr (life tr i) ++ [e]))) as Hsent.
    { subst e. rewrite count_snoc. specialize (F5 i s Hs). pose proof (count_le written (events tr (life tr i))) as Hcl.
      apply step_sent in E; [|exact HI|unfold len, history, event, trace in *; destruct (written (c, r)); [left; lia|right; reflexivity]].
      rewrite E, F5. destruct (written (c, r)); lia. }
    assert (forall j x, nth_error (replace i s' f ++ born e) j = Some x -> (j < length f + length (born e))%nat) as Hjlt.
    { intros j x Hx. rewrite <- HlF. apply nth_error_Some. congruence. }
    constructor.
    + rewrite HlF, born_more. constructor; assumption.
    + exists (session_key s'). split.
      * intros x Hx. apply In_nth_error in Hx as [j Hx].
        destruct (member_snoc f i s c s' r j x Hs E ltac:(subst e; exact Hx)) as [(Hne & Hj & Hx')|[(_ & ->)|(_ & _ & _ & Hcl)]]; [|reflexivity|].
        -- destruct F3' as [[y ->]|F3']; [cbn [length] in *; lia|].
           destruct (step_settled_key _ _ _ _ HI E (F3' s (nth_error_In _ _ Hs))) as [_ ->].
           rewrite (F3 s (nth_error_In _ _ Hs)). apply F3. eapply nth_error_In, Hx'.
        -- apply clone_fields in Hcl as (K1 & K2 & _). congruence.
      * destruct (ephemeral s) as [kp|] eqn:Eeph.
        -- left. destruct F3' as [[y ->]|F3']; [|rewrite (F3' s (nth_error_In _ _ Hs)) in Eeph; discriminate].
           cbn [length] in Hi. assert (i = 0%nat) as -> by lia.
           exists s'. destruct (born e) as [|x q] eqn:Eb; [reflexivity|]. exfalso.
           destruct (born_clone _ _ _ _ x E) as (_ & _ & Hcl); [rewrite <- Ee, Eb; left; reflexivity|].
           assert (established s) as He by (exists x; rewrite Hcl; reflexivity).
           apply established_iff in He. rewrite (inv_succ C T s HI He) in Eeph. discriminate.
        -- destruct (step_settled_key _ _ _ _ HI E Eeph) as [He' _]. right.
           intros x Hx. apply In_nth_error in Hx as [j Hx].
           destruct (member_snoc f i s c s' r j x Hs E ltac:(subst e; exact Hx)) as [(Hne & Hj & Hx')|[(_ & ->)|(_ & _ & _ & Hcl)]]; [|exact He'|].
           ++ destruct F3' as [[y ->]|F3']; [cbn [length] in *; lia|]. apply F3'. eapply nth_error_In, Hx'.
           ++ unfold try_clone in Hcl. destruct (msl_status s); try discriminate. injection Hcl as _ <-. reflexivity.
    + exists s0, r0, cfg, pin. split; [exact Hc|]. intros j x Hx. pose proof (Hjlt j x Hx) as Hj.
      destruct (member_snoc f i s c s' r j x Hs E ltac:(subst e; exact Hx)) as [(Hne & Hj' & Hx')|[(-> & ->)|(-> & _ & _ & Hcl)]].
      * destruct (HB j Hj) as [(_ & _ & ->)|[[-> | ->] _]]; [|congruence|lia].
        rewrite (Hold j x Hx'). exact (F4 j x Hx').
      * destruct (HB i Hj) as [(_ & H & _)|[_ ->]]; [congruence|]. rewrite Hev. eauto.
      * destruct (HB (length f) Hj) as [(H & _ & _)|[_ ->]]; [lia|]. rewrite Hev.
        exists l', pend'. apply clone_fields in Hcl as Hcf. destruct Hcf as (K1 & K2 & K3 & K4 & K5 & _).
        eapply linv_fields; [exact HL'| |congruence|exact K3|exact K4|exact K5].
        eapply reach_clone; [exact HR|rewrite Hcl; reflexivity].
    + intros j x Hx. pose proof (Hjlt j x Hx) as Hj.
      destruct (member_snoc f i s c s' r j x Hs E ltac:(subst e; exact Hx)) as [(Hne & Hj' & Hx')|[(-> & ->)|(-> & _ & _ & Hcl)]].
      * destruct (HB j Hj) as [(_ & _ & ->)|[[-> | ->] _]]; [|congruence|lia].
        rewrite (Hold j x Hx'). exact (F5 j x Hx').
      * destruct (HB i Hj) as [(_ & H & _)|[_ ->]]; [congruence|]. rewrite Hev. exact Hsent.
      * destruct (HB (length f) Hj) as [(H & _ & _)|[_ ->]]; [lia|]. rewrite Hev.
        apply clone_fields in Hcl as (_ & _ & _ & _ & _ & K6). transitivity (next_nonce_sent s'); [exact K6|exact Hsent].
Qed.

(** ** Looking back *)
Lemma family_nonempty f tr : family C T f tr -> f <> [].
Proof.
  induction 1 as [|f tr i s c s' r e HF IH Hs E Ee]; [discriminate|].
  intros H. apply app_eq_nil in H as [H _]. unfold replace in H. apply app_eq_nil in H as [_ H]. discriminate.
Qed.

Lemma family_at f tr t i c r :
  family C T f tr -> len tr < 2 ^ 64 -> nth_error tr t = Some (i, (c, r)) ->
  exists f1 s s', family C T f1 (firstn t tr) /\ nth_error f1 i = Some s /\ call_step C T s c = (s', r) /\
    forall k, session_key s' = Some k -> forall x, In x f -> session_key x = Some k.
Proof.
  induction 1 as [r0 cfg pin s Hc|f tr i' s c' s' r' e HF IH Hs E Ee]; intros Hb Ht.
  { destruct t; discriminate. }
  assert (FInv (replace i' s' f ++ born e) (tr ++ [(i', e)])) as [_ (ko & K1 & _) _ _]
    by (apply finv_family; [econstructor; eassumption|exact Hb]).
  assert (In s' (replace i' s' f ++ born e)) as Hin
    by (apply in_app_iff; left; unfold replace; apply in_app_iff; right; left; reflexivity).
  rewrite len_app in Hb.
  apply nth_error_snoc in Ht as [Ht|[-> Ht]].
  - destruct (IH ltac:(lia) Ht) as (f1 & s1 & s1' & H1 & H2 & H3 & H4). exists f1, s1, s1'.
    assert (t < length tr)%nat by (apply nth_error_Some; congruence).
    rewrite firstn_snoc_le by lia. repeat (split; [assumption|]). intros k Hk x Hx.
    rewrite (K1 x Hx), <- (K1 s' Hin). eapply step_secret_mono; [exact HL| |exact E|].
    + destruct (finv_family f tr HF ltac:(lia)) as [_ _ (s0 & r0 & cfg & pin & _ & F4) _].
      destruct (F4 i' s Hs) as (l & pend & []). apply inv_reachable. assumption.
    + eapply H4; [exact Hk|]. eapply nth_error_In, Hs.
  - rewrite Ee in Ht. injection Ht as -> -> ->. exists f, s, s'. rewrite firstn_snoc_all.
    repeat (split; [assumption|]). intros k Hk x Hx. rewrite (K1 x Hx), <- (K1 s' Hin). exact Hk.
Qed.

Lemma len_firstn t (tr : trace event) : len tr < 2 ^ 64 -> len (firstn t tr) < 2 ^ 64.
Proof. unfold len. rewrite firstn_length. lia. Qed.

(** ** The numbers sent *)
Theorem family_numbers f tr :
  family C T f tr -> len tr < 2 ^ 64 ->
  exists k, (forall x k', In x f -> session_key x = Some k' -> k' = k) /\
    forall t i data w w', nth_error tr t = Some (i, (CWrite data w, RWritten (Ok tt) w')) ->
      takes_all w \/ 16 < bw_cap w ->
      (forall x, In x f -> session_key x = Some k) /\
      output w' = output w ++ user_datagram C k (N.of_nat (number tr t)) data.
Proof.
  intros HF Hb. pose proof (finv_family f tr HF Hb) as [FW (ko & K1 & _) _ _].
  pose proof (family_nonempty f tr HF) as Hne. destruct f as [|x0 f0] eqn:Ef; [congruence|]. rewrite <- Ef in *.
  assert (In x0 f) as Hx0 by (rewrite Ef; left; reflexivity).
  exists (match ko with Some k => k | None => {| sk_key := []; sk_nonce := []; sk_aad := [] |} end). split.
  { intros x k' Hx Hk'. rewrite (K1 x Hx) in Hk'. rewrite Hk'. reflexivity. }
  intros t i data w w' Ht Hw.
  destruct (family_at f tr t i _ _ HF Hb Ht) as (f1 & s & s' & HF1 & Hs & E & Hk).
  pose proof (finv_family f1 _ HF1 (len_firstn t tr Hb)) as [_ _ (s0 & r0 & cfg & pin & _ & F4) F5].
  destruct (F4 i s Hs) as (l & pend & []). cbn [call_step] in E.
  destruct (write_message C T data s w) as [[s1 w1] o] eqn:Ew. injection E as -> -> ->.
  destruct (write_ok C T HL _ _ _ _ _ Hw Ew) as (k & Hsk & _ & Ho).
  assert (session_key s' = Some k) as Hk'.
  { eapply step_secret_mono with (c := CWrite data w); [exact HL|apply inv_reachable; exact li_reach|cbn [call_step]; rewrite Ew; reflexivity|exact Hsk]. }
  pose proof (Hk k Hk' x0 Hx0) as Hkk. rewrite (K1 x0 Hx0) in Hkk. subst ko.
  split; [intros x Hx; apply K1, Hx|]. rewrite Ho, (F5 i s Hs).
  destruct (past_events clones tr _ t i _ FW Ht) as [_ ->]. reflexivity.
Qed.

(** A written reply is a write. *)
Lemma written_writes f tr t i e :
  family C T f tr -> len tr < 2 ^ 64 -> nth_error tr t = Some (i, e) -> written e = true -> is_write tr t.
Proof.
  intros HF Hb Ht Hw. destruct e as [c r]. unfold written in Hw. cbn [snd] in Hw.
  destruct r as [| | |[[]| |] w'| |]; try discriminate.
  destruct (family_at f tr t i _ _ HF Hb Ht) as (f1 & s & s' & _ & _ & E & _).
  destruct c; cbn [call_step] in E;
    repeat match type of E with context [let '(_, _) := ?x in _] => destruct x as [? ?] eqn:? end;
    try discriminate. unfold is_write. eauto.
Qed.

Theorem family_reuse f tr k :
  family C T f tr -> len tr < 2 ^ 64 -> good_writers tr ->
  (exists x, In x f /\ session_key x = Some k) ->
  ((exists t1 t2 n, t1 <> t2 /\ n < 2 ^ 64 /\ wrote C k tr t1 n /\ wrote C k tr t2 n) <->
   (exists t1 t2, (t1 < t2)%nat /\ is_write tr t1 /\ is_write tr t2 /\ ~ In t1 (past tr t2))).
Proof.
  intros HF Hb Hg (x & Hx & Hk). destruct (family_numbers f tr HF Hb) as (k0 & Hk0 & Hnum).
  assert (k = k0) as <- by (eapply Hk0; eassumption).
  pose proof (fi_wf _ _ (finv_family f tr HF Hb)) as HW.
  assert (forall t, is_write tr t -> N.of_nat (number tr t) < 2 ^ 64) as Hbn.
  { intros t (i & data & w & w' & Ht). assert (t < length tr)%nat by (apply nth_error_Some; congruence).
    pose proof (number_le clones written tr _ t HW). unfold len in Hb. lia. }
  assert (forall t, counted written tr t <-> is_write tr t) as Hcw.
  { intros t. split; [intros (i & e & Ht & He); eapply written_writes; eassumption|].
    intros (i & data & w & w' & Ht). eexists _, _. split; [exact Ht|reflexivity]. }
  assert (forall t n, n < 2 ^ 64 -> wrote C k tr t n -> is_write tr t /\ n = N.of_nat (number tr t)) as Hwn.
  { intros t n Hn (i & data & w & w' & Ht & Ho).
    assert (is_write tr t) as Hwt by (unfold is_write; eauto). split; [exact Hwt|].
    destruct (Hnum t i data w w' Ht) as [_ Ho']; [eapply Hg, nth_error_In, Ht|].
    rewrite Ho in Ho'. apply app_inv_head in Ho'. apply (user_datagram_inj C HL) in Ho' as [-> _]; [reflexivity|exact Hn|auto]. }
  assert (forall t, is_write tr t -> wrote C k tr t (N.of_nat (number tr t))) as Hwr.
  { intros t (i & data & w & w' & Ht). exists i, data, w, w'. split; [exact Ht|].
    apply (Hnum t i data w w' Ht). eapply Hg, nth_error_In, Ht. }
  pose proof (number_clash clones written tr _ HW) as [Hc1 Hc2]. split.
  - intros (t1 & t2 & n & Hne & Hn & H1 & H2). apply Hwn in H1 as [W1 N1]; [|exact Hn]. apply Hwn in H2 as [W2 N2]; [|exact Hn].
    destruct Hc1 as (u1 & u2 & U1 & U2 & U3 & U4).
    { exists t1, t2. split; [exact Hne|]. split; [apply Hcw, W1|]. split; [apply Hcw, W2|]. lia. }
    exists u1, u2. split; [exact U1|]. split; [apply Hcw, U2|]. split; [apply Hcw, U3|exact U4].
  - intros (t1 & t2 & Hl & W1 & W2 & Hnin). destruct Hc2 as (u1 & u2 & U1 & U2 & U3 & U4).
    { exists t1, t2. split; [exact Hl|]. split; [apply Hcw, W1|]. split; [apply Hcw, W2|exact Hnin]. }
    apply Hcw in U2, U3. exists u1, u2, (N.of_nat (number tr u1)). split; [exact U1|]. split; [auto|].
    split; [auto|]. rewrite U4. auto.
Qed.

(** ** What is received *)
Theorem family_accounts f tr i s :
  family C T f tr -> len tr + 1 < 2 ^ 64 -> nth_error f i = Some s ->
  let h := events tr (life tr i) in
  exists l, accounts C T s (submitted h) h l /\
    (lossless h -> established s -> forall k d n data, session_key s = Some k -> opens C T k d n data ->
       (snd (read C T d s) = Ok (Some (MMessage (nonempty data))) <->
        nonce_acceptable (map (fun e => snd (fst e)) l) n)).
Proof.
  intros HF Hb Hs h. pose proof (finv_family f tr HF ltac:(lia)) as [FW _ (s0 & r0 & cfg & pin & Hc & F4) _].
  pose proof (lives_ok clones _ _ FW) as L.
  destruct (F4 i s Hs) as (l & pend & []). exists l. split; [exact li_acc|].
  intros Hl He k d n data Hk Ho. destruct (created_fresh C _ _ _ _ Hc) as (F1 & F2 & F3 & _).
  assert (forall m, received s m <-> In m (map (fun e => snd (fst e)) l)) as Hrec.
  { intros m. rewrite (li_exact Hl m). unfold received at 1. rewrite F1, F2. cbn [In].
    split; [intros [[H|[]]|H]; [lia|exact H]|auto]. }
  pose proof (inv_reachable C T s li_reach) as HI. pose proof (submitted_len h) as Hsl.
  assert (i < length f)%nat as Hi by (apply nth_error_Some; congruence).
  pose proof (life_len _ _ i L Hi) as Hll. fold h in Hll, li_used. unfold used at 2 in li_used. rewrite F1, F2 in li_used.
  rewrite (delivered_when C T HL s k d n data HI He Hk Ho).
  - apply acceptable_room with (T := T) (C := C); [exact HI|apply li_acc|exact Hrec].
  - unfold len in *. cbn [length] in *. unfold history, event, trace in *. lia.
Qed.

(** The room left in the counters. *)
Lemma member_used f tr i s :
  family C T f tr -> len tr < 2 ^ 64 -> nth_error f i = Some s ->
  reachable C T s /\ used s + len (tmp_stack_user_msgs s) <= len tr.
Proof.
  intros HF Hb Hs. pose proof (finv_family f tr HF Hb) as [FW _ (s0 & r0 & cfg & pin & Hc & F4) _].
  pose proof (lives_ok clones _ _ FW) as L.
  destruct (F4 i s Hs) as (l & pend & []). split; [exact li_reach|].
  destruct (created_fresh C _ _ _ _ Hc) as (F1 & F2 & F3 & _).
  assert (i < length f)%nat as Hi by (apply nth_error_Some; congruence).
  pose proof (life_len _ _ i L Hi) as Hll. pose proof (submitted_len (events tr (life tr i))) as Hsl.
  unfold used at 2 in li_used. rewrite F1, F2 in li_used. unfold len in *. cbn [length] in *.
  unfold history, event, trace in *. lia.
Qed.

Lemma step_received s c s' r m :
  reachable C T s -> call_step C T s c = (s', r) -> used s + len (tmp_stack_user_msgs s) + 1 < 2 ^ 64 ->
  received s m -> received s' m.
Proof.
  intros HR E Hb. destruct (replay_free_gen C T HL s [c] s' [(c, r)] HR) as (ds0 & l & pend & _ & HLi).
  { cbn [run]. rewrite E. reflexivity. } { exact Hb. }
  apply (li_mono _ _ _ _ _ _ _ _ HLi).
Qed.

Lemma delivery_step s d s' o n data k :
  reachable C T s -> used s + 1 < 2 ^ 64 -> call_step C T s (CRead d) = (s', RMsg (Ok (Some (MMessage o)))) ->
  opens C T k d n data -> session_key s' = Some k ->
  session_key s = Some k /\ ~ received s n /\ received s' n.
Proof.
  intros HR Hb E Ho Hk. pose proof (inv_reachable C T s HR) as HI. pose proof E as E0. cbn [call_step] in E.
  destruct (read C T d s) as [s1 o1] eqn:Er. injection E as -> ->.
  destruct (read_user_step C T HL _ _ _ _ HI Er Hb) as [k' n' data' Hk' Ho' _ Hnr Heq _ _ _ Hrv|? ? ? ? ? ? ? Heq|Hpan|Hno]; try discriminate.
  - assert (session_key s' = Some k') as Hk2 by (eapply step_secret_mono; eassumption).
    assert (k' = k) by congruence. subst k'. destruct (opens_inj C T HL k d n data n' data' Ho Ho') as [-> _].
    split; [exact Hk'|]. split; [exact Hnr|]. apply Hrv. auto.
  - exfalso. eapply Hno. reflexivity.
Qed.

Lemma received_kept f tr : family C T f tr -> len tr < 2 ^ 64 ->
  forall i s k t n, nth_error f i = Some s -> session_key s = Some k -> In t (life tr i) ->
    received_at C T k tr t n -> received s n.
Proof.
  induction 1 as [r0 cfg pin s Hc|f tr i s c s' r e HF IH Hs E Ee]; intros Hb.
  { intros [|[|i]] s1 k t n Hs Hk Ht; cbn in Ht; destruct Ht. }
  rewrite len_app in Hb. change (len [(i, e)]) with 1 in Hb.
  specialize (IH ltac:(lia)). pose proof (finv_family f tr HF ltac:(lia)) as [FW (ko & K1 & _) _ _].
  pose proof (lives_ok clones _ _ FW) as F1.
  assert (i < length f)%nat as Hi by (apply nth_error_Some; congruence).
  pose proof (life_snoc_cases clones tr i e (length f) (lv_len _ _ _ F1) Hi) as [_ HB]. rewrite <- born_more in HB.
  destruct (member_used f tr i s HF ltac:(lia) Hs) as [HR Hus].
  assert (forall k t n, (t < length tr)%nat -> received_at C T k (tr ++ [(i, e)]) t n -> received_at C T k tr t n) as Hold.
  { intros k t n Hlt (j & d & o & data & Ht & Ho). rewrite nth_error_app1 in Ht by exact Hlt. exists j, d, o, data. auto. }
  assert (forall j x, nth_error (replace i s' f ++ born e) j = Some x -> (j < length f + length (born e))%nat) as Hjlt.
  { intros j x Hx. rewrite <- (replace_length i s' f Hi), <- app_length. apply nth_error_Some. congruence. }
  assert (forall j t, (j < length f)%nat -> In t (life tr j) -> (t < length tr)%nat) as Hlt.
  { intros j t Hj Ht. pose proof (lv_lt _ _ _ F1 j Hj) as H. rewrite Forall_forall in H. auto. }
  assert (forall k t n, In t (life tr i ++ [length tr]) -> session_key s' = Some k ->
            received_at C T k (tr ++ [(i, e)]) t n -> received s' n) as Hmine.
  { intros k t n Ht Hk Hrec. apply in_app_iff in Ht as [Ht|[<-|[]]].
    - apply (step_received s c s' r n HR E ltac:(lia)). apply Hold in Hrec; [|eauto].
      assert (exists k1, session_key s = Some k1) as [k1 Hk1].
      { destruct Hrec as (j & d & o & data & Hn & Ho).
        destruct (family_at f tr t j _ _ HF ltac:(lia) Hn) as (f1 & s1 & s1' & HF1 & Hs1 & E1 & Hall).
        destruct (member_used f1 _ j s1 HF1 (len_firstn t tr ltac:(lia)) Hs1) as [HR1 Hus1].
        pose proof (len_firstn t tr ltac:(lia)) as Hlf.
        pose proof E1 as E1'. cbn [call_step] in E1. destruct (read C T d s1) as [s2 o2] eqn:Er. injection E1 as -> ->.
        assert (len (firstn t tr) + 1 < 2 ^ 64) as Hroom by (unfold len in *; rewrite firstn_length in *; unfold trace, history, event in *; lia).
        destruct (read_user_step C T HL _ _ _ _ (inv_reachable C T s1 HR1) Er ltac:(lia))
          as [k' n' data' Hk' _ _ _ _ _ _ _ _|? ? ? ? ? ? ? Heq|Hpan|Hno]; try discriminate.
        - exists k'. apply (Hall k'); [|eapply nth_error_In, Hs].
          eapply step_secret_mono; [exact HL|apply inv_reachable; exact HR1|exact E1'|exact Hk'].
        - exfalso. eapply Hno. reflexivity. }
      assert (session_key s' = Some k1) as Hk2
        by (eapply step_secret_mono; [exact HL|apply inv_reachable; exact HR|exact E|exact Hk1]).
      assert (k1 = k) by congruence. subst k1. eapply IH; eassumption.
    - destruct Hrec as (j & d & o & data & Hn & Ho).
      rewrite nth_error_app2, Nat.sub_diag in Hn by lia. cbn [nth_error] in Hn. rewrite Ee in Hn. injection Hn as -> -> ->.
      apply (delivery_step s d s' o n data k HR ltac:(lia) E Ho Hk). }
  intros j x k t n Hx Hk Ht Hrec. pose proof (Hjlt j x Hx) as Hj.
  destruct (member_snoc f i s c s' r j x Hs E ltac:(subst e; exact Hx)) as [(Hne & Hj' & Hx')|[(-> & ->)|(-> & _ & _ & Hcl)]].
  - destruct (HB j Hj) as [(_ & _ & Hlf)|[[-> | ->] _]]; [|congruence|lia]. rewrite Hlf in Ht.
    eapply IH; try eassumption. apply Hold; [eauto|exact Hrec].
  - destruct (HB i Hj) as [(_ & H & _)|[_ Hlf]]; [congruence|]. rewrite Hlf in Ht. eauto.
  - destruct (HB (length f) Hj) as [(H & _ & _)|[_ Hlf]]; [lia|]. rewrite Hlf in Ht.
    apply clone_fields in Hcl as (C1 & C2 & C3 & C4 & _). unfold received. rewrite C3, C4.
    eapply Hmine; [exact Ht| |exact Hrec]. congruence.
Qed.

Theorem family_replay f tr k t1 t2 n :
  family C T f tr -> len tr < 2 ^ 64 -> (exists x, In x f /\ session_key x = Some k) -> (t1 < t2)%nat ->
  received_at C T k tr t1 n -> received_at C T k tr t2 n -> ~ In t1 (past tr t2).
Proof.
  intros HF Hb (x & Hx & Hkx) Hlt H1 (i & d & o & data & Hn & Ho) Hin.
  destruct (family_at f tr t2 i _ _ HF Hb Hn) as (f1 & s & s' & HF1 & Hs & E & Hall).
  destruct (past_events clones tr _ t2 i _ (fi_wf _ _ (finv_family f tr HF Hb)) Hn) as [Hp _]. rewrite Hp in Hin.
  pose proof (len_firstn t2 tr Hb) as Hlf.
  destruct (member_used f1 _ i s HF1 Hlf Hs) as [HR Hus].
  assert (t2 < length tr)%nat as Hl2 by (apply nth_error_Some; congruence).
  assert (used s + 1 < 2 ^ 64) as Hroom.
  { unfold len in *. rewrite firstn_length in *. unfold trace, history, event in *. lia. }
  assert (session_key s' = Some k) as Hk'.
  { pose proof E as E'. cbn [call_step] in E'. destruct (read C T d s) as [s2 o2] eqn:Er. injection E' as -> ->.
    destruct (read_user_step C T HL _ _ _ _ (inv_reachable C T s HR) Er Hroom)
      as [k' n' data' Hk' _ _ _ _ _ _ _ _|? ? ? ? ? ? ? Heq|Hpan|Hno]; try discriminate.
    - assert (session_key s' = Some k') as H
        by (eapply step_secret_mono; [exact HL|apply inv_reachable; exact HR|exact E|exact Hk']).
      pose proof (Hall k' H x Hx). congruence.
    - exfalso. eapply Hno. reflexivity. }
  destruct (delivery_step s d s' o n data k HR Hroom E Ho Hk') as (Hk & Hnr & _).
  apply Hnr. eapply (received_kept f1 _ HF1 Hlf i s k t1 n Hs Hk Hin).
  destruct H1 as (i1 & d1 & o1 & data1 & Hn1 & Ho1). exists i1, d1, o1, data1.
  rewrite nth_error_firstn by exact Hlt. auto.
Qed.

Theorem family_one_writer f tr k j :
  family C T f tr -> len tr < 2 ^ 64 -> good_writers tr ->
  (exists x, In x f /\ session_key x = Some k) ->
  (forall t i data w w', nth_error tr t = Some (i, (CWrite data w, RWritten (Ok tt) w')) -> i = j) ->
  forall t1 t2 n, n < 2 ^ 64 -> wrote C k tr t1 n -> wrote C k tr t2 n -> t1 = t2.
Proof.
  intros HF Hb Hg Hx Hj t1 t2 n Hn W1 W2. destruct (Nat.eq_dec t1 t2) as [|Hne]; [assumption|exfalso].
  destruct (family_reuse f tr k HF Hb Hg Hx) as [H _].
  destruct H as (u1 & u2 & Hlt & (i1 & d1 & w1 & w1' & U1) & (i2 & d2 & w2 & w2' & U2) & Hnin).
  { exists t1, t2, n. auto. }
  assert (i1 = j) as -> by (eapply Hj, U1). assert (i2 = j) as -> by (eapply Hj, U2).
  apply Hnin. eapply own_past; [apply (fi_wf _ _ (finv_family f tr HF Hb))|exact Hlt|exact U1|exact U2].
Qed.

Theorem family_one_reader f tr k j :
  family C T f tr -> len tr < 2 ^ 64 -> (exists x, In x f /\ session_key x = Some k) ->
  (forall t i d o, nth_error tr t = Some (i, (CRead d, RMsg (Ok (Some (MMessage o))))) -> i = j) ->
  forall t1 t2 n, received_at C T k tr t1 n -> received_at C T k tr t2 n -> t1 = t2.
Proof.
  intros HF Hb Hx Hj.
  assert (forall t1 t2 n, (t1 < t2)%nat -> received_at C T k tr t1 n -> received_at C T k tr t2 n -> False) as Hlt.
  { intros t1 t2 n Hlt R1 R2. apply (family_replay f tr k t1 t2 n HF Hb Hx Hlt R1 R2).
    destruct R1 as (i1 & d1 & o1 & data1 & U1 & _), R2 as (i2 & d2 & o2 & data2 & U2 & _).
    assert (i1 = j) as -> by (eapply Hj, U1). assert (i2 = j) as -> by (eapply Hj, U2).
    eapply own_past; [apply (fi_wf _ _ (finv_family f tr HF Hb))|exact Hlt|exact U1|exact U2]. }
  intros t1 t2 n R1 R2. destruct (lt_eq_lt_dec t1 t2) as [[H|H]|H]; [|exact H|]; exfalso; eauto.
Qed.

End WithEnv.

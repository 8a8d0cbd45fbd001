(** One connection, any number of handles, in complete mode. *)

From Coq Require Import Arith ZifyBool ZifyNat ZifyN.
From Verif.Model Require Import Complete.
From Verif.Spec Require Import Wire Datagram Trace ReadSpec Accept Session Writers CompleteTrace Family.
From Verif.Proofs Require Import BaseFacts IoFacts CipherFacts ReaderFacts ReadCases WindowFacts Invariant
  Negotiation Failure DatagramFacts ReadSpecFacts Accept Keys TraceInv UserReads Ledger Nonces Sending Corollaries
  CompleteFacts Split Lives Family.

Section WithEnv.
Context (C : Crypto) (Z : Zip) (T : target) (HL : CryptoLaws C) (HZ : ZipLaws Z).
Local Notation sevent := (scall * sreply)%type.
Local Notation life := (Family.life sclones).
Local Notation past := (Family.past sclones).
Local Notation number := (Lives.number sclones swritten).
Local Notation LivesOk := (Lives.LivesOk sclones).

(** ** One call *)
Lemma run_settled_key m cs m' h : reachable C T m -> run C T m cs = (m', h) -> ephemeral m = None ->
  ephemeral m' = None /\ session_key m' = session_key m.
Proof.
  revert m h. induction cs as [|c cs IH]; intros m h HR E He; cbn [run] in E.
  - injection E as <- _. auto.
  - destruct (call_step C T m c) as [m1 r] eqn:E1. destruct (run C T m1 cs) as [m2 h2] eqn:E2. injection E as <- _.
    destruct (step_settled_key C T HL _ _ _ _ (inv_reachable C T m HR) E1 He) as [H1 H2].
    assert (reachable C T m1) as HR1
      by (replace m1 with (fst (call_step C T m c)) by (rewrite E1; reflexivity); apply reach_step, HR).
    destruct (IH m1 h2 HR1 E2 H1) as [H3 H4]. split; [exact H3|congruence].
Qed.

Definition sending (c : call) : bool := match c with CWrite _ _ => true | _ => false end.

Lemma step_not_written m c m' r : call_step C T m c = (m', r) -> sending c = false -> written (c, r) = false.
Proof.
  destruct c; cbn [call_step sending]; intros E H; try discriminate;
    repeat match type of E with context [let '(_, _) := ?x in _] => destruct x as [? ?] eqn:? end;
    injection E as _ <-; reflexivity.
Qed.

Lemma run_not_written m cs m' h : run C T m cs = (m', h) -> Forall (fun c => sending c = false) cs -> count written h = 0%nat.
Proof.
  intros E H. revert m m' h E. induction H as [|c cs Hc H IH]; intros m m' h E; cbn [run] in E.
  - injection E as _ <-. reflexivity.
  - destruct (call_step C T m c) as [m1 r] eqn:E1. destruct (run C T m1 cs) as [m2 h2] eqn:E2. injection E as _ <-.
    unfold count. cbn [filter]. rewrite (step_not_written _ _ _ _ E1 Hc). exact (IH _ _ _ E2).
Qed.

Lemma sub_not_sending c cs : sub_calls c cs -> (forall data w, c <> SWrite data w) -> Forall (fun c => sending c = false) cs.
Proof. intros H Hn. destruct H; try (repeat constructor; fail). exfalso. eapply Hn. reflexivity. Qed.

Lemma sstep_sent s c s' r :
  reachable C T (minimal s) -> scall_step C Z T s c = (s', r) -> next_nonce_sent (minimal s) + 1 < 2 ^ 64 ->
  next_nonce_sent (minimal s') = next_nonce_sent (minimal s) + (if swritten (c, r) then 1 else 0).
Proof.
  intros HR E Hb.
  assert ((exists data w, c = SWrite data w) \/ forall data w, c <> SWrite data w) as [(data & w & ->)|Hn]
    by (destruct c; (left; eauto; fail) || (right; intros; discriminate)).
  - rewrite write_bin_step in E.
    destruct (call_step C T (minimal s) (CWrite (compress Z data s) w)) as [m rm] eqn:E1. cbn [fst snd] in E.
    injection E as <- <-. cbn [minimal set_minimal].
    pose proof E1 as E2. apply step_sent in E1; [|apply inv_reachable; exact HR|left; exact Hb]. rewrite E1.
    cbn [call_step] in E2. destruct (write_message C T (compress Z data s) (minimal s) w) as [[m1 w1] o].
    injection E2 as _ <-. unfold swritten, written. cbn [snd]. reflexivity.
  - destruct (scall_sub C Z T s c s' r E) as (cs & h & Hs & Er).
    pose proof (run_not_written _ _ _ _ Er (sub_not_sending _ _ Hs Hn)) as H0.
    rewrite (sent_count C T (minimal s) cs _ h HR Er) by (rewrite H0; lia). rewrite H0.
    replace (swritten (c, r)) with false; [lia|]. symmetry. unfold swritten. destruct c; try reflexivity.
    exfalso. eapply Hn. reflexivity.
Qed.

Lemma sclone_minimal s s' x : sl_try_clone s = (s', Ok x) -> try_clone (minimal s) = (minimal s', Ok (minimal x)).
Proof.
  unfold sl_try_clone. destruct (try_clone (minimal s)) as [m [c| |]]; intros H; try discriminate.
  injection H as <- <-. reflexivity.
Qed.

Lemma sborn_clone s c s' r x : scall_step C Z T s c = (s', r) -> In x (sborn (c, r)) ->
  c = SClone /\ r = SCloned (Ok x) /\ sl_try_clone s = (s', Ok x).
Proof.
  intros E Hin. unfold sborn in Hin. cbn [snd] in Hin. destruct r as [| |[y| |]|]; cbn [In] in Hin; try contradiction.
  destruct Hin as [-> |[]].
  destruct c; cbn [scall_step] in E;
    repeat match type of E with context [let '(_, _) := ?x in _] => destruct x as [? ?] eqn:? end;
    try discriminate; injection E as -> ->; auto.
Qed.

Lemma sborn_more e : length (sborn e) = more sclones e.
Proof. unfold sborn, more, sclones. destruct (snd e) as [| |[]|]; reflexivity. Qed.

Lemma smember_snoc f i s c s' r j x :
  nth_error f i = Some s -> scall_step C Z T s c = (s', r) ->
  nth_error (replace i s' f ++ sborn (c, r)) j = Some x ->
  (j <> i /\ (j < length f)%nat /\ nth_error f j = Some x) \/
  (j = i /\ x = s') \/
  (j = length f /\ c = SClone /\ sl_try_clone s = (s', Ok x)).
Proof.
  intros Hs E Hx. assert (i < length f)%nat as Hi by (apply nth_error_Some; congruence).
  destruct (lt_dec j (length f)) as [Hlt|Hge].
  - rewrite nth_error_app1 in Hx by (rewrite replace_length; lia).
    destruct (Nat.eq_dec j i) as [-> |Hne].
    + right. left. rewrite nth_error_replace_same in Hx by exact Hi. split; congruence.
    + left. rewrite nth_error_replace_other in Hx by assumption. auto.
  - rewrite nth_error_app2, replace_length in Hx by (rewrite ?replace_length; lia).
    pose proof (nth_error_In _ _ Hx) as Hin. destruct (sborn_clone _ _ _ _ _ E Hin) as (-> & -> & Hc).
    right. right. assert (j - length f < length (sborn (SClone, SCloned (Ok x))))%nat as Hj1 by (apply nth_error_Some; congruence).
    cbn in Hj1. split; [lia|auto].
Qed.

Record SFInv (f : list secure_layer) (tr : trace sevent) : Prop := {
  sf_wf : wf sclones tr (length f);
  sf_reach : forall s, In s f -> sreachable C Z T s;
  sf_key : exists ko, (forall s, In s f -> session_key (minimal s) = ko) /\
            ((exists s, f = [s]) \/ forall s, In s f -> ephemeral (minimal s) = None);
  sf_sent : forall i s, nth_error f i = Some s ->
       next_nonce_sent (minimal s) = N.of_nat (length (filter swritten (events tr (life tr i))))
}.

Lemma slife_len (tr : trace sevent) n i : LivesOk tr n -> (i < n)%nat ->
  (length (filter swritten (events tr (life tr i))) <= length tr)%nat.
Proof.
  intros [_ L0 _ _ _] Hi. pose proof (events_le sclones tr (life tr i)). specialize (L0 i Hi).
  assert (forall l : list sevent, length (filter swritten l) <= length l)%nat as Hf
    by (induction l as [|x l IH]; cbn [filter length]; [lia|destruct (swritten x); cbn [length]; lia]).
  specialize (Hf (events tr (life tr i))). lia.
Qed.

Lemma sfinv_family f tr : sfamily C Z T f tr -> len tr < 2 ^ 64 -> SFInv f tr.
Proof.
  induction 1 as [r rs cfg seed pin s Hc|f tr i s c s' r e HF IH Hs E Ee]; intros Hb.
  - constructor.
    + constructor.
    + intros x [<-|[]]. eapply sreach_create, Hc.
    + exists (session_key (minimal s)). split; [intros x [<-|[]]; reflexivity|left; eauto].
    + intros [|[|i]] x Hx; try discriminate. injection Hx as <-. unfold sl_create in Hc.
      apply obind_Ok in Hc as (sd & _ & Hc). apply obind_Ok in Hc as (m & Hm & Hc).
      assert (minimal s = m) as -> by (injection Hc as <-; reflexivity || (apply obind_Ok in Hc as (? & _ & [= <-]); reflexivity)).
      apply (created_fresh C _ _ _ _ Hm).
  - rewrite len_app in Hb. change (len [(i, e)]) with 1 in Hb.
    destruct (IH ltac:(lia)) as [FW FR (ko & F3 & F3') F5]. pose proof (lives_ok sclones _ _ FW) as F1.
    assert (i < length f)%nat as Hi by (apply nth_error_Some; congruence).
    pose proof (life_snoc_cases sclones tr i e (length f) (lv_len _ _ _ F1) Hi) as [_ HB]. rewrite <- sborn_more in HB.
    pose proof (FR s (nth_error_In _ _ Hs)) as HR. pose proof (sreachable_minimal C Z T s HR) as HRm.
    assert (sreachable C Z T s') as HR'
      by (replace s' with (fst (scall_step C Z T s c)) by (rewrite E; reflexivity); apply sreach_step, HR).
    destruct (scall_sub C Z T s c s' r E) as (cs & h & Hsub & Er).
    pose proof (life_events_new sclones tr i e (length f) F1 Hi) as Hev.
    pose proof (slife_len tr (length f) i F1 Hi) as Hlen.
    assert (forall j x, nth_error f j = Some x -> events (tr ++ [(i, e)]) (life tr j) = events tr (life tr j)) as Hold.
    { intros j x Hx. apply events_snoc_old. apply (lv_lt _ _ _ F1). apply nth_error_Some. congruence. }
    assert (length (replace i s' f ++ sborn e) = length f + length (sborn e))%nat as HlF
      by (rewrite app_length, replace_length by exact Hi; reflexivity).
    assert (next_nonce_sent (minimal s') = N.of_nat (length (filter swritten (events tr (life tr i) ++ [e])))) as Hsent.
    { rewrite filter_app_length. cbn [filter]. specialize (F5 i s Hs). unfold len in Hb.
      rewrite (sstep_sent _ _ _ _ HRm E) by (unfold trace in *; lia). rewrite <- Ee, F5.
      destruct (swritten e); cbn [length]; lia. }
    assert (forall j x, nth_error (replace i s' f ++ sborn e) j = Some x -> (j < length f + length (sborn e))%nat) as Hjlt.
    { intros j x Hx. rewrite <- HlF. apply nth_error_Some. congruence. }
    constructor.
    + rewrite HlF, sborn_more. constructor; assumption.
    + intros x Hx. apply In_nth_error in Hx as [j Hx].
      destruct (smember_snoc f i s c s' r j x Hs E ltac:(subst e; exact Hx)) as [(_ & _ & Hx')|[(_ & ->)|(_ & _ & Hcl)]].
      * apply FR. eapply nth_error_In, Hx'.
      * exact HR'.
      * eapply sreach_clone; [exact HR|rewrite Hcl; reflexivity].
    + exists (session_key (minimal s')). split.
      * intros x Hx. apply In_nth_error in Hx as [j Hx].
        destruct (smember_snoc f i s c s' r j x Hs E ltac:(subst e; exact Hx)) as [(Hne & Hj & Hx')|[(_ & ->)|(_ & _ & Hcl)]]; [|reflexivity|].
        -- destruct F3' as [[y ->]|F3']; [cbn [length] in *; lia|].
           destruct (run_settled_key _ _ _ _ HRm Er (F3' s (nth_error_In _ _ Hs))) as [_ ->].
           rewrite (F3 s (nth_error_In _ _ Hs)). apply F3. eapply nth_error_In, Hx'.
        -- apply sclone_minimal, clone_fields in Hcl as (K1 & K2 & _). congruence.
      * destruct (ephemeral (minimal s)) as [kp|] eqn:Eeph.
        -- left. destruct F3' as [[y ->]|F3']; [|rewrite (F3' s (nth_error_In _ _ Hs)) in Eeph; discriminate].
           cbn [length] in Hi. assert (i = 0%nat) as -> by lia.
           exists s'. destruct (sborn e) as [|x q] eqn:Eb; [reflexivity|]. exfalso.
           destruct (sborn_clone _ _ _ _ x E) as (_ & _ & Hcl); [rewrite <- Ee, Eb; left; reflexivity|].
           apply sclone_minimal in Hcl.
           assert (established (minimal s)) as He by (exists (minimal x); rewrite Hcl; reflexivity).
           apply established_iff in He. rewrite (inv_succ C T _ (inv_reachable C T _ HRm) He) in Eeph. discriminate.
        -- destruct (run_settled_key _ _ _ _ HRm Er Eeph) as [He' _]. right.
           intros x Hx. apply In_nth_error in Hx as [j Hx].
           destruct (smember_snoc f i s c s' r j x Hs E ltac:(subst e; exact Hx)) as [(Hne & Hj & Hx')|[(_ & ->)|(_ & _ & Hcl)]]; [|exact He'|].
           ++ destruct F3' as [[y ->]|F3']; [cbn [length] in *; lia|]. apply F3'. eapply nth_error_In, Hx'.
           ++ apply sclone_minimal in Hcl. unfold try_clone in Hcl. destruct (msl_status (minimal s)); try discriminate.
              injection Hcl as _ <-. reflexivity.
    + intros j x Hx. pose proof (Hjlt j x Hx) as Hj.
      destruct (smember_snoc f i s c s' r j x Hs E ltac:(subst e; exact Hx)) as [(Hne & Hj' & Hx')|[(-> & ->)|(-> & _ & Hcl)]].
      * destruct (HB j Hj) as [(_ & _ & ->)|[[-> | ->] _]]; [|congruence|lia].
        rewrite (Hold j x Hx'). exact (F5 j x Hx').
      * destruct (HB i Hj) as [(_ & H & _)|[_ ->]]; [congruence|]. rewrite Hev. exact Hsent.
      * destruct (HB (length f) Hj) as [(H & _ & _)|[_ ->]]; [lia|]. rewrite Hev.
        apply sclone_minimal, clone_fields in Hcl as (_ & _ & _ & _ & _ & K6).
        transitivity (next_nonce_sent (minimal s')); [exact K6|exact Hsent].
Qed.

Lemma sfamily_nonempty f tr : sfamily C Z T f tr -> f <> [].
Proof.
  induction 1 as [|f tr i s c s' r e HF IH Hs E Ee]; [discriminate|].
  intros H. apply app_eq_nil in H as [H _]. unfold replace in H. apply app_eq_nil in H as [_ H]. discriminate.
Qed.

Lemma sstep_secret_mono s c s' r k :
  sreachable C Z T s -> scall_step C Z T s c = (s', r) -> session_key (minimal s) = Some k -> session_key (minimal s') = Some k.
Proof.
  intros HR E Hk. destruct (scall_sub C Z T s c s' r E) as (cs & h & _ & Er).
  eapply run_secret_mono; [exact HL|apply (sreachable_minimal C Z T), HR|exact Er|exact Hk].
Qed.

Lemma sfamily_at f tr t i c r :
  sfamily C Z T f tr -> len tr < 2 ^ 64 -> nth_error tr t = Some (i, (c, r)) ->
  exists f1 s s', sfamily C Z T f1 (firstn t tr) /\ nth_error f1 i = Some s /\ scall_step C Z T s c = (s', r) /\
    forall k, session_key (minimal s') = Some k -> forall x, In x f -> session_key (minimal x) = Some k.
Proof.
  induction 1 as [r0 rs cfg seed pin s Hc|f tr i' s c' s' r' e HF IH Hs E Ee]; intros Hb Ht.
  { destruct t; discriminate. }
  assert (SFInv (replace i' s' f ++ sborn e) (tr ++ [(i', e)])) as [_ _ (ko & K1 & _) _]
    by (apply sfinv_family; [econstructor; eassumption|exact Hb]).
  assert (In s' (replace i' s' f ++ sborn e)) as Hin
    by (apply in_app_iff; left; unfold replace; apply in_app_iff; right; left; reflexivity).
  rewrite len_app in Hb.
  apply nth_error_snoc in Ht as [Ht|[-> Ht]].
  - destruct (IH ltac:(lia) Ht) as (f1 & s1 & s1' & H1 & H2 & H3 & H4). exists f1, s1, s1'.
    assert (t < length tr)%nat by (apply nth_error_Some; congruence).
    rewrite firstn_snoc_le by lia. repeat (split; [assumption|]). intros k Hk x Hx.
    rewrite (K1 x Hx), <- (K1 s' Hin). eapply sstep_secret_mono; [|exact E|].
    + eapply sf_reach; [exact (sfinv_family f tr HF ltac:(lia))|eapply nth_error_In, Hs].
    + eapply H4; [exact Hk|]. eapply nth_error_In, Hs.
  - rewrite Ee in Ht. injection Ht as -> -> ->. exists f, s, s'. rewrite firstn_snoc_all.
    repeat (split; [assumption|]). intros k Hk x Hx. rewrite (K1 x Hx), <- (K1 s' Hin). exact Hk.
Qed.

Lemma slen_firstn t (tr : trace sevent) : len tr < 2 ^ 64 -> len (firstn t tr) < 2 ^ 64.
Proof. unfold len. rewrite firstn_length. lia. Qed.

Theorem sfamily_numbers f tr :
  sfamily C Z T f tr -> len tr < 2 ^ 64 ->
  exists k, (forall x k', In x f -> session_key (minimal x) = Some k' -> k' = k) /\
    forall t i data w w', nth_error tr t = Some (i, (SWrite data w, SWritten (Ok tt) w')) ->
      takes_all w \/ 16 < bw_cap w ->
      (forall x, In x f -> session_key (minimal x) = Some k) /\
      swrote C Z k tr t (N.of_nat (number tr t)).
Proof.
  intros HF Hb. pose proof (sfinv_family f tr HF Hb) as [FW FR (ko & K1 & _) _].
  pose proof (sfamily_nonempty f tr HF) as Hne. destruct f as [|x0 f0] eqn:Ef; [congruence|]. rewrite <- Ef in *.
  assert (In x0 f) as Hx0 by (rewrite Ef; left; reflexivity).
  exists (match ko with Some k => k | None => {| sk_key := []; sk_nonce := []; sk_aad := [] |} end). split.
  { intros x k' Hx Hk'. rewrite (K1 x Hx) in Hk'. rewrite Hk'. reflexivity. }
  intros t i data w w' Ht Hw.
  destruct (sfamily_at f tr t i _ _ HF Hb Ht) as (f1 & s & s' & HF1 & Hs & E & Hk).
  pose proof (sfinv_family f1 _ HF1 (slen_firstn t tr Hb)) as [_ FR1 _ F5].
  pose proof (FR1 s (nth_error_In _ _ Hs)) as HR. pose proof E as E0. rewrite write_bin_step in E. cbn [call_step] in E.
  destruct (write_message C T (compress Z data s) (minimal s) w) as [[m w1] o] eqn:Ew. cbn [fst snd] in E. injection E as <- -> ->.
  destruct (write_ok C T HL _ _ _ _ _ Hw Ew) as (k & Hsk & _ & Ho).
  pose proof (sstep_secret_mono _ _ _ _ _ HR E0 Hsk) as Hk'.
  pose proof (Hk k Hk' x0 Hx0) as Hkk. rewrite (K1 x0 Hx0) in Hkk. subst ko.
  split; [intros x Hx; apply K1, Hx|]. exists i, data, w, w', (compress Z data s). split; [exact Ht|].
  split; [apply (law_inflate_deflate Z HZ)|]. rewrite Ho, (F5 i s Hs).
  destruct (past_events sclones tr _ t i _ FW Ht) as [_ ->]. reflexivity.
Qed.

Theorem sfamily_reuse f tr k :
  sfamily C Z T f tr -> len tr < 2 ^ 64 -> sgood_writers tr ->
  (exists x, In x f /\ session_key (minimal x) = Some k) ->
  ((exists t1 t2 n, t1 <> t2 /\ n < 2 ^ 64 /\ swrote C Z k tr t1 n /\ swrote C Z k tr t2 n) <->
   (exists t1 t2, (t1 < t2)%nat /\ is_swrite tr t1 /\ is_swrite tr t2 /\ ~ In t1 (past tr t2))).
Proof.
  intros HF Hb Hg (x & Hx & Hk). destruct (sfamily_numbers f tr HF Hb) as (k0 & Hk0 & Hnum).
  assert (k = k0) as <- by (eapply Hk0; eassumption).
  pose proof (sf_wf _ _ (sfinv_family f tr HF Hb)) as HW.
  assert (forall t, is_swrite tr t -> N.of_nat (number tr t) < 2 ^ 64) as Hbn.
  { intros t (i & data & w & w' & Ht). assert (t < length tr)%nat by (apply nth_error_Some; congruence).
    pose proof (number_le sclones swritten tr _ t HW). unfold len in Hb. lia. }
  assert (forall t, counted swritten tr t <-> is_swrite tr t) as Hcw.
  { intros t. split.
    - intros (i & [c r] & Ht & He). destruct c; try discriminate. destruct r as [|[[]| |] w'| |]; try discriminate.
      unfold is_swrite. eauto.
    - intros (i & data & w & w' & Ht). eexists _, _. split; [exact Ht|reflexivity]. }
  assert (forall t, is_swrite tr t -> swrote C Z k tr t (N.of_nat (number tr t))) as Hwr.
  { intros t (i & data & w & w' & Ht).
    apply (Hnum t i data w w' Ht). eapply Hg, nth_error_In, Ht. }
  assert (forall t n, n < 2 ^ 64 -> swrote C Z k tr t n -> is_swrite tr t /\ n = N.of_nat (number tr t)) as Hwn.
  { intros t n Hn (i & data & w & w' & z & Ht & _ & Ho).
    assert (is_swrite tr t) as Hwt by (unfold is_swrite; eauto). split; [exact Hwt|].
    destruct (Hwr t Hwt) as (i1 & data1 & w1 & w1' & z1 & Ht1 & _ & Ho'). rewrite Ht in Ht1. injection Ht1 as <- <- <- <-.
    rewrite Ho in Ho'. apply app_inv_head in Ho'. apply (user_datagram_inj C HL) in Ho' as [-> _]; [reflexivity|exact Hn|auto]. }
  pose proof (number_clash sclones swritten tr _ HW) as [Hc1 Hc2]. split.
  - intros (t1 & t2 & n & Hne & Hn & H1 & H2). apply Hwn in H1 as [W1 N1]; [|exact Hn]. apply Hwn in H2 as [W2 N2]; [|exact Hn].
    destruct Hc1 as (u1 & u2 & U1 & U2 & U3 & U4).
    { exists t1, t2. split; [exact Hne|]. split; [apply Hcw, W1|]. split; [apply Hcw, W2|]. lia. }
    exists u1, u2. split; [exact U1|]. split; [apply Hcw, U2|]. split; [apply Hcw, U3|exact U4].
  - intros (t1 & t2 & Hl & W1 & W2 & Hnin). destruct Hc2 as (u1 & u2 & U1 & U2 & U3 & U4).
    { exists t1, t2. split; [exact Hl|]. split; [apply Hcw, W1|]. split; [apply Hcw, W2|exact Hnin]. }
    apply Hcw in U2, U3. exists u1, u2, (N.of_nat (number tr u1)). split; [exact U1|]. split; [auto|].
    split; [auto|]. rewrite U4. auto.
Qed.

(** ** Receiving *)
Lemma sub_short c cs : sub_calls c cs -> (length cs <= 2)%nat.
Proof. intros []; cbn; lia. Qed.

Lemma run_len m cs m' h : run C T m cs = (m', h) -> length h = length cs.
Proof.
  revert m h. induction cs as [|c cs IH]; intros m h E; cbn [run] in E; [injection E as _ <-; reflexivity|].
  destruct (call_step C T m c) as [m1 r] eqn:E1. destruct (run C T m1 cs) as [m2 h2] eqn:E2. injection E as -> <-.
  cbn [length]. rewrite (IH _ _ E2). reflexivity.
Qed.

Lemma run_calls m cs m' h : run C T m cs = (m', h) -> map fst h = cs.
Proof.
  revert m h. induction cs as [|c cs IH]; intros m h E; cbn [run] in E; [injection E as _ <-; reflexivity|].
  destruct (call_step C T m c) as [m1 r] eqn:E1. destruct (run C T m1 cs) as [m2 h2] eqn:E2. injection E as -> <-.
  cbn [map fst]. rewrite (IH _ _ E2). reflexivity.
Qed.

Lemma submitted_calls h : submitted h = flat_map (fun c => match c with CRead d => [d] | _ => [] end) (map fst h).
Proof. unfold submitted. induction h as [|[c r] h IH]; cbn; [reflexivity|]. rewrite IH. reflexivity. Qed.

Lemma sstep_window s c s' r :
  sreachable C Z T s -> scall_step C Z T s c = (s', r) ->
  used (minimal s) + len (tmp_stack_user_msgs (minimal s)) + 2 < 2 ^ 64 ->
  used (minimal s') + len (tmp_stack_user_msgs (minimal s')) <= used (minimal s) + len (tmp_stack_user_msgs (minimal s)) + 1 /\
  forall m, received (minimal s) m -> received (minimal s') m.
Proof.
  intros HR E Hb. destruct (scall_sub C Z T s c s' r E) as (cs & h & Hsub & Er).
  pose proof (sub_short _ _ Hsub) as Hsh. pose proof (run_len _ _ _ _ Er) as Hl.
  destruct (replay_free_gen C T HL _ _ _ _ (sreachable_minimal C Z T s HR) Er) as (ds0 & l & pend & Hd & []).
  { unfold len in *. lia. }
  split; [|exact li_mono].
  assert (length (submitted h) <= 1)%nat as Hs1.
  { rewrite submitted_calls, (run_calls _ _ _ _ Er). destruct Hsub; cbn; lia. }
  unfold len in *. lia.
Qed.

Lemma smember_used f tr : sfamily C Z T f tr -> len tr + 1 < 2 ^ 64 ->
  forall s, In s f -> used (minimal s) + len (tmp_stack_user_msgs (minimal s)) <= len tr.
Proof.
  induction 1 as [r rs cfg seed pin s Hc|f tr i s c s' r e HF IH Hs E Ee]; intros Hb.
  - intros x [<-|[]]. unfold sl_create in Hc.
    apply obind_Ok in Hc as (sd & _ & Hc). apply obind_Ok in Hc as (m & Hm & Hc).
    assert (minimal s = m) as -> by (injection Hc as <-; reflexivity || (apply obind_Ok in Hc as (? & _ & [= <-]); reflexivity)).
    destruct (created_fresh C _ _ _ _ Hm) as (F1 & F2 & F3 & _). unfold used. rewrite F1, F2, F3. cbn. lia.
  - rewrite len_app in *. change (len [(i, e)]) with 1 in *. specialize (IH ltac:(lia)).
    pose proof (sf_reach _ _ (sfinv_family f tr HF ltac:(lia)) s (nth_error_In _ _ Hs)) as HR.
    pose proof (IH s (nth_error_In _ _ Hs)) as Hu.
    destruct (sstep_window _ _ _ _ HR E ltac:(lia)) as [Hu' _].
    intros x Hx. apply In_nth_error in Hx as [j Hx].
    destruct (smember_snoc f i s c s' r j x Hs E ltac:(subst e; exact Hx)) as [(_ & _ & Hx')|[(_ & ->)|(_ & _ & Hcl)]].
    + specialize (IH x (nth_error_In _ _ Hx')). lia.
    + lia.
    + apply sclone_minimal, clone_fields in Hcl as (_ & _ & C3 & C4 & C5 & _). unfold used in *. rewrite C3, C4, C5. lia.
Qed.

Lemma uncompress_msgs_prefix l acc r : uncompress_msgs Z l acc = Ok r -> exists l', r = acc ++ l'.
Proof.
  revert acc. induction l as [|m l IH]; intros acc E; cbn [uncompress_msgs] in E.
  - injection E as <-. exists []. symmetry. apply app_nil_r.
  - destruct m as [| |o]; [exact (IH _ E)|exact (IH _ E)|]. apply obind_Ok in E as (x & _ & E).
    destruct (IH _ E) as [l' ->]. eexists. rewrite <- app_assoc. reflexivity.
Qed.

Lemma read_one s d s' x : read_bin C Z T d s = (s', Ok [IMessage x]) ->
  exists y, read C T d (minimal s) = (minimal s', Ok (Some (MMessage y))).
Proof.
  unfold read_bin. destruct (read C T d (minimal s)) as [m [[[a pk y|y|y]|]|e|p]] eqn:Er; try discriminate.
  - destruct (uncompress_opt Z y) as [cd| |]; try discriminate.
    destruct (take_ack_msg_recv_too_early C T m) as [m2 [[[? ? ?|z|?]|]|e|p]]; try discriminate.
    destruct (uncompress_opt Z z); discriminate.
  - destruct (uncompress_opt Z y) as [cd| |]; try discriminate.
    destruct (drain_tmp_stack_user_msgs C T m) as [m2 [l|e|p]]; try discriminate.
    intros [= _ E]. apply uncompress_msgs_prefix in E as [l' E]. discriminate.
  - intros [= <- _]. exists y. reflexivity.
Qed.

Lemma sdelivery_step s d s' x n data k :
  sreachable C Z T s -> used (minimal s) + 1 < 2 ^ 64 -> scall_step C Z T s (SRead d) = (s', SMsgs (Ok [IMessage x])) ->
  opens C T k d n data ->
  exists k', session_key (minimal s) = Some k' /\
    (k' = k -> ~ received (minimal s) n /\ received (minimal s') n).
Proof.
  intros HR Hb E Ho. cbn [scall_step] in E. destruct (read_bin C Z T d s) as [s1 o] eqn:Eb. injection E as -> ->.
  apply read_one in Eb as [y Er].
  destruct (read_user_step C T HL _ _ _ _ (inv_reachable C T _ (sreachable_minimal C Z T s HR)) Er Hb)
    as [k' n' data' Hk' Ho' _ Hnr Heq _ _ _ Hrv|? ? ? ? ? ? ? Heq|Hpan|Hno]; try discriminate.
  - exists k'. split; [exact Hk'|]. intros ->. destruct (opens_inj C T HL k d n data n' data' Ho Ho') as [-> _].
    split; [exact Hnr|]. apply Hrv. auto.
  - exfalso. eapply Hno. reflexivity.
Qed.

Lemma sreceived_key f tr t k n :
  sfamily C Z T f tr -> len tr + 1 < 2 ^ 64 -> sreceived_at C T k tr t n ->
  exists k1, forall x, In x f -> session_key (minimal x) = Some k1.
Proof.
  intros HF Hb (j & d & o & data & Hn & Ho).
  destruct (sfamily_at f tr t j _ _ HF ltac:(lia) Hn) as (f1 & s1 & s1' & HF1 & Hs1 & E1 & Hall).
  assert (len (firstn t tr) + 1 < 2 ^ 64) as Hlf by (unfold len in *; rewrite firstn_length; lia).
  pose proof (smember_used f1 _ HF1 Hlf s1 (nth_error_In _ _ Hs1)) as Hu.
  pose proof (sf_reach _ _ (sfinv_family f1 _ HF1 ltac:(lia)) s1 (nth_error_In _ _ Hs1)) as HR1.
  destruct (sdelivery_step _ _ _ _ _ _ _ HR1 ltac:(lia) E1 Ho) as (k' & Hk' & _).
  exists k'. apply Hall. eapply sstep_secret_mono; eassumption.
Qed.

Lemma sreceived_kept f tr : sfamily C Z T f tr -> len tr + 1 < 2 ^ 64 ->
  forall i s k t n, nth_error f i = Some s -> session_key (minimal s) = Some k -> In t (life tr i) ->
    sreceived_at C T k tr t n -> received (minimal s) n.
Proof.
  induction 1 as [r0 rs cfg seed pin s Hc|f tr i s c s' r e HF IH Hs E Ee]; intros Hb.
  { intros [|[|i]] s1 k t n Hs Hk Ht; cbn in Ht; destruct Ht. }
  rewrite len_app in Hb. change (len [(i, e)]) with 1 in Hb.
  specialize (IH ltac:(lia)). pose proof (sfinv_family f tr HF ltac:(lia)) as [FW FR (ko & K1 & _) _].
  pose proof (lives_ok sclones _ _ FW) as F1.
  assert (i < length f)%nat as Hi by (apply nth_error_Some; congruence).
  pose proof (life_snoc_cases sclones tr i e (length f) (lv_len _ _ _ F1) Hi) as [_ HB]. rewrite <- sborn_more in HB.
  pose proof (FR s (nth_error_In _ _ Hs)) as HR.
  pose proof (smember_used f tr HF ltac:(lia) s (nth_error_In _ _ Hs)) as Hus.
  destruct (sstep_window s c s' r HR E ltac:(lia)) as [_ Hmono].
  assert (forall k t n, (t < length tr)%nat -> sreceived_at C T k (tr ++ [(i, e)]) t n -> sreceived_at C T k tr t n) as Hold.
  { intros k t n Hlt (j & d & o & data & Ht & Ho). rewrite nth_error_app1 in Ht by exact Hlt. exists j, d, o, data. auto. }
  assert (forall j x, nth_error (replace i s' f ++ sborn e) j = Some x -> (j < length f + length (sborn e))%nat) as Hjlt.
  { intros j x Hx. rewrite <- (replace_length i s' f Hi), <- app_length. apply nth_error_Some. congruence. }
  assert (forall j t, (j < length f)%nat -> In t (life tr j) -> (t < length tr)%nat) as Hlt.
  { intros j t Hj Ht. pose proof (lv_lt _ _ _ F1 j Hj) as H. rewrite Forall_forall in H. auto. }
  assert (forall k t n, In t (life tr i ++ [length tr]) -> session_key (minimal s') = Some k ->
            sreceived_at C T k (tr ++ [(i, e)]) t n -> received (minimal s') n) as Hmine.
  { intros k t n Ht Hk Hrec. apply in_app_iff in Ht as [Ht|[<-|[]]].
    - apply Hmono. apply Hold in Hrec; [|eauto].
      destruct (sreceived_key f tr t k n HF ltac:(lia) Hrec) as [k1 Hk1]. specialize (Hk1 s (nth_error_In _ _ Hs)).
      pose proof (sstep_secret_mono _ _ _ _ _ HR E Hk1) as Hk2.
      assert (k1 = k) by congruence. subst k1. eapply IH; eassumption.
    - destruct Hrec as (j & d & o & data & Hn & Ho).
      rewrite nth_error_app2, Nat.sub_diag in Hn by lia. cbn [nth_error] in Hn. rewrite Ee in Hn. injection Hn as -> -> ->.
      destruct (sdelivery_step s d s' o n data k HR ltac:(lia) E Ho) as (k' & Hk' & H).
      pose proof (sstep_secret_mono _ _ _ _ _ HR E Hk') as Hk2. apply H. congruence. }
  intros j x k t n Hx Hk Ht Hrec. pose proof (Hjlt j x Hx) as Hj.
  destruct (smember_snoc f i s c s' r j x Hs E ltac:(subst e; exact Hx)) as [(Hne & Hj' & Hx')|[(-> & ->)|(-> & _ & Hcl)]].
  - destruct (HB j Hj) as [(_ & _ & Hlf)|[[-> | ->] _]]; [|congruence|lia]. rewrite Hlf in Ht.
    eapply IH; try eassumption. apply Hold; [eauto|exact Hrec].
  - destruct (HB i Hj) as [(_ & H & _)|[_ Hlf]]; [congruence|]. rewrite Hlf in Ht. eauto.
  - destruct (HB (length f) Hj) as [(H & _ & _)|[_ Hlf]]; [lia|]. rewrite Hlf in Ht.
    apply sclone_minimal, clone_fields in Hcl as (C1 & C2 & C3 & C4 & _). unfold received. rewrite C3, C4.
    eapply Hmine; [exact Ht| |exact Hrec]. congruence.
Qed.

Theorem sfamily_replay f tr k t1 t2 n :
  sfamily C Z T f tr -> len tr + 1 < 2 ^ 64 -> (exists x, In x f /\ session_key (minimal x) = Some k) -> (t1 < t2)%nat ->
  sreceived_at C T k tr t1 n -> sreceived_at C T k tr t2 n -> ~ In t1 (past tr t2).
Proof.
  intros HF Hb (x & Hx & Hkx) Hlt H1 (i & d & o & data & Hn & Ho) Hin.
  destruct (sfamily_at f tr t2 i _ _ HF ltac:(lia) Hn) as (f1 & s & s' & HF1 & Hs & E & Hall).
  destruct (past_events sclones tr _ t2 i _ (sf_wf _ _ (sfinv_family f tr HF ltac:(lia))) Hn) as [Hp _]. rewrite Hp in Hin.
  assert (len (firstn t2 tr) + 1 < 2 ^ 64) as Hlf by (unfold len in *; rewrite firstn_length; lia).
  pose proof (smember_used f1 _ HF1 Hlf s (nth_error_In _ _ Hs)) as Hus.
  pose proof (sf_reach _ _ (sfinv_family f1 _ HF1 ltac:(lia)) s (nth_error_In _ _ Hs)) as HR.
  destruct (sdelivery_step _ _ _ _ _ _ _ HR ltac:(lia) E Ho) as (k' & Hk & H).
  pose proof (Hall k' (sstep_secret_mono _ _ _ _ _ HR E Hk) x Hx) as Hk2.
  assert (k' = k) by congruence. subst k'. destruct (H eq_refl) as [Hnr _].
  apply Hnr. eapply (sreceived_kept f1 _ HF1 Hlf i s k t1 n (Hs) Hk Hin).
  destruct H1 as (i1 & d1 & o1 & data1 & Hn1 & Ho1). exists i1, d1, o1, data1.
  rewrite nth_error_firstn by exact Hlt. auto.
Qed.

Theorem sfamily_one_writer f tr k j :
  sfamily C Z T f tr -> len tr < 2 ^ 64 -> sgood_writers tr ->
  (exists x, In x f /\ session_key (minimal x) = Some k) ->
  (forall t i data w w', nth_error tr t = Some (i, (SWrite data w, SWritten (Ok tt) w')) -> i = j) ->
  forall t1 t2 n, n < 2 ^ 64 -> swrote C Z k tr t1 n -> swrote C Z k tr t2 n -> t1 = t2.
Proof.
  intros HF Hb Hg Hx Hj t1 t2 n Hn W1 W2. destruct (Nat.eq_dec t1 t2) as [|Hne]; [assumption|exfalso].
  destruct (sfamily_reuse f tr k HF Hb Hg Hx) as [H _].
  destruct H as (u1 & u2 & Hlt & (i1 & d1 & w1 & w1' & U1) & (i2 & d2 & w2 & w2' & U2) & Hnin).
  { exists t1, t2, n. auto. }
  assert (i1 = j) as -> by (eapply Hj, U1). assert (i2 = j) as -> by (eapply Hj, U2).
  apply Hnin. eapply own_past; [apply (sf_wf _ _ (sfinv_family f tr HF Hb))|exact Hlt|exact U1|exact U2].
Qed.

End WithEnv.

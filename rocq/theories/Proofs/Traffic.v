(** What a layer sends depends on its keys, the peer's ephemeral key and what it
    is asked to send only (C80). *)

From Verif.Model Require Import Complete.
From Verif.Spec Require Import Wire Datagram Trace ReadSpec Accept Session Writers CompleteTrace Machine CompleteMachine
  Attacks Traffic.
From Verif.Proofs Require Import BaseFacts Invariant ReadSpecFacts DatagramFacts Steps Machine CompleteMachine.

Lemma added_app w w' b : output w' = output w ++ b -> b <> [] -> added w w' = [b].
Proof.
  intros E Hb. unfold added. rewrite E, skipn_app, skipn_all, PeanoNat.Nat.sub_diag.
  cbn [app skipn]. destruct b; [contradiction|reflexivity].
Qed.

Lemma added_none w : added w w = [].
Proof. unfold added. rewrite skipn_all. reflexivity. Qed.

Section WithEnv.
Context (C : Crypto) (Z : Zip) (T : target) (HL : CryptoLaws C).

Lemma user_datagram_nonempty k n data : user_datagram C k n data <> [].
Proof.
  unfold user_datagram, seal. intros H. apply app_eq_nil in H as [_ H].
  pose proof (law_mac_len C HL (sk_key k) (sk_nonce k) (sk_aad k)
    (ciphertext C k (hashed C (user_frame n data)))) as E.
  rewrite H in E. discriminate E.
Qed.

(** The machine took in its CONNECT and keeps its ACK from [ds]. *)
Definition fed (pin : option bytes) (m : machine) (ds : list bytes) : Prop :=
  (forall epk, m_peer m = Some epk -> exists d, In d ds /\ offers C T pin d epk) /\
  (forall d, m_kept m = Some d -> In d ds) /\
  (forall k, pin = Some k -> m_key m = Some k).

(** The machine sent nothing and has the same keys. *)
Definition quiet (m m' : machine) : Prop :=
  m_private m' = m_private m /\ m_written m' = m_written m /\
  (forall epk, m_peer m = Some epk -> m_peer m' = Some epk).

Lemma quiet_refl m : quiet m m.
Proof. split; [reflexivity|]. split; [reflexivity|]. auto. Qed.
Ltac quietly := split; [reflexivity|]; split; [reflexivity|]; cbn; intros; assumption.
Lemma quiet_trans m1 m2 m3 : quiet m1 m2 -> quiet m2 m3 -> quiet m1 m3.
Proof.
  intros (A1 & B1 & D1) (A2 & B2 & D2). split; [congruence|]. split; [congruence|]. auto.
Qed.

Lemma fed_more pin m ds ds' : fed pin m ds -> (forall d, In d ds -> In d ds') -> fed pin m ds'.
Proof.
  intros (H1 & H2 & H3) Hi. split; [|split; [|exact H3]].
  - intros epk E. destruct (H1 epk E) as (d & Hd & Ho). eauto.
  - intros d E. auto.
Qed.

Lemma fed_same pin m m' ds :
  fed pin m ds -> m_peer m' = m_peer m -> m_kept m' = m_kept m -> m_key m' = m_key m -> fed pin m' ds.
Proof. unfold fed. intros H -> -> ->. exact H. Qed.

Lemma fed_keep pin m ds d :
  fed pin m ds -> (forall x, d = Some x -> In x ds) -> fed pin (keep d m) ds.
Proof. intros (H1 & _ & H3) Hi. split; [exact H1|]. split; [exact Hi|exact H3]. Qed.

Lemma fed_learn pin m ds pk :
  fed pin m ds -> m_key m = None \/ m_key m = Some pk -> fed pin (learn_key pk m) ds.
Proof.
  intros (H1 & H2 & H3) Hk. split; [exact H1|]. split; [exact H2|].
  intros k E. apply H3 in E. cbn. destruct Hk; congruence.
Qed.

Lemma fed_connect pin m ds d text L epk pk key :
  fed pin m ds -> In d ds -> datagram T C key d (DFrame text L (KConnect epk pk)) ->
  m_key m = None \/ m_key m = Some pk -> signed_by C T pk text L ->
  fed pin (take_connect epk (learn_key pk m)) ds.
Proof.
  intros HF Hd Hg Hk Hs. pose proof (fed_learn pin m ds pk HF Hk) as (H1 & H2 & H3).
  split; [|split; [exact H2|exact H3]].
  intros epk' E. cbn in E. injection E as <-. exists d. split; [exact Hd|].
  destruct (datagram_frame C T key d text L (KConnect epk pk) Hg) as (HL64 & _ & (th & rest & Et & Hh) & Hc).
  destruct Hc as [[_ ->]|[Hc _]]; [|discriminate Hc].
  inversion Hh as [|? ? r He Hp|]; subst. split; [exact He|].
  exists L, pk, rest. split; [exact HL64|]. split; [exact Hp|]. split; [reflexivity|]. split; [exact Hs|].
  destruct pin as [k|]; [|left; reflexivity]. right.
  rewrite <- (H3 k eq_refl). reflexivity.
Qed.

Lemma judged_fed pin m ds d text L k o m' key :
  fed pin m ds -> In d ds -> datagram T C key d (DFrame text L k) -> judged C T m d text L k o m' ->
  fed pin m' ds /\ quiet m m'.
Proof.
  intros HF Hd Hg HJ.
  destruct HJ; (split; [|first [apply quiet_refl
    |split; [reflexivity|]; split; [reflexivity|]; cbn; intros; first [assumption|congruence]]]);
    try exact HF;
    try (apply fed_learn; assumption);
    try (eapply fed_connect; eassumption);
    try (eapply fed_same; [exact HF|reflexivity..]).
  - apply fed_keep; [exact HF|]. intros x E. injection E as <-. exact Hd.
Qed.

Lemma reads_fed pin m ds d o m' :
  fed pin m ds -> In d ds -> reads C T m d o m' -> fed pin m' ds /\ quiet m m'.
Proof.
  intros HF Hd HR. destruct HR as [p _|e _|_|text L k o m' Hg HJ].
  - split; [exact HF|apply quiet_refl].
  - split; [eapply fed_same; [exact HF|reflexivity..]|quietly].
  - split; [eapply fed_same; [exact HF|reflexivity..]|quietly].
  - eapply judged_fed; eassumption.
Qed.

Lemma judged_user pin m ds d text L n o m' :
  fed pin m ds -> judged C T m d text L (KUser n) o m' -> fed pin m' ds /\ quiet m m'.
Proof.
  intros HF HJ. inversion HJ; subst; (split; [first [exact HF|eapply fed_same; [exact HF|reflexivity..]]|quietly]).
Qed.

Lemma drains_fed pin bs : forall m ds o m',
  fed pin m ds -> drains C T m bs o m' -> fed pin m' ds /\ quiet m m'.
Proof.
  induction bs as [|b bs IH]; intros m ds o m' HF HD; inversion HD; subst;
    try (split; [exact HF|apply quiet_refl]);
    match goal with HJ : judged _ _ _ _ _ _ _ _ ?m1 |- _ =>
      destruct (judged_user pin _ ds _ _ _ _ _ _ HF HJ) as [HF1 Q1] end;
    try (split; assumption);
    match goal with HD1 : drains _ _ ?m1 bs _ _ |- _ => destruct (IH _ _ _ _ HF1 HD1) as [HF2 Q2] end;
    (split; [exact HF2|eapply quiet_trans; eassumption]).
Qed.

(** One call. *)
Definition answers (peer : bytes) (m : machine) : Prop := m_peer m = None \/ m_peer m = Some peer.

Lemma quiet_answers peer m m' : quiet m m' -> answers peer m' -> answers peer m.
Proof.
  intros (_ & _ & Hq) Ha. unfold answers in *. destruct (m_peer m) as [e|]; [|auto].
  specialize (Hq e eq_refl). destruct Ha; [congruence|]. right. congruence.
Qed.

Lemma step_traffic pin m ds c r m' :
  fed pin m ds -> (forall data w, c = CWrite data w -> takes_all w) -> step C T m c r m' ->
  fed pin m' (ds ++ given (c, r)) /\
  m_private m' = m_private m /\ (forall epk, m_peer m = Some epk -> m_peer m' = Some epk) /\
  (Exists needs_peer (requested (c, r)) -> m_peer m' <> None) /\
  (forall peer l, answers peer m' ->
     emitted (c, r) ++ traffic C (m_private m) peer (m_written m') l =
     traffic C (m_private m) peer (m_written m) (requested (c, r) ++ l)).
Proof.
  intros HF Hw HS.
  assert (forall m1, quiet m m1 -> fed pin m1 (ds ++ given (c, r)) -> requested (c, r) = [] -> emitted (c, r) = [] ->
    fed pin m1 (ds ++ given (c, r)) /\
    m_private m1 = m_private m /\ (forall epk, m_peer m = Some epk -> m_peer m1 = Some epk) /\
    (Exists needs_peer (requested (c, r)) -> m_peer m1 <> None) /\
    (forall peer l, answers peer m1 ->
       emitted (c, r) ++ traffic C (m_private m) peer (m_written m1) l =
       traffic C (m_private m) peer (m_written m) (requested (c, r) ++ l))) as Hquiet.
  { intros m1 (Q1 & Q2 & Q3) F1 -> ->. split; [exact F1|]. split; [exact Q1|]. split; [exact Q3|].
    split; [intros H; inversion H|]. intros peer l _. rewrite Q2. reflexivity. }
  assert (forall ds', fed pin m (ds ++ ds')) as HF'.
  { intros ds'. eapply fed_more; [exact HF|]. intros x Hx. apply in_or_app. left. exact Hx. }
  destruct HS as [d o m' HR|Hk|d o m' Hk HR|o m' HD|pk cd Hf Hc|pk cd Hf Hc|pk cd Hf|epk cd Hf Hp Ha|cd Hf Ha|cd Hf
    |data w key w' Hf Hcm Hs Hi Ho|data w key io w' Hf Hcm Hs Hn He Hi|data w p Hf Hcm Hs|data w Hf Hcm|data w Hf
    |c Hf Hcm|Hf|cfg Hs|cfg Hs];
    try (apply Hquiet; [quietly|first [exact (HF' _)|eapply fed_same; [exact (HF' _)|reflexivity..]]|reflexivity|
      cbn [emitted]; first [reflexivity|apply added_none]]).
  - (* read *)
    destruct (reads_fed pin m (ds ++ [d]) d o m' (HF' [d])) as [F1 Q1]; [apply in_or_app; right; left; reflexivity|exact HR|].
    apply Hquiet; [exact Q1|exact F1|reflexivity|reflexivity].
  - (* the kept ACK *)
    destruct (reads_fed pin (keep None m) ds d o m') as [F1 Q1].
    + apply fed_keep; [exact HF|discriminate].
    + destruct HF as (_ & H2 & _). apply H2. exact Hk.
    + exact HR.
    + apply Hquiet; [exact Q1| |reflexivity|reflexivity]. cbn [given fst]. rewrite app_nil_r. exact F1.
  - (* drain *)
    destruct (drains_fed pin (m_early m) (hold [] m) ds o m') as [F1 Q1]; [|exact HD|].
    + eapply fed_same; [exact HF|reflexivity..].
    + apply Hquiet; [exact Q1| |reflexivity|reflexivity]. cbn [given fst]. rewrite app_nil_r. exact F1.
  - (* CONNECT *)
    split; [eapply fed_same; [exact (HF' _)|reflexivity..]|]. split; [reflexivity|]. split; [auto|].
    split; [intros H; cbn in H; inversion H as [? ? H1|? ? H1]; [destruct H1|inversion H1]|].
    intros peer l _. reflexivity.
  - (* ACK *)
    split; [eapply fed_same; [exact (HF' _)|reflexivity..]|]. split; [reflexivity|]. split; [auto|].
    split; [intros _; cbn; congruence|].
    intros peer l [E|E]; cbn in E; [congruence|]. assert (peer = epk) as -> by congruence. reflexivity.
  - (* user message *)
    split; [eapply fed_same; [exact (HF' _)|reflexivity..]|]. split; [reflexivity|]. split; [auto|].
    unfold secret in Hs. destruct (m_peer m) as [epk|] eqn:Ep; [|discriminate Hs].
    split; [intros _; cbn; congruence|].
    intros peer l [E|E]; cbn in E; [congruence|]. assert (peer = epk) as -> by congruence.
    cbn [requested emitted app traffic m_written count_written]. rewrite Hs.
    erewrite added_app; [reflexivity|apply Ho; left; eapply Hw; reflexivity|apply user_datagram_nonempty].
  - (* a write that fails in the writer: excluded *)
    exfalso. apply Hn. eapply Hw. reflexivity.
Qed.

Lemma shows_traffic pin h : forall m ds m',
  fed pin m ds -> good_writers (map fst h) -> shows C T m h m' ->
  fed pin m' (ds ++ flat_map given h) /\ m_private m' = m_private m /\
  (forall epk, m_peer m = Some epk -> m_peer m' = Some epk) /\
  (Exists needs_peer (flat_map requested h) -> m_peer m' <> None) /\
  (forall peer, answers peer m' ->
     flat_map emitted h = traffic C (m_private m) peer (m_written m) (flat_map requested h)).
Proof.
  induction h as [|[c r] h IH]; intros m ds m' HF Hg HS; inversion HS as [|? ? ? m1 ? ? H1 H2]; subst.
  - cbn [flat_map]. rewrite app_nil_r. split; [exact HF|]. split; [reflexivity|]. split; [auto|].
    split; [intros H; inversion H|reflexivity].
  - destruct (step_traffic pin m ds c r m1 HF) as (F1 & P1 & Q1 & N1 & E1); [|exact H1|].
    { intros data w ->. apply (Hg data w). left. reflexivity. }
    destruct (IH m1 _ m' F1) as (F2 & P2 & Q2 & N2 & E2); [|exact H2|].
    { intros data w Hin. apply (Hg data w). right. exact Hin. }
    cbn [flat_map]. rewrite app_assoc. split; [exact F2|]. split; [congruence|]. split; [auto|]. split.
    + intros H. apply Exists_app in H as [H|H]; [|exact (N2 H)].
      specialize (N1 H). destruct (m_peer m1) as [e|] eqn:E; [|contradiction]. rewrite (Q2 e eq_refl). discriminate.
    + intros peer Ha. rewrite <- E1.
      * f_equal. rewrite (E2 peer Ha), P1. reflexivity.
      * unfold answers in *. destruct (m_peer m1) as [e|]; [|left; reflexivity]. rewrite (Q2 e eq_refl) in Ha. exact Ha.
Qed.

Lemma fed_new pin private : fed pin (new_machine private pin) [].
Proof. split; [discriminate|]. split; [discriminate|]. intros k E. exact E. Qed.

Theorem traffic_of private cfg pin s0 cs s h :
  create C (RngKey private) cfg pin = Ok s0 -> run C T s0 cs = (s, h) -> good_writers cs -> len h < 2 ^ 64 ->
  exists peer,
    flat_map emitted h = traffic C private peer 0 (flat_map requested h) /\
    (Exists needs_peer (flat_map requested h) -> exists d, In (CRead d) cs /\ offers C T pin d peer).
Proof.
  intros Hc E Hg Hl.
  pose proof (run_calls C T cs s0 s h E) as Hcs.
  destruct (machine_refinement C T HL s0 (new_machine private pin) 0 cs s h) as (m & Hs & _).
  { eapply em_create. exact Hc. } { exact E. } { exact Hl. }
  destruct (shows_traffic pin h _ [] m (fed_new pin private)) as ((F1 & _) & _ & _ & N1 & E1).
  { rewrite Hcs. exact Hg. } { exact Hs. }
  exists (match m_peer m with Some e => e | None => [] end). split.
  - apply E1. unfold answers. destruct (m_peer m); [right|left]; reflexivity.
  - intros H. specialize (N1 H). destruct (m_peer m) as [e|]; [|contradiction].
    destruct (F1 e eq_refl) as (d & Hd & Ho). exists d. split; [|exact Ho].
    cbn [app] in Hd. apply in_flat_map in Hd as ([c r] & Hin & Hd). rewrite <- Hcs.
    destruct c; cbn in Hd; try contradiction. destruct Hd as [<-|[]].
    apply in_map_iff. exists (CRead incoming, r). split; [reflexivity|exact Hin].
Qed.

(** ** Complete mode *)

Lemma silent_step pin m ds c r m' :
  c = CTakeAck \/ c = CDrain -> fed pin m ds -> step C T m c r m' -> fed pin m' ds /\ quiet m m'.
Proof.
  intros Hc HF HS. destruct HS as [| |d o m' Hk HR|o m' HD| | | | | | | | | | | | | | |];
    try (destruct Hc; discriminate).
  - split; [exact HF|apply quiet_refl].
  - destruct (reads_fed pin (keep None m) ds d o m') as [F1 Q1]; [|destruct HF as (_ & K & _); apply K; exact Hk|exact HR|].
    + apply fed_keep; [exact HF|discriminate].
    + split; [exact F1|exact Q1].
  - destruct (drains_fed pin (m_early m) (hold [] m) ds o m') as [F1 Q1]; [|exact HD|].
    + eapply fed_same; [exact HF|reflexivity..].
    + split; [exact F1|exact Q1].
Qed.

Lemma sreads_fed pin m ds d o m' :
  fed pin m ds -> In d ds -> sreads C Z T m d o m' -> fed pin m' ds /\ quiet m m'.
Proof.
  intros HF Hd HR.
  assert (forall o1 m1, reads C T m d o1 m1 -> fed pin m1 ds /\ quiet m m1) as R1.
  { intros o1 m1 H. eapply reads_fed; eassumption. }
  destruct HR as [e m1 H|p m1 H|m1 H|y z m1 H _|c i m1 H _|a pk c i m1 o m2 r H _ HS _|c i m1 o m2 r H _ HS _];
    destruct (R1 _ _ H) as [F1 Q1]; try (split; assumption).
  - destruct (silent_step pin m1 ds _ _ m2 (or_introl eq_refl) F1 HS) as [F2 Q2].
    split; [exact F2|eapply quiet_trans; eassumption].
  - destruct (silent_step pin m1 ds _ _ m2 (or_intror eq_refl) F1 HS) as [F2 Q2].
    split; [exact F2|eapply quiet_trans; eassumption].
Qed.

Definition swriter (c : scall) (w : bufwriter) : Prop :=
  match c with SConnect _ w' | SAck _ w' | SWrite _ w' => w = w' | _ => False end.

Lemma sstep_traffic pin x ds c r x' seed :
  fed pin (sm_layer x) ds -> sm_seed x = Some seed -> (forall w, swriter c w -> takes_all w) ->
  sstep C Z T x c r x' ->
  fed pin (sm_layer x') (ds ++ sgiven (c, r)) /\ sm_seed x' = Some seed /\
  m_private (sm_layer x') = m_private (sm_layer x) /\
  (forall epk, m_peer (sm_layer x) = Some epk -> m_peer (sm_layer x') = Some epk) /\
  (Exists sneeds_peer (srequested (c, r)) -> m_peer (sm_layer x') <> None) /\
  (forall peer l, answers peer (sm_layer x') ->
     semitted (c, r) ++
     straffic C Z (m_private (sm_layer x)) seed peer (sm_config x') (m_written (sm_layer x')) l =
     straffic C Z (m_private (sm_layer x)) seed peer (sm_config x) (m_written (sm_layer x)) (srequested (c, r) ++ l)).
Proof.
  intros HF Hs Hw HS.
  assert (forall ds', fed pin (sm_layer x) (ds ++ ds')) as HF'.
  { intros ds'. eapply fed_more; [exact HF|]. intros y Hy. apply in_or_app. left. exact Hy. }
  assert (forall x1, quiet (sm_layer x) (sm_layer x1) -> fed pin (sm_layer x1) (ds ++ sgiven (c, r)) ->
    sm_seed x1 = sm_seed x -> sm_config x1 = sm_config x ->
    srequested (c, r) = [] -> semitted (c, r) = [] ->
    fed pin (sm_layer x1) (ds ++ sgiven (c, r)) /\ sm_seed x1 = Some seed /\
    m_private (sm_layer x1) = m_private (sm_layer x) /\
    (forall epk, m_peer (sm_layer x) = Some epk -> m_peer (sm_layer x1) = Some epk) /\
    (Exists sneeds_peer (srequested (c, r)) -> m_peer (sm_layer x1) <> None) /\
    (forall peer l, answers peer (sm_layer x1) ->
       semitted (c, r) ++
       straffic C Z (m_private (sm_layer x)) seed peer (sm_config x1) (m_written (sm_layer x1)) l =
       straffic C Z (m_private (sm_layer x)) seed peer (sm_config x) (m_written (sm_layer x)) (srequested (c, r) ++ l)))
    as Hquiet.
  { intros x1 (Q1 & Q2 & Q3) F1 S1 G1 -> ->. split; [exact F1|]. split; [congruence|]. split; [exact Q1|].
    split; [exact Q3|]. split; [intros H; inversion H|]. intros peer l _. rewrite Q2, G1. reflexivity. }
  assert (forall t sg w w' o, posted w t sg o w' -> takes_all w -> t <> [] -> o = Ok tt /\ added w w' = [t ++ sg]) as Hpost.
  { intros t sg w w' o (_ & _ & Hp) Ht Hn. destruct (Hp Ht) as [-> Ho]. split; [reflexivity|].
    apply added_app; [exact Ho|]. intros H. apply app_eq_nil in H as [H _]. contradiction. }
  destruct HS as [d o m' HR|sd cd w t m' o w' Es HS HP|sd cd w e m' Es HS|cd w Es
    |sd cd w t m' o w' Es HS HP|sd cd w e m' Es HS|cd w Es|data w o w' m' HS|c m' HS|e m' HS|cfg HS|cfg e HS];
    try congruence.
  - destruct (sreads_fed pin (sm_layer x) (ds ++ [d]) d o m' (HF' [d])) as [F1 Q1];
      [apply in_or_app; right; left; reflexivity|exact HR|].
    apply Hquiet; first [exact Q1|exact F1|reflexivity].
  - assert (sd = seed) as -> by congruence. inversion HS; subst.
    destruct (Hpost _ _ _ _ _ HP) as [-> Ha]; [apply Hw; reflexivity|discriminate|].
    split; [eapply fed_same; [exact (HF' _)|reflexivity..]|]. split; [exact Hs|]. split; [reflexivity|]. split; [auto|].
    split; [intros H; inversion H as [? ? H1|? ? H1]; [destruct H1|inversion H1]|].
    intros peer l _. cbn [semitted]. rewrite Ha. reflexivity.
  - inversion HS; subst; apply Hquiet; first [quietly|exact (HF' _)|reflexivity|cbn [semitted]; apply added_none].
  - assert (sd = seed) as -> by congruence. inversion HS as [| | | | | | |epk ? Hf Hp Hn| | | | | | | | | | |]; subst.
    destruct (Hpost _ _ _ _ _ HP) as [-> Ha]; [apply Hw; reflexivity|discriminate|].
    split; [eapply fed_same; [exact (HF' _)|reflexivity..]|]. split; [exact Hs|]. split; [reflexivity|]. split; [auto|].
    split; [intros _; cbn; congruence|].
    intros peer l [E|E]; cbn in E; [congruence|]. assert (peer = epk) as -> by congruence.
    cbn [semitted]. rewrite Ha. reflexivity.
  - inversion HS; subst; apply Hquiet; first [quietly|exact (HF' _)|reflexivity|cbn [semitted]; apply added_none].
  - assert (takes_all w) as Ht by (apply Hw; reflexivity).
    inversion HS as [| | | | | | | | | |data' w0 key w1 Hf Hcm Hk Hi Ho|data' w0 key io w1 Hf Hcm Hk Hn| | | | | | |]; subst.
    + split; [eapply fed_same; [exact (HF' _)|reflexivity..]|]. split; [exact Hs|]. split; [reflexivity|]. split; [auto|].
      unfold secret in Hk. destruct (m_peer (sm_layer x)) as [epk|] eqn:Ep; [|discriminate Hk].
      split; [intros _; cbn; congruence|].
      intros peer l [E|E]; cbn in E; [congruence|]. assert (peer = epk) as -> by congruence.
      cbn [srequested semitted app straffic sm_config sm_layer with_layer m_written count_written]. rewrite Hk.
      erewrite added_app; [reflexivity|apply Ho; left; exact Ht|apply user_datagram_nonempty].
    + contradiction.
    + apply Hquiet; first [quietly|exact (HF' _)|reflexivity|cbn [semitted]; apply added_none].
    + apply Hquiet; first [quietly|eapply fed_same; [exact (HF' _)|reflexivity..]|reflexivity|cbn [semitted]; apply added_none].
    + apply Hquiet; first [quietly|exact (HF' _)|reflexivity|cbn [semitted]; apply added_none].
  - inversion HS; subst; apply Hquiet; first [quietly|eapply fed_same; [exact (HF' _)|reflexivity..]|reflexivity].
  - inversion HS; subst; apply Hquiet; first [quietly|exact (HF' _)|reflexivity].
  - split; [exact (HF' _)|]. split; [exact Hs|]. split; [reflexivity|]. split; [auto|].
    split; [intros H; inversion H as [? ? H1|? ? H1]; [destruct H1|inversion H1]|]. reflexivity.
  - apply Hquiet; first [quietly|exact (HF' _)|reflexivity].
Qed.

Lemma sshows_traffic pin seed h : forall x ds x',
  fed pin (sm_layer x) ds -> sm_seed x = Some seed -> sgood_writers (map fst h) -> sshows C Z T x h x' ->
  fed pin (sm_layer x') (ds ++ flat_map sgiven h) /\ m_private (sm_layer x') = m_private (sm_layer x) /\
  (forall epk, m_peer (sm_layer x) = Some epk -> m_peer (sm_layer x') = Some epk) /\
  (Exists sneeds_peer (flat_map srequested h) -> m_peer (sm_layer x') <> None) /\
  (forall peer, answers peer (sm_layer x') ->
     flat_map semitted h =
     straffic C Z (m_private (sm_layer x)) seed peer (sm_config x) (m_written (sm_layer x)) (flat_map srequested h)).
Proof.
  induction h as [|[c r] h IH]; intros x ds x' HF Hs Hg HS; inversion HS as [|? ? ? x1 ? ? H1 H2]; subst.
  - cbn [flat_map]. rewrite app_nil_r. split; [exact HF|]. split; [reflexivity|]. split; [auto|].
    split; [intros H; inversion H|reflexivity].
  - destruct (sstep_traffic pin x ds c r x1 seed HF Hs) as (F1 & S1 & P1 & Q1 & N1 & E1); [|exact H1|].
    { intros w Hw. destruct (Hg w) as [G1 G2].
      destruct c; cbn [swriter] in Hw; try contradiction; subst.
      - eapply G1. left. left. reflexivity.
      - eapply G1. right. left. reflexivity.
      - eapply G2. left. reflexivity. }
    destruct (IH x1 _ x' F1 S1) as (F2 & P2 & Q2 & N2 & E2); [|exact H2|].
    { intros w. destruct (Hg w) as [G1 G2]. split.
      - intros y [Hin|Hin]; apply (G1 y); [left|right]; right; exact Hin.
      - intros y Hin. apply (G2 y). right. exact Hin. }
    cbn [flat_map]. rewrite app_assoc. split; [exact F2|]. split; [congruence|]. split; [auto|]. split.
    + intros H. apply Exists_app in H as [H|H]; [|exact (N2 H)].
      specialize (N1 H). destruct (m_peer (sm_layer x1)) as [e|] eqn:E; [|contradiction].
      rewrite (Q2 e eq_refl). discriminate.
    + intros peer Ha. rewrite <- E1.
      * f_equal. rewrite (E2 peer Ha), P1. reflexivity.
      * unfold answers in *. destruct (m_peer (sm_layer x1)) as [e|]; [|left; reflexivity].
        rewrite (Q2 e eq_refl) in Ha. exact Ha.
Qed.

Lemma srun_calls cs : forall s s' h, srun C Z T s cs = (s', h) -> map fst h = cs.
Proof.
  induction cs as [|c cs IH]; intros s s' h E; cbn [srun] in E; [injection E as <- <-; reflexivity|].
  destruct (scall_step C Z T s c) as [s1 r]. destruct (srun C Z T s1 cs) as [s2 h1] eqn:E1.
  injection E as <- <-. cbn [map fst]. f_equal. eapply IH. exact E1.
Qed.

Theorem straffic_of private rs cfg given expected seed s0 cs s h :
  sl_create C (RngKey private) rs cfg given expected = Ok s0 ->
  given = Some seed \/ given = None /\ rs = Some seed ->
  srun C Z T s0 cs = (s, h) -> sgood_writers cs -> 2 * len h < 2 ^ 64 ->
  exists peer,
    flat_map semitted h = straffic C Z private seed peer cfg 0 (flat_map srequested h) /\
    (Exists sneeds_peer (flat_map srequested h) -> exists d, In (SRead d) cs /\ offers C T expected d peer).
Proof.
  intros Hc Hsd E Hg Hl.
  pose proof (srun_calls cs s0 s h E) as Hcs.
  destruct (smachine_refinement C Z T HL s0 (new_smachine private seed expected cfg) 0 cs s h) as (x & Hs & _).
  { eapply se_create; eassumption. } { exact E. } { exact Hl. }
  destruct (sshows_traffic expected seed h (new_smachine private seed expected cfg) [] x) as ((F1 & _) & _ & _ & N1 & E1).
  { apply fed_new. } { reflexivity. } { rewrite Hcs. exact Hg. } { exact Hs. }
  exists (match m_peer (sm_layer x) with Some e => e | None => [] end). split.
  - apply E1. unfold answers. destruct (m_peer (sm_layer x)); [right|left]; reflexivity.
  - intros H. specialize (N1 H). destruct (m_peer (sm_layer x)) as [e|]; [|contradiction].
    destruct (F1 e eq_refl) as (d & Hd & Ho). exists d. split; [|exact Ho].
    cbn [app] in Hd. apply in_flat_map in Hd as ([c r] & Hin & Hd). rewrite <- Hcs.
    destruct c; cbn in Hd; try contradiction. destruct Hd as [<-|[]].
    apply in_map_iff. exists (SRead incoming, r). split; [reflexivity|exact Hin].
Qed.

(** Without a peer, the peer's key does not matter. *)
Lemma traffic_no_peer private p p' l : forall n,
  ~ Exists needs_peer l -> traffic C private p n l = traffic C private p' n l.
Proof.
  induction l as [|q l IH]; intros n H; [reflexivity|].
  destruct q; [|exfalso; apply H; left; exact I..]. cbn [traffic]. f_equal. apply IH. intros H'. apply H. right. exact H'.
Qed.
Lemma straffic_no_peer private seed p p' l : forall cfg n,
  ~ Exists sneeds_peer l -> straffic C Z private seed p cfg n l = straffic C Z private seed p' cfg n l.
Proof.
  induction l as [|q l IH]; intros cfg n H; [reflexivity|].
  assert (~ Exists sneeds_peer l) as H' by (intros H'; apply H; right; exact H').
  destruct q; try (exfalso; apply H; left; exact I); cbn [straffic]; [f_equal|]; apply IH; exact H'.
Qed.

Lemma needs_dec l : Exists needs_peer l \/ ~ Exists needs_peer l.
Proof.
  induction l as [|q l [IH|IH]]; [right; intros H; inversion H|left; right; exact IH|].
  destruct q; [|left; left; exact I..]. right. intros H. inversion H; subst; [assumption|contradiction].
Qed.
Lemma sneeds_dec l : Exists sneeds_peer l \/ ~ Exists sneeds_peer l.
Proof.
  induction l as [|q l [IH|IH]]; [right; intros H; inversion H|left; right; exact IH|].
  destruct q; try (left; left; exact I); right; intros H; inversion H; subst; [assumption|contradiction|assumption|contradiction].
Qed.

Theorem same_traffic private cfg1 cfg2 pin1 pin2 s1 s2 cs1 cs2 s1' s2' h1 h2 :
  create C (RngKey private) cfg1 pin1 = Ok s1 -> run C T s1 cs1 = (s1', h1) -> good_writers cs1 -> len h1 < 2 ^ 64 ->
  create C (RngKey private) cfg2 pin2 = Ok s2 -> run C T s2 cs2 = (s2', h2) -> good_writers cs2 -> len h2 < 2 ^ 64 ->
  (forall d1 d2 e1 e2, In (CRead d1) cs1 -> offers C T pin1 d1 e1 -> In (CRead d2) cs2 -> offers C T pin2 d2 e2 -> e1 = e2) ->
  flat_map requested h1 = flat_map requested h2 -> flat_map emitted h1 = flat_map emitted h2.
Proof.
  intros Hc1 E1 G1 L1 Hc2 E2 G2 L2 Hp Hq.
  destruct (traffic_of _ _ _ _ _ _ _ Hc1 E1 G1 L1) as (p1 & T1 & P1).
  destruct (traffic_of _ _ _ _ _ _ _ Hc2 E2 G2 L2) as (p2 & T2 & P2).
  rewrite T1, T2, Hq. destruct (needs_dec (flat_map requested h2)) as [N|N]; [|apply traffic_no_peer; exact N].
  destruct (P2 N) as (d2 & I2 & O2). rewrite <- Hq in N. destruct (P1 N) as (d1 & I1 & O1).
  rewrite (Hp _ _ _ _ I1 O1 I2 O2). reflexivity.
Qed.

Theorem same_straffic private seed cfg rs1 rs2 given1 given2 pin1 pin2 s1 s2 cs1 cs2 s1' s2' h1 h2 :
  sl_create C (RngKey private) rs1 cfg given1 pin1 = Ok s1 -> given1 = Some seed \/ given1 = None /\ rs1 = Some seed ->
  srun C Z T s1 cs1 = (s1', h1) -> sgood_writers cs1 -> 2 * len h1 < 2 ^ 64 ->
  sl_create C (RngKey private) rs2 cfg given2 pin2 = Ok s2 -> given2 = Some seed \/ given2 = None /\ rs2 = Some seed ->
  srun C Z T s2 cs2 = (s2', h2) -> sgood_writers cs2 -> 2 * len h2 < 2 ^ 64 ->
  (forall d1 d2 e1 e2, In (SRead d1) cs1 -> offers C T pin1 d1 e1 -> In (SRead d2) cs2 -> offers C T pin2 d2 e2 -> e1 = e2) ->
  flat_map srequested h1 = flat_map srequested h2 -> flat_map semitted h1 = flat_map semitted h2.
Proof.
  intros Hc1 S1 E1 G1 L1 Hc2 S2 E2 G2 L2 Hp Hq.
  destruct (straffic_of _ _ _ _ _ _ _ _ _ _ Hc1 S1 E1 G1 L1) as (p1 & T1 & P1).
  destruct (straffic_of _ _ _ _ _ _ _ _ _ _ Hc2 S2 E2 G2 L2) as (p2 & T2 & P2).
  rewrite T1, T2, Hq. destruct (sneeds_dec (flat_map srequested h2)) as [N|N]; [|apply straffic_no_peer; exact N].
  destruct (P2 N) as (d2 & I2 & O2). rewrite <- Hq in N. destruct (P1 N) as (d1 & I1 & O1).
  rewrite (Hp _ _ _ _ I1 O1 I2 O2). reflexivity.
Qed.

(** What a CONNECT that may be taken in looks like. *)
Lemma offers_shape pin d epk : offers C T pin d epk ->
  firstn 4 d = magic /\ firstn 2 (skipn 16 d) = [x00; x01] /\ epk = firstn 32 (skipn 18 d) /\
  (pin = None \/ pin = Some (firstn 32 (skipn 54 d))).
Proof.
  intros (He & L & pk & rest & _ & Hp & -> & _ & Hpin).
  assert (length epk = 32)%nat as He' by (apply (length_of_len epk 32); exact He).
  assert (length pk = 32)%nat as Hp' by (apply (length_of_len pk 32); exact Hp).
  clear He Hp.
  do 32 (destruct epk as [|? epk]; [discriminate He'|]). destruct epk; [|discriminate He'].
  do 32 (destruct pk as [|? pk]; [discriminate Hp'|]). destruct pk; [|discriminate Hp'].
  cbn. auto.
Qed.

(** An observer who also sends: the stranger's CONNECT. *)
Theorem probe private cfg k s1 s2 seed epk cd :
  create C (RngKey private) cfg (Some k) = Ok s1 -> create C (RngKey private) cfg None = Ok s2 ->
  k <> ed25519_public C seed -> length epk = 32%nat -> derived_secret C private epk <> None ->
  86 + len cd < 2 ^ usize_bits T ->
  map snd (snd (run C T s1 [CRead (signed_connect C seed epk cd); CAck None])) =
    [RMsg (Err UnexpectedRemoteSigPubKey); RBytes (Err ForbidWriteAckMsgNow)] /\
  map snd (snd (run C T s2 [CRead (signed_connect C seed epk cd); CAck None])) =
    [RMsg (Ok (Some (MConnect [x00; x00; x00; x00] (ed25519_public C seed) (nonempty cd))));
     RBytes (Ok (ack_frame (sha256 C epk) []))].
Proof.
  intros H1 H2 Hk He Hd Hb.
  destruct (derived_secret C private epk) as [key|] eqn:Ek; [|contradiction]. clear Hd.
  split.
  - pose proof (inv_create C T _ _ _ _ H1) as HI.
    cbn [run call_step]. destruct (read C T (signed_connect C seed epk cd) s1) as [s' o] eqn:E.
    apply (read_connect_result C T HL s1 HI _ _ _ _ _ _ _ (connect_is_datagram C T HL s1 seed epk cd He Hb)) in E.
    assert (~ key_acceptable s1 (ed25519_public C seed)) as Hka.
    { cbn in H1. injection H1 as <-. intros [H|H]; cbn in H; congruence. }
    destruct E; try contradiction.
    cbn in H1. injection H1 as <-. reflexivity.
  - pose proof (inv_create C T _ _ _ _ H2) as HI. cbn [run call_step].
    assert (Inv C T (fst (call_step C T s2 (CRead (signed_connect C seed epk cd))))) as HI'.
    { apply (inv_reachable C T). apply reach_step. eapply reach_create. exact H2. }
    cbn [call_step] in HI'.
    assert (read C T (signed_connect C seed epk cd) s2 = (after_connect Created epk (ed25519_public C seed) key s2,
      Ok (Some (MConnect [x00; x00; x00; x00] (ed25519_public C seed) (nonempty cd))))) as F.
    { apply (read_connect_fwd C T HL s2 private Created seed epk cd key HI); try assumption.
      - left. cbn in H2. injection H2 as <-. reflexivity.
      - cbn in H2. injection H2 as <-. reflexivity.
      - intros kp Hkp. cbn in H2. injection H2 as <-. cbn in Hkp. injection Hkp as <-. reflexivity. }
    rewrite F in HI' |- *.
    cbn [fst] in HI'. destruct (create_ack_message C None _) as [s' o] eqn:E.
    apply (create_ack_cases C T) in E as [(st & e & _ & _ & Hp & ->)|(_ & e & _ & Ha)]; [| |exact HI'].
    + cbn in Hp. injection Hp as <-. reflexivity.
    + cbn in Ha. discriminate Ha.
Qed.

End WithEnv.

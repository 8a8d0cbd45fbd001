(** Authentication in complete mode (C64), through the projection to the layer
    inside. *)

From Coq Require Import Arith ZifyBool ZifyNat ZifyN.
From Verif.Model Require Import Complete.
From Verif.Spec Require Import Wire Datagram Trace ReadSpec Accept Session Writers Attacks Adversary CompleteTrace
  Projection CompleteAdversary.
From Verif.Proofs Require Import BaseFacts IoFacts CipherFacts ReaderFacts ReadCases WindowFacts Invariant
  Negotiation Failure DatagramFacts ReadSpecFacts Accept Keys TraceInv UserReads Ledger Nonces Sending Early
  Histories Corollaries DevErrors CompleteFacts CompleteMode CompleteStates Adversary Projection.

Section WithEnv.
Context (C : Crypto) (Z : Zip) (T : target) (HL : CryptoLaws C) (HZ : ZipLaws Z).

(** ** The layer inside *)
Definition inner (b : ssession) (i : session) (hs : list history) : Prop :=
  ses_sk i = ss_sk b /\ ses_pin i = ss_pin b /\ ses_state i = minimal (ss_state b) /\
  ses_log i = concat hs /\ Forall2 (projects C Z (ss_seed b)) (ss_log b) hs.

Lemma inner_exists b : sgenuine C Z T b -> exists i hs, inner b i hs /\ genuine C T i.
Proof.
  intros (rs & given & s0 & cs & Hg & Hc & E).
  destruct (projection C Z T HL HZ _ _ _ _ _ _ _ _ _ Hc E) as (seed & hs & Hs & Hp & H1 & H2).
  assert (seed = ss_seed b) as -> by (destruct Hg as [->|[-> ->]], Hs as [H|[H H']]; congruence).
  exists {| ses_sk := ss_sk b; ses_conf := ss_conf b; ses_pin := ss_pin b;
            ses_state := minimal (ss_state b); ses_log := concat hs |}, hs.
  split; [repeat split; auto|]. exists (minimal s0), (map fst (concat hs)). split; [exact H1|exact H2].
Qed.

Lemma forall2_in_l {A B} (R : A -> B -> Prop) l m x :
  Forall2 R l m -> In x l -> exists y, In y m /\ R x y.
Proof.
  induction 1 as [|a b l m H1 H2 IH]; intros Hi; [contradiction|].
  destruct Hi as [->|Hi]; [exists b; split; [left; reflexivity|exact H1]|].
  destruct (IH Hi) as (y & Hy & Hr). exists y. split; [right; exact Hy|exact Hr].
Qed.
Lemma forall2_in_r {A B} (R : A -> B -> Prop) l m y :
  Forall2 R l m -> In y m -> exists x, In x l /\ R x y.
Proof.
  induction 1 as [|a b l m H1 H2 IH]; intros Hi; [contradiction|].
  destruct Hi as [->|Hi]; [exists a; split; [left; reflexivity|exact H1]|].
  destruct (IH Hi) as (x & Hx & Hr). exists x. split; [right; exact Hx|exact Hr].
Qed.

Lemma submitted_app h1 h2 : submitted (h1 ++ h2) = submitted h1 ++ submitted h2.
Proof. apply flat_map_app. Qed.

Lemma reads_submitted d h : reads d h -> submitted h = [d].
Proof. intros []; reflexivity. Qed.

Lemma projects_submitted seed c r h d :
  projects C Z seed (c, r) h -> In d (submitted h) -> c = SRead d.
Proof.
  intros H Hd.
  inversion H; subst; try (cbn in Hd; contradiction);
    match goal with H : reads _ _ |- _ => rewrite (reads_submitted _ _ H) in Hd end;
    destruct Hd as [->|[]]; reflexivity.
Qed.

Lemma inner_submitted b i hs d : inner b i hs -> In d (submitted (ses_log i)) -> sread (ss_log b) d.
Proof.
  intros (_ & _ & _ & El & Hf) Hd. rewrite El in Hd. apply in_flat_map in Hd as (e & He & Hd).
  apply in_concat in He as (h & Hh & He).
  destruct (forall2_in_r _ _ _ _ Hf Hh) as ([c r] & Hi & Hp).
  assert (In d (submitted h)) as Hs by (apply in_flat_map; exists e; auto).
  apply (projects_submitted _ _ _ _ _ Hp) in Hs. subst c. exists r. exact Hi.
Qed.

(** What was returned was delivered inside. *)
Lemma inner_returned b i hs m : inner b i hs -> sreturned (ss_log b) m ->
  exists e m0, In e (ses_log i) /\ In m0 (delivered (snd e)) /\ decodes Z m0 m.
Proof.
  intros (_ & _ & _ & El & Hf) (d & l & Hi & Hm).
  destruct (forall2_in_l _ _ _ _ Hf Hi) as (h & Hh & Hp).
  inversion Hp as [d' h' l' _ _ _ _ Hd| | | | | | | | | | | | | |]; subst.
  destruct (forall2_in_r _ _ _ _ Hd Hm) as (m0 & H0 & Hr).
  apply in_flat_map in H0 as (e & He & H0). exists e, m0. split; [|auto].
  rewrite El. apply in_concat. exists h. auto.
Qed.

Lemma inner_peer b i hs pk : inner b i hs -> speer_is b pk -> peer_is i pk.
Proof.
  intros Hi [H|[x H]].
  - left. destruct Hi as (_ & -> & _). exact H.
  - right. destruct (inner_returned _ _ _ _ Hi H) as (e & m0 & H1 & H2 & H3).
    destruct m0 as [al k o| |]; cbn in H3; try contradiction. destruct H3 as [<- _]. eauto.
Qed.

(** What was put in a writer was created inside. *)
Lemma sign_text seed t t' : t ++ ed25519_sign C seed t = t' ++ ed25519_sign C seed t' -> t = t'.
Proof.
  intros E. apply (f_equal (@rev byte)) in E. rewrite !rev_app_distr in E.
  apply app_inv_len in E as [_ E].
  - rewrite <- (rev_involutive t), E. apply rev_involutive.
  - rewrite !rev_length, !(law_ed25519_sign_len C HL). reflexivity.
Qed.

Lemma put_connect b i hs x t : inner b i hs -> put b (SConnect x) (t ++ ed25519_sign C (ss_seed b) t) ->
  exists cd, In (CConnect (ed25519_public C (ss_seed b)) cd, RBytes (Ok t)) (ses_log i) /\
    deflated Z x (custom cd).
Proof.
  intros (_ & _ & _ & El & Hf) (w & w' & Hin & Hw & Ho).
  destruct (forall2_in_l _ _ _ _ Hf Hin) as (h & Hh & Hp).
  inversion Hp as [| | | |cd w0 x0 t0 o w0' Hd Hok Hwr| | | | | | | | | |]; subst.
  - destruct (Hwr Hw) as [_ Ho']. rewrite Ho in Ho'. apply app_inv_head, sign_text in Ho'. subst t0.
    exists x0. split; [|exact Hd]. rewrite El. apply in_concat. eexists. split; [exact Hh|left; reflexivity].
Qed.

Lemma put_ack b i hs x t : inner b i hs -> put b (SAck x) (t ++ ed25519_sign C (ss_seed b) t) ->
  exists cd, In (CAck cd, RBytes (Ok t)) (ses_log i) /\ deflated Z x (custom cd).
Proof.
  intros (_ & _ & _ & El & Hf) (w & w' & Hin & Hw & Ho).
  destruct (forall2_in_l _ _ _ _ Hf Hin) as (h & Hh & Hp).
  inversion Hp as [| | | | | | |cd w0 x0 t0 o w0' Hd Hok Hwr| | | | | | |]; subst.
  - destruct (Hwr Hw) as [_ Ho']. rewrite Ho in Ho'. apply app_inv_head, sign_text in Ho'. subst t0.
    exists x0. split; [|exact Hd]. rewrite El. apply in_concat. eexists. split; [exact Hh|left; reflexivity].
Qed.

(** Deflating, then inflating. *)
Lemma round_trip x c y : deflated Z x c -> inflates Z (nonempty c) y -> x = y.
Proof.
  destruct x as [d|]; cbn.
  - intros [Hn Hi]. destruct c as [|b c]; [contradiction|]. cbn. destruct y; [|contradiction]. congruence.
  - intros ->. cbn. destruct y; [contradiction|reflexivity].
Qed.

(** ** Negotiation *)
Section Session.
Context (a : ssession) (Ha : sgenuine C Z T a).
Context (seed : bytes) (B : ssession -> Prop) (HB : sowned C Z T seed B) (HU : sunforged C seed B (ss_log a)).

(** The texts the owner of [seed] signed. *)
Lemma connect_written i hs L e cd sig :
  inner a i hs -> length e = 32%nat ->
  In (frame_len L [x00; x01] (connect_content e (ed25519_public C seed) cd) ++ sig) (submitted (ses_log i)) ->
  ed25519_verify C (ed25519_public C seed)
    (frame_len L [x00; x01] (connect_content e (ed25519_public C seed) cd)) sig = true ->
  exists b x, B b /\ put b (SConnect x) (signed_connect C seed (sepk C b) cd) /\ deflated Z x cd /\ e = sepk C b.
Proof.
  intros Hi He Hs Hv. apply (inner_submitted _ _ _ _ Hi) in Hs.
  destruct (HU _ _ Hs Hv) as (b & x & Hb & Hput). destruct (HB b Hb) as [Hg Hseed].
  destruct (inner_exists b Hg) as (j & js & Hj & Hgj).
  assert (epk C j = sepk C b) as Hepk by (destruct Hj as (H & _); unfold epk, sepk; rewrite H; reflexivity).
  rewrite <- Hseed in Hput. destruct Hput as [Hput|Hput].
  - destruct (put_connect _ _ _ _ _ Hj Hput) as (cd' & Hin & Hd). rewrite Hseed in Hin, Hput.
    destruct Hgj as (s0 & cs & Hc & E).
    pose proof (connect_layout C T HL _ _ _ _ _ _ _ _ _ _ Hc E Hin) as Ht.
    change (x25519_public C (ses_sk j)) with (epk C j) in Ht. rewrite Hepk in Ht.
    pose proof Ht as Ht0.
    apply connect_text in Ht as (E1 & _ & E2); [|exact He|apply (law_x25519_public_len C HL)|reflexivity].
    rewrite Ht0, <- E2 in Hput. exists b, x. rewrite E2.
    split; [exact Hb|]. split; [rewrite <- E2; exact Hput|]. split; [exact Hd|exact E1].
  - exfalso. destruct (put_ack _ _ _ _ _ Hj Hput) as (cd' & Hin & Hd).
    destruct (ack_layout C T HL j _ _ Hgj Hin) as (e2 & Ht & _). exact (text_types _ _ _ _ Ht).
Qed.

Lemma ack_written i hs L cd sig :
  inner a i hs ->
  In (frame_len L [x00; x02] (sha256 C (sepk C a) ++ cd) ++ sig) (submitted (ses_log i)) ->
  ed25519_verify C (ed25519_public C seed) (frame_len L [x00; x02] (sha256 C (sepk C a) ++ cd)) sig = true ->
  exists b x d e, B b /\ put b (SAck x) (signed_ack C seed (sepk C a) cd) /\ deflated Z x cd /\
    sread (ss_log b) d /\ carries_epk d e /\ sha256 C e = sha256 C (sepk C a).
Proof.
  intros Hi Hs Hv. apply (inner_submitted _ _ _ _ Hi) in Hs.
  destruct (HU _ _ Hs Hv) as (b & x & Hb & Hput). destruct (HB b Hb) as [Hg Hseed].
  destruct (inner_exists b Hg) as (j & js & Hj & Hgj).
  rewrite <- Hseed in Hput. destruct Hput as [Hput|Hput].
  - exfalso. destruct (put_connect _ _ _ _ _ Hj Hput) as (cd' & Hin & Hd).
    destruct Hgj as (s0 & cs & Hc & E).
    pose proof (connect_layout C T HL _ _ _ _ _ _ _ _ _ _ Hc E Hin) as Ht.
    symmetry in Ht. exact (text_types _ _ _ _ Ht).
  - destruct (put_ack _ _ _ _ _ Hj Hput) as (cd' & Hin & Hd). rewrite Hseed in Hput.
    destruct (ack_layout C T HL j _ _ Hgj Hin) as (e & Ht & d & r & Hr & Hcar & _).
    pose proof Ht as Ht0. apply ack_text in Ht as [E1 E2]; [|apply (law_sha256_len C HL)..].
    rewrite Ht0, <- E1, <- E2 in Hput. rewrite <- E2 in Hd.
    exists b, x, d, e. split; [exact Hb|]. split; [exact Hput|]. split; [exact Hd|].
    split; [|split; [exact Hcar|symmetry; exact E1]].
    apply (inner_submitted _ _ _ _ Hj). apply in_flat_map. eexists. split; [exact Hr|left; reflexivity].
Qed.

Theorem sconnect_authentic x :
  sreturned (ss_log a) (IConnect x (ed25519_public C seed)) ->
  exists b cd, B b /\ put b (SConnect x) (signed_connect C seed (sepk C b) cd) /\
    skey a = derived_secret C (ss_sk a) (sepk C b).
Proof.
  intros Hr. destruct (inner_exists a Ha) as (i & hs & Hi & Hgi).
  destruct (inner_returned _ _ _ _ Hi Hr) as (e & m & He & Hm & Hd).
  destruct m as [al k o| |]; cbn in Hd; try contradiction. destruct Hd as [<- Hx].
  destruct (connect_signed C T HL i Hgi _ e al o He Hm) as (L & e' & cd & sig & He' & Ho & Hs & Hv & Hk).
  destruct (connect_written _ _ _ _ _ _ Hi He' Hs Hv) as (b & y & Hb & Hput & Hdef & Ee).
  subst o. pose proof (round_trip _ _ _ Hdef Hx). subst y.
  exists b, cd. split; [exact Hb|]. split; [exact Hput|]. rewrite <- Ee.
  destruct Hi as (<- & _ & Hst & _). unfold skey. rewrite <- Hst. exact Hk.
Qed.

Theorem sack_authentic x :
  speer_is a (ed25519_public C seed) -> sreturned (ss_log a) (IAck x) ->
  exists b cd d e, B b /\ put b (SAck x) (signed_ack C seed (sepk C a) cd) /\
    sread (ss_log b) d /\ carries_epk d e /\ sha256 C e = sha256 C (sepk C a).
Proof.
  intros Hp Hr. destruct (inner_exists a Ha) as (i & hs & Hi & Hgi).
  assert (epk C i = sepk C a) as Hepk by (destruct Hi as (H & _); unfold epk, sepk; rewrite H; reflexivity).
  destruct (inner_returned _ _ _ _ Hi Hr) as (e & m & He & Hm & Hd).
  destruct m as [al k o|o|]; cbn in Hd; try contradiction.
  destruct (ack_signed C T HL i Hgi _ e o (inner_peer _ _ _ _ Hi Hp) He Hm) as (L & cd & sig & Ho & Hs & Hv).
  rewrite Hepk in Hs, Hv.
  destruct (ack_written _ _ _ _ _ Hi Hs Hv) as (b & y & d & e2 & Hb & Hput & Hdef & H).
  subst o. pose proof (round_trip _ _ _ Hdef Hd). subst y. exists b, cd, d, e2. auto.
Qed.

Lemma inner_panic_free i hs : inner a i hs -> snever_panics (ss_log a) -> panic_free (ses_log i).
Proof.
  intros (_ & _ & _ & -> & Hf) Hn e He. apply in_concat in He as (h & Hh & He).
  destruct (forall2_in_r _ _ _ _ Hf Hh) as ([c r] & Hi & Hp). apply Hn in Hi. cbn [snd] in Hi.
  inversion Hp; subst; cbn in Hi; try discriminate;
    try (match goal with H : panic_free _ |- _ => exact (H _ He) end);
    destruct He as [<-|[]]; try reflexivity.
  - cbn. destruct o; [reflexivity..|discriminate].
  - cbn. destruct o; [reflexivity..|discriminate].
Qed.

(** A layer that expects this key and has negotiated. *)
Theorem sestablished_authentic k :
  ss_pin a = Some (ed25519_public C seed) -> snever_panics (ss_log a) -> sestablished (ss_state a) ->
  skey a = Some k ->
  (exists b x cd, B b /\ put b (SConnect x) (signed_connect C seed (sepk C b) cd) /\
     derived_secret C (ss_sk a) (sepk C b) = Some k) /\
  (exists b x cd, B b /\ put b (SAck x) (signed_ack C seed (sepk C a) cd)).
Proof.
  intros Hpin Hn Hest Hk. destruct (inner_exists a Ha) as (i & hs & Hi & Hgi).
  assert (epk C i = sepk C a) as Hepk by (destruct Hi as (H & _); unfold epk, sepk; rewrite H; reflexivity).
  pose proof (inner_panic_free _ _ Hi Hn) as Hpf. pose proof Hi as (Hsk & Hp & Hst & _).
  assert (ses_pin i = Some (ed25519_public C seed)) as Hpi by congruence.
  assert (session_key (ses_state i) = Some k) as Hki by (rewrite Hst; exact Hk).
  assert (established (ses_state i)) as Hei.
  { rewrite Hst. apply established_iff. destruct Hest as [c Hc]. unfold sl_try_clone, try_clone in Hc.
    destruct (msl_status (minimal (ss_state a))) as [| |] eqn:E; cbn in Hc; try discriminate. reflexivity. }
  destruct (established_deliveries C T HL i Hgi _ k Hpi Hpf Hei Hki) as [(e1 & al & o & Hi1 & H1) (e2 & o2 & Hi2 & H2)].
  split.
  - destruct (connect_signed C T HL i Hgi _ e1 al o Hi1 H1) as (L & e' & cd & sig & He' & Ho & Hs & Hv & Hk').
    destruct (connect_written _ _ _ _ _ _ Hi He' Hs Hv) as (b & y & Hb & Hput & Hdef & Ee).
    exists b, y, cd. split; [exact Hb|]. split; [exact Hput|]. rewrite <- Ee, <- Hsk. congruence.
  - destruct (ack_signed C T HL i Hgi _ e2 o2 (or_introl Hpi) Hi2 H2) as (L & cd & sig & Ho & Hs & Hv).
    rewrite Hepk in Hs, Hv.
    destruct (ack_written _ _ _ _ _ Hi Hs Hv) as (b & y & d & e3 & Hb & Hput & _).
    exists b, y, cd. auto.
Qed.
End Session.

(** ** User messages *)
Lemma inner_writes seed sh hs : Forall2 (projects C Z seed) sh hs ->
  Forall2 (fun d c => deflated Z (Some d) c) (swrites sh) (writes (concat hs)).
Proof.
  induction 1 as [|[c r] h sh hs Hp Hf IH]; [constructor|].
  assert (writes (concat (h :: hs)) = writes h ++ writes (concat hs)) as -> by (cbn [concat]; apply flat_map_app).
  assert (swrites ((c, r) :: sh) = swrites [(c, r)] ++ swrites sh) as -> by (unfold swrites; cbn [flat_map]; rewrite app_nil_r; reflexivity).
  apply Forall2_app; [|exact IH].
  assert (forall d h, reads d h -> writes h = []) as Hr.
  { clear. intros d h Hr. destruct Hr; reflexivity. }
  inversion Hp; subst; try (match goal with H : reads _ _ |- _ => rewrite (Hr _ _ H) end); try constructor.
  match goal with H : deflated Z _ _ |- _ => destruct o; repeat constructor; apply H end.
Qed.

(** The user messages returned are those delivered inside, inflated; those of a
    read that failed are lost. *)
Lemma forall2_app_l {A B} (R : A -> B -> Prop) l1 l2 m :
  Forall2 R (l1 ++ l2) m -> exists m1 m2, m = m1 ++ m2 /\ Forall2 R l1 m1 /\ Forall2 R l2 m2.
Proof. intros H. apply Forall2_app_inv_l in H as (m1 & m2 & H1 & H2 & ->). eauto. Qed.

Lemma decoded_messages l m : Forall2 (decodes Z) l m ->
  Forall2 (inflates Z) (flat_map user_data l) (flat_map message_of m).
Proof.
  induction 1 as [|x y l m H1 H2 IH]; [constructor|]. cbn [flat_map].
  destruct x, y; cbn in H1; try contradiction; cbn; auto.
Qed.

Lemma deliveries_messages h : user_deliveries h = flat_map user_data (deliveries h).
Proof.
  unfold user_deliveries, deliveries. induction h as [|e h IH]; [reflexivity|].
  cbn [flat_map]. rewrite flat_map_app, IH. reflexivity.
Qed.

Lemma NoDup_app_l {A} (l m : list A) : NoDup (l ++ m) -> NoDup l.
Proof.
  induction l as [|x l IH]; intros H; [constructor|]. inversion H; subst. constructor; [|auto].
  intros Hi. apply H2. apply in_app_iff. auto.
Qed.
Lemma NoDup_app_r {A} (l m : list A) : NoDup (l ++ m) -> NoDup m.
Proof. induction l as [|x l IH]; intros H; [exact H|]. inversion H; auto. Qed.

Lemma kept_messages seed sh hs : Forall2 (projects C Z seed) sh hs ->
  forall L : list (N * bytes), user_deliveries (concat hs) = map (fun x => nonempty (snd x)) L ->
  NoDup (map fst L) ->
  exists L', incl L' L /\ NoDup (map fst L') /\
    Forall2 (fun x o => inflates Z (nonempty (snd x)) o) L' (smessages sh).
Proof.
  induction 1 as [|[c r] h sh hs Hp Hf IH]; intros L HL0 Hnd.
  - exists []. split; [intros x []|]. split; constructor.
  - cbn [concat] in HL0. unfold user_deliveries in HL0. rewrite flat_map_app in HL0.
    symmetry in HL0. apply map_eq_app in HL0 as (L1 & L2 & -> & E1 & E2).
    rewrite map_app in Hnd.
    destruct (IH L2 (eq_sym E2) (NoDup_app_r _ _ Hnd)) as (L2' & Hi2 & Hn2 & Hf2).
    assert (smessages ((c, r) :: sh) = match r with SMsgs (Ok l) => flat_map message_of l | _ => [] end ++ smessages sh)
      as Es by reflexivity. rewrite Es.
    assert ((exists d l, r = SMsgs (Ok l) /\ c = SRead d /\ Forall2 (decodes Z) (deliveries h) l) \/
            match r with SMsgs (Ok l) => flat_map message_of l | _ => [] end = []) as [(d & l & -> & _ & Hd)|Hnil].
    { inversion Hp; subst; eauto. left. eauto. }
    + apply decoded_messages in Hd. rewrite <- deliveries_messages in Hd.
      change (map (fun x : N * bytes => nonempty (snd x)) L1 = user_deliveries h) in E1. rewrite <- E1 in Hd.
      exists (L1 ++ L2'). split; [|split].
      * apply incl_app; [apply incl_appl, incl_refl|apply incl_appr; exact Hi2].
      * rewrite map_app. clear - Hnd Hi2 Hn2.
        induction L1 as [|x L1 IH]; cbn [map app] in *; [exact Hn2|].
        inversion Hnd; subst. constructor; [|auto]. intros Hi. apply H1.
        apply in_app_iff in Hi as [Hi|Hi]; apply in_app_iff; [left; exact Hi|right].
        apply in_map_iff in Hi as (y & Ey & Hy). rewrite <- Ey. apply in_map. apply Hi2. exact Hy.
      * apply Forall2_app; [|exact Hf2]. clear - Hd. remember (flat_map message_of l) as m. clear Heqm.
        revert m Hd. induction L1 as [|x L1 IH]; intros m Hd; inversion Hd; subst; constructor; auto.
    + rewrite Hnil. exists L2'. split; [apply incl_appr; exact Hi2|]. split; [exact Hn2|exact Hf2].
Qed.

Lemma forall2_length {A B} (R : A -> B -> Prop) l m : Forall2 R l m -> length l = length m.
Proof. induction 1; cbn; congruence. Qed.
Lemma forall2_nth {A B} (R : A -> B -> Prop) l m n y :
  Forall2 R l m -> nth_error m n = Some y -> exists x, nth_error l n = Some x /\ R x y.
Proof.
  intros H. revert n. induction H as [|a b l m H1 H2 IH]; intros [|n] E; cbn in *; try discriminate.
  - injection E as <-. eauto.
  - apply IH. exact E.
Qed.

Theorem smessages_authentic a (W : ssession -> Prop) k :
  sgenuine C Z T a -> 2 * len (ss_log a) < 2 ^ 64 -> skey a = Some k ->
  (forall b, W b -> sgenuine C Z T b /\ len (swrites (ss_log b)) < 2 ^ 64) ->
  sunforged_tags C k W (ss_log a) ->
  exists l : list (N * bytes),
    smessages (ss_log a) = map (fun x => Some (snd x)) l /\
    NoDup (map fst l) /\
    forall n data, In (n, data) l ->
      exists b, W b /\ skey b = Some k /\ nth_error (swrites (ss_log b)) (N.to_nat n) = Some data.
Proof.
  intros Ha Hlen Hk HW HU. destruct (inner_exists a Ha) as (i & hs & Hi & Hgi).
  pose proof Hi as (_ & _ & Hst & Hlog & Hf).
  set (Wi := fun j => exists b js, W b /\ inner b j js /\ genuine C T j).
  destruct (messages_authentic C T HL i Wi k Hgi) as (L & H1 & H2 & H3).
  - rewrite Hlog. clear - Hf Hlen. unfold len in *.
    enough (length (concat hs) <= 2 * length (ss_log a))%nat by lia.
    clear Hlen. induction Hf as [|[c r] h sh hs Hp Hf IH]; [cbn; lia|]. cbn [concat length]. rewrite app_length.
    assert (length h <= 2)%nat; [|lia].
    assert (forall d h, reads d h -> (length h <= 2)%nat) as Hr.
    { clear. intros d h []; cbn; lia. }
    inversion Hp; subst; try (cbn; lia); eapply Hr; eassumption.
  - rewrite Hst. exact Hk.
  - intros j (b & js & Hb & Hj & Hgj). split; [exact Hgj|].
    destruct (HW b Hb) as [_ Hl]. destruct Hj as (_ & _ & _ & -> & Hfj).
    unfold len in *. rewrite <- (forall2_length _ _ _ (inner_writes _ _ _ Hfj)). exact Hl.
  - intros text Hin. apply (inner_submitted _ _ _ _ Hi) in Hin.
    destruct (HU text Hin) as (b & data & Hb & Hkb & w & w' & Hput & Hw & Ho).
    destruct (HW b Hb) as [Hgb _]. destruct (inner_exists b Hgb) as (j & js & Hj & Hgj).
    exists j. split; [exists b, js; auto|]. pose proof Hj as (_ & _ & Hstj & Hlj & Hfj).
    split; [rewrite Hstj; exact Hkb|].
    destruct (forall2_in_l _ _ _ _ Hfj Hput) as (h & Hh & Hp). inversion Hp; subst.
    eexists _, w, w'. split; [|split; [left; exact Hw|exact Ho]].
    rewrite Hlj. apply in_concat. eexists. split; [exact Hh|left; reflexivity].
  - rewrite Hlog in H1. destruct (kept_messages _ _ _ Hf L H1 H2) as (L' & Hi' & Hn' & Hf').
    assert (forall n c, In (n, c) L' -> exists b d, W b /\ skey b = Some k /\
              nth_error (swrites (ss_log b)) (N.to_nat n) = Some d /\ deflated Z (Some d) c) as Hall.
    { intros n c Hin. destruct (H3 n c (Hi' _ Hin)) as (j & (b & js & Hb & Hj & _) & Hkj & Hnth).
      destruct Hj as (_ & _ & Hstj & Hlj & Hfj). rewrite Hlj in Hnth.
      destruct (forall2_nth _ _ _ _ _ (inner_writes _ _ _ Hfj) Hnth) as (d & Hd & Hdef).
      exists b, d. split; [exact Hb|]. split; [unfold skey; rewrite <- Hstj; exact Hkj|]. auto. }
    clear - HL HZ Hf' Hn' Hall.
    remember (smessages (ss_log a)) as ms. clear Heqms.
    assert (exists l, ms = map (fun x => Some (snd x)) l /\ map fst l = map fst L' /\
      forall n data, In (n, data) l -> exists b, W b /\ skey b = Some k /\
        nth_error (swrites (ss_log b)) (N.to_nat n) = Some data) as (l & E1 & E2 & E3).
    { clear Hn'. induction Hf' as [|[n c] o L' ms H1 H2 IH]; [exists []; split; [reflexivity|]; split; [reflexivity|intros n data []]|].
      destruct IH as (l & E1 & E2 & E3); [intros; apply Hall; right; assumption|].
      destruct (Hall n c (or_introl eq_refl)) as (b & d & Hb & Hkb & Hnth & Hdef).
      pose proof (round_trip _ _ _ Hdef H1) as Eo.
      exists ((n, d) :: l). split; [cbn; rewrite Eo, E1; reflexivity|]. split; [cbn; rewrite E2; reflexivity|].
      intros n' data [E|Hin]; [injection E as <- <-; exists b; auto|apply E3; exact Hin]. }
    exists l. split; [exact E1|]. split; [rewrite E2; exact Hn'|exact E3].
Qed.

End WithEnv.

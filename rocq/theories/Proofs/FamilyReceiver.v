(** What the handles of one connection receive, as a machine (Spec/Receiver.v). *)

From Coq Require Import Arith ZifyBool ZifyNat ZifyN.
From Verif.Model Require Import Serde.
From Verif.Spec Require Import Wire Datagram Trace ReadSpec Accept Session Writers Peer Receiver CompleteTrace Projection
  CompleteAdversary Typed TypedTrace CompleteReceiver Family.
From Verif.Proofs Require Import BaseFacts IoFacts CipherFacts ReaderFacts Invariant Negotiation Failure UserReads TraceInv Ledger Nonces Corollaries Receiver CompleteFacts CompleteMode CompleteStates Projection
  CompleteAdversary Vocabulary Typed CompleteReceiver Lives Family SFamily.

Section WithEnv.
Context (C : Crypto) (Z : Zip) (T : target) (HL : CryptoLaws C) (HZ : ZipLaws Z).
Local Notation sevent := (scall * sreply)%type.
Local Notation acks_in h := (length (Peer.deliveries is_ack h)).

(** ** From the ledger to the receiver *)
Lemma ledger_receiver r cfg pin s0 s h l pend k :
  create C r cfg pin = Ok s0 -> LInv C T s0 [] s h l pend -> lossless h -> established s -> session_key s = Some k ->
  forall ds ms, Forall2 (fun d m => opens C T k d (fst m) (snd m)) ds ms -> len h + len ds < 2 ^ 64 ->
    exists os s' R', answers C T s ds os s' /\
      receives {| taken := map (fun e => snd (fst e)) l; dead := false |} ms os R' /\
      (failed C s' <-> dead R' = true) /\ (established s' <-> dead R' = false).
Proof.
  intros Hc [] Hl He Hk ds ms Hds Hlen. pose proof (submitted_len h) as Hsl.
  destruct (created_fresh C _ _ _ _ Hc) as (F1 & F2 & _).
  destruct (follows_run C T HL k ds ms Hds s {| taken := map (fun e => snd (fst e)) l; dead := false |}) as (os & s' & R' & Ha & Hr & HF).
  - constructor; cbn [taken dead]; auto.
    + intros m. rewrite (li_exact Hl m). unfold received at 1. rewrite F1, F2. cbn [In].
      split; [intros [[H|[]]|H]; [lia|exact H]|auto].
    + apply li_acc.
    + apply established_iff, He.
  - unfold used at 2 in li_used. rewrite F1, F2 in li_used. unfold len in *. cbn [length] in li_used. lia.
  - exists os, s', R'. split; [exact Ha|]. split; [exact Hr|]. rewrite failed_iff, established_iff, (fo_status _ _ _ _ _ HF).
    destruct (dead R'); split; split; congruence.
Qed.

Theorem family_receiver f tr i s k :
  family C T f tr -> len tr < 2 ^ 64 -> nth_error f i = Some s ->
  let h := events tr (Family.life clones tr i) in
  lossless h -> established s -> session_key s = Some k ->
  exists l, accounts C T s (submitted h) h l /\
    forall ds ms, Forall2 (fun d m => opens C T k d (fst m) (snd m)) ds ms -> len tr + len ds < 2 ^ 64 ->
    exists os s' R', answers C T s ds os s' /\
      receives {| taken := map (fun e => snd (fst e)) l; dead := false |} ms os R' /\
      (failed C s' <-> dead R' = true) /\ (established s' <-> dead R' = false).
Proof.
  intros HF Hb Hs h Hl He Hk. pose proof (finv_family C T HL f tr HF Hb) as [FW _ (s0 & r0 & cfg & pin & Hc & F4) _].
  destruct (F4 i s Hs) as (l & pend & HLi). exists l. split; [apply (li_acc _ _ _ _ _ _ _ _ HLi)|].
  intros ds ms Hds Hlen. eapply ledger_receiver; try eassumption.
  assert (i < length f)%nat as Hi by (apply nth_error_Some; congruence).
  pose proof (life_len _ _ i (lives_ok clones _ _ FW) Hi) as Hll. fold h.
  unfold h, len in *. unfold history, event, trace in *. lia.
Qed.

(** ** Complete mode: the calls inside *)

(** Like [projects]; on a clone, which has no signing key, CONNECT and ACK are
    refused before anything happens inside. *)
Definition inside (ev : sevent) (h : history) : Prop :=
  (exists seed, projects C Z seed ev h) \/ (h = [] /\ exists e w, snd ev = SWritten (Err e) w).

Lemma scall_inside s c s' r :
  sreachable C Z T s -> scall_step C Z T s c = (s', r) ->
  exists h, inside (c, r) h /\ run C T (minimal s) (map fst h) = (minimal s', h).
Proof.
  intros HR E. destruct (sig_key_pair s) as [seed|] eqn:Hk.
  { destruct (scall_projects C Z T HL HZ seed s c s' r HR Hk E) as (_ & h & H1 & H2). exists h. split; [left; eauto|exact H2]. }
  destruct c as [d|cd w|cd w|data w| |cfg]; cbn [scall_step] in E.
  - destruct (read_bin C Z T d s) as [s1 o] eqn:Er. injection E as -> <-.
    destruct (read_bin_projects C Z T HL [] _ _ _ _ (sreachable_minimal C Z T s HR) Er) as (h & H1 & H2).
    exists h. split; [left; eauto|exact H2].
  - unfold write_connect_msg_bin, writer_write_connect_msg in E. rewrite Hk in E. injection E as <- <-.
    exists []. split; [right; split; [reflexivity|]; cbn; eauto|reflexivity].
  - unfold write_ack_msg_bin, writer_write_ack_msg in E. rewrite Hk in E. injection E as <- <-.
    exists []. split; [right; split; [reflexivity|]; cbn; eauto|reflexivity].
  - unfold write_bin, writer_write_bin_message in E.
    pose proof (compressed_deflated Z HZ (Some data) s) as Hd. cbn [custom] in Hd.
    destruct (write_message C T (compress Z data s) (minimal s) w) as [[m w'] o] eqn:Ew. injection E as <- <-.
    exists [(CWrite (compress Z data s) w, RWritten o w')].
    split; [left; exists []; constructor; exact Hd|cbn [map fst run call_step]; rewrite Ew; reflexivity].
  - unfold sl_try_clone in E. destruct (try_clone (minimal s)) as [m [x|e|p]] eqn:Ec; injection E as <- <-.
    + exists [(CClone, RClone (Ok (minimal {| minimal := x; sig_key_pair := None |})))].
      split; [left; exists []; apply pj_clone; reflexivity|cbn [map fst run call_step]; rewrite Ec; reflexivity].
    + exists [(CClone, RClone (Err e))]. split; [left; exists []; constructor|cbn [map fst run call_step]; rewrite Ec; reflexivity].
    + exists [(CClone, RClone (Panic p))]. split; [left; exists []; constructor|cbn [map fst run call_step]; rewrite Ec; reflexivity].
  - unfold sl_change_config in E. destruct (change_config cfg (minimal s)) as [m o] eqn:Ec; injection E as <- <-.
    exists [(CConfig cfg, RUnit o)]. split; [left; exists []; constructor|cbn [map fst run call_step]; rewrite Ec; reflexivity].
Qed.

Lemma inside_short ev h : inside ev h -> (length h <= 2)%nat.
Proof.
  intros [[seed Hp]|[-> _]]; [|cbn; lia].
  assert (Forall2 (projects C Z seed) [ev] [h]) as H by auto. apply inner_len in H. cbn [concat] in H.
  rewrite app_nil_r in H. unfold len in H. cbn [length] in H. lia.
Qed.

Lemma insides_len sh hs : Forall2 inside sh hs -> len (concat hs) <= 2 * len sh.
Proof.
  intros Hf. unfold len. enough (length (concat hs) <= 2 * length sh)%nat by lia.
  induction Hf as [|ev h sh hs Hp Hf IH]; [cbn; lia|]. cbn [concat length]. rewrite app_length.
  apply inside_short in Hp. lia.
Qed.

Lemma insides_messages sh hs : Forall2 inside sh hs ->
  (forall e, In e sh -> zip_error (snd e) = false) -> Forall2 (inflates Z) (user_deliveries (concat hs)) (smessages sh).
Proof.
  induction 1 as [|ev h sh hs Hp Hf IH]; intros Hz; [constructor|].
  assert (smessages (ev :: sh) = smessages [ev] ++ smessages sh) as ->.
  { unfold smessages. cbn [flat_map]. rewrite app_nil_r. reflexivity. }
  cbn [concat].
  assert (user_deliveries (h ++ concat hs) = user_deliveries h ++ user_deliveries (concat hs)) as -> by apply flat_map_app.
  apply Forall2_app; [|apply IH; intros e He; apply Hz; right; exact He].
  destruct Hp as [[seed Hp]|[-> (e & w & Hev)]].
  - assert (Forall2 (projects C Z seed) [ev] [h]) as H by auto. apply inner_messages in H.
    + cbn [concat] in H. rewrite app_nil_r in H. exact H.
    + intros e [<-|[]]. apply Hz. left. reflexivity.
  - unfold smessages. cbn [flat_map]. rewrite Hev. constructor.
Qed.

Lemma insides_lossless sh hs x :
  (acks_in (concat hs) <= 1)%nat -> Forall2 inside sh hs -> snever_panics sh -> sreturned sh (IAck x) -> lossless (concat hs).
Proof.
  intros Hone Hf Hp (d & l & Hi & Hx). split.
  - intros e He. apply in_concat in He as (h & Hh & He).
    destruct (forall2_in_r _ _ _ _ Hf Hh) as (ev & Hev & [[seed Hpr]|[-> _]]); [|destruct He].
    exact (projects_panic_free C Z _ _ _ Hpr (Hp ev Hev) e He).
  - intros [c rep] er He. cbn [snd]. intros ->. apply in_concat in He as (h & Hh & He).
    destruct (forall2_in_r _ _ _ _ Hf Hh) as (ev & Hev & [[seed Hpr]|[-> _]]); [|destruct He].
    destruct (projects_drain_error C Z _ _ _ _ _ Hpr He) as [_ [cd1 Ha1]].
    destruct (forall2_in_l _ _ _ _ Hf Hi) as (h2 & Hh2 & [[seed2 Hpr2]|[_ (e & w & Hw)]]); [|discriminate Hw].
    destruct (projects_ack C Z _ _ _ _ _ Hpr2 Hx) as [cd2 Ha2].
    assert (2 <= acks_in (concat hs))%nat; [|lia].
    apply (two_counted (fun h => acks_in h) (fun hs => acks_in (concat hs)) hs h h2); auto.
    + intros h0 hs0. cbn [concat]. rewrite !acks_filter. unfold deliveries.
      rewrite flat_map_app, filter_app, app_length. reflexivity.
    + intros <-. destruct (projects_drain_error C Z _ _ _ _ _ Hpr2 He) as [Hs _]. discriminate Hs.
    + exact (ack_counted _ _ Ha1).
    + exact (ack_counted _ _ Ha2).
Qed.

Lemma inside_submitted c r h d : inside (c, r) h -> In d (submitted h) -> c = SRead d.
Proof. intros [[seed Hp]|[-> _]] Hd; [exact (projects_submitted C Z _ _ _ _ _ Hp Hd)|destruct Hd]. Qed.

(** ** The invariant *)
Record Inner (m0 : msl) (s : secure_layer) (sh : list sevent) : Prop := {
  in_calls : exists hs l pend, Forall2 inside sh hs /\ LInv C T m0 [] (minimal s) (concat hs) l pend /\
    bounded (msl_status (minimal s)) (concat hs) /\ (acks_in (concat hs) <= count ack_accepted (concat hs))%nat
}.

Lemma acks_app h1 h2 : acks_in (h1 ++ h2) = (acks_in h1 + acks_in h2)%nat.
Proof. unfold Peer.deliveries. rewrite flat_map_app, app_length. reflexivity. Qed.

Lemma inner_run m0 m cs m' h' h l pend :
  used m0 = 0 -> LInv C T m0 [] m h l pend -> bounded (msl_status m) h -> (acks_in h <= count ack_accepted h)%nat ->
  run C T m cs = (m', h') -> len h + len h' < 2 ^ 64 ->
  exists l' pend', LInv C T m0 [] m' (h ++ h') l' pend' /\ bounded (msl_status m') (h ++ h') /\
    (acks_in (h ++ h') <= count ack_accepted (h ++ h'))%nat.
Proof.
  intros Hu. revert m h l pend h'. induction cs as [|c cs IH]; intros m h l pend h' HLi HB Ha E Hb; cbn [run] in E.
  - injection E as <- <-. rewrite app_nil_r. eauto.
  - destruct (call_step C T m c) as [m1 r] eqn:E1. destruct (run C T m1 cs) as [m2 h2] eqn:E2. injection E as -> <-.
    rewrite len_cons in Hb. pose proof (submitted_len h) as Hsl.
    pose proof (inv_reachable C T m (li_reach _ _ _ _ _ _ _ _ HLi)) as HI.
    destruct (linv_step C T HL _ _ _ _ _ _ _ _ _ HLi E1) as (l1 & pend1 & HL1).
    { rewrite Hu. unfold len in *. cbn [length]. lia. }
    pose proof (bounded_step _ _ _ _ HB (step_evolves C T _ _ _ _ HI E1)) as HB1.
    destruct (step_delivers_connect C T _ _ _ _ HI E1) as [_ Hd].
    replace (h ++ (c, r) :: h2) with ((h ++ [(c, r)]) ++ h2) by (rewrite <- app_assoc; reflexivity).
    eapply IH; [exact HL1|exact HB1| |exact E2|rewrite len_app; change (len [(c, r)]) with 1; lia].
    rewrite acks_app, count_app. unfold Peer.deliveries, count in *. cbn [flat_map filter snd]. rewrite app_nil_r.
    destruct (ack_accepted (c, r)); cbn [length]; lia.
Qed.

Lemma inner_step m0 s c s' r sh :
  used m0 = 0 -> sreachable C Z T s -> Inner m0 s sh -> scall_step C Z T s c = (s', r) -> 2 * len sh + 2 < 2 ^ 64 ->
  Inner m0 s' (sh ++ [(c, r)]).
Proof.
  intros Hu HR [(hs & l & pend & Hf & HLi & HB & Ha)] E Hb.
  destruct (scall_inside s c s' r HR E) as (h & Hin & Er).
  pose proof (insides_len _ _ Hf) as Hl. pose proof (inside_short _ _ Hin) as Hs.
  destruct (inner_run m0 _ _ _ _ _ _ _ Hu HLi HB Ha Er) as (l' & pend' & H1 & H2 & H3); [unfold len in *; lia|].
  constructor. exists (hs ++ [h]), l', pend'. rewrite concat_app. cbn [concat]. rewrite app_nil_r.
  split; [apply Forall2_app; auto|auto].
Qed.

Lemma inner_clone m0 s s' x sh : sl_try_clone s = (s', Ok x) -> reachable C T (minimal s) -> Inner m0 s' sh -> Inner m0 x sh.
Proof.
  intros Hcl HR [(hs & l & pend & Hf & HLi & HB & Ha)]. apply sclone_minimal in Hcl.
  pose proof (clone_fields _ _ _ Hcl) as (K1 & K2 & K3 & K4 & K5 & _).
  constructor. exists hs, l, pend. split; [exact Hf|]. split.
  - eapply linv_fields; [exact HLi| |congruence|exact K3|exact K4|exact K5].
    eapply reach_clone; [exact HR|rewrite Hcl; reflexivity].
  - split; [|exact Ha]. unfold try_clone in Hcl. destruct (msl_status (minimal s)) eqn:Est; try discriminate.
    assert (msl_status (minimal s') = msl_status (minimal x)) as <-.
    { injection Hcl as <- <-. cbn. rewrite Est. reflexivity. }
    exact HB.
Qed.

Lemma inner_family f tr : sfamily C Z T f tr -> 2 * len tr < 2 ^ 64 ->
  exists m0 r cfg pin, create C r cfg pin = Ok m0 /\
    forall i s, nth_error f i = Some s -> Inner m0 s (events tr (Family.life sclones tr i)).
Proof.
  induction 1 as [r rs cfg seed pin s Hc|f tr i s c s' r e HF IH Hs E Ee]; intros Hb.
  - unfold sl_create in Hc. apply obind_Ok in Hc as (sd & _ & Hc). apply obind_Ok in Hc as (m & Hm & Hc).
    injection Hc as <-. exists m, r, cfg, pin. split; [exact Hm|]. intros [|[|i]] x Hx; try discriminate. injection Hx as <-.
    constructor. exists []. destruct (linv_created C T HL r cfg pin m [] m [] Hm eq_refl) as (l & pend & H & _); [cbn; lia|].
    exists l, pend. split; [constructor|]. split; [exact H|]. split; [|cbn; lia].
    exact (bounded_run C T _ _ _ _ [] _ _ Hm eq_refl).
  - rewrite len_app in Hb. change (len [(i, e)]) with 1 in Hb.
    destruct (IH ltac:(lia)) as (m0 & r0 & cfg & pin & Hc & HI). exists m0, r0, cfg, pin. split; [exact Hc|].
    pose proof (sfinv_family C Z T HL f tr HF ltac:(lia)) as [FW FR _ _]. pose proof (lives_ok sclones _ _ FW) as F1.
    assert (i < length f)%nat as Hi by (apply nth_error_Some; congruence).
    pose proof (life_snoc_cases sclones tr i e (length f) (lv_len _ _ _ F1) Hi) as [_ HB]. rewrite <- sborn_more in HB.
    pose proof (FR s (nth_error_In _ _ Hs)) as HR.
    pose proof (life_events_new sclones tr i e (length f) F1 Hi) as Hev.
    destruct (created_fresh C _ _ _ _ Hc) as (G1 & G2 & _).
    assert (Inner m0 s' (events tr (Family.life sclones tr i) ++ [e])) as Hnew.
    { rewrite Ee. eapply inner_step; [unfold used; rewrite G1, G2; reflexivity|exact HR|exact (HI i s Hs)|exact E|].
      pose proof (events_le sclones tr (Family.life sclones tr i)) as He. pose proof (lv_length _ _ _ F1 i Hi) as Hl.
      unfold len in *. unfold trace in *. lia. }
    intros j x Hx. 
    assert (j < length f + length (sborn e))%nat as Hj.
    { rewrite <- (replace_length i s' f Hi), <- app_length. apply nth_error_Some. congruence. }
    destruct (smember_snoc C Z T f i s c s' r j x Hs E ltac:(subst e; exact Hx)) as [(Hne & Hj' & Hx')|[(-> & ->)|(-> & _ & Hcl)]].
    + destruct (HB j Hj) as [(_ & _ & ->)|[[-> | ->] _]]; [|congruence|lia].
      rewrite events_snoc_old by (apply (lv_lt _ _ _ F1); exact Hj'). exact (HI j x Hx').
    + destruct (HB i Hj) as [(_ & H & _)|[_ ->]]; [congruence|]. rewrite Hev. exact Hnew.
    + destruct (HB (length f) Hj) as [(H & _ & _)|[_ ->]]; [lia|]. rewrite Hev.
      eapply inner_clone; [exact Hcl|apply (sreachable_minimal C Z T), HR|exact Hnew].
Qed.

Theorem sfamily_receiver f tr i s k x :
  sfamily C Z T f tr -> 2 * len tr < 2 ^ 64 -> nth_error f i = Some s ->
  let sh := events tr (Family.life sclones tr i) in
  snever_panics sh -> sreturned sh (IAck x) -> sestablished s -> session_key (minimal s) = Some k ->
  exists l : list (N * bytes),
    NoDup (map fst l) /\
    (forall n z, In (n, z) l -> exists d, sread sh d /\ opens C T k d n z) /\
    ((forall e, In e sh -> zip_error (snd e) = false) ->
       Forall2 (fun m o => deflated Z o (snd m)) l (smessages sh)) /\
    forall ds ms, Forall2 (fun d m => opens C T k d (fst m) (snd m)) ds ms -> 2 * len tr + len ds < 2 ^ 64 ->
    exists os s' R', sanswers C Z T s ds os s' /\
      sreceives Z {| taken := map fst l; dead := false |} ms os R' /\
      (sfailed C s' <-> dead R' = true) /\ (sestablished s' <-> dead R' = false).
Proof.
  intros HF Hb Hs sh Hp Hx He Hk. destruct (inner_family f tr HF Hb) as (m0 & r & cfg & pin & Hc & HI).
  destruct (HI i s Hs) as [(hs & l & pend & Hf & HLi & HB & Ha)]. fold sh in Hf. clear HI.
  assert (len sh <= len tr) as Hsh.
  { pose proof (lives_ok sclones _ _ (sf_wf _ _ _ _ _ (sfinv_family C Z T HL f tr HF ltac:(lia)))) as F1.
    assert (i < length f)%nat as Hi by (apply nth_error_Some; congruence).
    pose proof (events_le sclones tr (Family.life sclones tr i)) as H1. pose proof (lv_length _ _ _ F1 i Hi) as H2.
    unfold sh, len. unfold trace in *. lia. }
  pose proof (insides_len _ _ Hf) as Hl.
  assert (lossless (concat hs)) as Hll.
  { eapply insides_lossless; [|exact Hf|exact Hp|exact Hx]. destruct HB as (_ & _ & _ & HB & _). lia. }
  apply sestablished_iff in He.
  pose proof (ledger_receiver _ _ _ _ _ _ _ _ k Hc HLi Hll He Hk) as H.
  destruct (li_acc _ _ _ _ _ _ _ _ HLi) as (A1 & A2 & A3 & A4).
  exists (map (fun e => (snd (fst e), snd e)) l). rewrite map_map. cbn [fst]. split; [exact A3|]. split; [|split].
  - intros n z Hi. apply in_map_iff in Hi as ([[j n'] z'] & Heq & Hi). cbn [fst snd] in Heq. injection Heq as -> ->.
    destruct (A4 j n z Hi) as (k' & d & Hk' & Hd & Ho). assert (k' = k) as -> by congruence. exists d. split; [|exact Ho].
    apply nth_error_In in Hd. cbn [app] in Hd. apply in_flat_map in Hd as (e & He' & Hd). apply in_concat in He' as (h & Hh & He').
    destruct (forall2_in_r _ _ _ _ Hf Hh) as ([c r'] & Hev & Hpr).
    assert (In d (submitted h)) as Hd' by (apply in_flat_map; eauto).
    rewrite (inside_submitted _ _ _ _ Hpr Hd') in Hev. exists r'. exact Hev.
  - intros Hz. pose proof (insides_messages _ _ Hf Hz) as Hi. rewrite A1 in Hi. clear - Hi.
    revert Hi. generalize (smessages sh). induction l as [|e l IH]; intros m Hi; cbn [map] in *; inversion Hi as [|a o la lo Ho Hr]; subst; constructor.
    + cbn [snd]. destruct (snd e) as [|b z], o as [o|]; cbn in *; try contradiction; auto. split; [discriminate|exact Ho].
    + apply IH, Hr.
  - intros ds ms Hds Hbd. destruct (H ds ms Hds ltac:(lia)) as (os & m' & R' & Ham & Hr & H1 & H2).
    destruct (lift_answers C Z T _ _ _ _ Hr _ _ _ Ham) as (so & s' & Hsa & Hm' & Hsr).
    exists so, s', R'. split; [exact Hsa|]. split; [exact Hsr|]. unfold sfailed. rewrite sestablished_iff, Hm'. auto.
Qed.

End WithEnv.

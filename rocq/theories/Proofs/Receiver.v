(** Reading user messages refines the receiver of Spec/Receiver.v (C62). *)

From Verif.Model Require Import Minimal.
From Verif.Spec Require Import Wire Datagram Trace ReadSpec Accept Session Writers Receiver.
From Verif.Proofs Require Import BaseFacts CipherFacts ReaderFacts ReadCases Invariant Negotiation
  Failure DatagramFacts ReadSpecFacts Accept Keys TraceInv Histories WindowFacts UserReads Ledger Nonces
  Sending Vocabulary Corollaries.

(** ** The specification is a function *)
Theorem receive_det R n data o R1 o' R1' :
  receive R n data o R1 -> receive R n data o' R1' -> o = o' /\ R1 = R1'.
Proof.
  destruct 1 as [H1|H1 H2|H1 H2|H1 H2 H3]; destruct 1 as [K1|K1 K2|K1 K2|K1 K2 K3];
    try contradiction; try congruence; try (split; reflexivity);
    try (destruct K2; contradiction); try (destruct H2; contradiction).
Qed.

Theorem receives_det R ms os R1 os' R1' :
  receives R ms os R1 -> receives R ms os' R1' -> os = os' /\ R1 = R1'.
Proof.
  intros H. revert os' R1'. induction H as [R|R n data o R1 ms os R2 H _ IH]; intros os' R1' K.
  - inversion K. auto.
  - inversion K as [|? ? ? o2 R3 ? os2 ? H' K' E1 E2]; subst.
    destruct (receive_det _ _ _ _ _ _ _ H H') as [-> ->]. destruct (IH _ _ K') as [-> ->]. auto.
Qed.

Section WithEnv.
Context (C : Crypto) (T : target) (HL : CryptoLaws C).

Notation nonces l := (map (fun e : nat * N * bytes => snd (fst e)) l).

Record follows (k : secret_key) (s : msl) (R : receiver) : Prop := {
  fo_reach : reachable C T s;
  fo_key : session_key s = Some k;
  fo_taken : forall m, received s m <-> In m (taken R);
  fo_nodup : NoDup (taken R);
  fo_status : msl_status s = if dead R then Fail else NegotiationSuccessful
}.

Lemma failed_user s d text L n :
  msl_status s = Fail -> ~ received s n -> is_datagram C T s d text L (KUser n) ->
  snd (read C T d s) = Err ConnectionHadFail.
Proof.
  intros Hst Hn Hd. pose proof (reader_of_class C T HL s d _ Hd) as Hr. cbn [class_outcome] in Hr.
  unfold read, read_inner. rewrite Hr. cbn [frame_data dd_headers content_headers]. unfold read_user.
  apply not_received in Hn as [N1 N2]. apply N.ltb_ge in N1. apply set_contains_nIn in N2.
  rewrite N1, N2, Hst. reflexivity.
Qed.

Lemma follows_step k s R d n data :
  follows k s R -> opens C T k d n data -> used s + 1 < 2 ^ 64 ->
  exists o R', receive R n data o R' /\ snd (read C T d s) = o /\ follows k (fst (read C T d s)) R' /\
    used (fst (read C T d s)) <= used s + 1.
Proof.
  intros [] Ho Hu. pose proof (inv_reachable C T s fo_reach0) as HI.
  destruct (opens_class C T HL k d n data Ho) as (text & L & Hd & Hdg & Hh & Hq & Hg).
  rewrite <- fo_key0 in Hdg.
  pose proof (reach_step C T s (CRead d) fo_reach0) as HR'. cbn [call_step] in HR'.
  assert (session_key (fst (read C T d s)) = Some k) as Hk'.
  { destruct (read C T d s) as [s' o] eqn:E.
    eapply (secret_is_final C T HL s [CRead d]); [exact fo_reach0| |exact fo_key0]. cbn [run call_step].
    rewrite E. reflexivity. }
  destruct (read C T d s) as [s' o] eqn:E. cbn [fst snd] in *.
  pose proof E as E'.
  apply (read_user_result C T HL s HI d text L n) in E; [|exact Hdg].
  destruct (inv_window C T s HI) as (Hnd & Hfa & Hlo & Hne).
  pose proof (acceptable_room C T s (taken R) n HI fo_nodup0 fo_taken0) as Hroom.
  assert (established s <-> dead R = false) as Hest.
  { rewrite established_iff, fo_status0. destruct (dead R); split; congruence. }
  assert (~ wants_only_ack s) as Hwo.
  { unfold wants_only_ack. rewrite fo_status0. destruct (dead R); discriminate. }
  destruct E as [Hrc|e Hrc Hne' _ He|Hrc Hw|Hrc He Hl|Hrc He Hl Hnh|Hrc He Hh' Hx Hl|s' p Hrc He Hh' Hov Hnx Hall Hup|s' Hrc He Hh' Hr Hlast Hup Hnf].
  - do 2 eexists. split; [apply rc_repeated, fo_taken0, Hrc|]. split; [reflexivity|]. split; [constructor; auto|lia].
  - assert (dead R = true) as Hdead.
    { destruct (dead R); [reflexivity|]. exfalso. apply Hne', Hest. reflexivity. }
    assert (msl_status s = Fail) as Hst by (rewrite fo_status0, Hdead; reflexivity).
    assert (e = ConnectionHadFail) as ->.
    { apply (f_equal snd) in E'. cbn [snd] in E'. rewrite (failed_user s d text L n Hst Hrc Hdg) in E'. congruence. }
    do 2 eexists. split; [apply rc_dead; [rewrite <- fo_taken0; exact Hrc|exact Hdead]|]. split; [reflexivity|].
    split; [|cbn; unfold used; cbn; lia]. constructor; auto. cbn [set_status msl_status]. rewrite Hdead. reflexivity.
  - contradiction.
  - destruct Hh. lia.
  - contradiction.
  - do 2 eexists. split; [apply rc_too_many|split; [reflexivity|split]].
    + apply Hest, He.
    + rewrite <- fo_taken0. exact Hrc.
    + rewrite <- Hroom. intros [_ [H|H]]; [contradiction|lia].
    + constructor; auto.
    + unfold used. cbn. lia.
  - exfalso. apply (not_last_nonce C T s n HI Hu). repeat split; assumption.
  - pose proof (not_received s n) as Hnr. destruct (proj1 Hnr Hrc) as [N1 N2].
    destruct (update_window_seen T n s s' (Ok tt) Hup Hnd N1 N2 Hu) as [(_ & A & B)|(? & _)]; [|discriminate].
    do 2 eexists. split; [apply rc_delivered|split; [exact Hg|split]].
    + apply Hest, He.
    + apply Hroom. split; [exact Hrc|exact Hr].
    + constructor; auto; cbn [taken dead].
      * intros m. pose proof (B m) as Bm. change (received s' m <-> received s m \/ m = n) in Bm.
        rewrite Bm, fo_taken0. cbn [In]. intuition congruence.
      * constructor; [rewrite <- fo_taken0; exact Hrc|exact fo_nodup0].
      * apply update_window_shape in Hup as [(v & l & -> & _)|[-> Hx]]; [|discriminate].
        cbn [set_window msl_status]. apply established_iff, He.
    + unfold used in *. lia.
Qed.

Lemma follows_run k ds ms : Forall2 (fun d m => opens C T k d (fst m) (snd m)) ds ms ->
  forall s R, follows k s R -> used s + len ds < 2 ^ 64 ->
  exists os s' R', answers C T s ds os s' /\ receives R ms os R' /\ follows k s' R'.
Proof.
  induction 1 as [|d [n data] ds ms Ho _ IH]; intros s R HF Hu.
  - exists [], s, R. split; [split; reflexivity|]. split; [constructor|exact HF].
  - rewrite len_cons in Hu. cbn [fst snd] in Ho.
    destruct (follows_step k s R d n data HF Ho ltac:(lia)) as (o & R1 & Hr & Eo & HF1 & Hu1).
    destruct (read C T d s) as [s1 o1] eqn:E. cbn [fst snd] in *. subst o1.
    destruct (IH s1 R1 HF1 ltac:(lia)) as (os & s' & R' & (Ha & Hlen) & Hrs & HF').
    exists (o :: os), s', R'. split; [|split; [econstructor; eassumption|exact HF']].
    split; [|cbn [length]; congruence]. cbn [map run call_step combine]. rewrite E, Ha. reflexivity.
Qed.

Theorem receiver_refinement r cfg pin s0 cs s h k :
  create C r cfg pin = Ok s0 -> run C T s0 cs = (s, h) -> len h < 2 ^ 64 -> lossless h ->
  established s -> session_key s = Some k ->
  exists l, accounts C T s (submitted h) h l /\
    forall ds ms, Forall2 (fun d m => opens C T k d (fst m) (snd m)) ds ms -> len h + len ds < 2 ^ 64 ->
    exists os s' R', answers C T s ds os s' /\
      receives {| taken := nonces l; dead := false |} ms os R' /\
      (failed C s' <-> dead R' = true) /\ (established s' <-> dead R' = false).
Proof.
  intros Hc E Hb Hl He Hk. destruct (linv_created C T HL _ _ _ _ _ _ _ Hc E Hb) as (l & pend & [] & Hu0).
  exists l. split; [exact li_acc|]. intros ds ms Hds Hlen.
  pose proof (submitted_len h) as Hsl.
  destruct (follows_run k ds ms Hds s {| taken := nonces l; dead := false |}) as (os & s' & R' & Ha & Hr & HF).
  - constructor; cbn [taken dead]; auto.
    + intros m. rewrite (li_exact Hl m). destruct (created_fresh C _ _ _ _ Hc) as (F1 & F2 & _).
      unfold received at 1. rewrite F1, F2. cbn [In].
      split; [intros [[H|[]]|H]; [lia|exact H]|auto].
    + apply li_acc.
    + apply established_iff, He.
  - unfold len in *. cbn [length] in li_used. lia.
  - exists os, s', R'. split; [exact Ha|]. split; [exact Hr|]. rewrite failed_iff, established_iff, (fo_status _ _ _ HF).
    destruct (dead R'); split; split; congruence.
Qed.

Lemma no_deliveries s ds h l : accounts C T s ds h l -> user_deliveries h = [] -> l = [].
Proof.
  intros (H & _) Hn. rewrite Hn in H. destruct l; [reflexivity|discriminate].
Qed.

End WithEnv.

(** ** When every message is delivered once *)

(** A predicate kept by every next number makes it acceptable. *)
Lemma once_gen ms : forall R os R',
  receives R ms os R' -> dead R = false ->
  (forall a n data b, ms = a ++ (n, data) :: b -> forall ns,
     NoDup ns -> (forall m, In m ns <-> In m (map fst a) \/ In m (taken R)) -> ~ In n ns -> nonce_acceptable ns n) ->
  NoDup (taken R) -> forall seen, (forall m, In m seen <-> In m (taken R)) ->
  os = once seen ms /\ dead R' = false.
Proof.
  induction ms as [|[n data] ms IH]; intros R os R' H Hd Hacc Hnd seen Hs;
    inversion H as [|? ? ? o R1 ? os1 ? H1 H2]; subst.
  - auto.
  -match goal with H1 : receive R n data _ _, H2 : receives _ ms _ _ |- _ => rename H1 into H1, H2 into H2 end.
    cbn [once].
    assert (In n (taken R) <-> existsb (N.eqb n) seen = true) as Hex.
    { rewrite existsb_exists, <- Hs. split.
      - intros Hi. exists n. split; [exact Hi|apply N.eqb_refl].
      - intros (m & Hm & Em). apply N.eqb_eq in Em. subst m. exact Hm. }
    inversion H1 as [Hi|? ?|? Ha|? ? Ha]; subst; try congruence.
    + rewrite (proj1 Hex Hi).
      destruct (IH _ _ _ H2 Hd) with (seen := n :: seen) as [-> Hd'].
      * intros a m dm b Eb ns Hnd' Hns Hm. apply (Hacc ((n, data) :: a) m dm b); [cbn; congruence|exact Hnd'| |exact Hm].
        intros x. rewrite Hns. cbn [map fst In]. intuition (subst; auto).
      * exact Hnd.
      * intros m. cbn [In]. rewrite Hs. intuition (subst; auto).
      * auto.
    + destruct Ha as [Hi _].
      destruct (existsb (N.eqb n) seen) eqn:Ee; [exfalso; apply Hi, Hex; reflexivity|].
      destruct (IH _ _ _ H2 eq_refl) with (seen := n :: seen) as [-> Hd'].
      * cbn [taken]. intros a m dm b Eb ns Hnd' Hns Hm.
        apply (Hacc ((n, data) :: a) m dm b); [cbn; congruence|exact Hnd'| |exact Hm].
        intros x. rewrite Hns. cbn [map fst In]. intuition (subst; auto).
      * cbn [taken]. constructor; assumption.
      * intros m. cbn [In taken]. rewrite Hs. reflexivity.
      * auto.
    + exfalso. apply Ha.
      apply (Hacc [] n data ms eq_refl); auto. intros m. cbn [map In]. tauto.
Qed.

(** The least number missing from a list. *)
Lemma least_missing (ns : list N) : exists m, ~ In m ns /\ forall x, x < m -> In x ns.
Proof.
  assert (forall f b, (forall x, x < b -> In x ns) ->
    (exists m, ~ In m ns /\ forall x, x < m -> In x ns) \/ (forall x, x < b + N.of_nat f -> In x ns)) as H.
  { induction f as [|f IH]; intros b Hb.
    - right. intros x Hx. apply Hb. lia.
    - destruct (in_dec N.eq_dec b ns) as [Hi|Hi]; [|left; eauto].
      destruct (IH (b + 1)) as [H|H]; [|auto|].
      + intros x Hx. destruct (N.eq_dec x b) as [->|]; [exact Hi|apply Hb; lia].
      + right. intros x Hx. apply H. lia. }
  destruct (H (S (length ns)) 0) as [H'|H']; [intros x Hx; lia|exact H'|exfalso].
  assert (incl (map N.of_nat (seq 0 (S (length ns)))) ns) as Hi.
  { intros x Hx. apply in_map_iff in Hx as (i & <- & Hi). apply in_seq in Hi. apply H'. lia. }
  apply NoDup_incl_length in Hi.
  - rewrite map_length, seq_length in Hi. lia.
  - apply FinFun.Injective_map_NoDup; [intros i j; lia|apply seq_NoDup].
Qed.

Theorem window_once ms os R' :
  receives {| taken := []; dead := false |} ms os R' -> in_window ms -> os = once [] ms /\ dead R' = false.
Proof.
  intros H Hw. eapply once_gen; [exact H|reflexivity| |constructor|intros m; reflexivity].
  cbn [taken]. intros a n data b Eb ns Hnd Hns Hn. split; [exact Hn|].
  destruct (least_missing ns) as (lm & Hlm & Hlow).
  destruct (N.lt_trichotomy n lm) as [Hlt|[->|Hgt]]; [exfalso; apply Hn, Hlow, Hlt|left; exact Hlow|right].
  exists lm. split; [exact Hlm|]. split; [exact Hlow|].
  assert (forall a1 m dm b1, ms = a1 ++ (m, dm) :: b1 -> incl (map fst a1) ns -> m <= lm + 10000) as Hup.
  { intros a1 m dm b1 Em Hi. destruct (N.le_gt_cases m (lm + 10000)) as [Hle|Hg]; [exact Hle|exfalso].
    apply Hlm, Hi. apply (Hw a1 m dm b1 Em). exact Hg. }
  set (f := filter (fun m => lm <? m) ns).
  set (all := map (fun i => lm + 1 + N.of_nat i) (seq 0 (N.to_nat 10000))).
  assert (incl (n :: f) all) as Hi.
  { assert (forall m, lm < m -> m <= lm + 10000 -> In m all) as Hall.
    { intros m H1 H2. apply in_map_iff. exists (N.to_nat (m - lm - 1)). split; [lia|]. apply in_seq. lia. }
    intros m [<-|Hm].
    - apply Hall; [exact Hgt|]. eapply Hup; [exact Eb|]. intros x Hx. apply Hns. auto.
    - apply filter_In in Hm as [Hm Hm']. apply N.ltb_lt in Hm'. apply Hall; [exact Hm'|].
      apply Hns in Hm as [Hm|[]]. apply in_map_iff in Hm as ([m' dm] & <- & Hm).
      apply in_split in Hm as (a1 & a2 & ->). cbn [fst].
      eapply (Hup a1 m' dm (a2 ++ (n, data) :: b)); [rewrite Eb, <- app_assoc; reflexivity|].
      intros x Hx. apply Hns. left. rewrite map_app. apply in_app_iff. auto. }
  apply NoDup_incl_length in Hi.
  - unfold all in Hi. rewrite map_length, seq_length in Hi. cbn [length] in Hi. unfold len. fold f. lia.
  - constructor; [|apply NoDup_filter, Hnd]. unfold f. rewrite filter_In. tauto.
Qed.

Lemma nodup_incl_len (a b : list N) : NoDup a -> incl a b -> (length a <= length (nodup N.eq_dec b))%nat.
Proof.
  intros Ha Hi. apply NoDup_incl_length; [exact Ha|]. intros x Hx. apply nodup_In, Hi, Hx.
Qed.

Theorem few_once ms os R' :
  receives {| taken := []; dead := false |} ms os R' -> len (nodup N.eq_dec (map fst ms)) <= 10000 ->
  os = once [] ms /\ dead R' = false.
Proof.
  intros H Hw. eapply once_gen; [exact H|reflexivity| |constructor|intros m; reflexivity].
  cbn [taken]. intros a n data b Eb ns Hnd Hns Hn. split; [exact Hn|]. right.
  destruct (least_missing ns) as (lm & Hlm & Hlow). exists lm. split; [exact Hlm|]. split; [exact Hlow|].
  assert (length (n :: ns) <= length (nodup N.eq_dec (map fst ms)))%nat as Hlen.
  { apply nodup_incl_len; [constructor; assumption|]. rewrite Eb, map_app. cbn [map fst].
    intros m [<-|Hm]; apply in_app_iff; [right; left; reflexivity|left].
    apply Hns in Hm as [Hm|[]]. exact Hm. }
  cbn [length] in Hlen. unfold len in *.
  assert (length (filter (fun m => lm <? m) ns) <= length ns)%nat.
  { clear. induction ns as [|x l IH]; cbn [filter]; [lia|]. destruct (lm <? x); cbn [length]; lia. }
  lia.
Qed.

Section WithEnv.
Context (C : Crypto) (T : target) (HL : CryptoLaws C).

Theorem window_delivers r cfg pin s0 cs s h k :
  create C r cfg pin = Ok s0 -> run C T s0 cs = (s, h) -> lossless h -> user_deliveries h = [] ->
  established s -> session_key s = Some k ->
  forall ds ms, Forall2 (fun d m => opens C T k d (fst m) (snd m)) ds ms -> len h + len ds < 2 ^ 64 ->
    in_window ms \/ len (nodup N.eq_dec (map fst ms)) <= 10000 ->
    exists s', answers C T s ds (once [] ms) s' /\ established s'.
Proof.
  intros Hc E Hl Hn He Hk ds ms Hds Hb Hw.
  destruct (receiver_refinement C T HL _ _ _ _ _ _ _ k Hc E ltac:(lia) Hl He Hk) as (l & Hacc & H).
  rewrite (no_deliveries C T _ _ _ _ Hacc Hn) in H. cbn [map] in H.
  destruct (H ds ms Hds Hb) as (os & s' & R' & Ha & Hr & _ & Hf). exists s'.
  assert (os = once [] ms /\ dead R' = false) as [-> Hd].
  { destruct Hw; [eapply window_once|eapply few_once]; eassumption. }
  split; [exact Ha|]. apply Hf, Hd.
Qed.

End WithEnv.

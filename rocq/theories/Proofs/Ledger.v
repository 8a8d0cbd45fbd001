(** Accounting for delivered user messages along a history. *)

From Coq Require Import Arith ZifyBool ZifyNat ZifyN.
From Verif.Model Require Import Minimal.
From Verif.Spec Require Import Wire Datagram Trace ReadSpec Accept Session.
From Verif.Proofs Require Import BaseFacts CipherFacts ReaderFacts ReadCases WindowFacts Invariant
  Negotiation Failure DatagramFacts ReadSpecFacts Accept Keys TraceInv UserReads.

Lemma NoDup_app_intro {A} (l1 l2 : list A) :
  NoDup l1 -> NoDup l2 -> (forall x, In x l1 -> In x l2 -> False) -> NoDup (l1 ++ l2).
Proof.
  intros H1 H2 H. induction H1 as [|a l1 Ha H1 IH]; cbn [app]; [exact H2|].
  constructor.
  - rewrite in_app_iff. intros [Hi|Hi]; [contradiction|]. apply (H a); [left; reflexivity|exact Hi].
  - apply IH. intros x Hx. apply H. right. exact Hx.
Qed.

Lemma NoDup_app_intro_snoc {A} (l : list A) x : NoDup l -> ~ In x l -> NoDup (l ++ [x]).
Proof.
  intros H Hx. apply NoDup_app_intro; [exact H|constructor; [intros []|constructor]|].
  intros y Hy [<-|[]]. contradiction.
Qed.

Lemma Forall2_impl {A B} (P Q : A -> B -> Prop) l1 l2 :
  (forall a b, P a b -> Q a b) -> Forall2 P l1 l2 -> Forall2 Q l1 l2.
Proof. intros H. induction 1; constructor; auto. Qed.

Section WithEnv.
Context (C : Crypto) (T : target) (HL : CryptoLaws C).

Definition idx (e : nat * N * bytes) : nat := fst (fst e).
Definition nonce_of (e : nat * N * bytes) : N := snd (fst e).
Definition msg_of (e : nat * N * bytes) : message := MMessage (nonempty (snd e)).

(** ** Queued texts *)
Lemma rcase_queued_none d s s' :
  queued T d -> rcase C T false d s s' (Ok None) -> wants_only_ack s.
Proof.
  intros Hq H.
  destruct (reader_read_queued C T d (encrypt_algo_with_secret s) Hq)
    as (L & n0 & rest & ue & HL' & Hn & Hd & Hue & Hr).
  remember (Ok None) as o0 eqn:Eo.
  destruct H; try discriminate Eo;
    match goal with
    | H1 : reader_read _ _ _ _ _ = Ok ?dd |- _ =>
        rewrite Hr in H1; injection H1 as <-; cbn [dd_headers] in *; try discriminate
    | H1 : reader_read _ _ _ _ _ = _ |- _ => rewrite Hr in H1; discriminate
    end; try assumption.
  destruct o; try discriminate Eo. unfold get_message in Eo.
  match type of Eo with context [slice ?a ?b ?c] => destruct (slice a b c) end; discriminate.
Qed.

Lemma rcase_queued_failed d s s' o :
  queued T d -> msl_status s = Fail -> rcase C T false d s s' o ->
  (exists e, o = Err e) /\ same_window s s' /\ tmp_stack_user_msgs s' = tmp_stack_user_msgs s.
Proof.
  intros Hq Hst H.
  destruct (reader_read_queued C T d (encrypt_algo_with_secret s) Hq)
    as (L & n0 & rest & ue & HL' & Hn & Hd & Hue & Hr).
  destruct H;
    match goal with
    | H1 : reader_read _ _ _ _ _ = Ok ?dd |- _ =>
        rewrite Hr in H1; injection H1 as <-; cbn [dd_headers] in *; try discriminate
    | H1 : reader_read _ _ _ _ _ = _ |- _ => rewrite Hr in H1; discriminate
    end; try congruence; repeat split; eauto.
Qed.

(** The early queue is filled by datagrams of this session. *)
Definition queue_ok (s : msl) : Prop :=
  tmp_stack_user_msgs s <> [] -> exists k, session_key s = Some k /\ keystream_ok C k.

Lemma read_stack s d s' o :
  Inv C T s -> read C T d s = (s', o) ->
  tmp_stack_user_msgs s' = tmp_stack_user_msgs s \/
  exists k text, session_key s = Some k /\ keystream_ok C k /\ d = seal C k text /\
    tmp_stack_user_msgs s' = tmp_stack_user_msgs s ++ [text] /\
    encrypt_algo_with_secret s' = encrypt_algo_with_secret s.
Proof.
  intros HI E.
  destruct (datagram_total C T HL (session_key s) d) as [c Hc].
  destruct c as [|e| |text L k].
  { destruct (read_of_panic C T HL s d Hc) as [p Hp]. rewrite Hp in E. injection E as <- <-. auto. }
  { rewrite (read_of_reject C T HL s d e Hc) in E. injection E as <- <-. auto. }
  { rewrite (read_of_undecryptable C T HL s d Hc) in E. injection E as <- <-. auto. }
  pose proof (datagram_frame C T _ _ _ _ _ Hc) as (HL64 & _ & (th & rest & Ht & Hh) & Hd).
  destruct k as [epk pk|ch|n]; cbn [must_be_sealed] in Hd.
  - destruct (pin_window pk s) as (P1 & P2).
    apply (read_connect_result C T HL s HI d text L epk pk) in E; [|exact Hc].
    destruct E as [|?|?|e ? ? ? He|s' ? ? ? ? ? Hcn|s' ? ? ? ? ? Hcn]; auto;
      destruct Hcn as (l & kp & _ & _ & ->); left; exact P1.
  - apply (read_ack_result C T HL s d text L ch) in E; [|exact Hc]. destruct E; auto.
  - destruct Hd as [[Hd _]|(_ & Hnm & k & Hk & Hseal)]; [discriminate|].
    assert (keystream_ok C k) as Hks.
    { apply (proj2 (seal_magic_iff C HL k (version ++ u64_be L ++ th))).
      intros r' Er. rewrite <- Ht, <- Hseal in Er. exact (Hnm _ Er). }
    apply (read_user_result C T HL s HI d text L n) in E; [|exact Hc].
    destruct E as [| | | | | |? ? ? ? ? ? ? ? Hu|? ? ? ? ? ? Hu ?]; auto.
    + right. exists k, text. repeat split; auto.
    + apply update_window_shape in Hu as [(v & l & -> & _)|[-> _]]; auto.
    + apply update_window_shape in Hu as [(v & l & -> & _)|[-> _]]; auto.
Qed.

Lemma read_secret_mono s d s' o k :
  Inv C T s -> read C T d s = (s', o) -> session_key s = Some k -> session_key s' = Some k.
Proof.
  intros HI E Hk. pose proof (read_keys C T HL s d s' o HI E) as (_ & _ & _ & R4 & _).
  destruct R4 as [(_ & R4 & _)|(epk & pk & _ & Hcn & _)].
  - rewrite (session_key_secret _ _ R4). exact Hk.
  - apply connected_fields in Hcn as (l & kp & Hst & _).
    destruct (inv_wait C T s HI l Hst) as (_ & _ & Hn). apply session_key_some in Hk. congruence.
Qed.

(** The session key, once set, never changes. *)
Lemma step_secret_mono s c s' r k :
  Inv C T s -> call_step C T s c = (s', r) -> session_key s = Some k -> session_key s' = Some k.
Proof.
  intros HI E Hk. destruct c;
    try (assert (keys s' = keys s) as HK
           by (eapply step_keys; [exact HI|exact E|discriminate|discriminate]);
         unfold keys in HK; injection HK as _ _ _ _ HK _; rewrite (session_key_secret _ _ HK); exact Hk).
  - cbn [call_step] in E. destruct (read C T incoming s) as [s1 o] eqn:Er. injection E as <- <-.
    eapply read_secret_mono; eassumption.
  - cbn [call_step] in E. rewrite take_ack_read in E.
    destruct (ack_msg_recv_too_early s) as [b|]; [|injection E as <- <-; exact Hk].
    destruct (read C T b (set_ack_early None s)) as [s1 o] eqn:Er. injection E as <- <-.
    eapply read_secret_mono; [|exact Er|exact Hk]. apply inv_set_ack_early, HI.
Qed.

Lemma drain_loop_stack bs acc s s' o :
  Forall (queued T) bs -> drain_loop C T bs acc s = (s', o) ->
  tmp_stack_user_msgs s' = tmp_stack_user_msgs s \/
  (msl_status s = OngoingNegotiation ConnectMsgSent AckMsgSent).
Proof.
  intros Hq E. destruct (msl_status s) as [|[] []|] eqn:Hst; auto; left.
  all: revert acc s Hst E; induction bs as [|b bs IH]; intros acc s Hst E; cbn [drain_loop] in E;
    [injection E as <- <-; reflexivity|];
    destruct (read_inner C T false b s) as [s1 o1] eqn:E1;
    pose proof (Forall_inv Hq) as Hb; pose proof (Forall_inv_tail Hq) as Hq';
    assert (tmp_stack_user_msgs s1 = tmp_stack_user_msgs s /\
       (forall m, o1 = Ok m -> msl_status s1 = msl_status s)) as [Hs1 Hst1].
  all: try (apply read_inner_cases in E1;
     destruct (reader_read_queued C T b (encrypt_algo_with_secret s) Hb)
       as (L & n0 & rest & ue & HL' & Hn & Hd & Hue & Hr);
     destruct E1;
      match goal with
      | H1 : reader_read _ _ _ _ _ = Ok ?dd |- _ =>
          rewrite Hr in H1; injection H1 as <-; cbn [dd_headers] in *; try discriminate
      | H1 : reader_read _ _ _ _ _ = _ |- _ => rewrite Hr in H1; discriminate
      end; try congruence; try (split; [reflexivity|intros; reflexivity]);
      try (split; [reflexivity|discriminate]);
      match goal with H : update_window _ _ _ = _ |- _ =>
        apply update_window_shape in H as [(v & l & -> & _)|[-> ->]]; split; try reflexivity; discriminate end).
  all: destruct o1 as [[m|]|e|p];
    try (injection E as <- <-; exact Hs1);
    (rewrite <- Hs1; eapply IH; [exact Hq'| |exact E]; rewrite (Hst1 _ eq_refl); exact Hst).
Qed.


Lemma inv_read s d : Inv C T s -> Inv C T (fst (read C T d s)).
Proof.
  intros HI. pose proof (inv_step C T s (CRead d) HI) as H. cbn [call_step] in H.
  destruct (read C T d s). exact H.
Qed.

Lemma inv_set_stack_nil s : Inv C T s -> Inv C T (set_stack [] s).
Proof. intros []. constructor; auto; cbn; try constructor; intros H; exfalso; apply H; reflexivity. Qed.

Definition opens_entry (k : secret_key) (ds : list bytes) (e : nat * N * bytes) : Prop :=
  exists d, nth_error ds (idx e) = Some d /\ opens C T k d (nonce_of e) (snd e).

(** *** Draining an established layer *)
Lemma drain_loop_established k ds bs pend acc s s' o :
  session_key s = Some k -> keystream_ok C k -> established s -> Inv C T s ->
  Forall (queued T) bs ->
  Forall2 (fun i b => nth_error ds i = Some (seal C k b)) pend bs ->
  used s + len bs < 2 ^ 64 ->
  drain_loop C T bs acc s = (s', o) ->
  (exists l, o = Ok (acc ++ map msg_of l) /\ map idx l = pend /\
     Forall (opens_entry k ds) l /\ NoDup (map nonce_of l) /\
     Forall (fun e => ~ received s (nonce_of e)) l /\
     (forall m, received s' m <-> received s m \/ In m (map nonce_of l)) /\
     used s' = used s + len bs /\ tmp_stack_user_msgs s' = tmp_stack_user_msgs s) \/
  ((forall l, o <> Ok l) /\ (forall m, received s m -> received s' m) /\
   used s' <= used s + len bs /\ tmp_stack_user_msgs s' = tmp_stack_user_msgs s).
Proof.
  revert pend acc s. induction bs as [|b bs IH]; intros pend acc s Hk Hks He HI Hq Hp Hu E;
    cbn [drain_loop] in E.
  - injection E as <- <-. inversion Hp; subst. left. exists []. cbn [map]. rewrite app_nil_r.
    change (len (@nil bytes)) with 0. rewrite N.add_0_r.
    split; [reflexivity|]. split; [reflexivity|]. split; [constructor|]. split; [constructor|].
    split; [constructor|]. split; [|auto]. intros m. cbn [In]. tauto.
  - inversion Hp as [|i b0 pend' bs0 Hi Hp' E1 E2]; subst. rewrite len_cons in Hu.
    pose proof (Forall_inv Hq) as Hb. apply Forall_inv_tail in Hq.
    destruct (read_inner C T false b s) as [s1 o1] eqn:Er.
    pose proof (read_inner_cases C T _ _ _ _ _ Er) as Hrc.
    rewrite (read_inner_sealed C T HL k b s Hk Hks Hb) in Er.
    pose proof (inv_read s (seal C k b) HI) as HI1. rewrite Er in HI1. cbn [fst] in HI1.
    pose proof (read_secret_mono _ _ _ _ _ HI Er Hk) as Hk1.
    pose proof (read_user_step C T HL _ _ _ _ HI Er ltac:(lia)) as Hstep.
    destruct Hstep as [k' n data Hk' Ho _ Hnr -> He1 Hst Hus Hrv|? ? ? ? ? ? Hw|Hpan Hst Hus Hrv|Hno Hst [W1 W2]].
    + assert (k' = k) by congruence. subst k'.
      destruct (IH pend' (acc ++ [MMessage (nonempty data)]) s1 Hk1 Hks He1 HI1 Hq Hp' ltac:(lia) E)
        as [(l & -> & L1 & L2 & L3 & L4 & L5 & L6 & L7)|(A1 & A2 & A3 & A4)].
      * left. exists ((i, n, data) :: l). cbn [map]. rewrite <- app_assoc.
        split; [reflexivity|]. split; [cbn; congruence|].
        split; [constructor; [exists (seal C k b); split; [exact Hi|exact Ho]|exact L2]|].
        split.
        { cbn. constructor; [|exact L3]. intros Hin. apply in_map_iff in Hin as (e & En & Hin).
          rewrite Forall_forall in L4. apply (L4 e Hin). rewrite En. apply Hrv. auto. }
        split.
        { constructor; [exact Hnr|]. eapply Forall_impl; [|exact L4]. cbv beta.
          intros e Hne Hr. apply Hne, Hrv. auto. }
        split.
        { intros m. rewrite L5, Hrv. cbn [map In nonce_of fst snd]. 
          change (nonce_of (i, n, data)) with n. intuition congruence. }
        rewrite len_cons. split; [lia|congruence].
      * right. split; [exact A1|]. split; [intros m Hm; apply A2, Hrv; auto|].
        rewrite len_cons. split; [lia|congruence].
    + exfalso. apply established_iff in He. unfold wants_only_ack in Hw. congruence.
    + right. destruct o1 as [[m|]|e|p]; try discriminate Hpan. injection E as <- <-.
      split; [discriminate|]. split; [exact Hrv|]. rewrite len_cons. split; [lia|congruence].
    + destruct o1 as [[m|]|e|p].
      * exfalso. apply rcase_queued_user in Hrc; [|exact Hb]. destruct m; try discriminate. eapply Hno; reflexivity.
      * exfalso. apply rcase_queued_none in Hrc; [|exact Hb]. apply established_iff in He.
        unfold wants_only_ack in Hrc. congruence.
      * right. injection E as <- <-. split; [discriminate|]. unfold received, used. rewrite W1, W2, len_cons.
        split; [auto|]. split; [lia|exact Hst].
      * right. injection E as <- <-. split; [discriminate|]. unfold received, used. rewrite W1, W2, len_cons.
        split; [auto|]. split; [lia|exact Hst].
Qed.

(** The kept early ACK is a clear ACK for this layer. *)
Lemma early_reachable s b :
  reachable C T s -> ack_msg_recv_too_early s = Some b -> clear_ack C T s b.
Proof.
  intros HR. revert b. induction HR as [r cfg pk s Hc|s c HR IH|s c HR IH Hc]; intros b Hb.
  - unfold create in Hc. destruct (ekp_generate C r); cbn [obind] in Hc; try discriminate.
    injection Hc as <-. discriminate.
  - pose proof (inv_reachable C T s HR) as HI.
    destruct (call_step C T s c) as [s' r] eqn:E. cbn [fst] in Hb.
    destruct c;
      try (assert (keys s' = keys s) as HK
             by (eapply step_keys; [exact HI|exact E|discriminate|discriminate]);
           unfold keys in HK; injection HK as _ K2 _ _ _ K6; rewrite K6 in Hb;
           eapply clear_ack_pub; [exact K2|]; apply IH; exact Hb).
    + cbn [call_step] in E. destruct (read C T incoming s) as [s1 o] eqn:Er. injection E as <- <-.
      pose proof (read_keys C T HL _ _ _ _ HI Er) as (R1 & _ & _ & _ & R5).
      eapply clear_ack_pub; [exact R1|].
      destruct R5 as [R5|(_ & _ & R5 & _ & Hcl)]; [apply IH; congruence|].
      rewrite R5 in Hb. injection Hb as <-. exact Hcl.
    + cbn [call_step] in E. rewrite take_ack_read in E.
      destruct (ack_msg_recv_too_early s) as [b0|] eqn:Eb; [|injection E as <- <-; congruence].
      destruct (read C T b0 (set_ack_early None s)) as [s1 o] eqn:Er. injection E as <- <-.
      pose proof (read_keys C T HL _ _ _ _ (inv_set_ack_early C T None s HI) Er) as (R1 & _ & _ & _ & R5).
      eapply clear_ack_pub; [exact R1|].
      destruct R5 as [R5|(_ & _ & R5 & _ & Hcl)]; [cbn in R5; congruence|].
      rewrite R5 in Hb. injection Hb as <-. exact Hcl.
  - unfold try_clone in Hc. destruct (msl_status s); cbn [snd] in Hc; try discriminate.
    injection Hc as <-. discriminate.
Qed.

Lemma read_clear_ack s b s' o :
  clear_ack C T s b -> read C T b s = (s', o) ->
  same_window s s' /\ tmp_stack_user_msgs s' = tmp_stack_user_msgs s /\
  flat_map user_data (delivered (RMsg o)) = [].
Proof.
  intros [L Hc] E.
  apply (read_ack_result C T HL s b _ _ _ _ _ (Hc (session_key s))) in E.
  destruct E as [| | | | |k e ? ? ? ? He|k st]; repeat split.
  destruct (get_message_exact T b L (KAck (sha256 C (ephemeral_pubkey s)))) as [(_ & _ & ->)|[_ ->]]; reflexivity.
Qed.

(** ** The ledger *)
Section FromState.
Context (s0 : msl) (ds0 : list bytes).

(** [lossless] with the early queue of [s0] counted. *)
Record LInv (s : msl) (h : history) (l : list (nat * N * bytes)) (pend : list nat) : Prop := {
  li_reach : reachable C T s;
  li_acc : accounts C T s (ds0 ++ submitted h) h l;
  li_queue : queue_ok s;
  li_pend : Forall2 (fun i b => exists k, session_key s = Some k /\
              nth_error (ds0 ++ submitted h) i = Some (seal C k b)) pend (tmp_stack_user_msgs s);
  li_nodup : NoDup (map idx l ++ pend);
  li_seen : Forall (fun e => received s (nonce_of e)) l;
  li_mono : forall m, received s0 m -> received s m;
  li_used : used s + len (tmp_stack_user_msgs s) <=
            used s0 + len ds0 + len (submitted h);
  li_exact : lossless h -> forall m, received s m <-> received s0 m \/ In m (map nonce_of l)
}.

Lemma accounts_key s s' ds ds' h h' l :
  (forall k, session_key s = Some k -> session_key s' = Some k) ->
  (exists x, ds' = ds ++ x) -> user_deliveries h' = user_deliveries h ->
  accounts C T s ds h l -> accounts C T s' ds' h' l.
Proof.
  intros Hk [x ->] Hu (A1 & A2 & A3 & A4). split; [congruence|]. split; [exact A2|]. split; [exact A3|].
  intros i n data Hin. destruct (A4 i n data Hin) as (k & d & H1 & H2 & H3). exists k, d.
  split; [auto|]. split; [|exact H3]. rewrite nth_error_app1; [exact H2|].
  apply nth_error_Some. congruence.
Qed.

Lemma user_deliveries_snoc h e :
  user_deliveries (h ++ [e]) = user_deliveries h ++ flat_map user_data (delivered (snd e)).
Proof. unfold user_deliveries. rewrite flat_map_app. cbn [flat_map]. rewrite app_nil_r. reflexivity. Qed.

Lemma submitted_snoc h e :
  submitted (h ++ [e]) = submitted h ++ match fst e with CRead d => [d] | _ => [] end.
Proof. unfold submitted. rewrite flat_map_app. cbn [flat_map]. rewrite app_nil_r. reflexivity. Qed.

Lemma lossless_snoc h e : lossless (h ++ [e]) -> lossless h /\ panics (snd e) = false /\ forall er, snd e <> RMsgs (Err er).
Proof.
  intros [H1 H2]. split; [split|split].
  - intros x Hx. apply H1. apply in_app_iff. auto.
  - intros x er Hx. apply H2. apply in_app_iff. auto.
  - apply H1. apply in_app_iff. right. left. reflexivity.
  - intros er. apply H2. apply in_app_iff. right. left. reflexivity.
Qed.

Lemma pend_mono s s' ds ds' pend q :
  (forall k, session_key s = Some k -> session_key s' = Some k) ->
  (exists x, ds' = ds ++ x) ->
  Forall2 (fun i b => exists k, session_key s = Some k /\ nth_error ds i = Some (seal C k b)) pend q ->
  Forall2 (fun i b => exists k, session_key s' = Some k /\ nth_error ds' i = Some (seal C k b)) pend q.
Proof.
  intros Hk [x ->] H. induction H as [|i b pend q (k & H1 & H2) H IH]; constructor; [|exact IH].
  exists k. split; [auto|]. rewrite nth_error_app1; [exact H2|]. apply nth_error_Some. congruence.
Qed.

(** Steps that deliver no user message and keep the queue. *)
Lemma linv_quiet s h l pend s' c r :
  LInv s h l pend -> call_step C T s c = (s', r) ->
  tmp_stack_user_msgs s' = tmp_stack_user_msgs s ->
  flat_map user_data (delivered r) = [] ->
  (forall m, received s m -> received s' m) ->
  used s' <= used s + match c with CRead _ => 1 | _ => 0 end ->
  (panics r = false -> same_window s s') ->
  LInv s' (h ++ [(c, r)]) l pend.
Proof.
  intros [] E Hst Hd Hrv Hus Hw. pose proof (inv_reachable C T s li_reach0) as HI.
  assert (forall k, session_key s = Some k -> session_key s' = Some k) as Hk
    by (intros k; eapply step_secret_mono; eassumption).
  assert (exists x, ds0 ++ submitted (h ++ [(c, r)]) = (ds0 ++ submitted h) ++ x) as Hx.
  { rewrite submitted_snoc, app_assoc. eauto. }
  constructor.
  - replace s' with (fst (call_step C T s c)) by (rewrite E; reflexivity). apply reach_step, li_reach0.
  - eapply accounts_key; try eassumption. rewrite user_deliveries_snoc. cbn [snd]. rewrite Hd, app_nil_r. reflexivity.
  - intros Hne. rewrite Hst in Hne. destruct (li_queue0 Hne) as (k & H1 & H2). eauto.
  - rewrite Hst. eapply pend_mono; eassumption.
  - exact li_nodup0.
  - eapply Forall_impl; [|exact li_seen0]. cbv beta. auto.
  - auto.
  - rewrite Hst, submitted_snoc, len_app. cbn [fst].
    destruct c; unfold len in *; cbn [length] in *; lia.
  - intros Hl. apply lossless_snoc in Hl as (Hl & Hp & _). intros m.
    rewrite <- (li_exact0 Hl m). destruct (Hw Hp) as [W1 W2]. unfold received. rewrite W1, W2. reflexivity.
Qed.


Lemma len_app' {A} (a b : list A) : len (a ++ b) = len a + len b.
Proof. apply len_app. Qed.

Lemma pend_bound s h pend q i :
  Forall2 (fun i b => exists k, session_key s = Some k /\
              nth_error (ds0 ++ submitted h) i = Some (seal C k b)) pend q ->
  In i pend -> (i < length (ds0 ++ submitted h))%nat.
Proof.
  intros H Hin. induction H as [|j b pend q (k & _ & H2) H IH]; [destruct Hin|].
  destruct Hin as [-> |Hin]; [apply nth_error_Some; congruence|auto].
Qed.

Lemma linv_step s h l pend c s' r :
  LInv s h l pend -> call_step C T s c = (s', r) ->
  used s0 + len ds0 + len (submitted h) + 1 < 2 ^ 64 ->
  exists l' pend', LInv s' (h ++ [(c, r)]) l' pend'.
Proof.
  intros HLi E Hb. pose proof HLi as []. pose proof (inv_reachable C T s li_reach0) as HI.
  assert (reachable C T s') as HR'.
  { replace s' with (fst (call_step C T s c)) by (rewrite E; reflexivity). apply reach_step, li_reach0. }
  assert (forall k, session_key s = Some k -> session_key s' = Some k) as Hk
    by (intros k; eapply step_secret_mono; eassumption).
  destruct c.
  - (* read *)
    pose proof E as E0. cbn [call_step] in E0.
    destruct (read C T incoming s) as [s1 o] eqn:Er. injection E0 as <- <-. rename incoming into d.
    assert (exists x, ds0 ++ submitted (h ++ [(CRead d, RMsg o)]) = (ds0 ++ submitted h) ++ x) as Hx.
    { rewrite submitted_snoc, app_assoc. eauto. }
    assert (nth_error (ds0 ++ submitted (h ++ [(CRead d, RMsg o)])) (length (ds0 ++ submitted h)) = Some d) as Hnew.
    { rewrite submitted_snoc, app_assoc, nth_error_app2, Nat.sub_diag by lia. reflexivity. }
    pose proof (read_user_step C T HL _ _ _ _ HI Er ltac:(lia)) as Hstep.
    destruct Hstep as [k n data Hks Ho He Hnr -> He1 Hst Hus Hrv|k text Hks Hkok Hd Hq Hw -> ->|Hpan Hst Hus Hrv|Hno Hst [W1 W2]].
    + exists (l ++ [(length (ds0 ++ submitted h), n, data)]), pend.
      assert (forall i, In i (map idx l ++ pend) -> (i < length (ds0 ++ submitted h))%nat) as Hlt.
      { intros i Hi. apply in_app_iff in Hi as [Hi|Hi].
        - apply in_map_iff in Hi as ([[i' n'] d'] & <- & Hi). destruct li_acc0 as (_ & _ & _ & A4).
          destruct (A4 _ _ _ Hi) as (k' & d0 & _ & H2 & _). apply nth_error_Some. cbn [idx fst]. congruence.
        - eapply pend_bound; eassumption. }
      constructor.
      * exact HR'.
      * destruct li_acc0 as (A1 & A2 & A3 & A4). split; [|split; [|split]].
        { rewrite user_deliveries_snoc, A1, map_app. reflexivity. }
        { rewrite map_app. cbn [map fst]. apply NoDup_app_intro_snoc; [exact A2|].
          intros Hin. apply in_map_iff in Hin as (x & Hx' & Hin).
          specialize (Hlt (fst (fst x))). rewrite in_app_iff in Hlt.
          assert (fst (fst x) < length (ds0 ++ submitted h))%nat by (apply Hlt; left; apply in_map_iff; exists x; auto).
          lia. }
        { rewrite map_app. cbn [map fst snd]. apply NoDup_app_intro_snoc; [exact A3|].
          intros Hin. apply in_map_iff in Hin as (x & Hx' & Hin). rewrite Forall_forall in li_seen0.
          apply Hnr. rewrite <- Hx'. apply (li_seen0 x Hin). }
        intros i n' data' Hin. apply in_app_iff in Hin as [Hin|[Hin|[]]].
        { destruct (A4 _ _ _ Hin) as (k' & d0 & H1 & H2 & H3). exists k', d0. split; [auto|].
          split; [|exact H3]. destruct Hx as [x ->]. rewrite nth_error_app1; [exact H2|].
          apply nth_error_Some. congruence. }
        injection Hin as <- <- <-. exists k, d. auto.
      * intros Hne. rewrite Hst in Hne. destruct (li_queue0 Hne) as (k' & H1 & H2). eauto.
      * rewrite Hst. eapply pend_mono; eassumption.
      * rewrite map_app. cbn [map]. rewrite <- app_assoc. cbn [app].
        apply NoDup_Add with (a := length (ds0 ++ submitted h)) (l := map idx l ++ pend).
        { apply Add_app. }
        split; [exact li_nodup0|]. intros Hin. apply Hlt in Hin. lia.
      * apply Forall_app. split.
        { eapply Forall_impl; [|exact li_seen0]. cbv beta. intros e Hr. apply Hrv. auto. }
        constructor; [|constructor]. apply Hrv. auto.
      * intros m Hm. apply Hrv. auto.
      * rewrite Hst, Hus, submitted_snoc, len_app'. cbn [fst]. change (len [d]) with 1. lia.
      * intros Hl. apply lossless_snoc in Hl as (Hl & _). intros m. rewrite Hrv, (li_exact0 Hl), map_app, in_app_iff.
        cbn [map In]. change (nonce_of (length (ds0 ++ submitted h), n, data)) with n. intuition congruence.
    + exists l, (pend ++ [length (ds0 ++ submitted h)]).
      constructor.
      * exact HR'.
      * eapply accounts_key; try eassumption. rewrite user_deliveries_snoc. cbn. rewrite app_nil_r. reflexivity.
      * intros _. eauto.
      * cbn [tmp_stack_user_msgs set_stack]. apply Forall2_app; [eapply pend_mono; eassumption|].
        constructor; [|constructor]. exists k. split; [auto|]. rewrite <- Hd. exact Hnew.
      * rewrite app_assoc. apply NoDup_app_intro_snoc; [exact li_nodup0|]. intros Hin.
        apply in_app_iff in Hin as [Hi|Hi].
        { apply in_map_iff in Hi as ([[i' n'] d'] & Ei & Hi). destruct li_acc0 as (_ & _ & _ & A4).
          destruct (A4 _ _ _ Hi) as (k' & d0 & _ & H2 & _). cbn [idx fst] in Ei.
          assert (i' < length (ds0 ++ submitted h))%nat by (apply nth_error_Some; congruence). lia. }
        { eapply pend_bound in Hi; [|exact li_pend0]. lia. }
      * exact li_seen0.
      * exact li_mono0.
      * cbn [tmp_stack_user_msgs set_stack]. change (used (set_stack (tmp_stack_user_msgs s ++ [text]) s)) with (used s).
        rewrite submitted_snoc, !len_app'. cbn [fst]. change (len [d]) with 1. change (len [text]) with 1. lia.
      * intros Hl. apply lossless_snoc in Hl as (Hl & _). exact (li_exact0 Hl).
    + exists l, pend. eapply linv_quiet; eauto.
      * destruct o as [[m|]|e|p]; try discriminate Hpan. reflexivity.
      * rewrite Hus. lia.
      * rewrite Hpan. discriminate.
    + exists l, pend. eapply linv_quiet; eauto.
      * destruct o as [[[]|]|e|p]; try reflexivity. exfalso. eapply Hno; reflexivity.
      * intros m. unfold received. rewrite W1, W2. auto.
      * unfold used. rewrite W1, W2. lia.
      * split; assumption.
  - (* take ack *)
    exists l, pend. pose proof E as E0. cbn [call_step] in E0. rewrite take_ack_read in E0.
    destruct (ack_msg_recv_too_early s) as [b|] eqn:Eb.
    + destruct (read C T b (set_ack_early None s)) as [s1 o] eqn:Er. injection E0 as <- <-.
      apply read_clear_ack in Er as ([W1 W2] & Hst & Hd); [|exact (early_reachable s b li_reach0 Eb)].
      eapply linv_quiet; eauto.
      * intros m. unfold received. rewrite W1, W2. auto.
      * unfold used. rewrite W1, W2. cbn. lia.
      * split; assumption.
    + injection E0 as <- <-. eapply linv_quiet; eauto; [cbn; lia|split; reflexivity].
  - (* drain *)
    pose proof E as E0. cbn [call_step] in E0.
    destruct (drain_tmp_stack_user_msgs C T s) as [s1 o] eqn:Er. injection E0 as <- <-.
    assert (submitted (h ++ [(CDrain, RMsgs o)]) = submitted h) as Hsub.
    { rewrite submitted_snoc, app_nil_r. reflexivity. }
    assert (exists x, ds0 ++ submitted (h ++ [(CDrain, RMsgs o)]) = (ds0 ++ submitted h) ++ x) as Hx.
    { exists []. rewrite Hsub, app_nil_r. reflexivity. }
    destruct (msl_status s) as [|lo re|] eqn:Hst.
    + (* failed *)
      exists l, []. unfold drain_tmp_stack_user_msgs in Er.
      assert (same_window s s1 /\ tmp_stack_user_msgs s1 = [] /\ flat_map user_data (delivered (RMsgs o)) = []) as ([W1 W2] & Hq1 & Hd).
      { pose proof (inv_queue C T s HI) as Hq. destruct (tmp_stack_user_msgs s) as [|b bs] eqn:Eq; cbn [drain_loop] in Er.
        - injection Er as <- <-. repeat split.
        - destruct (read_inner C T false b (set_stack [] s)) as [s2 o2] eqn:E2. apply read_inner_cases in E2.
          apply rcase_queued_failed in E2 as ([e ->] & [A1 A2] & A3); [|exact (Forall_inv Hq)|exact Hst].
          injection Er as <- <-. repeat split; assumption. }
      constructor; auto.
      * eapply accounts_key; try eassumption. rewrite user_deliveries_snoc. cbn [snd]. rewrite Hd, app_nil_r. reflexivity.
      * intros Hne. congruence.
      * rewrite Hq1. constructor.
      * rewrite app_nil_r. apply li_acc0.
      * unfold received. rewrite W1, W2. exact li_seen0.
      * unfold received at 2. rewrite W1, W2. exact li_mono0.
      * rewrite Hq1, Hsub. unfold used at 1. rewrite W1, W2. fold (used s). change (len (@nil bytes)) with 0. lia.
      * intros Hl. apply lossless_snoc in Hl as (Hl & _). intros m. rewrite <- (li_exact0 Hl).
        unfold received. rewrite W1, W2. reflexivity.
    + (* too early *)
      exists l, pend.
      destruct (drain_too_early C T s s1 o li_reach0) as [-> ->].
      { rewrite established_iff. congruence. } { rewrite failed_iff. congruence. } { exact Er. }
      eapply linv_quiet; eauto; [cbn; lia|split; reflexivity].
    + (* established *)
      destruct (tmp_stack_user_msgs s) as [|b0 bs0] eqn:Eq.
      { exists l, pend. unfold drain_tmp_stack_user_msgs in Er. rewrite Eq in Er. cbn [drain_loop] in Er.
        injection Er as <- <-. eapply linv_quiet; eauto; [unfold used; cbn; lia|split; reflexivity]. }
      destruct (li_queue0 ltac:(rewrite Eq; discriminate)) as (k & Hks & Hkok).
      unfold drain_tmp_stack_user_msgs in Er. rewrite Eq in Er.
      assert (Forall2 (fun i b => nth_error (ds0 ++ submitted h) i = Some (seal C k b)) pend (b0 :: bs0)) as Hp2.
      { eapply Forall2_impl; [|exact li_pend0]. cbv beta. intros i b (k' & H1 & H2). congruence. }
      pose proof (inv_queue C T s HI) as Hq. rewrite Eq in Hq.
      destruct (drain_loop_established k (ds0 ++ submitted h) (b0 :: bs0) pend [] (set_stack [] s) s1 o)
        as [(l2 & -> & L1 & L2 & L3 & L4 & L5 & L6 & L7)|(A1 & A2 & A3 & A4)]; try assumption.
      { apply established_iff. exact Hst. }
      { apply inv_set_stack_nil. exact HI. }
      { change (used (set_stack [] s)) with (used s). lia. }
      * exists (l ++ l2), []. cbn [app] in *.
        assert (forall i n d, In (i, n, d) l2 -> exists k0 d0, session_key s1 = Some k0 /\
           nth_error (ds0 ++ submitted h) i = Some d0 /\ opens C T k0 d0 n d) as Hl2.
        { intros i n d Hin. rewrite Forall_forall in L2. destruct (L2 _ Hin) as (d0 & H1 & H2). exists k, d0. auto. }
        constructor.
        -- exact HR'.
        -- destruct li_acc0 as (B1 & B2 & B3 & B4). split; [|split; [|split]].
           { rewrite user_deliveries_snoc, B1, map_app. cbn [snd delivered]. f_equal.
             clear. induction l2 as [|e l2 IH]; cbn; [reflexivity|]. f_equal. exact IH. }
           { rewrite map_app. change (map (fun e => fst (fst e)) l2) with (map idx l2). rewrite L1. exact li_nodup0. }
           { rewrite map_app. apply NoDup_app_intro; [exact B3|exact L3|].
             intros n Hn1 Hn2. apply in_map_iff in Hn1 as (e1 & <- & Hi1). apply in_map_iff in Hn2 as (e2 & En & Hi2).
             rewrite Forall_forall in L4, li_seen0. apply (L4 e2 Hi2).
             unfold nonce_of. rewrite En. change (received s (nonce_of e1)). apply (li_seen0 e1 Hi1). }
           intros i n d Hin. rewrite Hsub. apply in_app_iff in Hin as [Hin|Hin]; [|auto].
           destruct (B4 _ _ _ Hin) as (k' & d0 & H1 & H2 & H3). exists k', d0. auto.
        -- intros Hne. rewrite L7 in Hne. cbn in Hne. congruence.
        -- rewrite L7. constructor.
        -- rewrite app_nil_r, map_app, L1. exact li_nodup0.
        -- apply Forall_app. split.
           { eapply Forall_impl; [|exact li_seen0]. cbv beta. intros e Hr. apply L5. auto. }
           apply Forall_forall. intros e He. apply L5. right. apply in_map. exact He.
        -- intros m Hm. apply L5. left. apply li_mono0, Hm.
        -- rewrite L7, L6, Hsub. cbn [tmp_stack_user_msgs set_stack]. change (used (set_stack [] s)) with (used s).
           change (len (@nil bytes)) with 0. lia.
        -- intros Hl. apply lossless_snoc in Hl as (Hl & _). intros m. rewrite L5, map_app, in_app_iff.
           change (received (set_stack [] s) m) with (received s m). rewrite (li_exact0 Hl). tauto.
      * exists l, []. constructor; auto.
        -- eapply accounts_key; try eassumption. rewrite user_deliveries_snoc. cbn [snd].
           destruct o as [x| |]; [exfalso; eapply A1; reflexivity| |]; cbn [delivered flat_map]; apply app_nil_r.
        -- intros Hne. rewrite A4 in Hne. cbn in Hne. congruence.
        -- rewrite A4. constructor.
        -- rewrite app_nil_r. apply li_acc0.
        -- eapply Forall_impl; [|exact li_seen0]. cbv beta. intros e Hr. apply A2. exact Hr.
        -- intros m Hm. apply A2. apply li_mono0, Hm.
        -- rewrite A4, Hsub. cbn [tmp_stack_user_msgs set_stack]. change (used (set_stack [] s)) with (used s) in A3.
           change (len (@nil bytes)) with 0. lia.
        -- intros Hl. exfalso. apply lossless_snoc in Hl as (_ & H1 & H2). cbn [snd] in *.
           destruct o as [x|e|p]; [eapply A1; reflexivity|eapply H2; reflexivity|discriminate].
  - (* connect *)
    exists l, pend. pose proof E as E0. cbn [call_step] in E0.
    destruct (create_connect_message C public_key cd s) as [s1 o] eqn:Er. injection E0 as <- <-.
    apply create_connect_cases in Er as [(r & _ & -> & _)|(-> & _)];
      (eapply linv_quiet; eauto; [cbn; unfold used; cbn; lia|split; reflexivity]).
  - exists l, pend. pose proof E as E0. cbn [call_step] in E0.
    destruct (create_ack_message C cd s) as [s1 o] eqn:Er. injection E0 as <- <-.
    apply (create_ack_cases C T) in Er as [(st & epk & _ & -> & _)|(-> & _)]; try exact HI;
      (eapply linv_quiet; eauto; [cbn; unfold used; cbn; lia|split; reflexivity]).
  - exists l, pend. pose proof E as E0. cbn [call_step] in E0.
    destruct (write_message C T data s w) as [[s1 w'] o] eqn:Er. injection E0 as <- <-.
    apply write_message_cases in Er
      as [(_ & -> & _)|[(_ & _ & -> & _)|(Hst & k & o1 & _ & _ &
          [(e & _ & _ & ->)|[(_ & n & Hn & -> & _)|(_ & p & _ & -> & _)]])]];
      (eapply linv_quiet; eauto; [cbn; unfold used; cbn; lia|split; reflexivity]).
  - exists l, pend. pose proof E as E0. cbn [call_step] in E0. unfold try_clone in E0.
    destruct (msl_status s); injection E0 as <- <-;
      (eapply linv_quiet; eauto; [cbn; unfold used; cbn; lia|split; reflexivity]).
  - exists l, pend. pose proof E as E0. cbn [call_step] in E0. unfold change_config in E0.
    destruct (cloned s); injection E0 as <- <-;
      (eapply linv_quiet; eauto; [cbn; unfold used; cbn; lia|split; reflexivity]).
Qed.

End FromState.
End WithEnv.

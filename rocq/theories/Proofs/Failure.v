(** Failure, ordering and refused calls. *)

From Coq Require Import Arith ZifyBool ZifyNat ZifyN.
From Verif.Model Require Import Minimal.
From Verif.Spec Require Import Wire Trace.
From Verif.Proofs Require Import BaseFacts CipherFacts ReaderFacts ReadCases WindowFacts Invariant
  Negotiation.

Section WithEnv.
Context (C : Crypto) (T : target).

Lemma failed_iff s : failed C s <-> msl_status s = Fail.
Proof.
  unfold failed. destruct (create_connect_message C [] None s) as [s' o] eqn:E. cbn [snd].
  apply create_connect_cases in E as [(r & Est & _ & ->)|(_ & e & -> & Ha)].
  - rewrite Est. split; discriminate.
  - destruct (msl_status s) as [|[] []|]; cbn in Ha; try discriminate;
      injection Ha as <-; split; try discriminate; reflexivity.
Qed.

Lemma established_iff s : established s <-> msl_status s = NegotiationSuccessful.
Proof. apply try_clone_succ. Qed.

Lemma panic_free_no_panic h : panic_free h -> no_panic h.
Proof. intros H. apply Forall_forall. exact H. Qed.

(** ** Inversions of [evolves] *)

Lemma evolves_fatal st e st' : evolves st e st' -> fatal e = true -> st' = Fail.
Proof.
  pose proof (event_exclusive e) as (X1 & X2 & X3 & X4 & X5).
  intros H Hf. apply X5 in Hf as Hx. destruct Hx as (A & B & D & F).
  destruct H as [st e Hq|st e Hf'|r e Hc|l st e Hc Ha|l e Hc|r st e Hc Ha]; try congruence.
  - destruct Hq as (_ & _ & _ & _ & Hq); congruence.
  - destruct Hc as [Hc|[(_ & _ & _ & _ & Hq) _]]; congruence.
  - destruct Hc as [Hc|[(_ & _ & _ & _ & Hq) _]]; congruence.
Qed.

Lemma evolves_to_fail st e : evolves st e Fail -> st <> Fail -> fatal e = true.
Proof.
  intros H Hne. inversion H; subst; try congruence; try assumption.
  - destruct l; discriminate.
  - destruct r; discriminate.
Qed.

Lemma evolves_from_fail e st' : evolves Fail e st' -> st' = Fail.
Proof. intros H. inversion H; reflexivity. Qed.

Lemma evolves_ack_created st e st' :
  evolves st e st' -> ack_created e = true ->
  exists l, st = OngoingNegotiation l ValidConnectMsgReceived.
Proof.
  pose proof (event_exclusive e) as (X1 & X2 & X3 & X4 & X5).
  intros H Hf. apply X2 in Hf as Hx. destruct Hx as (A & B & D & F).
  destruct H as [st e Hq|st e Hf'|r e Hc|l st e Hc Ha|l e Hc|r st e Hc Ha]; try congruence; eauto.
  - destruct Hq as (_ & Hq & _); congruence.
  - destruct Hc as [Hc|[(_ & Hq & _) _]]; congruence.
  - destruct Hc as [Hc|[(_ & Hq & _) _]]; congruence.
Qed.

Lemma evolves_ack_accepted st e st' :
  evolves st e st' -> ack_accepted e = true ->
  exists r, st = OngoingNegotiation ConnectMsgSent r.
Proof.
  pose proof (event_exclusive e) as (X1 & X2 & X3 & X4 & X5).
  intros H Hf. apply X4 in Hf as Hx. destruct Hx as (A & B & D & F).
  destruct H as [st e Hq|st e Hf'|r e Hc|l st e Hc Ha|l e Hc|r st e Hc Ha]; try congruence; eauto.
  - destruct Hq as (_ & _ & _ & Hq & _); congruence.
  - destruct Hc as [Hc|[(_ & _ & _ & Hq & _) _]]; congruence.
Qed.

(** ** User messages need an established connection *)

Lemma rcase_user_succ chk d s s' m :
  rcase C T chk d s s' (Ok (Some m)) -> is_user m = true ->
  msl_status s = NegotiationSuccessful.
Proof.
  intros H Hm. remember (Ok (Some m)) as o0 eqn:Eo. destruct H; try discriminate; try assumption.
  - destruct o; try discriminate. apply get_message_kind in Eo as (Hk & _).
    apply Hk in Hm as [n Hn]. congruence.
  - apply get_message_kind in Eo as (Hk & _). apply Hk in Hm as [n Hn]. congruence.
Qed.

Lemma drain_loop_succ bs acc s s' l :
  Forall (queued T) bs -> drain_loop C T bs acc s = (s', Ok l) ->
  msl_status s' = msl_status s /\ (l <> acc -> msl_status s = NegotiationSuccessful).
Proof.
  revert acc s. induction bs as [|b bs IH]; intros acc s Hq E; cbn [drain_loop] in E.
  - injection E as <- <-. split; [reflexivity|congruence].
  - apply Forall_cons_iff in Hq as [Hb Hq].
    destruct (read_inner C T false b s) as [s1 o1] eqn:Er.
    apply read_inner_cases in Er.
    pose proof (rcase_queued_status C T b s s1 o1 Hb Er) as (_ & _ & Hst).
    destruct o1 as [[m|]|e|p]; try discriminate.
    + destruct Hst as [(Hst & _ & Hm)|(_ & e & He & _)]; [|discriminate].
      destruct (Hm m eq_refl) as [cd ->].
      apply IH in E as [E1 E2]; [|exact Hq]. split; [congruence|].
      intros _. eapply rcase_user_succ; [exact Er|reflexivity].
    + destruct Hst as [(Hst & _ & Hm)|(_ & e & He & _)]; [|discriminate].
      apply IH in E as [E1 E2]; [|exact Hq]. split; [congruence|].
      intros Hl. rewrite <- Hst. auto.
Qed.

Lemma step_uses_session s c s' r :
  Inv C T s -> call_step C T s c = (s', r) -> uses_session (c, r) ->
  msl_status s = NegotiationSuccessful.
Proof.
  intros HI E Hu. unfold uses_session in Hu. cbn [snd] in Hu. destruct c; cbn [call_step] in E.
  - destruct (read C T incoming s) as [s1 o] eqn:Er. injection E as <- <-.
    destruct Hu as [(m & Hm & Hum)|[(w & E)|(c & E)]]; try discriminate.
    destruct o as [[m'|]|e|p]; cbn [delivered] in Hm; try destruct Hm as [<-|[]]; try contradiction.
    apply read_inner_cases in Er. eapply rcase_user_succ; eassumption.
  - destruct (take_ack_msg_recv_too_early C T s) as [s1 o] eqn:Er. injection E as <- <-.
    destruct Hu as [(m & Hm & Hum)|[(w & E)|(c & E)]]; try discriminate.
    destruct o as [[m'|]|e|p]; cbn [delivered] in Hm; try destruct Hm as [<-|[]]; try contradiction.
    unfold take_ack_msg_recv_too_early in Er. destruct (ack_msg_recv_too_early s); [|discriminate].
    apply read_inner_cases in Er.
    change (msl_status s) with (msl_status (set_ack_early None s)).
    eapply rcase_user_succ; eassumption.
  - destruct (drain_tmp_stack_user_msgs C T s) as [s1 o] eqn:Er. injection E as <- <-.
    destruct Hu as [(m & Hm & Hum)|[(w & E)|(c & E)]]; try discriminate.
    destruct o as [l|e|p]; cbn [delivered] in Hm; try contradiction.
    unfold drain_tmp_stack_user_msgs in Er.
    apply drain_loop_succ in Er as [_ H]; [|apply (inv_queue C T s HI)].
    apply H. intros ->. destruct Hm.
  - destruct (create_connect_message C public_key cd s) as [s1 o]. injection E as <- <-.
    destruct Hu as [(m & Hm & Hum)|[(w & E)|(c & E)]]; try discriminate. destruct Hm.
  - destruct (create_ack_message C cd s) as [s1 o]. injection E as <- <-.
    destruct Hu as [(m & Hm & Hum)|[(w & E)|(c & E)]]; try discriminate. destruct Hm.
  - destruct (write_message C T data s w) as [[s1 w1] o] eqn:Er. injection E as <- <-.
    destruct Hu as [(m & Hm & Hum)|[(w2 & E)|(c & E)]]; try discriminate; [destruct Hm|].
    injection E as -> ->.
    apply write_message_cases in Er
      as [(_ & _ & _ & [(l & r & _ & H)|(_ & H)])|[(H & _)|(H & _)]]; try discriminate; exact H.
  - unfold try_clone in E. destruct (msl_status s) eqn:Est; injection E as <- <-; auto;
    destruct Hu as [(m & Hm & Hum)|[(w & E)|(c & E)]]; try discriminate; destruct Hm.
  - unfold change_config in E. destruct (negb (cloned s)); injection E as <- <-;
    destruct Hu as [(m & Hm & Hum)|[(w & E)|(c & E)]]; try discriminate; destruct Hm.
Qed.

(** ** Order of the negotiation *)

Theorem negotiation_order r0 cfg pk s0 cs s h h1 e h2 :
  create C r0 cfg pk = Ok s0 -> run C T s0 cs = (s, h) -> h = h1 ++ e :: h2 -> panic_free h1 ->
  (ack_created e = true -> happened connect_accepted h1) /\
  (ack_accepted e = true -> happened connect_created h1) /\
  (uses_session e -> negotiated h1).
Proof.
  intros Hc E -> Hp. apply panic_free_no_panic in Hp.
  apply run_split in E as (cs1 & cs2 & sm & -> & E1 & E2).
  destruct cs2 as [|c cs2]; cbn [run] in E2; [discriminate|].
  destruct (call_step C T sm c) as [s1 r] eqn:Es.
  destruct (run C T s1 cs2) as [s2 h3]. injection E2 as <- <- <-.
  pose proof (inv_run C T s0 cs1 (inv_create C T _ _ _ _ Hc)) as HI. rewrite E1 in HI. cbn [fst] in HI.
  pose proof (tracks_run C T _ _ _ _ _ _ _ Hc E1 Hp) as Ht.
  pose proof (step_evolves C T _ _ _ _ HI Es) as Hev.
  split; [|split].
  - intros Ha. destruct (evolves_ack_created _ _ _ Hev Ha) as [l Hl]. rewrite Hl in Ht.
    apply Ht. discriminate.
  - intros Ha. destruct (evolves_ack_accepted _ _ _ Hev Ha) as [l Hl]. rewrite Hl in Ht.
    apply Ht. discriminate.
  - intros Hu. pose proof (step_uses_session _ _ _ _ HI Es Hu) as Hst. rewrite Hst in Ht. exact Ht.
Qed.

(** ** Failure *)

Lemma step_fatal_iff s c s' r :
  Inv C T s -> call_step C T s c = (s', r) ->
  (msl_status s' = Fail <-> msl_status s = Fail \/ fatal (c, r) = true).
Proof.
  intros HI E. pose proof (step_evolves C T _ _ _ _ HI E) as Hev. split.
  - intros Hf. destruct (msl_status s) eqn:Est; auto; right; rewrite Hf in Hev;
      (eapply evolves_to_fail; [exact Hev|discriminate]).
  - intros [Hf|Hf].
    + rewrite Hf in Hev. eapply evolves_from_fail; exact Hev.
    + eapply evolves_fatal; eassumption.
Qed.

Lemma run_fatal_iff s cs s' h :
  Inv C T s -> run C T s cs = (s', h) ->
  (msl_status s' = Fail <-> msl_status s = Fail \/ happened fatal h).
Proof.
  intros HI. revert s' h. induction cs as [|c cs IH] using rev_ind; intros s' h E.
  - injection E as <- <-. split; [auto|]. intros [H|H]; [exact H|]. exfalso; eapply happened_nil; exact H.
  - rewrite run_snoc in E. destruct (run C T s cs) as [s1 h1] eqn:E1.
    destruct (call_step C T s1 c) as [s2 r] eqn:E2. injection E as <- <-.
    rewrite happened_snoc.
    pose proof (inv_run C T s cs HI) as HI1. rewrite E1 in HI1. cbn [fst] in HI1.
    rewrite (step_fatal_iff _ _ _ _ HI1 E2). rewrite (IH _ _ eq_refl). tauto.
Qed.

Lemma rcase_fail_inert chk d s s' o :
  msl_status s = Fail -> rcase C T chk d s s' o ->
  forall m, o <> Ok (Some m).
Proof.
  intros Hst H m. destruct H; try discriminate;
    try (match goal with Ha : apply_action _ _ = _ |- _ => rewrite Hst in Ha; discriminate end);
    try congruence.
Qed.

Lemma drain_loop_fail bs s s' o :
  msl_status s = Fail -> Forall (queued T) bs -> drain_loop C T bs [] s = (s', o) ->
  forall l, o = Ok l -> l = [].
Proof.
  intros Hst Hq E l ->.
  apply drain_loop_succ in E as [_ H]; [|exact Hq].
  destruct l as [|m l]; [reflexivity|]. rewrite H in Hst by discriminate. discriminate.
Qed.

Lemma step_fail_inert s c s' r :
  Inv C T s -> msl_status s = Fail -> call_step C T s c = (s', r) -> inert (c, r).
Proof.
  intros HI Hst E. unfold inert. cbn [snd]. destruct c; cbn [call_step] in E.
  - destruct (read C T incoming s) as [s1 o] eqn:Er. injection E as <- <-.
    apply read_inner_cases in Er. split; [|exact I].
    pose proof (rcase_fail_inert _ _ _ _ _ Hst Er) as H.
    destruct o as [[m|]| |]; try reflexivity. exfalso; eapply H; reflexivity.
  - destruct (take_ack_msg_recv_too_early C T s) as [s1 o] eqn:Er. injection E as <- <-.
    split; [|exact I]. unfold take_ack_msg_recv_too_early in Er.
    destruct (ack_msg_recv_too_early s) as [b|].
    + apply read_inner_cases in Er.
      change (msl_status s) with (msl_status (set_ack_early None s)) in Hst.
      pose proof (rcase_fail_inert _ _ _ _ _ Hst Er) as H.
      destruct o as [[m|]| |]; try reflexivity. exfalso; eapply H; reflexivity.
    + injection Er as <- <-. reflexivity.
  - destruct (drain_tmp_stack_user_msgs C T s) as [s1 o] eqn:Er. injection E as <- <-.
    split; [|exact I]. unfold drain_tmp_stack_user_msgs in Er.
    assert (forall l, o = Ok l -> l = []) as Hl.
    { eapply drain_loop_fail; [|apply (inv_queue C T s HI)|exact Er]. exact Hst. }
    destruct o as [l| |]; cbn [delivered]; auto.
  - destruct (create_connect_message C public_key cd s) as [s1 o] eqn:Er. injection E as <- <-.
    split; [reflexivity|]. intros b Eb. injection Eb as ->.
    apply create_connect_cases in Er as [(r & Est & _)|(_ & e & H & _)]; congruence.
  - destruct (create_ack_message C cd s) as [s1 o] eqn:Er. injection E as <- <-.
    split; [reflexivity|]. intros b Eb. injection Eb as ->.
    apply (create_ack_cases C T) in Er as [(st & epk & Ha & _)|(_ & e & H & _)]; [| |exact HI].
    + rewrite Hst in Ha. discriminate.
    + discriminate.
  - destruct (write_message C T data s w) as [[s1 w1] o] eqn:Er. injection E as <- <-.
    split; [reflexivity|].
    apply write_message_cases in Er
      as [(_ & _ & -> & [(l & r & H & _)|(_ & ->)])|[(H & _)|(H & _)]]; try congruence. eauto.
  - unfold try_clone in E. rewrite Hst in E. injection E as <- <-. split; [reflexivity|]. discriminate.
  - unfold change_config in E. destruct (negb (cloned s)); injection E as <- <-; split; reflexivity || exact I.
Qed.

Lemma run_fail_inert s cs s' h :
  Inv C T s -> msl_status s = Fail -> run C T s cs = (s', h) -> Forall inert h.
Proof.
  revert s h. induction cs as [|c cs IH]; intros s h HI Hst E; cbn [run] in E.
  - injection E as <- <-. constructor.
  - destruct (call_step C T s c) as [s1 r] eqn:E1. destruct (run C T s1 cs) as [s2 h2] eqn:E2.
    injection E as <- <-. constructor; [eapply step_fail_inert; eassumption|].
    eapply IH; [| |exact E2].
    + pose proof (inv_step C T s c HI) as H. rewrite E1 in H. exact H.
    + apply (step_fatal_iff _ _ _ _ HI E1). auto.
Qed.

(** After a fatal reply everything is inert and the layer is failed. *)
Theorem failure_is_permanent s cs s' h h1 h2 :
  reachable C T s -> run C T s cs = (s', h) -> h = h1 ++ h2 -> happened fatal h1 ->
  failed C s' /\ (forall e, In e h2 -> inert e).
Proof.
  intros HR E -> Hf. pose proof (inv_reachable C T s HR) as HI.
  apply run_split in E as (cs1 & cs2 & sm & -> & E1 & E2).
  assert (msl_status sm = Fail) as Hst by (apply (run_fatal_iff _ _ _ _ HI E1); auto).
  pose proof (inv_run C T s cs1 HI) as HIm. rewrite E1 in HIm. cbn [fst] in HIm.
  split.
  - apply failed_iff. apply (run_fatal_iff _ _ _ _ HIm E2). auto.
  - apply Forall_forall. eapply run_fail_inert; eassumption.
Qed.

Theorem failed_layer_is_inert s c s' r :
  reachable C T s -> failed C s -> call_step C T s c = (s', r) -> inert (c, r) /\ failed C s'.
Proof.
  intros HR Hf E. pose proof (inv_reachable C T s HR) as HI. apply failed_iff in Hf. split.
  - eapply step_fail_inert; eassumption.
  - apply failed_iff. apply (step_fatal_iff _ _ _ _ HI E). auto.
Qed.

(** Exactly the fatal replies fail a working layer. *)
Theorem fails_exactly s c s' r :
  reachable C T s -> ~ failed C s -> call_step C T s c = (s', r) ->
  (failed C s' <-> fatal (c, r) = true).
Proof.
  intros HR Hf E. pose proof (inv_reachable C T s HR) as HI. rewrite failed_iff in *.
  rewrite (step_fatal_iff _ _ _ _ HI E). tauto.
Qed.

(** A history fails a fresh layer exactly when it holds a fatal reply. *)
Theorem failed_iff_fatal r0 cfg pk s0 cs s h :
  create C r0 cfg pk = Ok s0 -> run C T s0 cs = (s, h) -> (failed C s <-> happened fatal h).
Proof.
  intros Hc E. pose proof (inv_create C T _ _ _ _ Hc) as HI. rewrite failed_iff.
  rewrite (run_fatal_iff _ _ _ _ HI E). unfold create in Hc.
  destruct (ekp_generate C r0); cbn [obind] in Hc; try discriminate. injection Hc as <-.
  split; [intros [H|H]; [discriminate|exact H]|auto].
Qed.

(** ** Refused calls *)

Theorem refused_calls_no_effect s c s' r :
  reachable C T s -> call_step C T s c = (s', r) ->
  (exists e, r = RBytes (Err e) \/ r = RClone (Err e) \/ r = RUnit (Err e)) -> s' = s.
Proof.
  intros HR E (e & He). pose proof (inv_reachable C T s HR) as HI.
  destruct c; cbn [call_step] in E.
  - destruct (read C T incoming s); injection E as <- <-. destruct He as [He|[He|He]]; discriminate.
  - destruct (take_ack_msg_recv_too_early C T s); injection E as <- <-.
    destruct He as [He|[He|He]]; discriminate.
  - destruct (drain_tmp_stack_user_msgs C T s); injection E as <- <-.
    destruct He as [He|[He|He]]; discriminate.
  - destruct (create_connect_message C public_key cd s) as [s1 o] eqn:Er; injection E as <- <-.
    destruct He as [He|[He|He]]; try discriminate. injection He as ->.
    apply create_connect_cases in Er as [(r & _ & _ & H)|(-> & _)]; [discriminate|reflexivity].
  - destruct (create_ack_message C cd s) as [s1 o] eqn:Er; injection E as <- <-.
    destruct He as [He|[He|He]]; try discriminate. injection He as ->.
    apply (create_ack_cases C T) in Er as [(st & epk & _ & _ & _ & H)|(-> & _)];
      [discriminate|reflexivity|exact HI].
  - destruct (write_message C T data s w) as [[s1 w1] o]; injection E as <- <-.
    destruct He as [He|[He|He]]; discriminate.
  - unfold try_clone in E. destruct (msl_status s); injection E as <- <-; auto;
      destruct He as [He|[He|He]]; discriminate.
  - unfold change_config in E. destruct (negb (cloned s)); injection E as <- <-; auto;
      destruct He as [He|[He|He]]; discriminate.
Qed.

Theorem write_before_success s data w s' w' o :
  ~ established s -> write_message C T data s w = (s', w', o) ->
  w' = w /\ failed C s' /\
  o = Err (if match msl_status s with Fail => true | _ => false end
           then ConnectionHadFail else NegoMustHaveBeenSuccessful).
Proof.
  rewrite established_iff, failed_iff. intros Hne E.
  apply write_message_cases in E
    as [(_ & -> & -> & [(l & r & H & ->)|(H & ->)])|[(H & _)|(H & _)]]; try contradiction;
    rewrite H; auto.
Qed.

(** ** Draining too early *)

Lemma drain_loop_requeue bs q acc s :
  Forall (queued T) bs ->
  msl_status s = OngoingNegotiation ConnectMsgSent AckMsgSent ->
  next_nonce_expected s = 0 -> orphan_nonce_list s = [] ->
  drain_loop C T bs acc (set_stack q s) = (set_stack (q ++ bs) s, Ok acc).
Proof.
  revert q. induction bs as [|b bs IH]; intros q Hq Hst Hn Ho; cbn [drain_loop].
  - rewrite app_nil_r. reflexivity.
  - apply Forall_cons_iff in Hq as [Hb Hq].
    destruct (reader_read_queued C T b (encrypt_algo_with_secret s) Hb)
      as (L & n0 & rest & ue & HL & Hnn & Hd & Hue & Hr).
    unfold read_inner. cbn [set_stack encrypt_algo_with_secret]. rewrite Hr. cbn [dd_headers].
    unfold read_user. cbn [set_stack next_nonce_expected orphan_nonce_list].
    rewrite Hn, Ho. destruct (N.ltb_spec n0 0) as [Hlt|_]; [lia|]. cbn [set_contains existsb orb].
    cbn [set_stack msl_status]. rewrite Hst. cbn [apply_action].
    cbn [set_status tmp_stack_user_msgs dd_data].
    specialize (IH (q ++ [b]) Hq Hst Hn Ho). rewrite <- app_assoc in IH. cbn [app] in IH.
    rewrite <- IH. f_equal. rewrite <- Hst. destruct s; reflexivity.
Qed.

Theorem drain_too_early s s' o :
  reachable C T s -> ~ established s -> ~ failed C s ->
  drain_tmp_stack_user_msgs C T s = (s', o) -> s' = s /\ o = Ok [].
Proof.
  rewrite established_iff, failed_iff. intros HR Hne Hnf E.
  pose proof (inv_reachable C T s HR) as HI. unfold drain_tmp_stack_user_msgs in E.
  destruct (tmp_stack_user_msgs s) as [|b q] eqn:Eq.
  - cbn [drain_loop] in E. injection E as <- <-. split; [|reflexivity].
    rewrite <- Eq. destruct s; reflexivity.
  - rewrite <- Eq in E.
    assert (msl_status s = OngoingNegotiation ConnectMsgSent AckMsgSent) as Hst.
    { destruct (inv_queue_status C T s HI) as [H|[H|H]]; try contradiction; [|exact H].
      rewrite Eq; discriminate. }
    destruct (inv_nego C T s HI _ _ Hst) as (Hn & Ho & _).
    rewrite drain_loop_requeue in E; auto; [|apply (inv_queue C T s HI)].
    injection E as <- <-. split; [|reflexivity]. destruct s; reflexivity.
Qed.

End WithEnv.

(** How calls move the negotiation, and what histories can look like. *)

From Coq Require Import Arith ZifyBool ZifyNat ZifyN.
From Verif.Model Require Import Minimal.
From Verif.Spec Require Import Wire Trace.
From Verif.Proofs Require Import BaseFacts CipherFacts ReaderFacts ReadCases WindowFacts Invariant.

Definition quiet (e : event) : Prop :=
  connect_created e = false /\ ack_created e = false /\ connect_accepted e = false /\
  ack_accepted e = false /\ fatal e = false.

Inductive evolves : status -> event -> status -> Prop :=
| ev_same st e : quiet e -> evolves st e st
| ev_fail st e : fatal e = true -> evolves st e Fail
| ev_connect_out r e : connect_created e = true ->
    evolves (OngoingNegotiation Created r) e (OngoingNegotiation ConnectMsgSent r)
| ev_ack_out l st e : ack_created e = true ->
    apply_action (OngoingNegotiation l ValidConnectMsgReceived) (Create TAck) = (st, Ok None) ->
    evolves (OngoingNegotiation l ValidConnectMsgReceived) e st
| ev_connect_in l e : connect_accepted e = true \/ (quiet e /\ panics (snd e) = true) ->
    evolves (OngoingNegotiation l WaitConnectMsg) e (OngoingNegotiation l ValidConnectMsgReceived)
| ev_ack_in r st e : ack_accepted e = true \/ (quiet e /\ panics (snd e) = true) ->
    apply_action (OngoingNegotiation ConnectMsgSent r) (Receive TAck) = (st, Ok None) ->
    evolves (OngoingNegotiation ConnectMsgSent r) e st.

(** At most one of the five things happens in an event. *)
Lemma event_exclusive e :
  (connect_created e = true -> ack_created e = false /\ connect_accepted e = false /\
     ack_accepted e = false /\ fatal e = false) /\
  (ack_created e = true -> connect_created e = false /\ connect_accepted e = false /\
     ack_accepted e = false /\ fatal e = false) /\
  (connect_accepted e = true -> connect_created e = false /\ ack_created e = false /\
     ack_accepted e = false /\ fatal e = false) /\
  (ack_accepted e = true -> connect_created e = false /\ ack_created e = false /\
     connect_accepted e = false /\ fatal e = false) /\
  (fatal e = true -> connect_created e = false /\ ack_created e = false /\
     connect_accepted e = false /\ ack_accepted e = false).
Proof.
  destruct e as [c r]. unfold connect_created, ack_created, connect_accepted, ack_accepted, fatal.
  cbn [snd].
  destruct c; destruct r as [[[[]|]|[]|]|[]|[]|[] ?|[]|[]];
    cbn [harmless negb]; repeat split; try discriminate; try reflexivity;
    try (destruct e; cbn in *; discriminate || reflexivity);
    match goal with H : true = true |- _ => idtac | _ => idtac end;
    try (intros; discriminate).
Qed.

Section WithEnv.
Context (C : Crypto) (T : target).

Lemma quiet_rmsg c o :
  (forall m, o = Ok (Some m) -> is_user m = true) ->
  (forall e, o = Err e -> harmless e = true /\ e <> FailToComputeAgreement) ->
  quiet (c, RMsg o).
Proof.
  intros H1 H2. unfold quiet, connect_created, ack_created, connect_accepted, ack_accepted, fatal.
  cbn [snd].
  destruct o as [[m|]|e|p].
  - specialize (H1 m eq_refl). destruct m; cbn in H1; try discriminate.
    destruct c; repeat split.
  - destruct c; repeat split.
  - destruct (H2 e eq_refl) as [He Hne]. rewrite He. destruct c; repeat split;
      destruct e; try reflexivity; congruence.
  - destruct c; repeat split.
Qed.

Lemma get_message_kind dd m :
  get_message dd = Ok (Some m) ->
  (is_user m = true <-> exists n, dd_headers dd = HUserMsg n) /\
  (is_connect m = true <-> exists a b c, dd_headers dd = HConnect a b c) /\
  (is_ack m = true <-> exists a, dd_headers dd = HAck a).
Proof.
  unfold get_message. destruct (slice _ _ _); cbn [obind]; try discriminate.
  intros E; injection E as <-.
  destruct (dd_headers dd); cbn [message_from_bytes is_user is_connect is_ack];
    repeat split; intros H; try discriminate; try reflexivity; eauto;
    solve [destruct H as (? & H); discriminate | destruct H as (? & ? & ? & H); discriminate].
Qed.

Lemma get_message_cases dd :
  (exists m, get_message dd = Ok (Some m)) \/ (exists p, get_message dd = Panic p).
Proof.
  destruct (get_message dd) as [[m|]|e|p] eqn:E; eauto.
  - unfold get_message in E. destruct (slice _ _ _); discriminate.
  - exfalso; eapply get_message_not_err; eassumption.
Qed.

Lemma rcase_evolves c d s s' o :
  Inv C T s -> rcase C T true d s s' o ->
  evolves (msl_status s) (c, RMsg o) (msl_status s').
Proof.
  intros HI H. destruct H.
  - (* reader panic *) apply ev_same. apply quiet_rmsg; discriminate.
  - (* reader error *)
    apply ev_fail. unfold fatal. cbn [snd].
    assert (harmless e = false) as ->; [|reflexivity].
    (* reader errors are never harmless *)
    unfold reader_read in H.
    destruct (read_decrypt C T (encrypt_algo_with_secret s) d) as [[enc plain]|e'|p] eqn:Ed;
      cbn [obind] in H; try discriminate.
    + unfold read_parse, read_type_headers, slice_to, slice_from, slice, usize_add in H.
      repeat match type of H with
      | context [if ?b then _ else _] => destruct b; cbn [obind] in H
      end; try discriminate; injection H as <-; reflexivity.
    + injection H as <-. unfold read_decrypt in Ed.
      destruct (slice_to d MAGIC_VALUE_END) eqn:E; cbn [obind] in Ed; try discriminate.
      * destruct (bytes_eqb a MAGIC_VALUE); [discriminate|].
        destruct (encrypt_algo_with_secret s) as [[k]|].
        -- unfold decrypt, chacha_decrypt, aead_open in Ed.
           destruct (_ <? _); cbn [obind] in Ed; [discriminate|].
           destruct (bytes_eqb _ _); cbn [obind] in Ed; [discriminate|].
           injection Ed as <-. reflexivity.
        -- injection Ed as <-. reflexivity.
      * exfalso; eapply slice_to_no_err; eassumption.
  - apply ev_same. apply quiet_rmsg; [discriminate|]. intros e E; injection E as <-.
    split; [reflexivity|discriminate].
  - rewrite pin_status. apply ev_same. apply quiet_rmsg; discriminate.
  - rewrite pin_status. apply ev_same. apply quiet_rmsg; [discriminate|].
    intros e E; injection E as <-. split; [reflexivity|discriminate].
  - (* CONNECT out of turn *)
    cbn [set_status msl_status].
    match goal with H : apply_action _ _ = _ |- _ =>
      destruct (msl_status s) as [|[] []|]; cbn in H; try discriminate; injection H as <- <-
    end; apply ev_fail; reflexivity.
  - (* CONNECT accepted *)
    match goal with
    | Ha : apply_action _ _ = (_, Ok _), Hc : compute_shared_secret _ _ _ = _ |- _ =>
        destruct (inv_connect C T _ _ _ _ _ _ _ HI Ha Hc)
          as (l & kp & Est & -> & _ & _ & Est' & _ & _ & Ho)
    end.
    rewrite Est, Est'. apply ev_connect_in.
    destruct Ho as [(-> & _)|(-> & _)].
    + destruct (get_message_cases dd) as [(m & Em)|(p & Em)]; rewrite Em.
      * left. apply get_message_kind in Em as (_ & Hm & _).
        unfold connect_accepted. cbn [snd].
        assert (is_connect m = true) as Hc by (apply Hm; eauto).
        destruct m; try discriminate. reflexivity.
      * right. split; [|reflexivity]. apply quiet_rmsg; discriminate.
    + left. reflexivity.
  - apply ev_same. apply quiet_rmsg; [discriminate|]. intros e E; injection E as <-.
    split; [reflexivity|discriminate].
  - apply ev_same. apply quiet_rmsg; discriminate.
  - apply ev_fail. reflexivity.
  - apply ev_same. apply quiet_rmsg; discriminate.
  - apply ev_same. apply quiet_rmsg; [discriminate|]. intros e E; injection E as <-.
    split; [reflexivity|discriminate].
  - (* ACK out of turn *)
    cbn [set_status msl_status].
    match goal with H : apply_action _ _ = _ |- _ =>
      destruct (msl_status s) as [|[] []|]; cbn in H; try discriminate; injection H as <- <-
    end; apply ev_fail; reflexivity.
  - (* ACK accepted *)
    cbn [set_status msl_status].
    match goal with H : apply_action _ _ = _ |- _ => rename H into Ha end.
    assert (exists r, msl_status s = OngoingNegotiation ConnectMsgSent r /\ se = None) as (r & Est & ->).
    { destruct (msl_status s) as [|[] []|]; cbn in Ha; try discriminate; injection Ha as <- <-; eauto. }
    rewrite Est in *. apply ev_ack_in; [|exact Ha].
    destruct (get_message_cases dd) as [(m & Em)|(p & Em)]; rewrite Em.
    + left. apply get_message_kind in Em as (_ & _ & Hm).
      unfold ack_accepted. cbn [snd].
      assert (is_ack m = true) as Hc by (apply Hm; eauto).
      destruct m; try discriminate. reflexivity.
    + right. split; [|reflexivity]. apply quiet_rmsg; discriminate.
  - apply ev_same. apply quiet_rmsg; [discriminate|]. intros e E; injection E as <-.
    split; [reflexivity|discriminate].
  - cbn [set_status msl_status]. apply ev_fail.
    match goal with H : apply_action _ _ = _ |- _ =>
      destruct (msl_status s) as [|[] []|]; cbn in H; try discriminate; injection H as <-
    end; reflexivity.
  - apply ev_same. apply quiet_rmsg; discriminate.
  - apply ev_same. apply quiet_rmsg; discriminate.
  - apply ev_same. apply quiet_rmsg; [discriminate|]. intros e E; injection E as <-.
    split; [reflexivity|discriminate].
  - match goal with H : update_window _ _ _ = _ |- _ =>
      apply update_window_shape in H as [(v & l & -> & Hne)|[-> ->]] end.
    + cbn [set_window msl_status]. apply ev_same. apply quiet_rmsg.
      * intros m Em. destruct o as [u|e|p]; try discriminate.
        apply get_message_kind in Em as (Hm & _). apply Hm. eauto.
      * intros e Em. destruct o as [u|e'|p]; try discriminate.
        -- exfalso; eapply get_message_not_err; eassumption.
        -- exfalso; eapply Hne; reflexivity.
    + apply ev_fail. reflexivity.
Qed.

Lemma step_evolves s c s' r :
  Inv C T s -> call_step C T s c = (s', r) -> evolves (msl_status s) (c, r) (msl_status s').
Proof.
  intros HI E. destruct c; cbn [call_step] in E.
  - destruct (read C T incoming s) as [s1 o] eqn:Er. injection E as <- <-.
    apply read_inner_cases in Er. eapply rcase_evolves; eassumption.
  - destruct (take_ack_msg_recv_too_early C T s) as [s1 o] eqn:Er. injection E as <- <-.
    unfold take_ack_msg_recv_too_early in Er.
    destruct (ack_msg_recv_too_early s) as [b|].
    + apply read_inner_cases in Er.
      change (msl_status s) with (msl_status (set_ack_early None s)).
      eapply rcase_evolves; [|exact Er]. apply inv_set_ack; exact HI.
    + injection Er as <- <-. apply ev_same. apply quiet_rmsg; discriminate.
  - destruct (drain_tmp_stack_user_msgs C T s) as [s1 o] eqn:Er. injection E as <- <-.
    destruct (drain_inv C T _ _ _ HI Er) as (_ & _ & _ & [(Est & He & _)|(Est & e & -> & He)]).
    + rewrite Est. apply ev_same. unfold quiet, fatal. cbn [snd].
      destruct o as [l|e|p]; repeat split. rewrite (He e eq_refl). reflexivity.
    + rewrite Est. apply ev_fail. unfold fatal. cbn [snd]. rewrite He. reflexivity.
  - destruct (create_connect_message C public_key cd s) as [s1 o] eqn:Er. injection E as <- <-.
    apply create_connect_cases in Er as [(r & Est & -> & ->)|(-> & e & -> & _)].
    + rewrite Est. apply ev_connect_out. reflexivity.
    + apply ev_same. repeat split.
  - destruct (create_ack_message C cd s) as [s1 o] eqn:Er. injection E as <- <-.
    apply (create_ack_cases C T) in Er
      as [(st & epk & Ha & -> & _ & ->)|(-> & e & -> & _)]; [| |exact HI].
    + cbn [set_status msl_status].
      assert (exists l, msl_status s = OngoingNegotiation l ValidConnectMsgReceived) as (l & Est).
      { destruct (msl_status s) as [|[] []|]; cbn in Ha; try discriminate; eauto. }
      rewrite Est in *. apply ev_ack_out; [reflexivity|exact Ha].
    + apply ev_same. repeat split.
  - destruct (write_message C T data s w) as [[s1 w1] o] eqn:Er. injection E as <- <-.
    apply write_message_cases in Er
      as [(_ & -> & _ & [(l & r & _ & ->)|(_ & ->)])|[(_ & _ & -> & _ & ->)|(Hst & k & o1 & _ & _ &
        [(e & _ & -> & ->)|[(_ & n & Hn & -> & ->)|(_ & p & _ & -> & ->)]])]].
    + apply ev_fail; reflexivity.
    + apply ev_fail; reflexivity.
    + apply ev_same; repeat split.
    + apply ev_fail; reflexivity.
    + apply ev_same; repeat split.
    + apply ev_same; repeat split.
  - unfold try_clone in E.
    destruct (msl_status s) eqn:Est; injection E as <- <-; cbn [set_cloned msl_status];
      rewrite Est; apply ev_same; repeat split.
  - unfold change_config in E.
    destruct (negb (cloned s)); injection E as <- <-; apply ev_same; repeat split.
Qed.

(** ** Histories *)

Lemma run_app s cs1 cs2 :
  run C T s (cs1 ++ cs2) =
  let '(s1, h1) := run C T s cs1 in
  let '(s2, h2) := run C T s1 cs2 in (s2, h1 ++ h2).
Proof.
  revert s. induction cs1 as [|c cs1 IH]; intros s; cbn [app run].
  - destruct (run C T s cs2) as [s2 h2]. reflexivity.
  - destruct (call_step C T s c) as [s1 r]. rewrite IH.
    destruct (run C T s1 cs1) as [s2 h2]. destruct (run C T s2 cs2) as [s3 h3]. reflexivity.
Qed.

Lemma run_snoc s cs c :
  run C T s (cs ++ [c]) =
  let '(s1, h) := run C T s cs in
  let '(s2, r) := call_step C T s1 c in (s2, h ++ [(c, r)]).
Proof.
  rewrite run_app. destruct (run C T s cs) as [s1 h]. cbn [run].
  destruct (call_step C T s1 c) as [s2 r]. reflexivity.
Qed.

(** A history cut in two is two runs. *)
Lemma run_split s cs s' h1 h2 :
  run C T s cs = (s', h1 ++ h2) ->
  exists cs1 cs2 sm, cs = cs1 ++ cs2 /\ run C T s cs1 = (sm, h1) /\ run C T sm cs2 = (s', h2).
Proof.
  revert s h1. induction cs as [|c cs IH]; intros s h1 E; cbn [run] in E.
  - injection E as <- E. destruct h1; [|discriminate]. destruct h2; [|discriminate].
    exists [], [], s. auto.
  - destruct h1 as [|e h1].
    + exists [], (c :: cs), s. cbn [app run] in *. auto.
    + destruct (call_step C T s c) as [s1 r] eqn:Ec.
      destruct (run C T s1 cs) as [s2 h] eqn:Er. injection E as <- <- ->.
      destruct (IH s1 h1 Er) as (cs1 & cs2 & sm & -> & H1 & H2).
      exists (c :: cs1), cs2, sm. cbn [app run]. rewrite Ec, H1. auto.
Qed.

Lemma happened_snoc p h e : happened p (h ++ [e]) <-> happened p h \/ p e = true.
Proof.
  unfold happened. split.
  - intros (x & Hx & Hp). apply in_app_iff in Hx as [Hx|[<-|[]]]; eauto.
  - intros [(x & Hx & Hp)|Hp]; [exists x|exists e]; rewrite in_app_iff; cbn; auto.
Qed.

Lemma happened_nil p : ~ happened p [].
Proof. intros (x & [] & _). Qed.

Lemma count_snoc p h e : count p (h ++ [e]) = (count p h + (if p e then 1 else 0))%nat.
Proof.
  unfold count. rewrite filter_app, app_length. cbn [filter]. destruct (p e); reflexivity.
Qed.

Definition no_panic (h : history) : Prop := Forall (fun e => panics (snd e) = false) h.

(** The state of the negotiation after a history without panic. *)
Definition tracks (st : status) (h : history) : Prop :=
  match st with
  | Fail => happened fatal h
  | NegotiationSuccessful => negotiated h
  | OngoingNegotiation l r =>
      ~ happened fatal h /\
      (happened connect_created h <-> l <> Created) /\
      (happened ack_accepted h <-> l = ValidAckMsgReceived) /\
      (happened connect_accepted h <-> r <> WaitConnectMsg) /\
      (happened ack_created h <-> r = AckMsgSent) /\
      (l = ValidAckMsgReceived -> r <> AckMsgSent)
  end.

Lemma tracks_quiet st h e : quiet e -> tracks st h -> tracks st (h ++ [e]).
Proof.
  intros (A & B & D & F & G) H. unfold tracks, negotiated in *.
  destruct st; rewrite !happened_snoc, ?A, ?B, ?D, ?F, ?G; intuition (auto; discriminate).
Qed.

Ltac five e :=
  let X := fresh in pose proof (event_exclusive e) as X;
  repeat match goal with
  | H : connect_created e = true |- _ => let Y := fresh in pose proof (proj1 X H) as Y; clear X
  | H : ack_created e = true |- _ =>
      let Y := fresh in pose proof (proj1 (proj2 X) H) as Y; clear X
  | H : connect_accepted e = true |- _ =>
      let Y := fresh in pose proof (proj1 (proj2 (proj2 X)) H) as Y; clear X
  | H : ack_accepted e = true |- _ =>
      let Y := fresh in pose proof (proj1 (proj2 (proj2 (proj2 X))) H) as Y; clear X
  | H : fatal e = true |- _ =>
      let Y := fresh in pose proof (proj2 (proj2 (proj2 (proj2 X))) H) as Y; clear X
  end.

Lemma tracks_step st h e st' :
  tracks st h -> evolves st e st' -> panics (snd e) = false -> tracks st' (h ++ [e]).
Proof.
  intros Ht He Hp. destruct He as [st e Hq|st e Hf|r e Hc|l st e Hc Ha|l e Hc|r st e Hc Ha].
  - apply tracks_quiet; assumption.
  - unfold tracks. rewrite happened_snoc. auto.
  - five e. unfold tracks in *. rewrite !happened_snoc.
    destruct Ht as (H1 & H2 & H3 & H4 & H5 & H6).
    destruct H0 as (E1 & E2 & E3 & E4). rewrite Hc, E1, E2, E3, E4.
    intuition (auto; congruence).
  - five e. destruct H0 as (E1 & E2 & E3 & E4). unfold tracks in Ht.
    destruct Ht as (H1 & H2 & H3 & H4 & H5 & H6).
    destruct l; cbn in Ha; injection Ha as <-; unfold tracks, negotiated; rewrite !happened_snoc;
      rewrite Hc, E1, E2, E3, E4; intuition (auto; congruence).
  - destruct Hc as [Hc|[_ Hc]]; [|congruence]. five e. destruct H0 as (E1 & E2 & E3 & E4).
    unfold tracks in *. rewrite !happened_snoc.
    destruct Ht as (H1 & H2 & H3 & H4 & H5 & H6).
    rewrite Hc, E1, E2, E3, E4. intuition (auto; congruence).
  - destruct Hc as [Hc|[_ Hc]]; [|congruence]. five e. destruct H0 as (E1 & E2 & E3 & E4).
    unfold tracks in Ht. destruct Ht as (H1 & H2 & H3 & H4 & H5 & H6).
    destruct r; cbn in Ha; injection Ha as <-; unfold tracks, negotiated; rewrite !happened_snoc;
      rewrite Hc, E1, E2, E3, E4; intuition (auto; congruence).
Qed.

Lemma tracks_run r0 cfg pk s0 cs s h :
  create C r0 cfg pk = Ok s0 -> run C T s0 cs = (s, h) -> no_panic h ->
  tracks (msl_status s) h.
Proof.
  intros Hc. revert s h. induction cs as [|c cs IH] using rev_ind; intros s h E Hp.
  - injection E as <- <-. unfold create in Hc.
    destruct (ekp_generate C r0); cbn [obind] in Hc; try discriminate. injection Hc as <-.
    cbn [msl_status status_init tracks].
    repeat split; intros H; try (exfalso; eapply happened_nil; exact H); try discriminate; congruence.
  - rewrite run_snoc in E. destruct (run C T s0 cs) as [s1 h1] eqn:E1.
    destruct (call_step C T s1 c) as [s2 r] eqn:E2. injection E as <- <-.
    apply Forall_app in Hp as [Hp1 Hp2]. apply Forall_inv in Hp2.
    eapply tracks_step; [apply IH; [reflexivity|exact Hp1]| |exact Hp2].
    eapply step_evolves; [|exact E2].
    pose proof (inv_run C T s0 cs (inv_create C T _ _ _ _ Hc)) as H. rewrite E1 in H. exact H.
Qed.

Lemma try_clone_succ s : (exists c, snd (try_clone s) = Ok c) <-> msl_status s = NegotiationSuccessful.
Proof.
  unfold try_clone. destruct (msl_status s); cbn [snd]; split; intros H;
    try discriminate; eauto; destruct H as [c H]; discriminate.
Qed.

Theorem negotiation_exact r0 cfg pk s0 cs s h :
  create C r0 cfg pk = Ok s0 -> run C T s0 cs = (s, h) -> no_panic h ->
  ((exists c, snd (try_clone s) = Ok c) <-> negotiated h).
Proof.
  intros Hc E Hp. rewrite try_clone_succ.
  pose proof (tracks_run _ _ _ _ _ _ _ Hc E Hp) as Ht.
  destruct (msl_status s) as [|l r|]; unfold tracks in Ht.
  - split; [discriminate|]. intros (_ & _ & _ & _ & Hn). contradiction.
  - split; [discriminate|]. destruct Ht as (_ & _ & H3 & _ & H5 & H6).
    intros (_ & _ & Ha & Hb & _). apply H3 in Hb. apply H5 in Ha.
    exfalso. apply H6; assumption.
  - split; auto.
Qed.

(** At most once each, panics included. *)
Definition bounded (st : status) (h : history) : Prop :=
  (count connect_created h <= 1)%nat /\ (count ack_created h <= 1)%nat /\
  (count connect_accepted h <= 1)%nat /\ (count ack_accepted h <= 1)%nat /\
  match st with
  | OngoingNegotiation l r =>
      (l = Created -> count connect_created h = 0%nat) /\
      (l <> ValidAckMsgReceived -> count ack_accepted h = 0%nat) /\
      (r = WaitConnectMsg -> count connect_accepted h = 0%nat) /\
      (r <> AckMsgSent -> count ack_created h = 0%nat)
  | _ => True
  end.

Lemma bounded_step st h e st' : bounded st h -> evolves st e st' -> bounded st' (h ++ [e]).
Proof.
  intros Hb He. unfold bounded in *. rewrite !count_snoc.
  destruct He as [st e Hq|st e Hf|r e Hc|l st e Hc Ha|l e Hc|r st e Hc Ha].
  - destruct Hq as (A & B & D & F & G). rewrite A, B, D, F, !Nat.add_0_r. exact Hb.
  - five e. destruct H0 as (E1 & E2 & E3 & E4). rewrite E1, E2, E3, E4, !Nat.add_0_r. tauto.
  - five e. destruct H0 as (E1 & E2 & E3 & E4). rewrite Hc, E1, E2, E3, !Nat.add_0_r.
    destruct Hb as (B1 & B2 & B3 & B4 & B5 & B6 & B7 & B8).
    rewrite (B5 eq_refl). repeat split; auto; try discriminate.
    intros _. apply B6. discriminate.
  - five e. destruct H0 as (E1 & E2 & E3 & E4). rewrite Hc, E1, E2, E3, !Nat.add_0_r.
    destruct Hb as (B1 & B2 & B3 & B4 & B5 & B6 & B7 & B8).
    rewrite B8 by discriminate. repeat split; auto.
    destruct l; cbn in Ha; injection Ha as <-; auto; repeat split; auto; try discriminate; congruence.
  - assert (ack_created e = false /\ connect_created e = false /\ ack_accepted e = false) as (E1 & E2 & E3).
    { destruct Hc as [Hc|[(A & B & D & F & G) _]]; [five e; tauto|auto]. }
    rewrite E1, E2, E3, !Nat.add_0_r.
    destruct Hb as (B1 & B2 & B3 & B4 & B5 & B6 & B7 & B8).
    rewrite (B7 eq_refl). repeat split; auto; try discriminate.
    + destruct (connect_accepted e); cbn; lia.
    + intros _. apply B8. discriminate.
  - assert (ack_created e = false /\ connect_created e = false /\ connect_accepted e = false)
      as (E1 & E2 & E3).
    { destruct Hc as [Hc|[(A & B & D & F & G) _]]; [five e; tauto|auto]. }
    rewrite E1, E2, E3, !Nat.add_0_r.
    destruct Hb as (B1 & B2 & B3 & B4 & B5 & B6 & B7 & B8).
    rewrite B6 by discriminate. repeat split; auto.
    + destruct (ack_accepted e); cbn; lia.
    + destruct r; cbn in Ha; injection Ha as <-; auto; repeat split; auto; try discriminate; congruence.
Qed.

Lemma bounded_run r0 cfg pk s0 cs s h :
  create C r0 cfg pk = Ok s0 -> run C T s0 cs = (s, h) -> bounded (msl_status s) h.
Proof.
  intros Hc. revert s h. induction cs as [|c cs IH] using rev_ind; intros s h E.
  - injection E as <- <-. unfold create in Hc.
    destruct (ekp_generate C r0); cbn [obind] in Hc; try discriminate. injection Hc as <-.
    cbn. repeat split; auto.
  - rewrite run_snoc in E. destruct (run C T s0 cs) as [s1 h1] eqn:E1.
    destruct (call_step C T s1 c) as [s2 r] eqn:E2. injection E as <- <-.
    eapply bounded_step; [apply IH; reflexivity|].
    eapply step_evolves; [|exact E2].
    pose proof (inv_run C T s0 cs (inv_create C T _ _ _ _ Hc)) as H. rewrite E1 in H. exact H.
Qed.

End WithEnv.

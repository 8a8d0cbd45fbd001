(** Signature keys that are stolen after the negotiation (C81). *)

From Verif.Model Require Import Complete.
From Verif.Spec Require Import Wire Datagram Trace ReadSpec Accept Session Writers Attacks Adversary CompleteTrace Stolen.
From Verif.Proofs Require Import BaseFacts ReaderFacts ReadCases Invariant ReadSpecFacts Failure CompleteFacts CompleteMode.

Section WithEnv.
Context (C : Crypto) (T : target) (v : bytes -> bytes -> bytes -> bool).
Local Notation C' := (forging C v).

Definition calm (s : msl) : Prop := msl_status s = NegotiationSuccessful \/ msl_status s = Fail.

Lemma inv_forging s : Inv C T s -> Inv C' T s.
Proof. intros []. constructor; assumption. Qed.

Lemma reader_forging sec d chk : reader_read C' T sec d chk = reader_read C T sec d chk.
Proof. reflexivity. Qed.

(** Clear messages are read as they are. *)
Lemma reader_clear sec d dd : reader_read C T sec d true = Ok dd -> must_be_encrypted (dd_headers dd) = false -> dd_data dd = d.
Proof.
  unfold reader_read. intros H Hh. destruct (read_decrypt C T sec d) as [[enc p]|e|p] eqn:E; cbn [obind] in H; try discriminate.
  unfold read_parse in H.
  repeat match type of H with
  | obind ?o _ = _ => destruct o as [?|?|?]; cbn [obind] in H; try discriminate
  | (if ?b then _ else _) = _ => destruct b eqn:?; try discriminate
  | (let '(_, _) := ?x in _) = _ => destruct x as [? ?]
  end.
  injection H as <-. cbn [dd_data dd_headers] in *. rewrite Hh in *.
  destruct enc; cbn in *; try discriminate.
  unfold read_decrypt in E. destruct (slice_to d MAGIC_VALUE_END) as [?|?|?]; cbn [obind] in E; try discriminate.
  destruct (bytes_eqb _ _); [injection E as <-; reflexivity|].
  destruct sec as [aa|]; [|discriminate]. destruct (decrypt C T d aa); cbn [obind] in E; discriminate.
Qed.

Lemma verify_forging data k ue :
  verify_sig C' data k ue = verify_sig C data k ue \/
  (verify_sig C data k ue = Ok false /\ verify_sig C' data k ue = Ok true /\
   exists t sig, data = t ++ sig /\ ed25519_verify C k t sig = false /\ v k t sig = true).
Proof.
  destruct (verify_sig_exact C data k ue) as [[H E]|[H E]], (verify_sig_exact C' data k ue) as [[H' E']|[H' E']]; try lia.
  - left. congruence.
  - rewrite E, E'. cbn [forging ed25519_verify].
    pose proof (firstn_skipn (N.to_nat ue) data) as Ed. symmetry in Ed. revert Ed.
    generalize (firstn (N.to_nat ue) data) (skipn (N.to_nat ue) data). intros t sig Ed.
    destruct (ed25519_verify C k t sig) eqn:V; [left; reflexivity|]. cbn [orb].
    destruct (v k t sig) eqn:V'; [right|left; reflexivity].
    split; [reflexivity|]. split; [reflexivity|]. exists t, sig. auto.
Qed.

(** ** One read *)
Lemma read_forging d s s1 o1 s2 o2 : calm s ->
  read C T d s = (s1, o1) -> read C' T d s = (s2, o2) ->
  (s2 = s1 /\ o2 = o1) \/
  (reads_forgery C v (CRead d) /\ o1 = Err (RecvInvalidMsg InvalidHashOrSig) /\ msl_status s2 = Fail /\
   exists e, o2 = Err e /\ too_late e).
Proof.
  intros Hs. unfold read, read_inner. rewrite reader_forging.
  destruct (reader_read C T (encrypt_algo_with_secret s) d true) as [dd|e|p] eqn:E.
  2,3: intros [= <- <-] [= <- <-]; left; split; reflexivity.
  destruct (dd_headers dd) as [epk al pk|ch|n] eqn:Eh.
  - assert (dd_data dd = d) as Ed by (eapply reader_clear; [exact E|rewrite Eh; reflexivity]).
    unfold read_connect. change (compute_shared_secret C') with (compute_shared_secret C).
    assert (exists b, (match peer_sig_pubkey s with
      | Some k => (s, negb (bytes_eqb pk k))
      | None => (set_peer_sig_pubkey (Some pk) s, false) end) = (match peer_sig_pubkey s with
      | Some k => s | None => set_peer_sig_pubkey (Some pk) s end, b)) as [b ->]
      by (destruct (peer_sig_pubkey s); eexists; reflexivity).
    set (s' := match peer_sig_pubkey s with Some _ => s | None => _ end).
    assert (calm s') as Hs' by (subst s'; destruct (peer_sig_pubkey s); exact Hs).
    destruct b; [intros [= <- <-] [= <- <-]; left; split; reflexivity|].
    destruct (verify_forging (dd_data dd) pk (dd_user_msg_end dd)) as [->|(-> & -> & t & sig & Et & V)].
    + intros E1 E2. left. rewrite E1 in E2. injection E2 as <- <-. split; reflexivity.
    + intros [= <- <-] E2. right. rewrite Ed in Et. split; [exists pk, t, sig; auto|]. split; [reflexivity|].
      unfold too_late.
      destruct Hs' as [Hs'|Hs']; rewrite Hs' in E2; cbn in E2; injection E2 as <- <-; split; eauto.
  - assert (dd_data dd = d) as Ed by (eapply reader_clear; [exact E|rewrite Eh; reflexivity]).
    unfold read_ack. change (sha256 C') with (sha256 C).
    destruct (negb _); [intros [= <- <-] [= <- <-]; left; split; reflexivity|].
    destruct (peer_sig_pubkey s) as [k|].
    + destruct (verify_forging (dd_data dd) k (dd_user_msg_end dd)) as [->|(-> & -> & t & sig & Et & V)].
      * intros E1 E2. left. rewrite E1 in E2. injection E2 as <- <-. split; reflexivity.
      * intros [= <- <-] E2. right. rewrite Ed in Et. split; [exists k, t, sig; auto|]. split; [reflexivity|].
        unfold too_late.
        destruct Hs as [Hs|Hs]; rewrite Hs in E2; cbn in E2; injection E2 as <- <-; split; eauto.
    + intros E1 E2. left. rewrite E1 in E2. injection E2 as <- <-. split; reflexivity.
  - change (read_user C' T dd n s) with (read_user C T dd n s).
    intros E1 E2. left. rewrite E1 in E2. injection E2 as <- <-. split; reflexivity.
Qed.

Lemma read_queued_forging b s : queued T b -> read_inner C' T false b s = read_inner C T false b s.
Proof.
  intros Hq. unfold read_inner. rewrite reader_forging.
  destruct (reader_read_queued C T b (encrypt_algo_with_secret s) Hq) as (L & n & rest & ue & _ & _ & _ & _ & Hr).
  rewrite Hr. reflexivity.
Qed.

Lemma drain_loop_forging bs : forall acc s, Forall (queued T) bs -> drain_loop C' T bs acc s = drain_loop C T bs acc s.
Proof.
  induction bs as [|b bs IH]; intros acc s Hq; [reflexivity|]. inversion Hq; subst. cbn [drain_loop].
  rewrite read_queued_forging by assumption.
  destruct (read_inner C T false b s) as [s1 [[m|]|e|p]]; try reflexivity; apply IH; assumption.
Qed.

(** ** The status after a read *)
Lemma read_inner_calm chk d s : calm s -> calm (fst (read_inner C T chk d s)).
Proof.
  intros Hs. unfold read_inner.
  destruct (reader_read C T (encrypt_algo_with_secret s) d chk) as [dd|e|p]; [|right; reflexivity|exact Hs].
  destruct (dd_headers dd) as [epk al pk|ch|n].
  - unfold read_connect.
    destruct (peer_sig_pubkey s) as [k|]; cbv iota beta.
    1: destruct (negb (bytes_eqb pk k)); [exact Hs|].
    all: destruct (verify_sig C _ _ _) as [[|]|x|p]; try exact Hs;
      cbn [set_peer_sig_pubkey msl_status]; destruct Hs as [Hs|Hs]; rewrite Hs; cbn; right; reflexivity.
  - unfold read_ack. destruct (negb _); [exact Hs|]. destruct (peer_sig_pubkey s) as [k|].
    + destruct (verify_sig C _ _ _) as [[|]|x|p]; try exact Hs.
      destruct Hs as [Hs|Hs]; rewrite Hs; cbn; right; reflexivity.
    + destruct (ack_msg_recv_too_early s); [right; reflexivity|exact Hs].
  - unfold read_user. destruct (_ || _); [exact Hs|].
    destruct Hs as [Hs|Hs]; rewrite Hs; cbn [apply_action].
    + match goal with |- context [match ?o with Ok _ => _ | Err _ => _ | Panic _ => _ end] => destruct o as [[|]|x|p] end;
        try (left; reflexivity).
      unfold update_window. destruct (_ =? _).
      * destruct (u64_incr T _); try (left; reflexivity).
        destruct (absorb_orphans T _ _ _) as [[? ?] [?|]]; left; reflexivity.
      * destruct (_ <=? _); [right; reflexivity|left; reflexivity].
    + right. reflexivity.
Qed.

Lemma drain_loop_calm bs : forall acc s, calm s -> calm (fst (drain_loop C T bs acc s)).
Proof.
  induction bs as [|b bs IH]; intros acc s Hs; [exact Hs|]. cbn [drain_loop].
  pose proof (read_inner_calm false b s Hs) as H.
  destruct (read_inner C T false b s) as [s1 [[m|]|e|p]]; try exact H; apply IH; exact H.
Qed.

Lemma step_calm s c : calm s -> calm (fst (call_step C T s c)).
Proof.
  intros Hs. destruct c; cbn [call_step].
  - pose proof (read_inner_calm true incoming s Hs) as H. unfold read.
    destruct (read_inner C T true incoming s). exact H.
  - unfold take_ack_msg_recv_too_early. destruct (ack_msg_recv_too_early s) as [b|]; [|exact Hs].
    pose proof (read_inner_calm true b (set_ack_early None s) Hs) as H. unfold read.
    destruct (read_inner C T true b (set_ack_early None s)). exact H.
  - unfold drain_tmp_stack_user_msgs. pose proof (drain_loop_calm (tmp_stack_user_msgs s) [] (set_stack [] s) Hs) as H.
    destruct (drain_loop C T _ _ _). exact H.
  - unfold create_connect_message. destruct Hs as [Hs|Hs]; rewrite Hs; cbn; [left|right]; reflexivity.
  - unfold create_ack_message. destruct Hs as [Hs|Hs]; rewrite Hs; cbn; [left|right]; reflexivity.
  - unfold write_message. destruct Hs as [Hs|Hs]; rewrite Hs; cbn [apply_action].
    + destruct (encapsulate_and_encrypt_and_write_message C data _ w) as [w' [?|?|?]]; cbn [fst snd].
      * destruct (u64_incr T _); left; reflexivity.
      * right. reflexivity.
      * left. reflexivity.
    + right. reflexivity.
  - unfold try_clone. destruct Hs as [Hs|Hs]; rewrite Hs; cbn; [left|right]; try reflexivity; exact Hs.
  - unfold change_config. destruct (negb (cloned s)); exact Hs.
Qed.

(** ** One call *)
Lemma step_forging s c s1 r1 s2 r2 : Inv C T s -> calm s ->
  call_step C T s c = (s1, r1) -> call_step C' T s c = (s2, r2) ->
  (s2 = s1 /\ r2 = r1) \/
  (reads_forgery C v c /\ r1 = RMsg (Err (RecvInvalidMsg InvalidHashOrSig)) /\ msl_status s2 = Fail /\
   exists e, r2 = RMsg (Err e) /\ too_late e).
Proof.
  intros HI Hs E1 E2. destruct c; cbn [call_step] in E1, E2;
    try (change (call_step C' T) with (call_step C T) in E2; left; rewrite E1 in E2; injection E2 as <- <-; split; reflexivity).
  - destruct (read C T incoming s) as [x1 o1] eqn:F1, (read C' T incoming s) as [x2 o2] eqn:F2.
    injection E1 as <- <-. injection E2 as <- <-.
    destruct (read_forging _ _ _ _ _ _ Hs F1 F2) as [[-> ->]|(R & -> & Hf & e & -> & He)]; [left; auto|right; eauto 8].
  - unfold take_ack_msg_recv_too_early in *. destruct (ack_msg_recv_too_early s) as [b|].
    + destruct (read C T b (set_ack_early None s)) as [x1 o1] eqn:F1, (read C' T b (set_ack_early None s)) as [x2 o2] eqn:F2.
      injection E1 as <- <-. injection E2 as <- <-.
      destruct (read_forging _ (set_ack_early None s) _ _ _ _ Hs F1 F2) as [[-> ->]|(R & -> & Hf & e & -> & He)]; [left; auto|right].
      split; [exact I|]. eauto 8.
    + rewrite E1 in E2. injection E2 as <- <-. left. auto.
  - unfold drain_tmp_stack_user_msgs in *. rewrite drain_loop_forging in E2 by exact (inv_queue C T s HI).
    rewrite E1 in E2. injection E2 as <- <-. left. auto.
  - change (create_connect_message C') with (create_connect_message C) in E2. rewrite E1 in E2. injection E2 as <- <-. left. auto.
  - change (create_ack_message C') with (create_ack_message C) in E2. rewrite E1 in E2. injection E2 as <- <-. left. auto.
  - change (write_message C' T) with (write_message C T) in E2. rewrite E1 in E2. injection E2 as <- <-. left. auto.
Qed.

(** ** A history *)
Theorem thief s cs s1 h1 s2 h2 :
  reachable C T s -> established s ->
  run C T s cs = (s1, h1) -> run C' T s cs = (s2, h2) ->
  (s2 = s1 /\ h2 = h1) \/
  exists g c e t1 t2,
    reads_forgery C v c /\ too_late e /\
    h1 = g ++ (c, RMsg (Err (RecvInvalidMsg InvalidHashOrSig))) :: t1 /\
    h2 = g ++ (c, RMsg (Err e)) :: t2 /\ Forall inert t2 /\ failed C s2.
Proof.
  intros HR He. pose proof (inv_reachable C T s HR) as HI. apply established_iff in He.
  assert (calm s) as Hs by (left; exact He). clear HR He.
  revert s HI Hs h1 h2. induction cs as [|c cs IH]; intros s HI Hs h1 h2 E1 E2; cbn [run] in E1, E2.
  { injection E1 as <- <-. injection E2 as <- <-. left. auto. }
  destruct (call_step C T s c) as [x1 r1] eqn:F1, (call_step C' T s c) as [x2 r2] eqn:F2.
  destruct (run C T x1 cs) as [y1 k1] eqn:R1, (run C' T x2 cs) as [y2 k2] eqn:R2.
  injection E1 as <- <-. injection E2 as <- <-.
  destruct (step_forging _ _ _ _ _ _ HI Hs F1 F2) as [[-> ->]|(Rf & -> & Hf & e & -> & He)].
  - assert (Inv C T x1) as HI1 by (pose proof (inv_step C T s c HI) as H; rewrite F1 in H; exact H).
    assert (calm x1) as Hs1 by (pose proof (step_calm s c Hs) as H; rewrite F1 in H; exact H).
    destruct (IH x1 HI1 Hs1 _ _ R1 R2) as [[-> ->]|(g & c' & e & t1 & t2 & H1 & H2 & -> & -> & H3)]; [left; auto|].
    right. exists ((c, r1) :: g), c', e, t1, t2. cbn [app]. auto.
  - right. exists [], c, e, k1, k2. cbn [app]. repeat (split; [assumption || reflexivity|]).
    assert (Inv C' T x2) as HI2 by (pose proof (inv_step C' T s c (inv_forging s HI)) as H; rewrite F2 in H; exact H).
    split; [eapply (run_fail_inert C' T); eassumption|].
    apply failed_iff. apply (run_fatal_iff C' T _ _ _ _ HI2 R2). left. exact Hf.
Qed.

(** ** Complete mode *)
Context (Z : Zip).

Lemma calm_read_inner chk d s s1 o : calm s -> read_inner C T chk d s = (s1, o) ->
  forall m, o = Ok (Some m) -> exists x, m = MMessage x.
Proof.
  intros Hs. unfold read_inner.
  destruct (reader_read C T (encrypt_algo_with_secret s) d chk) as [dd|e|p]; [|intros [= _ <-]; discriminate..].
  destruct (dd_headers dd) as [epk al pk|ch|n] eqn:Eh.
  - unfold read_connect.
    destruct (peer_sig_pubkey s) as [k|]; cbv iota beta.
    1: destruct (negb (bytes_eqb pk k)); [intros [= _ <-]; discriminate|].
    all: destruct (verify_sig C _ _ _) as [[|]|x|p]; try (intros [= _ <-]; discriminate);
      cbn [set_peer_sig_pubkey msl_status]; destruct Hs as [Hs|Hs]; rewrite Hs; cbn; intros [= _ <-]; discriminate.
  - unfold read_ack. destruct (negb _); [intros [= _ <-]; discriminate|]. destruct (peer_sig_pubkey s) as [k|].
    + destruct (verify_sig C _ _ _) as [[|]|x|p]; try (intros [= _ <-]; discriminate).
      destruct Hs as [Hs|Hs]; rewrite Hs; cbn; intros [= _ <-]; discriminate.
    + destruct (ack_msg_recv_too_early s); intros [= _ <-]; discriminate.
  - assert (forall m, get_message dd = Ok (Some m) -> exists x, m = MMessage x) as Hg.
    { intros m. unfold get_message. rewrite Eh. destruct (slice _ _ _); cbn [obind]; [|discriminate..].
      intros [= <-]. cbn. eauto. }
    unfold read_user. destruct (_ || _); [intros [= _ <-]; discriminate|].
    destruct (apply_action (msl_status s) _) as [st [[[]|]|x|p]]; try (intros [= _ <-]; discriminate).
    match goal with |- context [match ?o with Ok _ => _ | Err _ => _ | Panic _ => _ end] => destruct o as [[|]|x|p] end;
      try (intros [= _ <-]; discriminate).
    destruct (update_window T n _) as [s2 [u|e|p]]; intros [= _ <-]; [exact Hg|discriminate..].
Qed.

Lemma calm_read d s s1 o : calm s -> read C T d s = (s1, o) -> forall m, o = Ok (Some m) -> exists x, m = MMessage x.
Proof. exact (calm_read_inner true d s s1 o). Qed.

Lemma read_bin_calm d s : calm (minimal s) -> calm (minimal (fst (read_bin C Z T d s))).
Proof.
  intros Hs. unfold read_bin. pose proof (read_inner_calm true d (minimal s) Hs) as H. change (read_inner C T true) with (read C T) in H.
  destruct (read C T d (minimal s)) as [m o] eqn:E. cbn [fst] in H.
  pose proof (calm_read _ _ _ _ Hs E) as Hm.
  destruct o as [[[al pk cd|cd|cd]|]|e|p]; try exact H; destruct (Hm _ eq_refl) as [x Hx]; discriminate Hx.
Qed.

Lemma sstep_calm s c : calm (minimal s) -> calm (minimal (fst (scall_step C Z T s c))).
Proof.
  intros Hs. destruct c; cbn [scall_step].
  - pose proof (read_bin_calm incoming s Hs) as H. destruct (read_bin C Z T incoming s). exact H.
  - unfold write_connect_msg_bin, writer_write_connect_msg. destruct (sig_key_pair s) as [seed|]; [|exact Hs].
    pose proof (step_calm (minimal s) (CConnect (ed25519_public C seed) (match cd with Some d => Some (compress Z d s) | None => None end)) Hs) as H.
    cbn [call_step] in H. destruct (create_connect_message C _ _ (minimal s)) as [m [b|e|p]]; try exact H.
    destruct (write_signed C seed b w). exact H.
  - unfold write_ack_msg_bin, writer_write_ack_msg. destruct (sig_key_pair s) as [seed|]; [|exact Hs].
    pose proof (step_calm (minimal s) (CAck (match cd with Some d => Some (compress Z d s) | None => None end)) Hs) as H.
    cbn [call_step] in H. destruct (create_ack_message C _ (minimal s)) as [m [b|e|p]]; try exact H.
    destruct (write_signed C seed b w). exact H.
  - unfold write_bin, writer_write_bin_message.
    pose proof (step_calm (minimal s) (CWrite (compress Z data s) w) Hs) as H. cbn [call_step] in H.
    destruct (write_message C T _ (minimal s) w) as [[m w'] o]. exact H.
  - unfold sl_try_clone. pose proof (step_calm (minimal s) CClone Hs) as H. cbn [call_step] in H.
    destruct (try_clone (minimal s)) as [m [x|e|p]]; exact H.
  - unfold sl_change_config. pose proof (step_calm (minimal s) (CConfig cfg) Hs) as H. cbn [call_step] in H.
    destruct (change_config cfg (minimal s)) as [m [x|e|p]]; exact H.
Qed.

Lemma sstep_forging s c s1 r1 s2 r2 : calm (minimal s) ->
  scall_step C Z T s c = (s1, r1) -> scall_step C' Z T s c = (s2, r2) ->
  (s2 = s1 /\ r2 = r1) \/
  (sreads_forgery C v c /\ r1 = SMsgs (Err (RecvInvalidMsg InvalidHashOrSig)) /\ msl_status (minimal s2) = Fail /\
   exists e, r2 = SMsgs (Err e) /\ too_late e).
Proof.
  intros Hs E1 E2. destruct c; cbn [scall_step] in E1, E2;
    [|left; change (write_connect_msg_bin C' Z) with (write_connect_msg_bin C Z) in E2
     |left; change (write_ack_msg_bin C' Z) with (write_ack_msg_bin C Z) in E2
     |left; change (write_bin C' Z T) with (write_bin C Z T) in E2|left|left];
    [|rewrite E1 in E2; injection E2 as <- <-; auto ..].
  unfold read_bin in E1, E2.
  destruct (read C T incoming (minimal s)) as [m1 o1] eqn:F1, (read C' T incoming (minimal s)) as [m2 o2] eqn:F2.
  destruct (read_forging _ _ _ _ _ _ Hs F1 F2) as [[-> ->]|(R & -> & Hf & e & -> & He)].
  - left. pose proof (calm_read _ _ _ _ Hs F1) as Hm.
    destruct o1 as [[[al pk cd|cd|cd]|]|e|p]; try (rewrite E1 in E2; injection E2 as <- <-; auto);
      destruct (Hm _ eq_refl) as [x Hx]; discriminate Hx.
  - right. injection E1 as <- <-. injection E2 as <- <-. split; [exact R|]. eauto 8.
Qed.

Lemma fail_no_write (x : Crypto) m w data m' w' o :
  msl_status m = Fail -> write_message x T data m w = (m', w', o) -> w' = w /\ exists e, o = Err e.
Proof.
  intros Hst Er. apply write_message_cases in Er
    as [(_ & _ & -> & [(l & r & H & _)|(_ & ->)])|[(H & _)|(H & _)]]; try congruence. eauto.
Qed.

Lemma sstep_fail_inert s c s' r : Inv C T (minimal s) -> msl_status (minimal s) = Fail -> scall_step C Z T s c = (s', r) ->
  sinert (c, r).
Proof.
  intros HI Hs E. destruct c; cbn [scall_step] in E; unfold sinert.
  - unfold read_bin in E. destruct (read C T incoming (minimal s)) as [m o] eqn:Er.
    apply read_inner_cases in Er. pose proof (rcase_fail_inert C T _ _ _ _ _ Hs Er) as H.
    destruct o as [[mm|]|e|p]; [exfalso; eapply H; reflexivity|..]; injection E as <- <-; intros l; congruence.
  - unfold write_connect_msg_bin, writer_write_connect_msg in E. destruct (sig_key_pair s) as [seed|]; [|injection E as <- <-; eauto].
    destruct (create_connect_message _ _ _ _) as [m o] eqn:Er.
    apply create_connect_cases in Er as [(x & Est & _)|(_ & e & -> & _)]; [congruence|]. injection E as <- <-. eauto.
  - unfold write_ack_msg_bin, writer_write_ack_msg in E. destruct (sig_key_pair s) as [seed|]; [|injection E as <- <-; eauto].
    destruct (create_ack_message _ _ _) as [m o] eqn:Er.
    apply (create_ack_cases C T) in Er as [(st & ep & Ha & _)|(_ & e & -> & _)]; [| |exact HI].
    + rewrite Hs in Ha. discriminate.
    + injection E as <- <-. eauto.
  - unfold write_bin, writer_write_bin_message in E. destruct (write_message _ _ _ _ _) as [[m w'] o] eqn:Er.
    apply fail_no_write in Er as [-> [e ->]]; [|exact Hs]. injection E as <- <-. eauto.
  - unfold sl_try_clone in E. unfold try_clone in E. rewrite Hs in E. injection E as <- <-. discriminate.
  - exact I.
Qed.

End WithEnv.

Section Inside.
Context (C : Crypto) (T : target) (Z : Zip).

Lemma inv_sstep_min s c s' r : Inv C T (minimal s) -> scall_step C Z T s c = (s', r) -> Inv C T (minimal s').
Proof.
  intros HI E. destruct (scall_sub C Z T _ _ _ _ E) as (cs & h & _ & R).
  pose proof (inv_run C T _ cs HI) as H. rewrite R in H. exact H.
Qed.

Lemma srun_fail s cs s' h : Inv C T (minimal s) -> msl_status (minimal s) = Fail -> srun C Z T s cs = (s', h) ->
  Forall sinert h /\ msl_status (minimal s') = Fail.
Proof.
  revert s h. induction cs as [|c cs IH]; intros s h HI Hst E; cbn [srun] in E.
  - injection E as <- <-. auto.
  - destruct (scall_step C Z T s c) as [s1 r] eqn:E1. destruct (srun C Z T s1 cs) as [s2 h2] eqn:E2.
    injection E as <- <-. pose proof (inv_sstep_min _ _ _ _ HI E1) as HI1.
    destruct (scall_sub C Z T _ _ _ _ E1) as (ks & k & _ & R).
    destruct (IH s1 h2 HI1) as [H1 H2]; [apply (run_fatal_iff C T _ _ _ _ HI R); auto|exact E2|].
    split; [|exact H2]. constructor; [|exact H1]. exact (sstep_fail_inert C T Z _ _ _ _ HI Hst E1).
Qed.
End Inside.

Section Complete.
Context (C : Crypto) (T : target) (v : bytes -> bytes -> bytes -> bool) (Z : Zip).
Local Notation C' := (forging C v).

Theorem sthief s cs s1 h1 s2 h2 :
  sreachable C Z T s -> sestablished s ->
  srun C Z T s cs = (s1, h1) -> srun C' Z T s cs = (s2, h2) ->
  (s2 = s1 /\ h2 = h1) \/
  exists g c e t1 t2,
    sreads_forgery C v c /\ too_late e /\
    h1 = g ++ (c, SMsgs (Err (RecvInvalidMsg InvalidHashOrSig))) :: t1 /\
    h2 = g ++ (c, SMsgs (Err e)) :: t2 /\ Forall sinert t2 /\ sfailed C s2.
Proof.
  intros HR He. pose proof (inv_reachable C T _ (sreachable_minimal C Z T s HR)) as HI.
  apply sestablished_iff in He. apply established_iff in He.
  assert (calm (minimal s)) as Hs by (left; exact He). clear HR He.
  revert s HI Hs h1 h2. induction cs as [|c cs IH]; intros s HI Hs h1 h2 E1 E2; cbn [srun] in E1, E2.
  { injection E1 as <- <-. injection E2 as <- <-. left. auto. }
  destruct (scall_step C Z T s c) as [x1 r1] eqn:F1, (scall_step C' Z T s c) as [x2 r2] eqn:F2.
  destruct (srun C Z T x1 cs) as [y1 k1] eqn:R1, (srun C' Z T x2 cs) as [y2 k2] eqn:R2.
  injection E1 as <- <-. injection E2 as <- <-.
  destruct (sstep_forging _ _ _ _ _ _ _ _ _ _ Hs F1 F2) as [[-> ->]|(Rf & -> & Hf & e & -> & He)].
  - pose proof (inv_sstep_min _ _ _ _ _ _ _ HI F1) as HI1.
    assert (calm (minimal x1)) as Hs1 by (pose proof (sstep_calm C T Z s c Hs) as H; rewrite F1 in H; exact H).
    destruct (IH x1 HI1 Hs1 _ _ R1 R2) as [[-> ->]|(g & c' & e & t1 & t2 & H1 & H2 & -> & -> & H3)]; [left; auto|].
    right. exists ((c, r1) :: g), c', e, t1, t2. cbn [app]. auto.
  - right. exists [], c, e, k1, k2. cbn [app]. repeat (split; [assumption || reflexivity|]).
    pose proof (inv_sstep_min _ _ _ _ _ _ _ (inv_forging C T v _ HI) F2) as HI2.
    destruct (srun_fail C' T Z _ _ _ _ HI2 Hf R2) as [H1 H2]. split; [exact H1|].
    apply failed_iff. exact H2.
Qed.
End Complete.

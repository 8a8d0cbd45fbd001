(** Complete mode: every history is a history of the layer inside. *)

From Coq Require Import Arith ZifyBool ZifyNat ZifyN.
From Verif.Model Require Import Complete.
From Verif.Spec Require Import Wire Datagram Trace ReadSpec Accept Session Writers CompleteTrace.
From Verif.Proofs Require Import BaseFacts IoFacts CipherFacts ReaderFacts ReadCases WindowFacts Invariant
  Negotiation Failure DatagramFacts ReadSpecFacts Accept Keys TraceInv UserReads Ledger Nonces Sending Early
  Histories Corollaries.

Section WithEnv.
Context (C : Crypto) (Z : Zip) (T : target).

Lemma set_minimal_same s : set_minimal (minimal s) s = s.
Proof. destruct s. reflexivity. Qed.

Ltac one_call :=
  eexists _, _; split; [constructor|]; cbn [run call_step];
  repeat match goal with H : _ = (_, _) |- _ => rewrite H; clear H end; reflexivity.

(** ** The calls made on the layer inside *)
Lemma scall_sub s c s' r :
  scall_step C Z T s c = (s', r) ->
  exists cs h, sub_calls c cs /\ run C T (minimal s) cs = (minimal s', h).
Proof.
  destruct c as [d|cd w|cd w|data w| |cfg]; cbn [scall_step].
  - destruct (read_bin C Z T d s) as [s1 o] eqn:E. intros [= -> <-].
    unfold read_bin in E.
    destruct (read C T d (minimal s)) as [m [[[a pk x|x|x]|]|e|p]] eqn:Er.
    + destruct (uncompress_opt Z x); try (injection E as <- _; one_call).
      destruct (take_ack_msg_recv_too_early C T m) as [m2 [[[]|]|e|p]] eqn:Et;
        injection E as <- _;
        (exists [CRead d; CTakeAck]; eexists; split; [constructor|]; cbn [run call_step];
         rewrite Er, Et; reflexivity).
    + destruct (uncompress_opt Z x); try (injection E as <- _; one_call).
      destruct (drain_tmp_stack_user_msgs C T m) as [m2 [l|e|p]] eqn:Et;
        injection E as <- _;
        (exists [CRead d; CDrain]; eexists; split; [constructor|]; cbn [run call_step];
         rewrite Er, Et; reflexivity).
    + injection E as <- _. one_call.
    + injection E as <- _. one_call.
    + injection E as <- _. one_call.
    + injection E as <- _. one_call.
  - unfold write_connect_msg_bin, writer_write_connect_msg.
    destruct (sig_key_pair s) as [seed|]; [|intros [= <- <-]; exists [], []; split; [constructor|reflexivity]].
    destruct (create_connect_message C _ _ (minimal s)) as [m [b|e|p]] eqn:Ec;
      [destruct (write_signed C seed b w)|..]; intros [= <- _]; one_call.
  - unfold write_ack_msg_bin, writer_write_ack_msg.
    destruct (sig_key_pair s) as [seed|]; [|intros [= <- <-]; exists [], []; split; [constructor|reflexivity]].
    destruct (create_ack_message C _ (minimal s)) as [m [b|e|p]] eqn:Ec;
      [destruct (write_signed C seed b w)|..]; intros [= <- _]; one_call.
  - unfold write_bin, writer_write_bin_message.
    destruct (write_message C T _ (minimal s) w) as [[m w'] o] eqn:E. intros [= <- _]. one_call.
  - unfold sl_try_clone. destruct (try_clone (minimal s)) as [m [x|e|p]] eqn:E; intros [= <- _]; one_call.
  - unfold sl_change_config. destruct (change_config cfg (minimal s)) as [m o] eqn:E; intros [= <- _]; one_call.
Qed.

Lemma run_app s cs1 cs2 s1 h1 s2 h2 :
  run C T s cs1 = (s1, h1) -> run C T s1 cs2 = (s2, h2) -> run C T s (cs1 ++ cs2) = (s2, h1 ++ h2).
Proof.
  revert s h1. induction cs1 as [|c cs1 IH]; intros s h1; cbn [run app].
  - intros [= -> <-] E. exact E.
  - destruct (call_step C T s c) as [sa r]. destruct (run C T sa cs1) as [sb hb] eqn:Eb.
    intros [= -> <-] E. rewrite (IH sa hb Eb E). reflexivity.
Qed.

(** A complete-mode history is a history of the layer inside. *)
Lemma srun_sub s cs s' h :
  srun C Z T s cs = (s', h) ->
  exists css hm, Forall2 sub_calls cs css /\ run C T (minimal s) (concat css) = (minimal s', hm).
Proof.
  revert s h. induction cs as [|c cs IH]; intros s h; cbn [srun].
  - intros [= -> <-]. exists [], []. split; [constructor|reflexivity].
  - destruct (scall_step C Z T s c) as [s1 r] eqn:E. destruct (srun C Z T s1 cs) as [s2 h2] eqn:E2.
    intros [= -> <-]. destruct (scall_sub s c s1 r E) as (c1 & h1 & Hc & Hr).
    destruct (IH s1 h2 E2) as (css & hm & Hcs & Hr2).
    exists (c1 :: css), (h1 ++ hm). split; [constructor; assumption|]. cbn [concat].
    eapply run_app; eassumption.
Qed.

Lemma sreachable_minimal s : sreachable C Z T s -> reachable C T (minimal s).
Proof.
  induction 1 as [r rs cfg seed pin s E|s c _ IH|s c _ IH E].
  - unfold sl_create in E.
    destruct seed as [seed|]; [|destruct rs as [seed|]]; cbn [obind] in E; try discriminate;
      destruct (create C r cfg pin) as [m|e|p] eqn:Ec; try discriminate; injection E as <-;
      cbn [minimal]; eapply reach_create; exact Ec.
  - destruct (scall_step C Z T s c) as [s' r] eqn:E. cbn [fst].
    destruct (scall_sub s c s' r E) as (cs & h & _ & Hr).
    pose proof (reachable_run C T (minimal s) cs IH) as H. rewrite Hr in H. exact H.
  - unfold sl_try_clone in E. destruct (try_clone (minimal s)) as [m [x|e|p]] eqn:Ec; try discriminate.
    injection E as <-. cbn [minimal]. apply (reach_clone C T (minimal s)); [exact IH|]. rewrite Ec. reflexivity.
Qed.

Lemma srun_reachable s cs s' h : sreachable C Z T s -> srun C Z T s cs = (s', h) -> sreachable C Z T s'.
Proof.
  revert s h. induction cs as [|c cs IH]; intros s h Hs; cbn [srun].
  - intros [= <- _]. exact Hs.
  - destruct (scall_step C Z T s c) as [s1 r] eqn:E. destruct (srun C Z T s1 cs) as [s2 h2] eqn:E2.
    intros [= <- _]. apply (IH s1 h2); [|exact E2].
    pose proof (sreach_step C Z T s c Hs) as H. rewrite E in H. exact H.
Qed.

(** ** Results of [read_bin] *)
Lemma uncompress_opt_ok o x : uncompress_opt Z o = Ok x <-> inflates Z o x.
Proof.
  unfold uncompress_opt, inflates, uncompress.
  destruct o as [c|], x as [d|]; cbn [obind]; try (split; [discriminate|contradiction]).
  - destruct (inflate Z c); cbn [obind]; split; intros E; congruence.
  - destruct (inflate Z c); cbn [obind]; split; try discriminate; contradiction.
  - split; auto.
Qed.

Lemma uncompress_opt_cases o :
  (exists x, uncompress_opt Z o = Ok x /\ inflates Z o x) \/
  (exists c e, o = Some c /\ inflate Z c = inr e /\ uncompress_opt Z o = Err (ZipError e)).
Proof.
  unfold uncompress_opt, inflates, uncompress. destruct o as [c|]; cbn [obind].
  - destruct (inflate Z c) as [d|e] eqn:E; cbn [obind].
    + left. exists (Some d). auto.
    + right. exists c, e. auto.
  - left. exists None. auto.
Qed.

Lemma uncompress_msgs_ok l acc r :
  uncompress_msgs Z l acc = Ok r -> Forall (fun m => is_user m = true) l ->
  exists l', r = acc ++ l' /\ Forall2 (decodes Z) l l' /\ Forall is_message l'.
Proof.
  revert acc. induction l as [|m l IH]; intros acc E Hu; cbn [uncompress_msgs] in E.
  - injection E as <-. exists []. rewrite app_nil_r. auto.
  - pose proof (Forall_inv Hu) as Hm. apply Forall_inv_tail in Hu.
    destruct m as [| |o]; try discriminate.
    destruct (uncompress_opt_cases o) as [(x & Ex & Hx)|(c & e & _ & _ & Ex)]; rewrite Ex in E; cbn [obind] in E;
      [|discriminate].
    destruct (IH _ E Hu) as (l' & -> & H2 & H3). exists (IMessage x :: l'). rewrite <- app_assoc.
    split; [reflexivity|]. split; constructor; cbn; auto.
Qed.

Lemma uncompress_msgs_outcome l acc :
  (exists r, uncompress_msgs Z l acc = Ok r) \/ (exists e, uncompress_msgs Z l acc = Err (ZipError e)).
Proof.
  revert acc. induction l as [|[| |o] l IH]; intros acc; cbn [uncompress_msgs]; try apply IH.
  - left. eauto.
  - destruct (uncompress_opt_cases o) as [(x & -> & _)|(c & e & _ & _ & ->)]; cbn [obind]; [apply IH|].
    right. eauto.
Qed.

Context (HL : CryptoLaws C).

Lemma take_ack_ack s s' o :
  reachable C T s -> take_ack_msg_recv_too_early C T s = (s', Ok o) ->
  o = None \/ exists x, o = Some (MAck x).
Proof.
  intros Hs E. rewrite (take_ack_read C T) in E.
  destruct (ack_msg_recv_too_early s) as [b|] eqn:Eb; [|left; congruence].
  pose proof (early_reachable C T HL s b Hs Eb) as Hc.
  apply (clear_ack_pub C T s (set_ack_early None s)) in Hc; [|reflexivity].
  destruct o as [[a pk x|x|x]|]; eauto.
  - apply (clear_ack_not_connect C T HL (set_ack_early None s)) in E as [E _]; [|exact Hc|].
    + cbn in E. discriminate.
    + apply inv_set_ack_early, inv_reachable, Hs.
  - apply (read_clear_ack C T HL (set_ack_early None s)) in E as (_ & _ & E); [|exact Hc]. cbn in E. discriminate.
Qed.

Lemma drain_users s s' l :
  reachable C T s -> drain_tmp_stack_user_msgs C T s = (s', Ok l) -> Forall (fun m => is_user m = true) l.
Proof.
  intros Hs E. apply (drain_inv C T s s' (Ok l)) in E as (_ & _ & _ & [(_ & _ & H)|(_ & e & He & _)]);
    [|discriminate|apply inv_reachable, Hs]. auto.
Qed.

Lemma read_bin_ok d s s' l :
  reachable C T (minimal s) -> read_bin C Z T d s = (s', Ok l) ->
  exists cs h, sub_calls (SRead d) cs /\ run C T (minimal s) cs = (minimal s', h) /\
    Forall2 (decodes Z) (flat_map (fun e => delivered (snd e)) h) l /\ read_shape l /\
    panic_free h /\ (forall e er, In e h -> snd e <> RMsg (Err er) /\ snd e <> RMsgs (Err er)).
Proof.
  intros Hs E. unfold read_bin in E.
  destruct (read C T d (minimal s)) as [m [[[a pk x|x|x]|]|e|p]] eqn:Er; try discriminate.
  - pose proof (reach_step C T (minimal s) (CRead d) Hs) as Hm. cbn [call_step] in Hm. rewrite Er in Hm. cbn [fst] in Hm.
    destruct (uncompress_opt_cases x) as [(y & Ey & Hy)|(c & e & _ & _ & Ey)]; rewrite Ey in E; [|discriminate].
    destruct (take_ack_msg_recv_too_early C T m) as [m2 [o|e|p]] eqn:Et; try discriminate.
    destruct (take_ack_ack m m2 o Hm Et) as [->|[z ->]].
    + injection E as <- <-. exists [CRead d; CTakeAck]. eexists. split; [constructor|].
      cbn [run call_step]. rewrite Er, Et. split; [reflexivity|]. cbn.
      split; [constructor; [split; auto|constructor]|]. split; [constructor|].
      split; [intros e He|intros e er He]; cbn in He; intuition (subst; cbn in *; congruence).
    + destruct (uncompress_opt_cases z) as [(y2 & Ey2 & Hy2)|(c & e & _ & _ & Ey2)]; rewrite Ey2 in E;
        cbn [obind] in E; [|discriminate].
      injection E as <- <-. exists [CRead d; CTakeAck]. eexists. split; [constructor|].
      cbn [run call_step]. rewrite Er, Et. split; [reflexivity|]. cbn.
      split; [constructor; [split; auto|constructor; [exact Hy2|constructor]]|]. split; [constructor|].
      split; [intros e He|intros e er He]; cbn in He; intuition (subst; cbn in *; congruence).
  - pose proof (reach_step C T (minimal s) (CRead d) Hs) as Hm. cbn [call_step] in Hm. rewrite Er in Hm. cbn [fst] in Hm.
    destruct (uncompress_opt_cases x) as [(y & Ey & Hy)|(c & e & _ & _ & Ey)]; rewrite Ey in E; [|discriminate].
    destruct (drain_tmp_stack_user_msgs C T m) as [m2 [l2|e|p]] eqn:Et; try discriminate.
    pose proof (drain_users m m2 l2 Hm Et) as Hu.
    injection E as <- El. destruct (uncompress_msgs_ok l2 [IAck y] l El Hu) as (l' & -> & H2 & H3).
    exists [CRead d; CDrain]. eexists. split; [constructor|].
    cbn [run call_step]. rewrite Er, Et. split; [reflexivity|]. cbn [flat_map delivered snd app]. rewrite app_nil_r.
    split; [constructor; [exact Hy|exact H2]|]. split; [constructor; exact H3|].
    split; [intros e He|intros e er He]; cbn in He; intuition (subst; cbn in *; congruence).
  - destruct (uncompress_opt_cases x) as [(y & Ey & Hy)|(c & e & _ & _ & Ey)]; rewrite Ey in E; cbn [obind] in E;
      [|discriminate].
    injection E as <- <-. exists [CRead d]. eexists. split; [constructor|].
    cbn [run call_step]. rewrite Er. split; [reflexivity|]. cbn.
    split; [constructor; [exact Hy|constructor]|]. split; [constructor|].
    split; [intros e He|intros e er He]; cbn in He; intuition (subst; cbn in *; congruence).
  - injection E as <- <-. exists [CRead d]. eexists. split; [constructor|].
    cbn [run call_step]. rewrite Er. split; [reflexivity|]. cbn.
    split; [constructor|]. split; [constructor|].
    split; [intros e He|intros e er He]; cbn in He; intuition (subst; cbn in *; congruence).
Qed.

Theorem read_bin_refines d s s' l :
  sreachable C Z T s -> read_bin C Z T d s = (s', Ok l) ->
  exists cs h, sub_calls (SRead d) cs /\ run C T (minimal s) cs = (minimal s', h) /\
    Forall2 (decodes Z) (flat_map (fun e => delivered (snd e)) h) l.
Proof.
  intros Hs E. destruct (read_bin_ok d s s' l (sreachable_minimal s Hs) E) as (cs & h & H1 & H2 & H3 & _). eauto.
Qed.

Theorem read_bin_shape d s s' l :
  sreachable C Z T s -> read_bin C Z T d s = (s', Ok l) -> read_shape l.
Proof.
  intros Hs E. destruct (read_bin_ok d s s' l (sreachable_minimal s Hs) E) as (cs & h & _ & _ & _ & H & _). exact H.
Qed.

End WithEnv.

(** Every complete-mode history is a minimal-mode history of the layer inside,
    with the replies related as in Spec/Projection.v (C63). *)

From Coq Require Import Arith ZifyBool ZifyNat ZifyN.
From Verif.Model Require Import Complete.
From Verif.Spec Require Import Wire Datagram Trace ReadSpec Accept Session Writers CompleteTrace Projection.
From Verif.Proofs Require Import BaseFacts IoFacts CipherFacts ReaderFacts ReadCases WindowFacts Invariant
  Negotiation Failure DatagramFacts ReadSpecFacts Accept Keys TraceInv UserReads Ledger Nonces Sending Early
  Histories Corollaries CompleteFacts CompleteMode CompleteStates.

Section WithEnv.
Context (C : Crypto) (Z : Zip) (T : target) (HL : CryptoLaws C) (HZ : ZipLaws Z).

Lemma uncompress_msgs_zip l acc z :
  uncompress_msgs Z l acc = Err (ZipError z) ->
  Forall (fun m => is_user m = true) l ->
  exists a p b, l = a ++ MMessage (Some p) :: b /\ Forall (fun m => exists i, decodes Z m i) a /\ inflate Z p = inr z.
Proof.
  revert acc. induction l as [|m l IH]; intros acc E Hu; cbn [uncompress_msgs] in E; [discriminate|].
  inversion Hu as [|m' l' Hm Hl]. subst. destruct m as [| |o]; [discriminate|discriminate|].
  destruct (uncompress_opt_cases Z o) as [(x & Ex & Hx)|(c & e & Hc & He & Ex)]; rewrite Ex in E; cbn [obind] in E.
  - destruct (IH _ E Hl) as (a & p & b & -> & H1 & H2). exists (MMessage o :: a), p, b. split; [reflexivity|].
    split; [|exact H2]. constructor; [|exact H1]. exists (IMessage x). exact Hx.
  - injection E as ->. subst o. exists [], c, l. split; [reflexivity|]. split; [constructor|exact He].
Qed.

Ltac in_two := intros ev Hev; cbn [In app] in Hev; intuition (subst; reflexivity).

Lemma read_bin_projects seed d s s' o :
  reachable C T (minimal s) -> read_bin C Z T d s = (s', o) ->
  exists h, projects C Z seed (SRead d, SMsgs o) h /\
    run C T (minimal s) (map fst h) = (minimal s', h).
Proof.
  intros Hs E. unfold read_bin in E.
  destruct (read C T d (minimal s)) as [m [[[a k x|x|x]|]|e|p]] eqn:Er.
  - pose proof (reach_step C T (minimal s) (CRead d) Hs) as Hm. cbn [call_step] in Hm. rewrite Er in Hm. cbn [fst] in Hm.
    destruct (uncompress_opt_cases Z x) as [(y & Ey & Hy)|(c & e & Hc & He & Ey)]; rewrite Ey in E.
    + destruct (take_ack_msg_recv_too_early C T m) as [m2 [x2|e|p]] eqn:Et.
      * destruct (take_ack_ack C T HL m m2 x2 Hm Et) as [->|[z ->]].
        -- injection E as <- <-.
           exists [(CRead d, RMsg (Ok (Some (MConnect a k x)))); (CTakeAck, RMsg (Ok None))].
           split; [|cbn [map fst run call_step]; rewrite Er, Et; reflexivity].
           apply pj_read; [constructor|split; discriminate|in_two|in_two|]. cbn. constructor; [split; auto|constructor].
        -- assert (E2 : set_minimal m2 (set_minimal m s) = s') by (injection E; auto). subst s'.
           injection E as <-.
           exists [(CRead d, RMsg (Ok (Some (MConnect a k x)))); (CTakeAck, RMsg (Ok (Some (MAck z))))].
           split; [|cbn [map fst run call_step]; rewrite Er, Et; reflexivity].
           destruct (uncompress_opt_cases Z z) as [(y2 & Ey2 & Hy2)|(c & e & Hc & He & Ey2)]; rewrite Ey2; cbn [obind].
           ++ apply pj_read; [constructor|split; discriminate|in_two|in_two|].
              cbn. constructor; [split; auto|constructor; [exact Hy2|constructor]].
           ++ apply pj_read_zip with (a := [MConnect a k x]) (m := MAck z) (b := []) (p := c); auto;
                [constructor|in_two|in_two|]. constructor; [|constructor]. exists (IConnect y k). split; auto.
      * injection E as <- <-.
        exists ([(CRead d, RMsg (Ok (Some (MConnect a k x))))] ++ [(CTakeAck, RMsg (Err e))]).
        split; [|cbn [app map fst run call_step]; rewrite Er, Et; reflexivity].
        apply pj_read_error; [constructor|in_two|reflexivity].
      * injection E as <- <-.
        exists ([(CRead d, RMsg (Ok (Some (MConnect a k x))))] ++ [(CTakeAck, RMsg (Panic p))]).
        split; [|cbn [app map fst run call_step]; rewrite Er, Et; reflexivity].
        apply pj_read_panic; [constructor|reflexivity].
    + injection E as <- <-. exists [(CRead d, RMsg (Ok (Some (MConnect a k x))))].
      split; [|cbn [map fst run call_step]; rewrite Er; reflexivity].
      apply pj_read_zip with (a := []) (m := MConnect a k x) (b := []) (p := c); auto; [constructor|in_two|in_two].
  - pose proof (reach_step C T (minimal s) (CRead d) Hs) as Hm. cbn [call_step] in Hm. rewrite Er in Hm. cbn [fst] in Hm.
    destruct (uncompress_opt_cases Z x) as [(y & Ey & Hy)|(c & e & Hc & He & Ey)]; rewrite Ey in E.
    + destruct (drain_tmp_stack_user_msgs C T m) as [m2 [l|e|p]] eqn:Et.
      * assert (E2 : set_minimal m2 (set_minimal m s) = s') by (injection E; auto). subst s'.
        injection E as <-.
        pose proof (drain_users C T m m2 l Hm Et) as Hu.
        exists [(CRead d, RMsg (Ok (Some (MAck x)))); (CDrain, RMsgs (Ok l))].
        split; [|cbn [map fst run call_step]; rewrite Er, Et; reflexivity].
        destruct (uncompress_msgs_outcome Z l [IAck y]) as [[r Hr]|[z Hr]]; rewrite Hr.
        -- destruct (uncompress_msgs_ok Z l [IAck y] r Hr Hu) as (l' & -> & H2 & H3).
           apply pj_read; [constructor|split; discriminate|in_two|in_two|].
           unfold deliveries. cbn [flat_map delivered snd app]. rewrite app_nil_r. constructor; [exact Hy|exact H2].
        -- apply uncompress_msgs_zip in Hr as (a & p & b & -> & Ha & Hz); [|exact Hu].
           apply pj_read_zip with (a := MAck x :: a) (m := MMessage (Some p)) (b := b) (p := p); auto; [constructor|in_two|in_two| |].
           ++ unfold deliveries. cbn [flat_map delivered snd app]. rewrite app_nil_r. reflexivity.
           ++ constructor; [|exact Ha]. exists (IAck y). exact Hy.
      * injection E as <- <-.
        exists ([(CRead d, RMsg (Ok (Some (MAck x))))] ++ [(CDrain, RMsgs (Err e))]).
        split; [|cbn [app map fst run call_step]; rewrite Er, Et; reflexivity].
        apply pj_read_error; [constructor|in_two|reflexivity].
      * injection E as <- <-.
        exists ([(CRead d, RMsg (Ok (Some (MAck x))))] ++ [(CDrain, RMsgs (Panic p))]).
        split; [|cbn [app map fst run call_step]; rewrite Er, Et; reflexivity].
        apply pj_read_panic; [constructor|reflexivity].
    + injection E as <- <-. exists [(CRead d, RMsg (Ok (Some (MAck x))))].
      split; [|cbn [map fst run call_step]; rewrite Er; reflexivity].
      apply pj_read_zip with (a := []) (m := MAck x) (b := []) (p := c); auto; [constructor|in_two|in_two].
  - assert (E2 : set_minimal m s = s') by (injection E; auto). subst s'. injection E as <-.
    exists [(CRead d, RMsg (Ok (Some (MMessage x))))].
    split; [|cbn [map fst run call_step]; rewrite Er; reflexivity].
    destruct (uncompress_opt_cases Z x) as [(y & Ey & Hy)|(c & e & Hc & He & Ey)]; rewrite Ey; cbn [obind].
    + apply pj_read; [constructor|split; discriminate|in_two|in_two|]. cbn. constructor; [exact Hy|constructor].
    + apply pj_read_zip with (a := []) (m := MMessage x) (b := []) (p := c); auto; [constructor|in_two|in_two].
  - injection E as <- <-. exists [(CRead d, RMsg (Ok None))].
    split; [|cbn [map fst run call_step]; rewrite Er; reflexivity].
    apply pj_read; [constructor|split; discriminate|in_two|in_two|constructor].
  - injection E as <- <-. exists ([] ++ [(CRead d, RMsg (Err e))]).
    split; [|cbn [app map fst run call_step]; rewrite Er; reflexivity].
    apply pj_read_error; [constructor|in_two|reflexivity].
  - injection E as <- <-. exists ([] ++ [(CRead d, RMsg (Panic p))]).
    split; [|cbn [app map fst run call_step]; rewrite Er; reflexivity].
    apply pj_read_panic; [constructor|reflexivity].
Qed.

Lemma write_signed_outcome seed b w w' o :
  write_signed C seed b w = (w', o) ->
  (o = Ok tt \/ o = Err BufferFlushError) /\
  (takes_all w -> o = Ok tt /\ output w' = output w ++ b ++ ed25519_sign C seed b).
Proof.
  intros E. split.
  2: { intros Hw. destruct (write_signed_all C seed b w Hw) as (w1 & E1 & _ & H2).
       rewrite E1 in E. injection E as <- <-. split; [reflexivity|]. exact H2. }
  revert E.
  unfold write_signed, sign_and_write_sig. destruct (bw_write w b) as [w1 [n|e]].
  - destruct (bw_write w1 (ed25519_sign C seed b)) as [w2 [n2|e2]]; intros [= _ <-]; auto.
  - intros [= _ <-]; auto.
Qed.

Lemma scall_projects seed s c s' r :
  sreachable C Z T s -> sig_key_pair s = Some seed -> scall_step C Z T s c = (s', r) ->
  sig_key_pair s' = Some seed /\
  exists h, projects C Z seed (c, r) h /\ run C T (minimal s) (map fst h) = (minimal s', h).
Proof.
  intros Hs Hk. destruct c as [d|cd w|cd w|data w| |cfg]; cbn [scall_step].
  - destruct (read_bin C Z T d s) as [s1 o] eqn:E. intros [= -> <-]. split.
    + unfold read_bin in E.
      repeat match type of E with context [match ?x with _ => _ end] => destruct x end;
        injection E as <- _; exact Hk.
    + apply (read_bin_projects _ _ _ _ _ (sreachable_minimal C Z T s Hs) E).
  - unfold write_connect_msg_bin, writer_write_connect_msg. rewrite Hk.
    pose proof (compressed_deflated Z HZ cd s) as Hd.
    set (x := match cd with Some d => Some (compress Z d s) | None => None end) in *.
    destruct (create_connect_message C (ed25519_public C seed) x (minimal s)) as [m [b|e|p]] eqn:Ec.
    + destruct (write_signed C seed b w) as [w' o] eqn:Ew. intros [= <- <-]. split; [exact Hk|].
      exists [(CConnect (ed25519_public C seed) x, RBytes (Ok b))].
      split; [|cbn [map fst run call_step]; rewrite Ec; reflexivity].
      apply (write_signed_outcome seed b w) in Ew as [Ew1 Ew2]. apply pj_connect; [exact Hd|exact Ew1|exact Ew2].
    + intros [= <- <-]. split; [exact Hk|]. exists [(CConnect (ed25519_public C seed) x, RBytes (Err e))].
      split; [constructor|cbn [map fst run call_step]; rewrite Ec; reflexivity].
    + intros [= <- <-]. split; [exact Hk|]. exists [(CConnect (ed25519_public C seed) x, RBytes (Panic p))].
      split; [constructor|cbn [map fst run call_step]; rewrite Ec; reflexivity].
  - unfold write_ack_msg_bin, writer_write_ack_msg. rewrite Hk.
    pose proof (compressed_deflated Z HZ cd s) as Hd.
    set (x := match cd with Some d => Some (compress Z d s) | None => None end) in *.
    destruct (create_ack_message C x (minimal s)) as [m [b|e|p]] eqn:Ec.
    + destruct (write_signed C seed b w) as [w' o] eqn:Ew. intros [= <- <-]. split; [exact Hk|].
      exists [(CAck x, RBytes (Ok b))].
      split; [|cbn [map fst run call_step]; rewrite Ec; reflexivity].
      apply (write_signed_outcome seed b w) in Ew as [Ew1 Ew2]. apply pj_ack; [exact Hd|exact Ew1|exact Ew2].
    + intros [= <- <-]. split; [exact Hk|]. exists [(CAck x, RBytes (Err e))].
      split; [constructor|cbn [map fst run call_step]; rewrite Ec; reflexivity].
    + intros [= <- <-]. split; [exact Hk|]. exists [(CAck x, RBytes (Panic p))].
      split; [constructor|cbn [map fst run call_step]; rewrite Ec; reflexivity].
  - unfold write_bin, writer_write_bin_message.
    pose proof (compressed_deflated Z HZ (Some data) s) as Hd. cbn [custom] in Hd.
    destruct (write_message C T (compress Z data s) (minimal s) w) as [[m w'] o] eqn:E. intros [= <- <-].
    split; [exact Hk|]. exists [(CWrite (compress Z data s) w, RWritten o w')].
    split; [constructor; exact Hd|cbn [map fst run call_step]; rewrite E; reflexivity].
  - unfold sl_try_clone. destruct (try_clone (minimal s)) as [m [x|e|p]] eqn:E; intros [= <- <-]; (split; [exact Hk|]).
    + exists [(CClone, RClone (Ok (minimal {| minimal := x; sig_key_pair := None |})))].
      split; [apply pj_clone; reflexivity|cbn [map fst run call_step]; rewrite E; reflexivity].
    + exists [(CClone, RClone (Err e))]. split; [constructor|cbn [map fst run call_step]; rewrite E; reflexivity].
    + exists [(CClone, RClone (Panic p))]. split; [constructor|cbn [map fst run call_step]; rewrite E; reflexivity].
  - unfold sl_change_config. destruct (change_config cfg (minimal s)) as [m o] eqn:E; intros [= <- <-].
    split; [exact Hk|]. exists [(CConfig cfg, RUnit o)].
    split; [constructor|cbn [map fst run call_step]; rewrite E; reflexivity].
Qed.

Lemma srun_projects seed cs : forall s s' sh,
  sreachable C Z T s -> sig_key_pair s = Some seed -> srun C Z T s cs = (s', sh) ->
  exists hs, Forall2 (projects C Z seed) sh hs /\
    run C T (minimal s) (map fst (concat hs)) = (minimal s', concat hs).
Proof.
  induction cs as [|c cs IH]; intros s s' sh Hs Hk; cbn [srun].
  - intros [= <- <-]. exists []. split; [constructor|reflexivity].
  - destruct (scall_step C Z T s c) as [s1 r] eqn:E. destruct (srun C Z T s1 cs) as [s2 h2] eqn:E2.
    intros [= <- <-]. destruct (scall_projects seed s c s1 r Hs Hk E) as (Hk1 & h & Hp & Hr).
    assert (sreachable C Z T s1) as Hs1.
    { pose proof (sreach_step C Z T s c Hs) as H. rewrite E in H. exact H. }
    destruct (IH s1 s2 h2 Hs1 Hk1 E2) as (hs & Hps & Hrs).
    exists (h :: hs). split; [constructor; assumption|]. cbn [concat]. rewrite map_app.
    eapply CompleteFacts.run_app; eassumption.
Qed.

Theorem projection r rs cfg given pin s0 cs s sh :
  sl_create C r rs cfg given pin = Ok s0 -> srun C Z T s0 cs = (s, sh) ->
  exists seed hs, (given = Some seed \/ given = None /\ rs = Some seed) /\
    Forall2 (projects C Z seed) sh hs /\
    create C r cfg pin = Ok (minimal s0) /\
    run C T (minimal s0) (map fst (concat hs)) = (minimal s, concat hs).
Proof.
  intros Hc E. pose proof (sreach_create C Z T _ _ _ _ _ _ Hc) as HR. unfold sl_create in Hc.
  destruct given as [seed|]; [|destruct rs as [seed|]]; cbn [obind] in Hc; try discriminate;
    destruct (create C r cfg pin) as [m|e|p] eqn:Ec; try discriminate; injection Hc as <-;
    (destruct (srun_projects seed cs _ _ _ HR eq_refl E) as (hs & H1 & H2); exists seed, hs; auto).
Qed.

End WithEnv.

(** A [SecureLayer] refines the machine of Spec/CompleteMachine.v (C72). *)

From Coq Require Import Arith ZifyBool ZifyNat ZifyN Permutation.
From Verif.Model Require Import Serde.
From Verif.Spec Require Import Wire Datagram Trace ReadSpec Accept Session Writers CompleteTrace Typed TypedTrace Machine
  CompleteMachine.
From Verif.Proofs Require Import BaseFacts IoFacts CipherFacts ReaderFacts ReadCases WindowFacts Invariant
  Negotiation Failure DatagramFacts ReadSpecFacts Accept Keys TraceInv UserReads Ledger Nonces Sending Early
  Histories Corollaries CompleteFacts CompleteMode CompleteStates Typed Split TypedTrace Machine.

Section WithEnv.
Context (C : Crypto) (Z : Zip) (T : target) (HL : CryptoLaws C).

Record fits (s : secure_layer) (x : smachine) (k : N) : Prop := {
  ft_layer : embodies C T (minimal s) (sm_layer x) k;
  ft_seed : sig_key_pair s = sm_seed x;
  ft_config : conf (minimal s) = sm_config x;
  ft_reach : sreachable C Z T s
}.

Lemma inner_step s m k c s' r :
  embodies C T s m k -> call_step C T s c = (s', r) -> k + 1 < 2 ^ 64 ->
  exists m', step C T m c r m' /\ embodies C T s' m' (k + 1).
Proof.
  intros He E Hk.
  destruct (machine_refinement C T HL s m k [c] s' [(c, r)] He) as (m' & A & B).
  - cbn [run]. rewrite E. reflexivity.
  - exact Hk.
  - exists m'. split; [|exact B]. inversion A as [|m0 c0 r0 m1 h0 m2 A1 A2]. subst. inversion A2. subst. exact A1.
Qed.

Lemma spoilt_message x c z :
  match x with MConnect _ _ o | MAck o | MMessage o => o end = Some c -> inflate Z c = inr z -> spoilt Z x z.
Proof. intros H1 H2. exists c. auto. Qed.

Lemma unpacked_msgs l : forall acc r,
  Forall (fun m => is_user m = true) l -> uncompress_msgs Z l acc = r ->
  exists r', unpacked Z l r' /\ match r' with Ok l' => r = Ok (acc ++ l') | _ => r = r' end.
Proof.
  induction l as [|x l IH]; intros acc r Hu E; cbn [uncompress_msgs] in E.
  - exists (Ok []). split; [constructor|]. rewrite app_nil_r. auto.
  - pose proof (Forall_inv Hu) as Hm. apply Forall_inv_tail in Hu.
    destruct x as [| |o]; try discriminate.
    destruct (uncompress_opt_cases Z o) as [(y & Ey & Hy)|(c & z & Hc & Hz & Ey)]; rewrite Ey in E; cbn [obind] in E.
    + destruct (IH _ _ Hu E) as (r' & A & B). destruct r' as [l'|e|p].
      * exists (Ok (IMessage y :: l')). split; [constructor; [exact Hy|exact A]|]. rewrite B, <- app_assoc. reflexivity.
      * exists (Err e). split; [apply (up_later Z _ (IMessage y)); [exact Hy|exact A]|exact B].
      * exfalso. clear -A. remember (Panic p) as q eqn:Eq. induction A; discriminate.
    + exists (Err (ZipError z)). split; [|symmetry; exact E]. constructor. eapply spoilt_message; eassumption.
Qed.

Lemma read_bin_step s x k d s' o :
  fits s x k -> read_bin C Z T d s = (s', o) -> k + 2 < 2 ^ 64 ->
  exists m' k', sreads C Z T (sm_layer x) d o m' /\ embodies C T (minimal s') m' k' /\ k' <= k + 2 /\
    sig_key_pair s' = sig_key_pair s.
Proof.
  intros [He Hk Hc Hr] E Hb. pose proof (sreachable_minimal C Z T s Hr) as Hm. unfold read_bin in E.
  destruct (read C T d (minimal s)) as [m r1] eqn:Er.
  destruct (inner_step (minimal s) (sm_layer x) k (CRead d) m (RMsg r1) He) as (m1 & S1 & E1);
    [cbn [call_step]; rewrite Er; reflexivity|lia|].
  pose proof (reach_step C T (minimal s) (CRead d) Hm) as Hm1. cbn [call_step] in Hm1. rewrite Er in Hm1. cbn [fst] in Hm1.
  assert (reads C T (sm_layer x) d r1 m1) as R1 by (inversion S1; assumption).
  destruct r1 as [[[a pk c|c|c]|]|e|p].
  - destruct (uncompress_opt_cases Z c) as [(y & Ey & Hy)|(q & z & Hq & Hz & Ey)]; rewrite Ey in E.
    + destruct (take_ack_msg_recv_too_early C T m) as [m2 r2] eqn:Et.
      destruct (inner_step m m1 (k + 1) CTakeAck m2 (RMsg r2) E1) as (m3 & S2 & E2);
        [cbn [call_step]; rewrite Et; reflexivity|lia|].
      exists m3, (k + 1 + 1).
      assert (minimal s' = m2 /\ sig_key_pair s' = sig_key_pair s /\ together Z (IConnect y pk) (at_most_one r2) o) as (-> & Hk' & Ho).
      { destruct r2 as [x2|e|p].
        - destruct (take_ack_ack C T HL m m2 x2 Hm1 Et) as [->|[q ->]].
          + injection E as <- <-. split; [reflexivity|]. split; [reflexivity|]. apply (to_all Z _ [] []). constructor.
          + assert (E3 : set_minimal m2 (set_minimal m s) = s') by (injection E; auto). subst s'. injection E as <-.
            split; [reflexivity|]. split; [reflexivity|]. cbn [at_most_one].
            destruct (uncompress_opt_cases Z q) as [(y2 & Ey2 & Hy2)|(c2 & z & Hc2 & Hz & Ey2)]; rewrite Ey2; cbn [obind app].
            * apply (to_all Z _ [MAck q] [IAck y2]). constructor; [exact Hy2|constructor].
            * apply to_spoilt. apply up_spoilt. eapply spoilt_message; eassumption.
        - injection E as <- <-. split; [reflexivity|]. split; [reflexivity|]. constructor.
        - injection E as <- <-. split; [reflexivity|]. split; [reflexivity|]. constructor. }
      split; [|split; [exact E2|split; [lia|exact Hk']]].
      eapply sr_connect; [exact R1| |exact S2|exact Ho]. split; [reflexivity|exact Hy].
    + injection E as <- <-. exists m1, (k + 1). split; [|split; [exact E1|split; [lia|reflexivity]]].
      eapply sr_spoilt; [exact R1|]. eapply spoilt_message; eassumption.
  - destruct (uncompress_opt_cases Z c) as [(y & Ey & Hy)|(q & z & Hq & Hz & Ey)]; rewrite Ey in E.
    + destruct (drain_tmp_stack_user_msgs C T m) as [m2 r2] eqn:Et.
      destruct (inner_step m m1 (k + 1) CDrain m2 (RMsgs r2) E1) as (m3 & S2 & E2);
        [cbn [call_step]; rewrite Et; reflexivity|lia|].
      exists m3, (k + 1 + 1).
      assert (minimal s' = m2 /\ sig_key_pair s' = sig_key_pair s /\ together Z (IAck y) r2 o) as (-> & Hk' & Ho).
      { destruct r2 as [l|e|p].
        - assert (E3 : set_minimal m2 (set_minimal m s) = s') by (injection E; auto). subst s'. injection E as E.
          split; [reflexivity|]. split; [reflexivity|].
          destruct (unpacked_msgs l [IAck y] o (drain_users C T m m2 l Hm1 Et) E) as (r' & A & B).
          destruct r' as [l'|e|p].
          + rewrite B. apply to_all. exact A.
          + rewrite B. apply to_spoilt. exact A.
          + exfalso. clear -A. remember (Panic p) as q eqn:Eq. induction A; discriminate.
        - injection E as <- <-. split; [reflexivity|]. split; [reflexivity|]. constructor.
        - injection E as <- <-. split; [reflexivity|]. split; [reflexivity|]. constructor. }
      split; [|split; [exact E2|split; [lia|exact Hk']]].
      apply (sr_ack C Z T _ _ c (IAck y) m1 r2); [exact R1|exact Hy|exact S2|exact Ho].
    + injection E as <- <-. exists m1, (k + 1). split; [|split; [exact E1|split; [lia|reflexivity]]].
      eapply sr_spoilt; [exact R1|]. eapply spoilt_message; eassumption.
  - assert (E3 : set_minimal m s = s') by (injection E; auto). subst s'. injection E as <-.
    exists m1, (k + 1). split; [|split; [exact E1|split; [lia|reflexivity]]].
    destruct (uncompress_opt_cases Z c) as [(y & Ey & Hy)|(q & z & Hq & Hz & Ey)]; rewrite Ey; cbn [obind].
    + apply (sr_message C Z T _ _ c (IMessage y)); [exact R1|exact Hy].
    + eapply sr_spoilt; [exact R1|]. eapply spoilt_message; eassumption.
  - injection E as <- <-. exists m1, (k + 1). split; [|split; [exact E1|split; [lia|reflexivity]]].
    apply sr_nothing; exact R1.
  - injection E as <- <-. exists m1, (k + 1). split; [|split; [exact E1|split; [lia|reflexivity]]].
    apply sr_err; exact R1.
  - injection E as <- <-. exists m1, (k + 1). split; [|split; [exact E1|split; [lia|reflexivity]]].
    apply sr_panic; exact R1.
Qed.

Lemma write_signed_posted seed t w w' o :
  write_signed C seed t w = (w', o) -> posted w t (ed25519_sign C seed t) o w'.
Proof.
  intros E. split; [|split].
  - revert E. unfold write_signed, sign_and_write_sig. destruct (bw_write w t) as [w1 [n|e]].
    + destruct (bw_write w1 (ed25519_sign C seed t)) as [w2 [n2|e2]]; intros [= _ <-]; auto.
    + intros [= _ <-]; auto.
  - revert E. unfold write_signed, sign_and_write_sig. destruct (bw_write w t) as [w1 [n|e]] eqn:E1.
    + apply bw_write_bytes in E1 as (_ & _ & _ & E1 & _).
      destruct (bw_write w1 (ed25519_sign C seed t)) as [w2 [n2|e2]] eqn:E2; intros [= <- _];
        apply bw_write_bytes in E2 as (_ & _ & E2).
      * destruct E2 as (_ & E2 & _). exists (N.to_nat n), (N.to_nat n2). unfold output. rewrite E2, E1, <- app_assoc. reflexivity.
      * destruct E2 as (E2 & _). exists (N.to_nat n), O. unfold output. rewrite E2, E1. cbn. rewrite app_nil_r. reflexivity.
    + intros [= <- _]. apply bw_write_bytes in E1 as (_ & _ & E1 & _). exists O, O. cbn. rewrite app_nil_r. exact E1.
  - intros Hw. destruct (write_signed_all C seed t w Hw) as (w1 & E1 & _ & H2).
    rewrite E1 in E. injection E as <- <-. split; [reflexivity|]. exact H2.
Qed.

Lemma compressed_as s x cd : conf (minimal s) = sm_config x ->
  match cd with Some d => Some (compress Z d s) | None => None end = option_map (packed_as Z (sm_config x)) cd.
Proof. intros H. destruct cd as [d|]; [|reflexivity]. unfold compress, packed_as, compression_none. rewrite H. reflexivity. Qed.

Lemma fits_step s x k c s' r :
  fits s x k -> scall_step C Z T s c = (s', r) -> k + 2 < 2 ^ 64 ->
  exists x' k', sstep C Z T x c r x' /\ fits s' x' k' /\ k' <= k + 2.
Proof.
  intros Hf E Hb. pose proof Hf as [He Hk Hc Hr].
  pose proof (scall_conf C Z T s c s' r E) as Hcf. unfold config_after in Hcf. cbn [fold_left] in Hcf.
  assert (sreachable C Z T s') as Hr'.
  { pose proof (sreach_step C Z T s c Hr) as H. rewrite E in H. exact H. }
  destruct c as [d|cd w|cd w|data w| |cfg]; cbn [scall_step] in E.
  - destruct (read_bin C Z T d s) as [s1 o] eqn:E1. injection E as -> <-.
    destruct (read_bin_step s x k d s' o Hf E1 Hb) as (m' & k' & A & B & D & F).
    exists (with_layer x m'), k'. split; [constructor; exact A|]. split; [|exact D].
    constructor; [exact B|cbn; congruence|cbn; congruence|exact Hr'].
  - unfold write_connect_msg_bin, writer_write_connect_msg in E.
    rewrite (compressed_as s x cd Hc) in E. destruct (sig_key_pair s) as [seed|] eqn:Es.
    + destruct (create_connect_message C (ed25519_public C seed) (option_map (packed_as Z (sm_config x)) cd) (minimal s))
        as [m r1] eqn:E1.
      destruct (inner_step (minimal s) (sm_layer x) k (CConnect (ed25519_public C seed) (option_map (packed_as Z (sm_config x)) cd)) m
        (RBytes r1) He) as (m1 & S1 & F1); [cbn [call_step]; rewrite E1; reflexivity|lia|].
      exists (with_layer x m1), (k + 1). destruct r1 as [b|e|p].
      * destruct (write_signed C seed b w) as [w' o] eqn:Ew. injection E as <- <-.
        split; [eapply ss_connect; [symmetry; exact Hk|exact S1|apply write_signed_posted; exact Ew]|]. split; [|lia].
        constructor; [exact F1|cbn; congruence|cbn in *; congruence|exact Hr'].
      * injection E as <- <-.
        split; [eapply ss_connect_err; [symmetry; exact Hk|exact S1]|]. split; [|lia].
        constructor; [exact F1|cbn; congruence|cbn in *; congruence|exact Hr'].
      * exfalso. inversion S1.
    + injection E as <- <-. exists x, k. split; [constructor; congruence|]. split; [exact Hf|lia].
  - unfold write_ack_msg_bin, writer_write_ack_msg in E.
    rewrite (compressed_as s x cd Hc) in E. destruct (sig_key_pair s) as [seed|] eqn:Es.
    + destruct (create_ack_message C (option_map (packed_as Z (sm_config x)) cd) (minimal s))
        as [m r1] eqn:E1.
      destruct (inner_step (minimal s) (sm_layer x) k (CAck (option_map (packed_as Z (sm_config x)) cd)) m
        (RBytes r1) He) as (m1 & S1 & F1); [cbn [call_step]; rewrite E1; reflexivity|lia|].
      exists (with_layer x m1), (k + 1). destruct r1 as [b|e|p].
      * destruct (write_signed C seed b w) as [w' o] eqn:Ew. injection E as <- <-.
        split; [eapply ss_ack; [symmetry; exact Hk|exact S1|apply write_signed_posted; exact Ew]|]. split; [|lia].
        constructor; [exact F1|cbn; congruence|cbn in *; congruence|exact Hr'].
      * injection E as <- <-.
        split; [eapply ss_ack_err; [symmetry; exact Hk|exact S1]|]. split; [|lia].
        constructor; [exact F1|cbn; congruence|cbn in *; congruence|exact Hr'].
      * exfalso. inversion S1.
    + injection E as <- <-. exists x, k. split; [constructor; congruence|]. split; [exact Hf|lia].
  - unfold write_bin, writer_write_bin_message in E.
    pose proof (compressed_as s x (Some data) Hc) as Hd. cbn [option_map] in Hd. injection Hd as Hd. rewrite Hd in E.
    destruct (write_message C T (packed_as Z (sm_config x) data) (minimal s) w) as [[m w'] o] eqn:E1. injection E as <- <-.
    destruct (inner_step (minimal s) (sm_layer x) k (CWrite (packed_as Z (sm_config x) data) w) m
        (RWritten o w') He) as (m1 & S1 & F1); [cbn [call_step]; rewrite E1; reflexivity|lia|].
    exists (with_layer x m1), (k + 1). split; [constructor; exact S1|]. split; [|lia].
    constructor; [exact F1|cbn; congruence|cbn in *; congruence|exact Hr'].
  - unfold sl_try_clone in E. destruct (try_clone (minimal s)) as [m r1] eqn:E1.
    destruct (inner_step (minimal s) (sm_layer x) k CClone m (RClone r1) He) as (m1 & S1 & F1);
      [cbn [call_step]; rewrite E1; reflexivity|lia|].
    exists (with_layer x m1), (k + 1). destruct r1 as [c|e|p]; injection E as <- <-.
    + split; [constructor; exact S1|]. split; [|lia].
      constructor; [exact F1|cbn; congruence|cbn in *; congruence|exact Hr'].
    + split; [constructor; exact S1|]. split; [|lia].
      constructor; [exact F1|cbn; congruence|cbn in *; congruence|exact Hr'].
    + exfalso. inversion S1.
  - unfold sl_change_config in E. destruct (change_config cfg (minimal s)) as [m o] eqn:E1. injection E as <- <-.
    destruct (inner_step (minimal s) (sm_layer x) k (CConfig cfg) m (RUnit o) He) as (m1 & S1 & F1);
      [cbn [call_step]; rewrite E1; reflexivity|lia|].
    assert (m1 = sm_layer x) as -> by (inversion S1; reflexivity).
    destruct o as [[]|e|p].
    + eexists _, (k + 1). split; [apply ss_config; exact S1|]. split; [|lia].
      constructor; [exact F1|cbn; congruence|exact Hcf|exact Hr'].
    + exists x, (k + 1). split; [apply ss_config_err; exact S1|]. split; [|lia].
      constructor; [exact F1|cbn; congruence|cbn in *; congruence|exact Hr'].
    + exfalso. inversion S1.
Qed.

Lemma fits_run cs : forall s x k s' h,
  fits s x k -> srun C Z T s cs = (s', h) -> k + 2 * len h < 2 ^ 64 ->
  exists x' k', sshows C Z T x h x' /\ fits s' x' k' /\ k' <= k + 2 * len h.
Proof.
  induction cs as [|c cs IH]; intros s x k s' h Hf E Hb; cbn [srun] in E.
  - injection E as <- <-. exists x, k. split; [constructor|]. split; [exact Hf|]. lia.
  - destruct (scall_step C Z T s c) as [s1 r] eqn:E1. destruct (srun C Z T s1 cs) as [s2 h2] eqn:E2.
    injection E as <- <-.
    assert (len ((c, r) :: h2) = len h2 + 1) as Hl by (unfold len; cbn [length]; lia). rewrite Hl in *.
    destruct (fits_step s x k c s1 r Hf E1) as (x1 & k1 & A & B & D); [lia|].
    destruct (IH s1 x1 k1 s2 h2 B E2) as (x2 & k2 & A2 & B2 & D2); [lia|].
    exists x2, k2. split; [econstructor; eassumption|]. split; [exact B2|]. lia.
Qed.

(** ** No choice *)
Lemma decodes_det x i i' : decodes Z x i -> decodes Z x i' -> i = i'.
Proof.
  assert (forall o y y', inflates Z o y -> inflates Z o y' -> y = y') as Hi.
  { intros [c|] [y|] [y'|]; cbn; try contradiction; congruence. }
  destruct x as [a pk o|o|o], i as [y k|y|y], i' as [y' k'|y'|y']; cbn; try contradiction.
  - intros [-> H1] [-> H2]. f_equal. eapply Hi; eassumption.
  - intros H1 H2. f_equal. eapply Hi; eassumption.
  - intros H1 H2. f_equal. eapply Hi; eassumption.
Qed.

Lemma decodes_spoilt x i z : decodes Z x i -> spoilt Z x z -> False.
Proof.
  assert (forall o y p z, inflates Z o y -> o = Some p -> inflate Z p = inr z -> False) as Hi.
  { intros o [y|] p z' H -> H'; cbn in H; [congruence|contradiction]. }
  intros H (p & H1 & H2). destruct x as [a pk o|o|o], i as [y k|y|y]; cbn in H; try contradiction;
    [destruct H as [_ H]| |]; eapply Hi; eassumption.
Qed.

Lemma spoilt_det x z z' : spoilt Z x z -> spoilt Z x z' -> z = z'.
Proof. intros (p & H1 & H2) (p' & H3 & H4). congruence. Qed.

Lemma unpacked_det l o o' : unpacked Z l o -> unpacked Z l o' -> o = o'.
Proof.
  intros H. revert o'. induction H as [|x i l l' Hd H IH|x l z Hs|x i l e Hd H IH]; intros o' H';
    inversion H'; subst; try reflexivity; try (exfalso; eapply decodes_spoilt; eassumption).
  - match goal with H1 : decodes Z x ?j, H2 : unpacked Z l (Ok _) |- _ =>
      rewrite (decodes_det x i j Hd H1); specialize (IH _ H2) end. congruence.
  - match goal with H2 : unpacked Z l (Err _) |- _ => specialize (IH _ H2) end. discriminate.
  - f_equal. f_equal. eapply spoilt_det; eassumption.
  - match goal with H2 : unpacked Z l (Ok _) |- _ => specialize (IH _ H2) end. discriminate.
  - match goal with H2 : unpacked Z l (Err _) |- _ => specialize (IH _ H2) end. congruence.
Qed.

Lemma together_det i o o' r r' :
  same_outcome o o' -> together Z i o r -> together Z i o' r' -> same_outcome r r'.
Proof.
  intros Hs H H'. destruct H; inversion H'; subst; cbn in Hs; try contradiction; subst; cbn; auto;
    match goal with H1 : unpacked Z ?l _, H2 : unpacked Z ?l _ |- _ =>
      match H1 with H2 => fail 1 | _ => pose proof (unpacked_det _ _ _ H1 H2) end end; congruence.
Qed.

Lemma same_outcome_refl {A} (o : outcome A) : same_outcome o o.
Proof. destruct o; cbn; auto. Qed.

Lemma at_most_one_same o o' : same_outcome o o' -> same_outcome (at_most_one o) (at_most_one o').
Proof. destruct o as [[x|]| |], o' as [[x'|]| |]; cbn; try contradiction; congruence. Qed.

Lemma sreads_det m d o m1 o' m2 :
  sreads C Z T m d o m1 -> sreads C Z T m d o' m2 -> same_outcome o o' /\ m1 = m2.
Proof.
  intros H H'. destruct H; inversion H'; subst;
    match goal with H1 : reads _ _ m d ?a _, H2 : reads _ _ m d ?b _ |- _ =>
      match H1 with H2 => fail 1 | _ =>
        destruct (reads_det C T HL _ _ _ _ _ _ H1 H2) as [Ho Hm]; clear H1 H2 end end;
    cbn in Ho; try contradiction; try discriminate Ho; subst; try (split; [reflexivity|reflexivity]);
    try (split; [exact I|reflexivity]); try (injection Ho; intros; subst); try (exfalso; eapply decodes_spoilt; eassumption).
  - split; [|reflexivity]. cbn. f_equal. eapply spoilt_det; eassumption.
  - split; [|reflexivity]. cbn. f_equal. eapply decodes_det; eassumption.
  - match goal with H1 : step _ _ _ CTakeAck (RMsg ?a) _, H2 : step _ _ _ CTakeAck (RMsg ?b) _ |- _ =>
      match H1 with H2 => fail 1 | _ => destruct (step_state C T HL _ _ _ _ _ _ H1 H2) as [Sr Sm];
        [right; discriminate|] end end.
    subst. split; [|reflexivity]. cbn in Sr. apply at_most_one_same in Sr.
    match goal with H1 : decodes Z ?x ?i, H2 : decodes Z ?x ?j |- _ =>
      match H1 with H2 => fail 1 | _ => rewrite <- (decodes_det _ _ _ H1 H2) in * end end.
    eapply together_det; eassumption.
  - match goal with H1 : step _ _ _ CDrain (RMsgs ?a) _, H2 : step _ _ _ CDrain (RMsgs ?b) _ |- _ =>
      match H1 with H2 => fail 1 | _ => destruct (step_state C T HL _ _ _ _ _ _ H1 H2) as [Sr Sm];
        [right; discriminate|] end end.
    subst. split; [|reflexivity]. cbn in Sr.
    match goal with H1 : decodes Z ?x ?i, H2 : decodes Z ?x ?j |- _ =>
      match H1 with H2 => fail 1 | _ => rewrite <- (decodes_det _ _ _ H1 H2) in * end end.
    eapply together_det; eassumption.
Qed.

(** With the replies the same, or writers that take everything. *)
Lemma sstep_det x c r x1 r' x2 :
  sstep C Z T x c r x1 -> sstep C Z T x c r' x2 ->
  (same_sreply r r' \/ sgood_writers [c]) -> same_sreply r r' /\ x1 = x2.
Proof.
  intros H H' Hw.
  destruct H; inversion H'; subst; try congruence.
  all: try (match goal with H1 : sreads _ _ _ _ _ _ _, H2 : sreads _ _ _ _ _ _ _ |- _ =>
    match H1 with H2 => fail 1 | _ => destruct (sreads_det _ _ _ _ _ _ H1 H2) as [Ho Hm] end end;
    subst; split; [exact Ho|reflexivity]).
  all: try (match goal with H1 : sm_seed ?x = Some ?a, H2 : sm_seed ?x = Some ?b |- _ =>
     match H1 with H2 => fail 1 | _ => rewrite H1 in H2; injection H2 as <- end end).
  all: try (match goal with
    | H1 : step _ _ _ (CWrite _ _) _ _, H2 : step _ _ _ (CWrite _ _) _ _ |- _ =>
      match H1 with H2 => fail 1 | _ => destruct (step_state C T HL _ _ _ _ _ _ H1 H2) as [Sr Sm];
        [destruct Hw as [Hw|Hw]; [left; exact Hw|right; intros ? ? [= <- <-];
          eapply (proj2 (Hw w)); left; reflexivity]|] end
    | H1 : step _ _ _ ?c _ _, H2 : step _ _ _ ?c _ _ |- _ =>
      match H1 with H2 => fail 1 | _ => destruct (step_state C T HL _ _ _ _ _ _ H1 H2) as [Sr Sm];
        [right; discriminate|] end end; subst; cbn in Sr; try contradiction).
  all: try (split; [exact Sr|reflexivity]); try (split; [split; [exact Sr|reflexivity]|reflexivity]);
    try (split; [cbn; solve [auto]|reflexivity]).
  all: subst; split; try reflexivity.
  all: destruct Hw as [Hw|Hw]; [exact Hw|].
  all: match goal with H1 : posted ?w _ _ _ _, H2 : posted ?w _ _ _ _ |- _ =>
    match H1 with H2 => fail 1 | _ => 
      destruct H1 as (_ & _ & H1); destruct H2 as (_ & _ & H2);
      assert (takes_all w) as Ht by
        (first [apply (proj1 (Hw w) cd); left; left; reflexivity|apply (proj1 (Hw w) cd); right; left; reflexivity]);
      destruct (H1 Ht) as [-> E1]; destruct (H2 Ht) as [-> E2]; cbn; split; [reflexivity|congruence] end end.
Qed.

Lemma sshows_det h : forall x x1 h' x2,
  sshows C Z T x h x1 -> sshows C Z T x h' x2 -> map fst h = map fst h' ->
  (Forall2 same_sreply (map snd h) (map snd h') \/ sgood_writers (map fst h)) ->
  Forall2 same_sreply (map snd h) (map snd h') /\ x1 = x2.
Proof.
  induction h as [|[c r] h IH]; intros x x1 h' x2 H H' Hm Hw; destruct h' as [|[c' r'] h']; try discriminate Hm.
  - inversion H; inversion H'; subst. split; [constructor|reflexivity].
  - cbn [map fst snd] in *. injection Hm as <- Hm. inversion H; inversion H'; subst.
    match goal with H1 : sstep _ _ _ _ c r ?x, H2 : sstep _ _ _ _ c r' ?y |- _ =>
      destruct (sstep_det _ _ _ _ _ _ H1 H2) as [Sr Sm] end.
    { destruct Hw as [Hw|Hw]; [left; inversion Hw; assumption|right].
      intros w. destruct (Hw w) as [W1 W2]. split.
      - intros y [[Hy|[]]|[Hy|[]]]; apply (W1 y); [left|right]; left; exact Hy.
      - intros y [Hy|[]]. apply (W2 y). left. exact Hy. }
    subst. match goal with H1 : sshows _ _ _ ?x h _, H2 : sshows _ _ _ ?x h' _ |- _ =>
      destruct (IH _ _ _ _ H1 H2 Hm) as [Fr Fm] end.
    { destruct Hw as [Hw|Hw]; [left; inversion Hw; assumption|right].
      intros w. destruct (Hw w) as [W1 W2]. split.
      - intros y [Hy|Hy]; apply (W1 y); [left|right]; right; exact Hy.
      - intros y Hy. apply (W2 y). right. exact Hy. }
    split; [constructor; assumption|exact Fm].
Qed.

Lemma same_sreply_refl r : same_sreply r r.
Proof. destruct r as [o|o w|o|o]; cbn; try (destruct o; cbn; auto; fail). Qed.

(** ** The whole life *)
Lemma sembodies_fits s x k :
  sembodies C Z T s x k -> 2 * k < 2 ^ 64 -> exists k', fits s x k' /\ k' <= 2 * k.
Proof.
  induction 1 as [private rs cfg given expected seed s E Hg|s x k cs s' h x' H IH E Hsh|s x k c H IH E]; intros Hk.
  - exists 0. split; [|lia]. pose proof (sreach_create C Z T _ _ _ _ _ _ E) as HR. unfold sl_create in E.
    destruct given as [sd|]; [|destruct rs as [sd|]]; cbn [obind] in E; try discriminate;
      destruct (create C (RngKey private) cfg expected) as [m|e|p] eqn:Ec; try discriminate; injection E as <-;
      (constructor; [cbn; eapply em_create; exact Ec|cbn; destruct Hg as [Hg|[Hg1 Hg2]]; congruence|
         cbn; unfold create in Ec; cbn [obind] in Ec; injection Ec as <-; reflexivity|exact HR]).
  - destruct IH as (k0 & Hf & Hk0); [lia|].
    destruct (fits_run cs s x k0 s' h Hf E) as (x2 & k2 & A & B & D); [lia|].
    assert (x2 = x') as ->.
    { apply (sshows_det h x x2 h x' A Hsh eq_refl). left.
      clear. induction (map snd h); constructor; [apply same_sreply_refl|assumption]. }
    exists k2. split; [exact B|lia].
  - destruct (IH Hk) as (k0 & Hf & Hk0). exists k0. split; [|exact Hk0]. destruct Hf as [He Hs Hc Hr].
    pose proof (sreach_clone C Z T s c Hr E) as HR.
    unfold sl_try_clone in E. destruct (try_clone (minimal s)) as [m [cc|e|p]] eqn:Et; cbn in E; try discriminate.
    injection E as <-. constructor.
    + cbn. eapply em_clone; [exact He|]. rewrite Et. reflexivity.
    + reflexivity.
    + cbn. revert Et. unfold try_clone. destruct (msl_status (minimal s)); intros [= _ <-]; exact Hc.
    + exact HR.
Qed.

Theorem smachine_refinement s x k cs s' h :
  sembodies C Z T s x k -> srun C Z T s cs = (s', h) -> 2 * (k + len h) < 2 ^ 64 ->
  exists x', sshows C Z T x h x' /\ sembodies C Z T s' x' (k + len h).
Proof.
  intros He E Hk. destruct (sembodies_fits s x k He) as (k0 & Hf & Hk0); [lia|].
  destruct (fits_run cs s x k0 s' h Hf E) as (x' & k' & A & _); [lia|].
  exists x'. split; [exact A|]. eapply se_run; eassumption.
Qed.

Theorem smachine_view s x k :
  sembodies C Z T s x k -> 2 * k < 2 ^ 64 ->
  (sfailed C s <-> m_failed (sm_layer x) = true) /\
  (sestablished s <-> m_failed (sm_layer x) = false /\ complete (sm_layer x)) /\
  session_key (minimal s) = secret C (sm_layer x) /\
  (forall n, received (minimal s) n <-> In n (m_numbers (sm_layer x))).
Proof.
  intros He Hk. destruct (sembodies_fits s x k He Hk) as (k0 & Hf & Hk0).
  destruct (machine_view C T HL (minimal s) (sm_layer x) k0 (ft_layer s x k0 Hf)) as (V1 & V2 & V3 & V4); [lia|].
  split; [exact V1|]. split; [|split; [exact V3|exact V4]]. rewrite <- V2.
  unfold sestablished, established, sl_try_clone.
  destruct (try_clone (minimal s)) as [m [cc|e|p]]; cbn; split; intros [c Hc]; try discriminate; eauto.
Qed.

(** ** The order of the messages taken in *)
Lemma sreads_alike m m' d o m1 :
  alike m m' -> sreads C Z T m d o m1 -> exists m1', sreads C Z T m' d o m1' /\ alike m1 m1'.
Proof.
  intros A H. destruct H as [e m1 R|p m1 R|m1 R|x z m1 R S|c i m1 R D|a pk c i m1 o m2 r R D S G|c i m1 o m2 r R D S G];
    destruct (reads_alike C T _ _ _ _ _ A R) as (a' & R' & A');
    try (exists a'; split; [econstructor; eassumption|exact A']);
    destruct (step_alike C T _ _ _ _ _ A' S) as (b' & S' & B'); exists b'.
  - split; [eapply sr_connect; eassumption|exact B'].
  - split; [eapply sr_ack; eassumption|exact B'].
Qed.

Lemma sstep_alike x x' c r x1 :
  salike x x' -> sstep C Z T x c r x1 -> exists x1', sstep C Z T x' c r x1' /\ salike x1 x1'.
Proof.
  intros (A & B & D) H. destruct H as [d o m' R|seed cd w t m' o w' Hs S Hp|seed cd w e m' Hs S|cd w Hs
    |seed cd w t m' o w' Hs S Hp|seed cd w e m' Hs S|cd w Hs|data w o w' m' S|c m' S|e m' S|cfg S|cfg e S].
  1: { destruct (sreads_alike _ _ _ _ _ A R) as (a' & R' & A'). exists (with_layer x' a').
       split; [constructor; exact R'|split; [exact A'|split; assumption]]. }
  all: try (exists x'; split; [constructor; congruence|split; [exact A|split; assumption]]).
  all: try rewrite D in S; try rewrite B in Hs; destruct (step_alike C T _ _ _ _ _ A S) as (a' & S' & A').
  all: try (exists (with_layer x' a'); split; [econstructor; eassumption|split; [exact A'|split; assumption]]).
  - exists {| sm_layer := sm_layer x'; sm_seed := sm_seed x'; sm_config := cfg |}.
    split; [|split; [exact A|split; [exact B|reflexivity]]]. constructor. inversion S'; subst. exact S'.
  - exists x'. split; [|split; [exact A|split; assumption]]. constructor. inversion S'; subst. exact S'.
Qed.

Lemma sshows_alike h : forall x x' x1,
  salike x x' -> sshows C Z T x h x1 -> exists x1', sshows C Z T x' h x1' /\ salike x1 x1'.
Proof.
  induction h as [|[c r] h IH]; intros x x' x1 A H; inversion H; subst.
  - exists x'. split; [constructor|exact A].
  - match goal with S : sstep _ _ _ x _ _ _, R : sshows _ _ _ _ h _ |- _ =>
      destruct (sstep_alike _ _ _ _ _ A S) as (a & S' & A'); destruct (IH _ _ _ A' R) as (b & R' & B') end.
    exists b. split; [econstructor; eassumption|exact B'].
Qed.

Theorem smachine_no_hidden_state s1 s2 x x' k1 k2 cs s1' h1 s2' h2 :
  sembodies C Z T s1 x k1 -> sembodies C Z T s2 x' k2 -> salike x x' -> sgood_writers cs ->
  srun C Z T s1 cs = (s1', h1) -> srun C Z T s2 cs = (s2', h2) ->
  2 * (k1 + len h1) < 2 ^ 64 -> 2 * (k2 + len h2) < 2 ^ 64 ->
  Forall2 same_sreply (map snd h1) (map snd h2).
Proof.
  intros H1 H2 HA Hg E1 E2 L1 L2.
  destruct (smachine_refinement s1 x k1 cs s1' h1 H1 E1 L1) as (x0 & A0 & _).
  destruct (sshows_alike h1 x x' x0 HA A0) as (x1 & A & _).
  destruct (smachine_refinement s2 x' k2 cs s2' h2 H2 E2 L2) as (x2 & B & _).
  assert (forall cs s s' h, srun C Z T s cs = (s', h) -> map fst h = cs) as Hf.
  { clear. induction cs as [|c cs IH]; intros s s' h E; cbn [srun] in E.
    - injection E as <- <-. reflexivity.
    - destruct (scall_step C Z T s c) as [s1 r] eqn:E1. destruct (srun C Z T s1 cs) as [s2 h2] eqn:E2. injection E as <- <-.
      cbn [map fst]. f_equal. exact (IH _ _ _ E2). }
  pose proof (Hf _ _ _ _ E1) as F1. pose proof (Hf _ _ _ _ E2) as F2.
  apply (sshows_det h1 x' x1 h2 x2 A B); [congruence|]. right. rewrite F1. exact Hg.
Qed.

(** ** Typed calls *)
Context (F : features) {M : Type} (K : Codec M).

Theorem tmachine_refinement s x k cs s' h :
  sembodies C Z T s x k -> trun C Z T F K s cs = (s', h) -> 2 * (k + len h) < 2 ^ 64 ->
  exists x' k', tshows C Z T F K x h x' /\ sembodies C Z T s' x' k' /\ k' <= k + len h.
Proof.
  revert s x k h. induction cs as [|c cs IH]; intros s x k h He E Hk; cbn [trun] in E.
  - injection E as <- <-. exists x, k. split; [constructor|]. split; [exact He|lia].
  - destruct (tcall_step C Z T F K s c) as [s1 r] eqn:E1. destruct (trun C Z T F K s1 cs) as [s2 h2] eqn:E2.
    injection E as <- <-.
    assert (len ((c, r) :: h2) = len h2 + 1) as Hl by (unfold len; cbn [length]; lia). rewrite Hl in *.
    destruct (tcall_projects C Z T F K s c s1 r E1) as (h1 & Hp & Hr).
    assert (len h1 <= 1) as Hl1.
    { destruct (tprojects_shape F K _ _ _ Hp) as [->|[y ->]]; unfold len; cbn [length]; lia. }
    destruct (smachine_refinement s x k (map fst h1) s1 h1 He Hr) as (x1 & A & B); [lia|].
    destruct (IH s1 x1 (k + len h1) h2 B E2) as (x2 & k2 & A2 & B2 & D2); [lia|].
    exists x2, k2. split; [|split; [exact B2|lia]].
    econstructor; [|exact A2]. econstructor; [|exact A].
    destruct (sembodies_fits s x k He) as (k0 & Hf & _); [lia|].
    rewrite <- (ft_config s x k0 Hf). exact Hp.
Qed.

Lemma encoded_det f (m : M) p p' : encoded K f m p -> encoded K f m p' -> p = p'.
Proof. intros (en & b & H1 & H2 & H3) (en' & b' & H1' & H2' & H3'). congruence. Qed.
Lemma encoded_opt_det f (y : option M) o o' : encoded_opt K f y o -> encoded_opt K f y o' -> o = o'.
Proof.
  destruct y as [m|], o as [p|], o' as [p'|]; cbn; try contradiction; try reflexivity.
  intros H H'. f_equal. eapply encoded_det; eassumption.
Qed.
Lemma unencodable_det f (m : M) o o' : unencodable K f m o -> unencodable K f m o' -> o = o'.
Proof.
  intros [(e & H & ->)|(-> & ->)] [(e' & H' & ->)|(E & ->)]; try reflexivity; unfold unserialisable in *.
  - f_equal. destruct H as [[H1 H2]|(en & c & H1 & H2 & H3)], H' as [[H1' H2']|(en' & c' & H1' & H2' & H3')]; subst;
      try reflexivity; try discriminate; congruence.
  - subst f. destruct H as [[H1 H2]|(en & c & H1 & H2 & H3)]; discriminate.
  - destruct H' as [[H1 H2]|(en & c & H1 & H2 & H3)]; discriminate.
Qed.
Lemma encoded_unencodable f (m : M) p o : encoded K f m p -> unencodable K f m o -> False.
Proof.
  intros (en & b & H1 & H2 & H3) [(e & H & ->)|(-> & ->)]; [|discriminate].
  destruct H as [[-> H]|(en' & c & H1' & H2' & H3')]; [discriminate|congruence].
Qed.

Lemma typed_as_det i (t t' : incoming_message M) : typed_as F K i t -> typed_as F K i t' -> t = t'.
Proof.
  assert (forall o y y', value_of F K o y -> value_of F K o y' -> y = y') as Hv.
  { intros o y y' H H'. apply value_read in H. apply value_read in H'. congruence. }
  destruct i, t, t'; cbn; try contradiction.
  - intros [-> H] [-> H']. f_equal. eapply Hv; eassumption.
  - intros H H'. f_equal. eapply Hv; eassumption.
  - intros H H'. f_equal. eapply Hv; eassumption.
Qed.
Lemma typed_as_payload i (t : incoming_message M) p r (o : outcome (list (incoming_message M))) :
  typed_as F K i t -> payload i = Some p -> payload_result F K p r -> same_failure r o -> False.
Proof.
  assert (forall o y p, value_of F K o y -> o = Some p -> exists m, payload_result F K p (Ok m)) as Hv.
  { intros y [m|] q H ->; cbn in H; [eauto|contradiction]. }
  intros H Hp Hr Hs. assert (exists m, payload_result F K p (Ok m)) as [m Hm].
  { destruct i, t; cbn in H, Hp; try contradiction; [destruct H as [_ H]| |]; eapply Hv; eassumption. }
  apply payload_read in Hm. apply payload_read in Hr. rewrite <- Hr, Hm in Hs. exact Hs.
Qed.

Lemma typed_result_det l : forall o o', typed_result F K l o -> typed_result F K l o' -> o = o'.
Proof.
  assert (forall l1 ts1 i l2 ts p r (o : outcome (list (incoming_message M))), Forall2 (typed_as F K) (l1 ++ i :: l2) ts ->
    Forall2 (typed_as F K) l1 ts1 -> payload i = Some p -> payload_result F K p r -> same_failure r o -> False) as Hx.
  { intros l1 ts1 i l2 ts p r o H _ Hp Hr Hs. apply Forall2_app_inv_l in H as (a & b & _ & H & _).
    inversion H; subst. eapply typed_as_payload; eassumption. }
  intros o o' [(ts & -> & H)|(l1 & ts & i & l2 & p & r & -> & H & Hp & Hr & Hs)]
    [(ts' & -> & H')|(l1' & ts' & i' & l2' & p' & r' & E & H' & Hp' & Hr' & Hs')].
  - f_equal. revert ts' H'. induction H as [|i t l ts Hi H IH]; intros ts' H'; inversion H'; subst; [reflexivity|].
    f_equal; [eapply typed_as_det; eassumption|apply IH; assumption].
  - exfalso. subst l. eapply Hx; eassumption.
  - exfalso. eapply Hx; eassumption.
  - assert (l1 = l1' /\ i = i') as [<- <-].
    { revert ts l1' ts' H H' E. induction l1 as [|a l1 IH]; intros ts l1' ts' H H' E; destruct l1' as [|a' l1']; cbn in E.
      - injection E as -> ->. auto.
      - injection E as <- ->. exfalso. inversion H'; subst. eapply typed_as_payload; eassumption.
      - injection E as <- <-. exfalso. inversion H; subst. eapply typed_as_payload; eassumption.
      - injection E as <- E. inversion H; inversion H'; subst. destruct (IH _ _ _ ltac:(eassumption) ltac:(eassumption) E) as [-> ->].
        auto. }
    assert (p = p') as <- by congruence. apply payload_read in Hr. apply payload_read in Hr'.
    assert (r = r') as <- by congruence. clear Hr Hr'.
    destruct r as [m|e|q], o as [y|e1|q1], o' as [y'|e2|q2]; cbn in Hs, Hs'; try contradiction; congruence.
Qed.

Lemma tprojects_det f c r r' h h' :
  tprojects F K f (c, r) h -> tprojects F K f (c, r') h' ->
  map fst h = map fst h' /\
  (Forall2 same_sreply (map snd h) (map snd h') -> same_treply r r').
Proof.
  intros H H'.
  assert (forall a b, Forall2 same_sreply [a] [b] -> same_sreply a b) as Hone
    by (intros a b Hf; inversion Hf; assumption).
  inversion H; subst; inversion H'; subst; cbn [map fst snd];
    try (match goal with H1 : encoded_opt K f (Some _) ?o, H2 : unencodable _ _ _ _ |- _ =>
           destruct o as [q|]; cbn in H1; [|contradiction]; exfalso; eapply encoded_unencodable; eassumption end);
    try (exfalso; eapply encoded_unencodable; eassumption);
    try (match goal with H1 : encoded_opt K f ?y ?o, H2 : encoded_opt K f ?y ?o' |- _ =>
           match H1 with H2 => fail 1 | _ => rewrite <- (encoded_opt_det _ _ _ _ H1 H2) in * end end);
    try (match goal with H1 : encoded K f ?y ?o, H2 : encoded K f ?y ?o' |- _ =>
           match H1 with H2 => fail 1 | _ => rewrite <- (encoded_det _ _ _ _ H1 H2) in * end end);
    (split; [reflexivity|]); intros Hf.
  all: try (apply Hone in Hf; cbn in Hf; try contradiction; try exact Hf; try subst; cbn; auto; fail).
  - apply Hone in Hf. cbn in Hf. subst. cbn.
    match goal with H1 : typed_result F K ?l ?a, H2 : typed_result F K ?l ?b |- _ =>
      match H1 with H2 => fail 1 | _ => rewrite (typed_result_det _ _ _ H1 H2) end end. apply same_outcome_refl.
  - match goal with H1 : unencodable K f ?m ?a, H2 : unencodable K f ?m ?b |- _ =>
      match H1 with H2 => fail 1 | _ => rewrite (unencodable_det _ _ _ _ H1 H2) end end.
    apply same_sreply_refl.
  - match goal with H1 : unencodable K f ?m ?a, H2 : unencodable K f ?m ?b |- _ =>
      match H1 with H2 => fail 1 | _ => rewrite (unencodable_det _ _ _ _ H1 H2) end end.
    apply same_sreply_refl.
  - match goal with H1 : unencodable K f ?m ?a, H2 : unencodable K f ?m ?b |- _ =>
      match H1 with H2 => fail 1 | _ => rewrite (unencodable_det _ _ _ _ H1 H2) end end.
    apply same_sreply_refl.
Qed.

Lemma tprojects_writers f c r h : tprojects F K f (c, r) h -> tgood_writers [c] -> sgood_writers (map fst h).
Proof.
  intros H Hg w. assert (forall k v w, writing c = Some (k, v, w) -> takes_all w) as Hc.
  { intros k v w0 E. eapply Hg; [left; reflexivity|exact E]. }
  inversion H; subst; cbn [map fst writing] in *; (split; [intros y Hy|intros y Hy]); cbn [In] in Hy;
    repeat match goal with
           | H1 : _ \/ _ |- _ => destruct H1
           | H1 : False |- _ => contradiction
           | H1 : SRead _ = _ |- _ => discriminate H1
           | H1 : SConnect _ _ = SConnect _ _ |- _ => injection H1 as -> ->
           | H1 : SAck _ _ = SAck _ _ |- _ => injection H1 as -> ->
           | H1 : SWrite _ _ = SWrite _ _ |- _ => injection H1 as -> ->
           | H1 : _ = _ :> scall |- _ => first [discriminate H1|subst]
           end; try (eapply Hc; reflexivity).
Qed.

Lemma tstep_det x c r x1 r' x2 :
  tstep C Z T F K x c r x1 -> tstep C Z T F K x c r' x2 -> tgood_writers [c] -> same_treply r r' /\ x1 = x2.
Proof.
  intros H H' Hg. destruct H as [c r h x1 Hp Hs]. inversion H' as [c' r1 h' x3 Hp' Hs']. subst.
  destruct (tprojects_det _ _ _ _ _ _ Hp Hp') as [D1 D2].
  destruct (sshows_det h x x1 h' x2 Hs Hs' D1) as [E1 E2].
  - right. eapply tprojects_writers; eassumption.
  - split; [exact (D2 E1)|exact E2].
Qed.

Theorem tshows_det h : forall x x1 h' x2,
  tshows C Z T F K x h x1 -> tshows C Z T F K x h' x2 -> map fst h = map fst h' -> tgood_writers (map fst h) ->
  Forall2 same_treply (map snd h) (map snd h') /\ x1 = x2.
Proof.
  induction h as [|[c r] h IH]; intros x x1 h' x2 H H' Hm Hw; destruct h' as [|[c' r'] h']; try discriminate Hm.
  - inversion H; inversion H'; subst. split; [constructor|reflexivity].
  - cbn [map fst snd] in *. injection Hm as <- Hm. inversion H; inversion H'; subst.
    match goal with H1 : tstep _ _ _ _ _ _ c r ?x, H2 : tstep _ _ _ _ _ _ c r' ?y |- _ =>
      destruct (tstep_det _ _ _ _ _ _ H1 H2) as [Sr Sm] end.
    { intros c0 k v w [<-|[]] Hv. eapply Hw; [left; reflexivity|exact Hv]. }
    subst. match goal with H1 : tshows _ _ _ _ _ ?x h _, H2 : tshows _ _ _ _ _ ?x h' _ |- _ =>
      destruct (IH _ _ _ _ H1 H2 Hm) as [Fr Fm] end.
    { intros c0 k v w Hin Hv. eapply Hw; [right; exact Hin|exact Hv]. }
    split; [constructor; assumption|exact Fm].
Qed.

Lemma tshows_alike h : forall x x' x1,
  salike x x' -> tshows C Z T F K x h x1 -> exists x1', tshows C Z T F K x' h x1' /\ salike x1 x1'.
Proof.
  induction h as [|[c r] h IH]; intros x x' x1 A H; inversion H; subst.
  - exists x'. split; [constructor|exact A].
  - match goal with S : tstep _ _ _ _ _ x _ _ ?y, R : tshows _ _ _ _ _ _ h _ |- _ =>
      destruct S as [c r h1 y P S]; destruct (sshows_alike _ _ _ _ A S) as (a & S' & A');
      destruct (IH _ _ _ A' R) as (b & R' & B') end.
    exists b. split; [|exact B']. econstructor; [|exact R']. destruct A as (_ & _ & D). econstructor; [|exact S'].
    rewrite <- D. exact P.
Qed.

Theorem tmachine_no_hidden_state s1 s2 x x' k1 k2 cs s1' h1 s2' h2 :
  sembodies C Z T s1 x k1 -> sembodies C Z T s2 x' k2 -> salike x x' -> tgood_writers cs ->
  trun C Z T F K s1 cs = (s1', h1) -> trun C Z T F K s2 cs = (s2', h2) ->
  2 * (k1 + len h1) < 2 ^ 64 -> 2 * (k2 + len h2) < 2 ^ 64 ->
  Forall2 same_treply (map snd h1) (map snd h2).
Proof.
  intros H1 H2 HA Hg E1 E2 L1 L2.
  destruct (tmachine_refinement s1 x k1 cs s1' h1 H1 E1 L1) as (x0 & _ & A0 & _).
  destruct (tshows_alike h1 x x' x0 HA A0) as (x1 & A & _).
  destruct (tmachine_refinement s2 x' k2 cs s2' h2 H2 E2 L2) as (x2 & _ & B & _).
  assert (forall cs s s' h, trun C Z T F K s cs = (s', h) -> map fst h = cs) as Hf.
  { clear. induction cs as [|c cs IH]; intros s s' h E; cbn [trun] in E.
    - injection E as <- <-. reflexivity.
    - destruct (tcall_step C Z T F K s c) as [s1 r] eqn:E1. destruct (trun C Z T F K s1 cs) as [s2 h2] eqn:E2. injection E as <- <-.
      cbn [map fst]. f_equal. exact (IH _ _ _ E2). }
  pose proof (Hf _ _ _ _ E1) as F1. pose proof (Hf _ _ _ _ E2) as F2.
  apply (tshows_det h1 x' x1 h2 x2 A B); [congruence|]. rewrite F1. exact Hg.
Qed.

(** The number of the message a read call was given. *)
Definition reads_number (m : machine) (c : tcall M) (n : N) : Prop :=
  exists d text L, (c = VRead d \/ c = VBin (SRead d)) /\ datagram T C (secret C m) d (DFrame text L (KUser n)).

Lemma sreads_user m d y m1 : sreads C Z T m d (Ok [IMessage y]) m1 ->
  exists n text L, datagram T C (secret C m) d (DFrame text L (KUser n)) /\ m1 = take_number n m.
Proof.
  intros H. inversion H as [| | | |c i m0 Hr Hd|a pk c i m0 o m2 r Hr Hd St To|c i m0 o m2 r Hr Hd St To]; subst.
  - inversion Hr as [| | |text L k o0 m' Hg J]; subst.
    assert (exists n, k = KUser n /\ m1 = take_number n m) as (n & -> & ->).
    { inversion J; subst; try match goal with Hh : handed _ _ _ _ _ |- _ => inversion Hh; subst end;
        try discriminate; cbn [as_message] in *; try congruence; eauto. }
    exists n, text, L. split; [exact Hg|reflexivity].
  - inversion To; subst. contradiction Hd.
  - inversion To; subst. contradiction Hd.
Qed.

Lemma tstep_user x c r x1 : tstep C Z T F K x c r x1 -> tuser_answer (c, r) ->
  exists n, reads_number (sm_layer x) c n /\ x1 = with_layer x (take_number n (sm_layer x)).
Proof.
  intros [c0 r0 h y P S] [v Hv]. cbn [snd] in Hv.
  assert (exists d o, (c0 = VRead d \/ c0 = VBin (SRead d)) /\ h = [(SRead d, SMsgs (Ok [IMessage o]))]) as (d & o & Hc & ->).
  { inversion P as [cb rb| d l ot Ht | | | | | | | | ]; subst; cbn [items] in Hv; try discriminate Hv.
    - destruct rb as [[l| |]| | |]; try discriminate Hv.
      inversion S as [|x0 c1 r1 xa h1 x2 S1 S2]; subst. inversion S1; subst.
      destruct l as [|[?|?|o] [|]]; try discriminate Hv. exists d, o. split; [right; reflexivity|reflexivity].
    - destruct ot as [ts| |]; try discriminate Hv.
      destruct Ht as [(ts' & [= <-] & Hf)|(l1 & ts' & i & l2 & p & q & _ & _ & _ & _ & Hs)]; [|destruct q; contradiction Hs].
      destruct ts as [|t [|]]; try discriminate Hv. inversion Hf as [|i t0 l0 l0' Ha Hf']; subst. inversion Hf'; subst.
      destruct t; try discriminate Hv. destruct i as [?|?|o]; try contradiction Ha. exists d, o. split; [left; reflexivity|reflexivity].
    - inversion S as [|? ? ? ? ? ? S1 S2]; subst. inversion S1; subst; discriminate Hv.
    - inversion S as [|? ? ? ? ? ? S1 S2]; subst. inversion S1; subst; discriminate Hv.
    - inversion S as [|? ? ? ? ? ? S1 S2]; subst. inversion S1; subst; discriminate Hv. }
  inversion S as [|x0 c1 r1 xa h1 x2 S1 S2]; subst. inversion S2; subst. inversion S1 as [d0 o0 m' Hr| | | | | | | | | | |]; subst.
  destruct (sreads_user _ _ _ _ Hr) as (n & text & L & Hd & ->). exists n. split; [|reflexivity].
  exists d, text, L. split; [exact Hc|exact Hd].
Qed.

Lemma tshows_users qs : forall x h x1,
  tshows C Z T F K x h x1 -> map fst h = qs -> Forall tuser_answer h ->
  exists ns, Forall2 (reads_number (sm_layer x)) qs ns /\
    x1 = with_layer x (reordered (rev ns ++ m_numbers (sm_layer x)) (sm_layer x)).
Proof.
  induction qs as [|q qs IH]; intros x h x1 H Hf Hu.
  - destruct h as [|e h]; [|discriminate Hf]. inversion H; subst. exists []. split; [constructor|].
    destruct x1 as [[] ? ?]; reflexivity.
  - destruct h as [|[c r] h]; [discriminate Hf|]. injection Hf as -> Hf.
    inversion Hu as [|e l Hu1 Hu']; subst.
    inversion H as [|x0 c0 r0 xa h0 x2 S R]; subst.
    destruct (tstep_user _ _ _ _ S Hu1) as (n & Hn & ->).
    destruct (IH _ _ _ R eq_refl Hu') as (ns & Fs & ->). exists (n :: ns). split.
    + constructor; [exact Hn|exact Fs].
    + cbn [rev]. rewrite <- app_assoc. reflexivity.
Qed.

Lemma trun_calls cs : forall s s' h, trun C Z T F K s cs = (s', h) -> map fst h = cs.
Proof.
  induction cs as [|c cs IH]; intros s s' h E; cbn [trun] in E.
  - injection E as <- <-. reflexivity.
  - destruct (tcall_step C Z T F K s c) as [s1 r] eqn:E1. destruct (trun C Z T F K s1 cs) as [s2 h2] eqn:E2. injection E as <- <-.
    cbn [map fst]. f_equal. exact (IH _ _ _ E2).
Qed.

Theorem tmachine_order sk rs cfg given pin s0 cs0 s h0 qs qs' cs sa ha sb hb sa' ha' sb' hb' :
  sl_create C (RngKey sk) rs cfg given pin = Ok s0 -> trun C Z T F K s0 cs0 = (s, h0) ->
  Permutation qs qs' -> tgood_writers cs ->
  trun C Z T F K s qs = (sa, ha) -> Forall tuser_answer ha ->
  trun C Z T F K s qs' = (sb, hb) -> Forall tuser_answer hb ->
  trun C Z T F K sa cs = (sa', ha') -> trun C Z T F K sb cs = (sb', hb') ->
  2 * (len cs0 + len qs + len cs) < 2 ^ 64 ->
  Forall2 same_treply (map snd ha') (map snd hb').
Proof.
  intros Ec E0 HP Hg Ea Ua Eb Ub Ea' Eb' Hl.
  assert (forall cs s s' h, trun C Z T F K s cs = (s', h) -> len h = len cs) as Hn.
  { intros cs1 s1 s1' h1 E1. apply trun_calls in E1. rewrite <- E1. unfold len. rewrite map_length. reflexivity. }
  assert (len qs = len qs') as Hd by (unfold len; rewrite (Permutation_length HP); reflexivity).
  pose proof (Hn _ _ _ _ E0) as L0. pose proof (Hn _ _ _ _ Ea) as La. pose proof (Hn _ _ _ _ Eb) as Lb.
  pose proof (Hn _ _ _ _ Ea') as La'. pose proof (Hn _ _ _ _ Eb') as Lb'.
  assert (exists seed, given = Some seed \/ given = None /\ rs = Some seed) as [seed Hs].
  { unfold sl_create in Ec. destruct given as [g|]; [exists g; left; reflexivity|].
    destruct rs as [g|]; [exists g; right; split; reflexivity|discriminate Ec]. }
  assert (sembodies C Z T s0 (new_smachine sk seed pin cfg) 0) as He0 by (eapply se_create; eassumption).
  destruct (tmachine_refinement _ _ _ _ _ _ He0 E0 ltac:(lia)) as (x & k & _ & He & Hk).
  destruct (tmachine_refinement _ _ _ _ _ _ He Ea ltac:(lia)) as (xa & ka & Sa & Ha & Hka).
  destruct (tmachine_refinement _ _ _ _ _ _ He Eb ltac:(lia)) as (xb & kb & Sb & Hb & Hkb).
  destruct (tshows_users qs x ha xa Sa (trun_calls _ _ _ _ Ea) Ua) as (na & Fa & ->).
  destruct (tshows_users qs' x hb xb Sb (trun_calls _ _ _ _ Eb) Ub) as (nb & Fb & ->).
  assert (Permutation na nb) as Hp.
  { eapply forall2_perm; [|exact HP|exact Fa|exact Fb]. intros c n n' (d & t & L & Hc & D) (d' & t' & L' & Hc' & D').
    assert (d = d') as <- by (destruct Hc as [->| ->], Hc' as [E|E]; congruence).
    pose proof (datagram_unique C T HL _ _ _ _ D D') as E. congruence. }
  eapply tmachine_no_hidden_state; [exact Ha|exact Hb| |exact Hg|exact Ea'|exact Eb'|lia|lia].
  split; [|split; reflexivity].
  exists (rev nb ++ m_numbers (sm_layer x)). split; [|reflexivity]. cbn. apply Permutation_app_tail.
  rewrite <- !Permutation_rev. exact Hp.
Qed.

End WithEnv.

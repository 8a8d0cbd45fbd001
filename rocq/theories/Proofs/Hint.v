(** C75: the capacity hint of the decompressor. *)

From Coq Require Import Arith ZifyBool ZifyNat ZifyN.
From Verif.Model Require Import Hint.
From Verif.Spec Require Import Wire Datagram Trace ReadSpec Accept Session Writers Attacks CompleteTrace Typed TypedTrace Builds Hint.
From Verif.Proofs Require Import BaseFacts IoFacts CipherFacts ReaderFacts ReadCases WindowFacts UserReads Invariant Failure Steps Early CompleteMode
  CompleteFacts CompleteStates Typed Builds.

(** ** One payload *)
Lemma bits_pred T : 2 ^ usize_bits T = 2 * 2 ^ (usize_bits T - 1).
Proof. unfold usize_bits. destruct (usize_width T); reflexivity. Qed.

Lemma roomy_affordable T d n : roomy T d -> n <= len d -> affordable T n.
Proof.
  unfold roomy, affordable. intros H Hn. pose proof (bits_pred T) as Hb.
  assert (5 * n < 2 ^ usize_bits T) as H1 by lia.
  split; [intros _; exact H1|]. rewrite N.mod_small by exact H1. lia.
Qed.

Section WithEnv.
Context (C : Crypto) (Z : Zip) (T : target).

Lemma hint_affordable b : affordable T (len b) -> uncompress_hint Z T b = uncompress Z b.
Proof.
  intros [H1 H2]. unfold uncompress_hint, usize_mul, vec_with_capacity. rewrite (N.mul_comm (len b) 5).
  destruct (N.ltb_spec (5 * len b) (2 ^ usize_bits T)) as [H|H].
  - rewrite N.mod_small in H2 by exact H. cbn [obind].
    destruct (N.ltb_spec (5 * len b) (2 ^ (usize_bits T - 1))); [reflexivity|lia].
  - destruct (overflow_checks T); [specialize (H1 eq_refl); lia|]. cbn [obind].
    destruct (N.ltb_spec ((5 * len b) mod 2 ^ usize_bits T) (2 ^ (usize_bits T - 1))); [reflexivity|lia].
Qed.

Lemma hint_panics b : ~ affordable T (len b) ->
  exists p, uncompress_hint Z T b = Panic p /\ (p = POverflow \/ p = PCapacity).
Proof.
  intros Hn. unfold uncompress_hint, usize_mul, vec_with_capacity. rewrite (N.mul_comm (len b) 5).
  pose proof (bits_pred T) as Hb.
  destruct (N.ltb_spec (5 * len b) (2 ^ usize_bits T)) as [H|H].
  - cbn [obind]. destruct (N.ltb_spec (5 * len b) (2 ^ (usize_bits T - 1))) as [H'|H'].
    + exfalso. apply Hn. split; [intros _; exact H|]. rewrite N.mod_small by exact H. exact H'.
    + exists PCapacity. split; [reflexivity|right; reflexivity].
  - destruct (overflow_checks T) eqn:Ec; cbn [obind]; [exists POverflow; split; [reflexivity|left; reflexivity]|].
    destruct (N.ltb_spec ((5 * len b) mod 2 ^ usize_bits T) (2 ^ (usize_bits T - 1))) as [H'|H'].
    + exfalso. apply Hn. split; [congruence|exact H'].
    + exists PCapacity. split; [reflexivity|right; reflexivity].
Qed.

Definition small_opt (o : option bytes) : Prop := match o with Some p => affordable T (len p) | None => True end.
Definition small_msg (m : message) : Prop :=
  match m with MConnect _ _ o | MAck o | MMessage o => small_opt o end.

Lemma hint_opt o : small_opt o -> uncompress_opt_hint Z T o = uncompress_opt Z o.
Proof. destruct o as [p|]; [|reflexivity]. intros H. cbn. rewrite hint_affordable by exact H. reflexivity. Qed.

Lemma hint_msgs l : Forall small_msg l -> forall acc, uncompress_msgs_hint Z T l acc = uncompress_msgs Z l acc.
Proof.
  induction 1 as [|m l Hm Hl IH]; intros acc; [reflexivity|].
  destruct m as [al pk o|o|o]; cbn [uncompress_msgs_hint uncompress_msgs]; [apply IH..|].
  rewrite hint_opt by exact Hm. destruct (uncompress_opt Z o); cbn [obind]; [apply IH|reflexivity..].
Qed.

(** ** What a layer keeps *)
Record stocked (s : msl) : Prop := {
  sk_kept : forall b, ack_msg_recv_too_early s = Some b -> roomy T b;
  sk_stack : Forall (roomy T) (tmp_stack_user_msgs s)
}.

Lemma stocked_same s s1 : stocked s ->
  ack_msg_recv_too_early s1 = ack_msg_recv_too_early s -> tmp_stack_user_msgs s1 = tmp_stack_user_msgs s -> stocked s1.
Proof. intros [A B] E1 E2. split; rewrite ?E1, ?E2; assumption. Qed.

Lemma roomy_le a b : roomy T b -> len a <= len b -> roomy T a.
Proof. unfold roomy. lia. Qed.

Lemma reader_len sec b chk dd : reader_read C T sec b chk = Ok dd -> len (dd_data dd) <= len b.
Proof.
  unfold reader_read. intros H. apply obind_Ok in H as ((enc, t) & Hd & H).
  apply read_parse_inv in H as (L & th & h & l & ue & _ & _ & _ & _ & _ & ->). cbn.
  apply read_decrypt_inv in Hd as [(_ & -> & _)|(_ & _ & k & _ & ->)]; [reflexivity|].
  unfold seal, len. rewrite app_length, ciphertext_length. lia.
Qed.

Lemma got_small b dd o : roomy T b -> len (dd_data dd) <= len b -> get_message dd = o ->
  forall m, o = Ok (Some m) -> small_msg m.
Proof.
  intros Hb Hl <- m H. unfold get_message in H. apply obind_Ok in H as (x & Hx & H). injection H as <-.
  apply slice_Ok in Hx as (_ & _ & ->).
  assert (small_opt (match firstn (N.to_nat (dd_user_msg_end dd - dd_user_msg_begin dd)) (skipn (N.to_nat (dd_user_msg_begin dd)) (dd_data dd)) with
                     | [] => None | p => Some p end)) as Hs.
  { destruct (firstn _ _) as [|y p] eqn:E; [exact I|]. cbn [small_opt]. apply (roomy_affordable T b); [exact Hb|].
    rewrite <- E. unfold len in *. rewrite firstn_length, skipn_length. lia. }
  unfold message_from_bytes. destruct (firstn _ _) as [|y p]; destruct (dd_headers dd); exact Hs.
Qed.

Lemma inner_stocked chk b s s1 o :
  stocked s -> roomy T b -> read_inner C T chk b s = (s1, o) ->
  stocked s1 /\ forall m, o = Ok (Some m) -> small_msg m.
Proof.
  intros Hs Hb E. unfold read_inner in E. destruct (reader_read C T _ b chk) as [dd|e|p] eqn:Er.
  2, 3: injection E as <- <-; split; [apply (stocked_same s); [exact Hs|reflexivity..]|discriminate].
  pose proof (reader_len _ _ _ _ Er) as Hl. pose proof (got_small b dd _ Hb Hl eq_refl) as Hg.
  destruct (dd_headers dd) as [epk al pk|ch|n].
  - unfold read_connect, compute_shared_secret in E.
    repeat match type of E with context [match ?x with _ => _ end] =>
      match x with context [match _ with _ => _ end] => fail 1 | _ => destruct x end end;
      injection E as <- <-; (split; [apply (stocked_same s); [exact Hs|reflexivity..]|]);
      first [discriminate|exact Hg].
  - unfold read_ack in E.
    repeat match type of E with context [match ?x with _ => _ end] =>
      match x with context [match _ with _ => _ end] => fail 1 | _ => destruct x end end;
      injection E as <- <-; (split; [|first [discriminate|exact Hg]]);
      try (apply (stocked_same s); [exact Hs|reflexivity..]).
    destruct Hs as [A B]. split; cbn; [intros b' [= <-]; exact Hb|exact B].
  - unfold read_user in E.
    destruct (_ || _); [injection E as <- <-; split; [exact Hs|discriminate]|].
    destruct (apply_action (msl_status s) (Receive TUserMsg)) as [st [[[]|]|e|p]].
    + injection E as <- <-. split; [|discriminate]. destruct Hs as [A B]. split; cbn; [exact A|].
      apply Forall_app. split; [exact B|]. constructor; [exact (roomy_le _ _ Hb Hl)|constructor].
    + destruct (do data_hashed <- _; _) as [[|]|e|p].
      2-4: injection E as <- <-; split; [apply (stocked_same s); [exact Hs|reflexivity..]|discriminate].
      destruct (update_window T n (set_status st s)) as [s2 o2] eqn:Eu.
      assert (stocked s2) as H2.
      { unfold update_window in Eu.
        repeat match type of Eu with context [match ?x with _ => _ end] =>
          match x with context [match _ with _ => _ end] => fail 1 | _ => destruct x end end;
          injection Eu as <- <-; (apply (stocked_same s); [exact Hs|reflexivity..]). }
      destruct o2; injection E as <- <-; (split; [exact H2|]); first [discriminate|exact Hg].
    + injection E as <- <-. split; [apply (stocked_same s); [exact Hs|reflexivity..]|discriminate].
    + injection E as <- <-. split; [apply (stocked_same s); [exact Hs|reflexivity..]|discriminate].
Qed.

Lemma loop_stocked bs : forall acc s s1 o,
  stocked s -> Forall (roomy T) bs -> Forall small_msg acc -> drain_loop C T bs acc s = (s1, o) ->
  stocked s1 /\ forall l, o = Ok l -> Forall small_msg l.
Proof.
  induction bs as [|b bs IH]; intros acc s s1 o Hs Hb Ha E; cbn [drain_loop] in E.
  - injection E as <- <-. split; [exact Hs|]. intros l [= <-]. exact Ha.
  - inversion Hb as [|? ? Hb1 Hb2]; subst. destruct (read_inner C T false b s) as [s2 o2] eqn:E2.
    destruct (inner_stocked false b s s2 o2 Hs Hb1 E2) as [H2 Hm].
    destruct o2 as [[m|]|e|p].
    + apply (IH _ _ _ _ H2 Hb2) in E; [exact E|]. apply Forall_app. split; [exact Ha|].
      constructor; [exact (Hm m eq_refl)|constructor].
    + apply (IH _ _ _ _ H2 Hb2 Ha E).
    + injection E as <- <-. split; [exact H2|discriminate].
    + injection E as <- <-. split; [exact H2|discriminate].
Qed.

Lemma drain_stocked s s1 o :
  stocked s -> drain_tmp_stack_user_msgs C T s = (s1, o) -> stocked s1 /\ forall l, o = Ok l -> Forall small_msg l.
Proof.
  intros [A B] E. unfold drain_tmp_stack_user_msgs in E. eapply loop_stocked; [| |constructor|exact E].
  - split; cbn; [exact A|constructor].
  - exact B.
Qed.

Lemma take_stocked s s1 o :
  stocked s -> take_ack_msg_recv_too_early C T s = (s1, o) -> stocked s1 /\ forall m, o = Ok (Some m) -> small_msg m.
Proof.
  intros Hs E. unfold take_ack_msg_recv_too_early in E. destruct (ack_msg_recv_too_early s) as [b|] eqn:Eb.
  2: { injection E as <- <-. split; [exact Hs|discriminate]. }
  apply (inner_stocked true b (set_ack_early None s)); [|exact (sk_kept s Hs b Eb)|exact E].
  destruct Hs as [A B]. split; cbn; [discriminate|exact B].
Qed.

(** ** One call *)
Lemma bin_hint d s s1 o :
  stocked (minimal s) -> roomy T d -> read_bin C Z T d s = (s1, o) ->
  read_bin_hint C Z T d s = (s1, o) /\ stocked (minimal s1).
Proof.
  intros Hs Hd E. unfold read_bin, read_bin_hint in *. destruct (read C T d (minimal s)) as [m o1] eqn:E1.
  destruct (inner_stocked true d (minimal s) m o1 Hs Hd E1) as [H1 Hm].
  destruct o1 as [[[al pk cd|cd|cd]|]|e|p].
  - rewrite hint_opt by exact (Hm _ eq_refl).
    destruct (uncompress_opt Z cd) as [x|e|p]; [|injection E as <- <-; (split; [reflexivity|exact H1])..].
    destruct (take_ack_msg_recv_too_early C T m) as [m2 o2] eqn:E2.
    destruct (take_stocked m m2 o2 H1 E2) as [H2 Hm2].
    destruct o2 as [[[al2 pk2 cd2|cd2|cd2]|]|e|p]; injection E as <- <-; (split; [|exact H2]); try reflexivity.
    rewrite hint_opt by exact (Hm2 _ eq_refl). reflexivity.
  - rewrite hint_opt by exact (Hm _ eq_refl).
    destruct (uncompress_opt Z cd) as [x|e|p]; [|injection E as <- <-; (split; [reflexivity|exact H1])..].
    destruct (drain_tmp_stack_user_msgs C T m) as [m2 o2] eqn:E2.
    destruct (drain_stocked m m2 o2 H1 E2) as [H2 Hm2].
    destruct o2 as [l|e|p]; injection E as <- <-; (split; [|exact H2]); try reflexivity.
    rewrite hint_msgs by exact (Hm2 l eq_refl). reflexivity.
  - rewrite hint_opt by exact (Hm _ eq_refl). injection E as <- <-. split; [reflexivity|exact H1].
  - injection E as <- <-. split; [reflexivity|exact H1].
  - injection E as <- <-. split; [reflexivity|exact H1].
  - injection E as <- <-. split; [reflexivity|exact H1].
Qed.

Lemma wconnect_stocked x s w s1 w1 o :
  stocked (minimal s) -> writer_write_connect_msg C x s w = (s1, w1, o) -> stocked (minimal s1).
Proof.
  intros Hs E. unfold writer_write_connect_msg, create_connect_message in E.
  repeat match type of E with context [match ?x with _ => _ end] =>
    match x with context [match _ with _ => _ end] => fail 1 | _ => destruct x end end;
    injection E as <- _ _; (apply (stocked_same (minimal s)); [exact Hs|reflexivity..]).
Qed.
Lemma wack_stocked x s w s1 w1 o :
  stocked (minimal s) -> writer_write_ack_msg C x s w = (s1, w1, o) -> stocked (minimal s1).
Proof.
  intros Hs E. unfold writer_write_ack_msg, create_ack_message in E.
  repeat match type of E with context [match ?x with _ => _ end] =>
    match x with context [match _ with _ => _ end] => fail 1 | _ => destruct x end end;
    injection E as <- _ _; (apply (stocked_same (minimal s)); [exact Hs|reflexivity..]).
Qed.
Lemma wbin_stocked x s w s1 w1 o :
  stocked (minimal s) -> writer_write_bin_message C T x s w = (s1, w1, o) -> stocked (minimal s1).
Proof.
  intros Hs E. unfold writer_write_bin_message, write_message in E.
  repeat match type of E with context [match ?x with _ => _ end] =>
    match x with context [match _ with _ => _ end] => fail 1 | _ => destruct x end end;
    injection E as <- _ _; (apply (stocked_same (minimal s)); [exact Hs|reflexivity..]).
Qed.

Context (F : features) {M : Type} (K : Codec M).

Lemma step_hint s (c : tcall M) s1 r :
  stocked (minimal s) -> roomy_call T c -> tcall_step C Z T F K s c = (s1, r) ->
  hcall_step C Z T F K s c = (s1, r) /\ stocked (minimal s1).
Proof.
  intros Hs Hc E. destruct c as [d|cd w|cd w|m w|[d|cd w|cd w|data w| |cfg]]; cbn [hcall_step tcall_step scall_step] in *.
  - unfold sl_read_hint, sl_read in *. destruct (read_bin C Z T d s) as [s2 o] eqn:E2.
    destruct (bin_hint d s s2 o Hs Hc E2) as [-> H2].
    split; [exact E|]. destruct o; injection E as <- _; exact H2.
  - split; [exact E|]. unfold sl_write_connect_msg in E. destruct (serialize_compress_opt Z K cd s) as [x|e|p].
    2, 3: injection E as <- _; exact Hs.
    destruct (writer_write_connect_msg C x s w) as [[s2 w2] o] eqn:E2. injection E as <- _.
    eapply wconnect_stocked; [exact Hs|exact E2].
  - split; [exact E|]. unfold sl_write_ack_msg in E. destruct (serialize_compress_opt Z K cd s) as [x|e|p].
    2, 3: injection E as <- _; exact Hs.
    destruct (writer_write_ack_msg C x s w) as [[s2 w2] o] eqn:E2. injection E as <- _.
    eapply wack_stocked; [exact Hs|exact E2].
  - split; [exact E|]. unfold sl_write in E. destruct (serialize K m _) as [x|e|p].
    2, 3: injection E as <- _; exact Hs.
    destruct (writer_write_bin_message C T _ s w) as [[s2 w2] o] eqn:E2. injection E as <- _.
    eapply wbin_stocked; [exact Hs|exact E2].
  - destruct (read_bin C Z T d s) as [s2 o] eqn:E2. destruct (bin_hint d s s2 o Hs Hc E2) as [-> H2].
    split; [exact E|]. injection E as <- _. exact H2.
  - split; [exact E|]. unfold write_connect_msg_bin in E.
    destruct (writer_write_connect_msg C _ s w) as [[s2 w2] o] eqn:E2. injection E as <- _.
    eapply wconnect_stocked; [exact Hs|exact E2].
  - split; [exact E|]. unfold write_ack_msg_bin in E.
    destruct (writer_write_ack_msg C _ s w) as [[s2 w2] o] eqn:E2. injection E as <- _.
    eapply wack_stocked; [exact Hs|exact E2].
  - split; [exact E|]. unfold write_bin in E.
    destruct (writer_write_bin_message C T _ s w) as [[s2 w2] o] eqn:E2. injection E as <- _.
    eapply wbin_stocked; [exact Hs|exact E2].
  - split; [exact E|]. unfold sl_try_clone, try_clone in E.
    destruct (msl_status (minimal s)); injection E as <- _; (apply (stocked_same (minimal s)); [exact Hs|reflexivity..]).
  - split; [exact E|]. unfold sl_change_config, change_config in E.
    destruct (negb _); injection E as <- _; (apply (stocked_same (minimal s)); [exact Hs|reflexivity..]).
Qed.

(** ** Histories *)
Lemma run_hint cs : forall s,
  stocked (minimal s) -> Forall (roomy_call T) cs ->
  hrun C Z T F K s cs = trun C Z T F K s cs /\ stocked (minimal (fst (trun C Z T F K s cs))).
Proof.
  induction cs as [|c cs IH]; intros s Hs Hc; cbn [hrun trun]; [split; [reflexivity|exact Hs]|].
  inversion Hc as [|? ? H1 H2]; subst. destruct (tcall_step C Z T F K s c) as [s1 r] eqn:E.
  destruct (step_hint s c s1 r Hs H1 E) as [-> Hs1]. destruct (IH s1 Hs1 H2) as [-> Hs2].
  destruct (trun C Z T F K s1 cs) as [s2 h]. split; [reflexivity|exact Hs2].
Qed.

Lemma created_stocked r rs cfg given pin s : sl_create C r rs cfg given pin = Ok s -> stocked (minimal s).
Proof.
  intros E. unfold sl_create in E. apply obind_Ok in E as (seed & _ & E). apply obind_Ok in E as (m & Ec & E).
  injection E as <-. unfold create in Ec. apply obind_Ok in Ec as (kp & _ & Ec). injection Ec as <-.
  split; cbn; [discriminate|constructor].
Qed.

Lemma clone_stocked s c : stocked (minimal s) -> snd (sl_try_clone s) = Ok c -> stocked (minimal c).
Proof.
  intros [A B] E. unfold sl_try_clone, try_clone in E. destruct (msl_status (minimal s)); try discriminate E.
  cbn [snd] in E. injection E as <-. split; cbn; [discriminate|exact B].
Qed.

Lemma roomy_life_facts s : roomy_life C Z T F K s -> stocked (minimal s) /\ sreachable C Z T s.
Proof.
  induction 1 as [r rs cfg given pin s E|s c H [IH1 IH2] Hc|s c H [IH1 IH2] E].
  - split; [eapply created_stocked; exact E|eapply sreach_create; exact E].
  - destruct (tcall_step C Z T F K s c) as [s1 r] eqn:E1. destruct (step_hint s c s1 r IH1 Hc E1) as [-> H1].
    split; [exact H1|]. cbn [fst].
    destruct (typed_reachable C Z T F K s IH2) as (R1 & R2 & R3 & R4).
    destruct c as [d|cd w|cd w|m w|c]; cbn [tcall_step] in E1.
    + specialize (R1 d). destruct (sl_read C Z T F K d s). injection E1 as <- _. exact R1.
    + specialize (R2 cd w). destruct (sl_write_connect_msg C Z K cd s w) as [[]]. injection E1 as <- _. exact R2.
    + specialize (R3 cd w). destruct (sl_write_ack_msg C Z K cd s w) as [[]]. injection E1 as <- _. exact R3.
    + specialize (R4 m w). destruct (sl_write C Z T K m s w) as [[]]. injection E1 as <- _. exact R4.
    + pose proof (sreach_step C Z T s c IH2) as R. destruct (scall_step C Z T s c). injection E1 as <- _. exact R.
  - split; [eapply clone_stocked; eassumption|eapply sreach_clone; eassumption].
Qed.

Theorem hint_harmless s cs :
  roomy_life C Z T F K s -> Forall (roomy_call T) cs ->
  sreachable C Z T s /\ hrun C Z T F K s cs = trun C Z T F K s cs.
Proof. intros H Hc. destruct (roomy_life_facts s H) as [Hs Hr]. split; [exact Hr|apply run_hint; assumption]. Qed.

(** ** Payloads that are too large *)
Theorem oversized (HL : CryptoLaws C) s k d n data :
  sreachable C Z T s -> sestablished s -> session_key (minimal s) = Some k ->
  opens C T k d n data -> ~ affordable T (len data) -> window_room (minimal s) n ->
  next_nonce_expected (minimal s) + len (orphan_nonce_list (minimal s)) + 1 < 2 ^ 64 ->
  exists s' p, (p = POverflow \/ p = PCapacity) /\
    hcall_step C Z T F K s (VBin (SRead d)) = (s', TOther (SMsgs (Panic p))) /\
    hcall_step C Z T F K s (VRead d) = (s', TMsgs (Panic p)) /\
    sestablished s' /\
    hcall_step C Z T F K s' (VBin (SRead d)) = (s', TOther (SMsgs (Err (RecvInvalidMsg InvalidNonce)))).
Proof.
  intros Hs He Hk Hop Hn Hroom Hu. apply sestablished_iff in He.
  pose proof (inv_reachable C T _ (sreachable_minimal C Z T s Hs)) as HI.
  destruct (read_user_fwd C T HL _ k d n data HI He Hk Hop Hroom Hu) as (v & l & E & HI' & _ & Hrv).
  destruct (hint_panics data Hn) as (p & Ep & Hp).
  exists (set_minimal (set_window v l (minimal s)) s), p. split; [exact Hp|].
  assert (uncompress_opt_hint Z T (nonempty data) = Panic p) as Ex.
  { destruct data as [|b data].
    - exfalso. apply Hn, (roomy_affordable T []); [|reflexivity].
      unfold roomy. change (5 * len []) with 0. apply N.neq_0_lt_0, N.pow_nonzero. lia.
    - cbn [nonempty uncompress_opt_hint]. rewrite Ep. reflexivity. }
  assert (read_bin_hint C Z T d s = (set_minimal (set_window v l (minimal s)) s, Panic p)) as Eb.
  { unfold read_bin_hint. rewrite E, Ex. reflexivity. }
  split; [cbn [hcall_step]; rewrite Eb; reflexivity|].
  split; [cbn [hcall_step]; unfold sl_read_hint; rewrite Eb; reflexivity|]. split.
  - apply sestablished_iff, established_iff. apply established_iff in He. exact He.
  - cbn [hcall_step]. unfold read_bin_hint. cbn [minimal set_minimal].
    rewrite (read_received C T HL _ k d n data HI' Hk Hop); [reflexivity|]. apply Hrv. right. reflexivity.
Qed.

(** Payloads for which there is room are inflated, however large. *)
Theorem affordable_message (HL : CryptoLaws C) s k d n data :
  sreachable C Z T s -> sestablished s -> session_key (minimal s) = Some k ->
  opens C T k d n data -> affordable T (len data) -> window_room (minimal s) n ->
  next_nonce_expected (minimal s) + len (orphan_nonce_list (minimal s)) + 1 < 2 ^ 64 ->
  hcall_step C Z T F K s (VBin (SRead d)) = tcall_step C Z T F K s (VBin (SRead d)) /\
  hcall_step C Z T F K s (VRead d) = tcall_step C Z T F K s (VRead d).
Proof.
  intros Hs He Hk Hop Hn Hroom Hu. apply sestablished_iff in He.
  pose proof (inv_reachable C T _ (sreachable_minimal C Z T s Hs)) as HI.
  destruct (read_user_fwd C T HL _ k d n data HI He Hk Hop Hroom Hu) as (v & l & E & _).
  assert (read_bin_hint C Z T d s = read_bin C Z T d s) as Eb.
  { unfold read_bin_hint, read_bin. rewrite E, hint_opt; [reflexivity|]. destruct data; [exact I|exact Hn]. }
  split; cbn [hcall_step tcall_step scall_step]; unfold sl_read_hint, sl_read; rewrite Eb; [|reflexivity].
  destruct (read_bin C Z T d s). reflexivity.
Qed.

(** Without the hint there is no panic. *)
Lemma plain_no_panic (HL : CryptoLaws C) s k d n data :
  sreachable C Z T s -> sestablished s -> session_key (minimal s) = Some k ->
  opens C T k d n data -> window_room (minimal s) n ->
  next_nonce_expected (minimal s) + len (orphan_nonce_list (minimal s)) + 1 < 2 ^ 64 ->
  forall p, snd (tcall_step C Z T F K s (VBin (SRead d))) <> TOther (SMsgs (Panic p)).
Proof.
  intros Hs He Hk Hop Hroom Hu p. apply sestablished_iff in He.
  pose proof (inv_reachable C T _ (sreachable_minimal C Z T s Hs)) as HI.
  destruct (read_user_fwd C T HL _ k d n data HI He Hk Hop Hroom Hu) as (v & l & E & _).
  cbn [tcall_step scall_step]. unfold read_bin. rewrite E. cbn [snd].
  destruct data as [|b data]; cbn [nonempty uncompress_opt obind]; [discriminate|].
  unfold uncompress. destruct (inflate Z (b :: data)); discriminate.
Qed.

End WithEnv.

(** ** All builds *)
Section Builds.
Context (C : Crypto) (Z : Zip) (F : features) {M : Type} (K : Codec M).

Lemma modest_roomy T T' s cs : modest_treads C Z T F K s cs -> Forall (@roomy_call T' M) cs.
Proof.
  intros H. apply Forall_forall. intros c Hc. apply in_split in Hc as (cs1 & cs2 & ->).
  assert (2 ^ 31 <= 2 ^ (usize_bits T' - 1)) as Hb.
  { unfold usize_bits. destruct (usize_width T'); apply N.pow_le_mono_r; lia. }
  destruct c as [d|cd w|cd w|m w|[d|cd w|cd w|data w| |cfg]]; try exact I; cbn [roomy_call]; unfold roomy.
  - destruct (H cs1 (VRead d) d cs2 eq_refl (or_introl eq_refl)) as [_ Hl]. lia.
  - destruct (H cs1 (VBin (SRead d)) d cs2 eq_refl (or_intror eq_refl)) as [_ Hl]. lia.
Qed.

Lemma hrun_life T cs : forall s, roomy_life C Z T F K s -> Forall (roomy_call T) cs ->
  roomy_life C Z T F K (fst (hrun C Z T F K s cs)).
Proof.
  induction cs as [|c cs IH]; intros s Hs Hc; cbn [hrun]; [exact Hs|].
  inversion Hc as [|? ? H1 H2]; subst. pose proof (rl_step C Z T F K s c Hs H1) as Hs1.
  destruct (hcall_step C Z T F K s c) as [s1 r]. specialize (IH s1 Hs1 H2).
  destruct (hrun C Z T F K s1 cs) as [s2 h]. exact IH.
Qed.

Lemma modest_roomy_life T s k : modest_slife C Z T F K s k -> roomy_life C Z T F K s.
Proof.
  induction 1 as [r rs cfg given pin s E|s k cs H IH Hm|s k c H IH E].
  - eapply rl_create. exact E.
  - pose proof (modest_roomy T T s cs Hm) as Hc.
    destruct (hint_harmless C Z T F K s cs IH Hc) as [_ <-]. apply hrun_life; assumption.
  - eapply rl_clone; eassumption.
Qed.

Theorem hint_builds_agree T T' s k cs :
  modest_slife C Z T F K s k -> 2 * (k + len cs) < 2 ^ 64 -> modest_treads C Z T F K s cs ->
  fst (hrun C Z T F K s cs) = fst (hrun C Z T' F K s cs) /\
  Forall2 tagree (map snd (snd (hrun C Z T F K s cs))) (map snd (snd (hrun C Z T' F K s cs))).
Proof.
  intros H Hk Hm.
  destruct (hint_harmless C Z T F K s cs (modest_roomy_life T s k H) (modest_roomy T T s cs Hm)) as [_ ->].
  assert (modest_slife C Z T' F K s k) as H' by (apply (slife_elsewhere C Z T T' F K s k H); lia).
  destruct (hint_harmless C Z T' F K s cs (modest_roomy_life T' s k H') (modest_roomy T T' s cs Hm)) as [_ ->].
  exact (complete_builds_agree C Z T T' F K s k cs H Hk Hm).
Qed.

End Builds.

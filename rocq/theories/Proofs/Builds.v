(** C74: all builds behave alike on modest datagrams. *)

From Coq Require Import Arith ZifyBool ZifyNat ZifyN.
From Verif.Model Require Import Serde.
From Verif.Spec Require Import Wire Datagram Trace ReadSpec Accept Session Writers Attacks CompleteTrace Typed TypedTrace Builds.
From Verif.Proofs Require Import BaseFacts IoFacts CipherFacts ReaderFacts ReadCases WindowFacts UserReads.

(** ** The parts that depend on the build *)
Lemma bits_big T : 2 ^ 32 <= 2 ^ usize_bits T.
Proof. unfold usize_bits. destruct (usize_width T); apply N.pow_le_mono_r; lia. Qed.

Lemma end_modest T L : 16 + L < 2 ^ 32 -> usize_add T 16 (u64_as_usize T L) = Ok (16 + L).
Proof.
  intros H. pose proof (bits_big T). unfold usize_add, u64_as_usize. rewrite N.mod_small by lia.
  destruct (N.ltb_spec (16 + L) (2 ^ usize_bits T)); [reflexivity|lia].
Qed.

Lemma parse_modest T T' chk enc d : modest_text d -> read_parse T chk enc d = read_parse T' chk enc d.
Proof.
  intros Hm. unfold read_parse. destruct (slice_to d MAGIC_VALUE_END) as [mg|e|p] eqn:E1; cbn [obind]; [|reflexivity..].
  destruct (bytes_eqb mg MAGIC_VALUE) eqn:E2; cbn [negb]; [|reflexivity].
  destruct (slice d MAGIC_VALUE_END VERSION_END) as [v|e|p] eqn:E3; cbn [obind]; [|reflexivity..].
  destruct (bytes_eqb v CURRENT_VERSION) eqn:E4; cbn [negb]; [|reflexivity].
  destruct (slice d VERSION_END ENCAPSULED_MSG_BEGIN) as [sz|e|p] eqn:E5; cbn [obind]; [|reflexivity..].
  assert (16 + be_decode sz < 2 ^ 32) as HL; [|unfold ENCAPSULED_MSG_BEGIN; rewrite !end_modest by exact HL; reflexivity].
  apply bytes_eqb_eq in E2. apply bytes_eqb_eq in E4.
  assert (forall a b : bytes, Ok a = Ok b -> a = b) as Hok by congruence.
  unfold slice_to in E1. unfold slice in E3, E5.
  destruct (MAGIC_VALUE_END <=? len d); [|discriminate E1]. apply Hok in E1.
  destruct ((_ <=? _) && (_ <=? len d)); [|discriminate E3]. apply Hok in E3.
  destruct ((_ <=? _) && (ENCAPSULED_MSG_BEGIN <=? len d)) eqn:Hl; [|discriminate E5]. apply Hok in E5.
  apply andb_true_iff in Hl as [_ Hl]. apply N.leb_le in Hl.
  change (N.to_nat MAGIC_VALUE_END) with 4%nat in E1, E3. change (N.to_nat (VERSION_END - MAGIC_VALUE_END)) with 4%nat in E3.
  change (N.to_nat VERSION_END) with 8%nat in E5. change (N.to_nat (ENCAPSULED_MSG_BEGIN - VERSION_END)) with 8%nat in E5.
  change ENCAPSULED_MSG_BEGIN with 16 in Hl.
  assert (length sz = 8%nat) as Hz.
  { rewrite <- E5, firstn_length, skipn_length. unfold len in Hl. lia. }
  apply (Hm (be_decode sz) (skipn 16 d)).
  - pose proof (be_decode_lt sz) as Hb. unfold len in Hb. rewrite Hz in Hb. exact Hb.
  - rewrite u64_be_decode by exact Hz. change magic with MAGIC_VALUE. change version with CURRENT_VERSION.
    rewrite <- E2, <- E4, <- E1, <- E3, <- E5.
    rewrite <- (firstn_skipn 4 d) at 1. f_equal. rewrite <- (firstn_skipn 4 (skipn 4 d)) at 1. f_equal.
    rewrite skipn_skipn. change (4 + 4)%nat with 8%nat. rewrite <- (firstn_skipn 8 (skipn 8 d)) at 1. f_equal.
    rewrite skipn_skipn. reflexivity.
Qed.

Lemma parsed_clear T chk enc d dd : read_parse T chk enc d = Ok dd ->
  dd_data dd = d /\ (exists r, d = magic ++ r) /\
  (chk = true -> enc = must_be_encrypted (dd_headers dd)).
Proof.
  intros H. apply read_parse_inv in H as (L & th & h & l & ue & _ & E & _ & _ & Hc & ->). cbn.
  split; [reflexivity|]. split; [eexists; exact E|exact Hc].
Qed.

Lemma absorb_small T T' fuel : forall next orphans,
  NoDup orphans -> next + len orphans < 2 ^ 64 ->
  absorb_orphans T fuel next orphans = absorb_orphans T' fuel next orphans.
Proof.
  induction fuel as [|fuel IH]; intros next orphans Hd Hs; cbn [absorb_orphans]; [reflexivity|].
  destruct (set_contains next orphans) eqn:Ec; [|reflexivity].
  apply set_contains_In in Ec. pose proof (set_remove_len next orphans Hd Ec).
  rewrite !u64_incr_small by lia. apply IH; [apply set_remove_NoDup, Hd|lia].
Qed.

Lemma window_small T T' n s :
  NoDup (orphan_nonce_list s) -> next_nonce_expected s + len (orphan_nonce_list s) + 1 < 2 ^ 64 ->
  update_window T n s = update_window T' n s.
Proof.
  intros Hd Hs. unfold update_window. destruct (n =? next_nonce_expected s); [|reflexivity].
  rewrite !u64_incr_small by lia. rewrite (absorb_small T T') by (try assumption; lia). reflexivity.
Qed.

(** ** What a layer keeps *)
Definition light (b : bytes) : Prop := (exists r, b = magic ++ r) /\ modest_text b.
Definition load (s : msl) : N :=
  next_nonce_expected s + len (orphan_nonce_list s) + len (tmp_stack_user_msgs s).
Record calm (s : msl) : Prop := {
  cm_kept : forall b, ack_msg_recv_too_early s = Some b -> light b;
  cm_stack : Forall light (tmp_stack_user_msgs s);
  cm_orphans : NoDup (orphan_nonce_list s)
}.

Lemma light_modest C key b : light b -> modest C key b.
Proof. intros [[r ->] H]. split; [exact H|]. intros Hn. exfalso. exact (Hn r eq_refl). Qed.

Section WithEnv.
Context (C : Crypto) (T T' : target).

Lemma decrypt_alike sec b :
  read_decrypt C T sec b = read_decrypt C T' sec b \/
  (exists p p', read_decrypt C T sec b = Panic p /\ read_decrypt C T' sec b = Panic p') /\ ~ (exists r, b = magic ++ r).
Proof.
  destruct (read_decrypt C T sec b) as [x|e|p] eqn:E; unfold read_decrypt in *;
    destruct (slice_to b MAGIC_VALUE_END) as [mg|e'|p'] eqn:E1; cbn [obind] in *; try (left; congruence);
    destruct (bytes_eqb mg MAGIC_VALUE) eqn:E2; try (left; congruence);
    destruct sec as [[k]|]; try (left; congruence);
    cbn [decrypt] in *; unfold chacha_decrypt in *;
    destruct (len b <? CHACHA20_TAG_SIZE) eqn:E3; cbn [obind] in *; try discriminate; try (left; congruence).
  right. split; [eauto|]. intros [r ->].
  rewrite slice_to_app in E1 by reflexivity. injection E1 as <-. discriminate E2.
Qed.

Lemma reader_alike s chk b : modest C (session_key s) b ->
  reader_read C T (encrypt_algo_with_secret s) b chk = reader_read C T' (encrypt_algo_with_secret s) b chk \/
  (exists p p', reader_read C T (encrypt_algo_with_secret s) b chk = Panic p /\
                reader_read C T' (encrypt_algo_with_secret s) b chk = Panic p') /\ ~ light b.
Proof.
  intros [Hm1 Hm2]. unfold reader_read.
  destruct (decrypt_alike (encrypt_algo_with_secret s) b) as [E|[(p & p' & E & E') Hn]].
  - left. rewrite <- E. destruct (read_decrypt C T _ b) as [[enc t]|e|p] eqn:Ed; cbn [obind]; [|reflexivity..].
    apply parse_modest. apply read_decrypt_inv in Ed as [(_ & -> & _)|(_ & Hn & k & Hk & Hd)]; [exact Hm1|].
    apply (Hm2 Hn k t); [|exact Hd]. unfold session_key. rewrite Hk. reflexivity.
  - right. rewrite E, E'. cbn [obind]. split; [eauto|]. intros [H _]. contradiction.
Qed.

Lemma reader_light s chk b dd : modest C (session_key s) b ->
  reader_read C T (encrypt_algo_with_secret s) b chk = Ok dd ->
  light (dd_data dd) /\
  (chk = true \/ light b -> forall ch, dd_headers dd = HAck ch -> light b).
Proof.
  intros [Hm1 Hm2]. unfold reader_read.
  destruct (read_decrypt C T _ b) as [[enc t]|e|p] eqn:Ed; cbn [obind]; try discriminate.
  intros H. apply parsed_clear in H as (-> & Hc & He).
  apply read_decrypt_inv in Ed as [(-> & -> & _)|(-> & Hn & k & Hk & Hd)].
  - assert (light b) as Hb by (split; assumption). split; [exact Hb|]. intros _ _ _. exact Hb.
  - split.
    + split; [exact Hc|]. apply (Hm2 Hn k t); [|exact Hd]. unfold session_key. rewrite Hk. reflexivity.
    + intros [Hk'|Hk'] ch Hh; [|exact Hk']. specialize (He Hk'). rewrite Hh in He. discriminate He.
Qed.

Lemma window_load n s s' o :
  update_window T n s = (s', o) -> NoDup (orphan_nonce_list s) ->
  next_nonce_expected s + len (orphan_nonce_list s) + 1 < 2 ^ 64 ->
  load s' <= load s + 1 /\ NoDup (orphan_nonce_list s') /\
  ack_msg_recv_too_early s' = ack_msg_recv_too_early s /\ tmp_stack_user_msgs s' = tmp_stack_user_msgs s /\
  next_nonce_sent s' = next_nonce_sent s.
Proof.
  intros E Hd Hg. unfold update_window in E. destruct (N.eqb_spec n (next_nonce_expected s)) as [->|Hne].
  - rewrite u64_incr_small in E by lia.
    destruct (absorb_orphans T _ _ _) as [[v1 l1] p] eqn:Ea.
    pose proof (absorb_orphans_seen T _ _ _ _ _ _ Ea Hd ltac:(lia)) as (-> & B & D).
    injection E as <- <-. unfold load. cbn. split; [lia|]. split; [|repeat split].
    clear - Ea Hd. revert Ea Hd. generalize (next_nonce_expected s + 1). generalize (orphan_nonce_list s).
    intros l v Ea Hd. revert Ea. generalize (length l). intros f. revert v l Hd.
    induction f as [|f IH]; intros v l Hd Ea; cbn [absorb_orphans] in Ea; [congruence|].
    destruct (set_contains v l); [|congruence].
    destruct (u64_incr T v) as [v'|e|q]; [|injection Ea as _ <-; apply set_remove_NoDup, Hd|discriminate Ea].
    eapply IH; [apply set_remove_NoDup, Hd|exact Ea].
  - destruct (N.leb_spec MAX_ORPHAN_NONCES (len (orphan_nonce_list s))); injection E as <- <-.
    + unfold load. cbn. split; [lia|]. repeat split. exact Hd.
    + unfold load. cbn. unfold set_insert. destruct (set_contains n (orphan_nonce_list s)) eqn:Ec.
      * split; [lia|]. split; [exact Hd|]. repeat split.
      * rewrite len_cons. split; [lia|]. split; [|repeat split].
        constructor; [apply set_contains_nIn, Ec|exact Hd].
Qed.

Record kin (s s1 : msl) : Prop := {
  kn_calm : calm s1;
  kn_load : load s1 <= load s + 1;
  kn_sent : next_nonce_sent s1 = next_nonce_sent s
}.

Lemma kin_same s s1 : calm s ->
  ack_msg_recv_too_early s1 = ack_msg_recv_too_early s -> tmp_stack_user_msgs s1 = tmp_stack_user_msgs s ->
  orphan_nonce_list s1 = orphan_nonce_list s -> next_nonce_expected s1 = next_nonce_expected s ->
  next_nonce_sent s1 = next_nonce_sent s -> kin s s1.
Proof.
  intros [A B D] E1 E2 E3 E4 E5. split; [split; rewrite ?E1, ?E2, ?E3; assumption| |exact E5].
  unfold load. rewrite E2, E3, E4. lia.
Qed.

Lemma connect_kin d epk pk s : calm s -> kin s (fst (read_connect C d epk pk s)).
Proof.
  intros H. unfold read_connect, compute_shared_secret.
  repeat match goal with
         | |- context [match ?x with _ => _ end] =>
             match x with context [match _ with _ => _ end] => fail 1 | _ => destruct x end
         end; cbn; apply kin_same; try exact H; reflexivity.
Qed.

Lemma ack_kin b d ch s : calm s -> light b -> kin s (fst (read_ack C b d ch s)).
Proof.
  intros H Hb. unfold read_ack.
  repeat match goal with
         | |- context [match ?x with _ => _ end] =>
             match x with context [match _ with _ => _ end] => fail 1 | _ => destruct x end
         end; cbn; try (apply kin_same; [exact H|reflexivity..]).
  destruct H as [A B D]. split; [split; cbn; [intros b' [= <-]; exact Hb|exact B|exact D]|unfold load; cbn; lia|reflexivity].
Qed.

Lemma user_alike d n s : calm s -> light (dd_data d) -> load s + 1 < 2 ^ 64 ->
  read_user C T d n s = read_user C T' d n s /\ kin s (fst (read_user C T d n s)).
Proof.
  intros H Hb Hl. unfold read_user.
  destruct (_ || _); [split; [reflexivity|apply kin_same; [exact H|reflexivity..]]|].
  destruct (apply_action (msl_status s) (Receive TUserMsg)) as [st r].
  destruct r as [[[]|]|e|p]; try (split; [reflexivity|apply kin_same; [exact H|reflexivity..]]).
  - split; [reflexivity|]. destruct H as [A B D]. split; [split; cbn; [exact A| |exact D]| |reflexivity].
    + apply Forall_app. split; [exact B|constructor; [exact Hb|constructor]].
    + unfold load. cbn. rewrite len_app. change (len [dd_data d]) with 1. lia.
  - destruct (do data_hashed <- _; _) as [[|]|e|p]; try (split; [reflexivity|apply kin_same; [exact H|reflexivity..]]).
    rewrite (window_small T T') by (cbn; first [apply (cm_orphans s H)|unfold load in Hl; lia]).
    split; [reflexivity|]. rewrite <- (window_small T T') by (cbn; first [apply (cm_orphans s H)|unfold load in Hl; lia]).
    destruct (update_window T n (set_status st s)) as [s1 o] eqn:Eu.
    destruct (window_load _ _ _ _ Eu) as (A & B & D & E & G); cbn; [apply (cm_orphans s H)|unfold load in Hl; lia|].
    assert (kin s s1) as Hk.
    { destruct H as [H1 H2 H3]. split; [split; [rewrite D; exact H1|rewrite E; exact H2|exact B]| |exact G].
      etransitivity; [exact A|]. unfold load. cbn. lia. }
    destruct o; cbn [fst]; exact Hk.
Qed.

(** ** One read *)
Lemma inner_alike chk b s s1 o :
  calm s -> load s + 1 < 2 ^ 64 -> modest C (session_key s) b -> chk = true \/ light b ->
  read_inner C T chk b s = (s1, o) ->
  kin s s1 /\
  exists o', read_inner C T' chk b s = (s1, o') /\
    (o' = o \/ (exists p p', o = Panic p /\ o' = Panic p') /\ ~ light b).
Proof.
  intros Hc Hl Hm Hchk E. unfold read_inner in *.
  destruct (reader_alike s chk b Hm) as [Er|[(p & p' & Er & Er') Hn]].
  2: { rewrite Er in E. injection E as <- <-. rewrite Er'. split; [apply kin_same; [exact Hc|reflexivity..]|].
       exists (Panic p'). split; [reflexivity|]. right. split; [eauto|exact Hn]. }
  rewrite <- Er. destruct (reader_read C T _ b chk) as [dd|e|p] eqn:Ed.
  2: { injection E as <- <-. split; [apply kin_same; [exact Hc|reflexivity..]|]. eexists. split; [reflexivity|left; reflexivity]. }
  2: { injection E as <- <-. split; [apply kin_same; [exact Hc|reflexivity..]|]. eexists. split; [reflexivity|left; reflexivity]. }
  destruct (reader_light s chk b dd Hm Ed) as [Hd Hack].
  destruct (dd_headers dd) as [epk al pk|ch|n] eqn:Eh.
  - split; [|exists o; split; [exact E|left; reflexivity]].
    pose proof (connect_kin dd epk pk s Hc) as Hk. rewrite E in Hk. exact Hk.
  - split; [|exists o; split; [exact E|left; reflexivity]].
    pose proof (ack_kin b dd ch s Hc (Hack Hchk ch eq_refl)) as Hk. rewrite E in Hk. exact Hk.
  - destruct (user_alike dd n s Hc Hd Hl) as [E' Hk]. rewrite E in Hk. rewrite <- E', E.
    split; [exact Hk|]. exists o. split; [reflexivity|left; reflexivity].
Qed.

Lemma drain_alike bs : forall acc s s1 o,
  calm s -> Forall light bs -> load s + len bs < 2 ^ 64 ->
  drain_loop C T bs acc s = (s1, o) ->
  drain_loop C T' bs acc s = (s1, o) /\ calm s1 /\ load s1 <= load s + len bs /\ next_nonce_sent s1 = next_nonce_sent s.
Proof.
  induction bs as [|b bs IH]; intros acc s s1 o Hc Hb Hl E; cbn [drain_loop] in *.
  - injection E as <- <-. split; [reflexivity|]. split; [exact Hc|]. split; [unfold len; cbn; lia|reflexivity].
  - rewrite len_cons in Hl. inversion Hb as [|? ? Hb1 Hb2]; subst.
    destruct (read_inner C T false b s) as [s2 o2] eqn:E2.
    destruct (inner_alike false b s s2 o2 Hc ltac:(lia) (light_modest C _ b Hb1) (or_intror Hb1) E2)
      as ([K1 K2 K3] & o' & E2' & [->|[_ Hn]]); [|contradiction].
    rewrite E2'. rewrite len_cons.
    destruct o2 as [[m|]|e|p].
    + destruct (IH _ _ _ _ K1 Hb2 ltac:(lia) E) as (A & B & D & G). split; [exact A|]. split; [exact B|]. split; [lia|congruence].
    + destruct (IH _ _ _ _ K1 Hb2 ltac:(lia) E) as (A & B & D & G). split; [exact A|]. split; [exact B|]. split; [lia|congruence].
    + injection E as <- <-. split; [reflexivity|]. split; [exact K1|]. split; [lia|exact K3].
    + injection E as <- <-. split; [reflexivity|]. split; [exact K1|]. split; [lia|exact K3].
Qed.

Lemma drains_alike s s1 o :
  calm s -> load s < 2 ^ 64 -> drain_tmp_stack_user_msgs C T s = (s1, o) ->
  drain_tmp_stack_user_msgs C T' s = (s1, o) /\ calm s1 /\ load s1 <= load s /\ next_nonce_sent s1 = next_nonce_sent s.
Proof.
  intros Hc Hl E. unfold drain_tmp_stack_user_msgs in *.
  assert (load (set_stack [] s) + len (tmp_stack_user_msgs s) = load s) as Hs.
  { unfold load. cbn [next_nonce_expected orphan_nonce_list tmp_stack_user_msgs set_stack]. change (len (@nil bytes)) with 0. lia. }
  destruct (drain_alike (tmp_stack_user_msgs s) [] (set_stack [] s) s1 o) as (A & B & D & G).
  - destruct Hc as [H1 H2 H3]. split; cbn; [exact H1|constructor|exact H3].
  - apply (cm_stack s Hc).
  - lia.
  - exact E.
  - split; [exact A|]. split; [exact B|]. split; [lia|exact G].
Qed.

Lemma take_alike s s1 o :
  calm s -> load s + 1 < 2 ^ 64 -> take_ack_msg_recv_too_early C T s = (s1, o) ->
  take_ack_msg_recv_too_early C T' s = (s1, o) /\ calm s1 /\ load s1 <= load s + 1 /\
  next_nonce_sent s1 = next_nonce_sent s.
Proof.
  intros Hc Hl E. unfold take_ack_msg_recv_too_early in *.
  destruct (ack_msg_recv_too_early s) as [b|] eqn:Eb.
  2: { injection E as <- <-. split; [reflexivity|]. split; [exact Hc|]. split; [lia|reflexivity]. }
  pose proof (cm_kept s Hc b Eb) as Hb.
  assert (calm (set_ack_early None s)) as Hc'.
  { destruct Hc as [H1 H2 H3]. split; cbn; [discriminate|exact H2|exact H3]. }
  assert (load (set_ack_early None s) = load s) as Hs by reflexivity.
  destruct (inner_alike true b (set_ack_early None s) s1 o Hc' ltac:(lia) (light_modest C _ b Hb) (or_introl eq_refl) E)
    as ([K1 K2 K3] & o' & E' & [->|[_ Hn]]); [|contradiction].
  split; [exact E'|]. split; [exact K1|]. split; [lia|exact K3].
Qed.

Lemma write_alike data s w s1 w1 o :
  calm s -> next_nonce_sent s + 1 < 2 ^ 64 -> write_message C T data s w = (s1, w1, o) ->
  write_message C T' data s w = (s1, w1, o) /\ calm s1 /\ load s1 = load s /\ next_nonce_sent s1 <= next_nonce_sent s + 1.
Proof.
  intros Hc Hl E. unfold write_message in *.
  assert (forall n st, calm (set_next_nonce_sent n (set_status st s))) as Hc1.
  { intros n st. destruct Hc as [H1 H2 H3]. split; cbn; assumption. }
  assert (forall st, calm (set_status st s)) as Hc2.
  { intros st. destruct Hc as [H1 H2 H3]. split; cbn; assumption. }
  destruct (apply_action _ _) as [st [r|e|p]].
  - destruct (encapsulate_and_encrypt_and_write_message C data (set_status st s) w) as [w2 [x|e|p]].
    + cbn [next_nonce_sent set_status] in *. rewrite u64_incr_small in * by exact Hl. injection E as <- <- <-.
      split; [reflexivity|]. split; [apply (Hc1 _ NegotiationSuccessful)|]. split; [reflexivity|cbn; lia].
    + injection E as <- <- <-. split; [reflexivity|]. split; [apply (Hc2 Fail)|]. split; [reflexivity|cbn; lia].
    + injection E as <- <- <-. split; [reflexivity|]. split; [apply (Hc2 st)|]. split; [reflexivity|cbn; lia].
  - injection E as <- <- <-. split; [reflexivity|]. split; [apply (Hc2 st)|]. split; [reflexivity|cbn; lia].
  - injection E as <- <- <-. split; [reflexivity|]. split; [apply (Hc2 st)|]. split; [reflexivity|cbn; lia].
Qed.

(** ** Histories *)
Lemma calm_same s s1 : calm s ->
  ack_msg_recv_too_early s1 = ack_msg_recv_too_early s -> tmp_stack_user_msgs s1 = tmp_stack_user_msgs s ->
  orphan_nonce_list s1 = orphan_nonce_list s -> calm s1.
Proof. intros [A B D] E1 E2 E3. split; rewrite ?E1, ?E2, ?E3; assumption. Qed.

Lemma create_calm r cfg pin s : create C r cfg pin = Ok s -> calm s /\ load s = 0 /\ next_nonce_sent s = 0.
Proof.
  intros H. unfold create in H. destruct (ekp_generate C r) as [kp|e|p]; try discriminate H. cbn [obind] in H.
  injection H as <-. split; [split; cbn; [discriminate|constructor|constructor]|]. split; reflexivity.
Qed.

Lemma clone_calm s c : calm s -> snd (try_clone s) = Ok c ->
  calm c /\ load c = load s /\ next_nonce_sent c = next_nonce_sent s.
Proof.
  intros [A B D] H. unfold try_clone in H. destruct (msl_status s); try discriminate H. cbn [snd] in H.
  injection H as <-. split; [split; cbn; [discriminate|exact B|exact D]|]. split; reflexivity.
Qed.

Lemma step_alike s c s1 r :
  calm s -> load s + 1 < 2 ^ 64 -> next_nonce_sent s + 1 < 2 ^ 64 ->
  (forall d, c = CRead d -> modest C (session_key s) d) ->
  call_step C T s c = (s1, r) ->
  (exists r', call_step C T' s c = (s1, r') /\ agree r r') /\
  calm s1 /\ load s1 <= load s + 1 /\ next_nonce_sent s1 <= next_nonce_sent s + 1.
Proof.
  intros Hc Hl Hn Hm E. destruct c as [d| | |pk cd|cd|data w| |cfg]; cbn [call_step] in *.
  - destruct (read C T d s) as [s2 o] eqn:E2. injection E as <- <-.
    destruct (inner_alike true d s s2 o Hc Hl (Hm d eq_refl) (or_introl eq_refl) E2) as ([K1 K2 K3] & o' & E' & Ho).
    unfold read. rewrite E'. split; [|split; [exact K1|split; [exact K2|lia]]].
    eexists. split; [reflexivity|]. destruct Ho as [->|[(p & p' & -> & ->) _]]; constructor.
  - destruct (take_ack_msg_recv_too_early C T s) as [s2 o] eqn:E2. injection E as <- <-.
    destruct (take_alike s s2 o Hc Hl E2) as (-> & K1 & K2 & K3).
    split; [|split; [exact K1|split; [exact K2|lia]]]. eexists. split; [reflexivity|constructor].
  - destruct (drain_tmp_stack_user_msgs C T s) as [s2 o] eqn:E2. injection E as <- <-.
    destruct (drains_alike s s2 o Hc ltac:(lia) E2) as (-> & K1 & K2 & K3).
    split; [|split; [exact K1|split; lia]]. eexists. split; [reflexivity|constructor].
  - split; [eexists; split; [exact E|constructor]|]. unfold create_connect_message in E.
    repeat match type of E with context [match ?x with _ => _ end] =>
      match x with context [match _ with _ => _ end] => fail 1 | _ => destruct x end end;
      injection E as <- _; (split; [eapply calm_same; [exact Hc|reflexivity..]|]); unfold load; cbn; lia.
  - split; [eexists; split; [exact E|constructor]|]. unfold create_ack_message in E.
    repeat match type of E with context [match ?x with _ => _ end] =>
      match x with context [match _ with _ => _ end] => fail 1 | _ => destruct x end end;
      injection E as <- _; (split; [eapply calm_same; [exact Hc|reflexivity..]|]); unfold load; cbn; lia.
  - destruct (write_message C T data s w) as [[s2 w2] o] eqn:E2. injection E as <- <-.
    destruct (write_alike data s w s2 w2 o Hc Hn E2) as (-> & K1 & K2 & K3).
    split; [|split; [exact K1|split; lia]]. eexists. split; [reflexivity|constructor].
  - split; [eexists; split; [exact E|constructor]|]. unfold try_clone in E.
    repeat match type of E with context [match ?x with _ => _ end] =>
      match x with context [match _ with _ => _ end] => fail 1 | _ => destruct x end end;
      injection E as <- _; (split; [eapply calm_same; [exact Hc|reflexivity..]|]); unfold load; cbn; lia.
  - split; [eexists; split; [exact E|constructor]|]. unfold change_config in E.
    repeat match type of E with context [match ?x with _ => _ end] =>
      match x with context [match _ with _ => _ end] => fail 1 | _ => destruct x end end;
      injection E as <- _; (split; [eapply calm_same; [exact Hc|reflexivity..]|]); unfold load; cbn; lia.
Qed.

Lemma run_alike cs : forall s k,
  calm s -> load s <= k -> next_nonce_sent s <= k -> k + len cs < 2 ^ 64 -> modest_reads C T s cs ->
  fst (run C T s cs) = fst (run C T' s cs) /\
  Forall2 agree (map snd (snd (run C T s cs))) (map snd (snd (run C T' s cs))) /\
  calm (fst (run C T s cs)) /\ load (fst (run C T s cs)) <= k + len cs /\
  next_nonce_sent (fst (run C T s cs)) <= k + len cs.
Proof.
  induction cs as [|c cs IH]; intros s k Hc Hl Hn Hk Hm; cbn [run].
  - split; [reflexivity|]. split; [constructor|]. split; [exact Hc|]. split; cbn; lia.
  - rewrite len_cons in *. destruct (call_step C T s c) as [s1 r] eqn:E1.
    destruct (step_alike s c s1 r) as ((r' & E' & Ha) & K1 & K2 & K3); [exact Hc|lia|lia| |exact E1|].
    { intros d ->. exact (Hm [] d cs eq_refl). }
    rewrite E'. destruct (IH s1 (k + 1)) as (A & B & D & G & H); [exact K1|lia|lia|lia| |].
    { intros cs1 d cs2 ->. specialize (Hm (c :: cs1) d cs2 eq_refl). cbn [run] in Hm. rewrite E1 in Hm.
      destruct (run C T s1 cs1) as [s2 h2]. exact Hm. }
    destruct (run C T s1 cs) as [s2 h2]. destruct (run C T' s1 cs) as [s2' h2']. cbn [fst snd map] in *.
    split; [exact A|]. split; [constructor; assumption|]. split; [exact D|]. split; lia.
Qed.

Lemma life_calm s k : modest_life C T s k -> k < 2 ^ 64 -> calm s /\ load s <= k /\ next_nonce_sent s <= k.
Proof.
  induction 1 as [r cfg pin s E|s k cs H IH Hm|s k c H IH E]; intros Hk.
  - apply create_calm in E as (A & -> & ->). split; [exact A|]. split; reflexivity.
  - destruct IH as (A & B & D); [lia|]. apply (run_alike cs s k A B D Hk Hm).
  - destruct (IH Hk) as (A & B & D). destruct (clone_calm s c A E) as (A' & -> & ->). split; [exact A'|]. split; assumption.
Qed.

Theorem builds_agree s k cs :
  modest_life C T s k -> k + len cs < 2 ^ 64 -> modest_reads C T s cs ->
  fst (run C T s cs) = fst (run C T' s cs) /\
  Forall2 agree (map snd (snd (run C T s cs))) (map snd (snd (run C T' s cs))).
Proof.
  intros H Hk Hm. destruct (life_calm s k H) as (A & B & D); [lia|].
  destruct (run_alike cs s k A B D Hk Hm) as (E & F & _). split; assumption.
Qed.

End WithEnv.

(** ** The other build leads the same life *)
Theorem life_elsewhere C T T' s k : modest_life C T s k -> k < 2 ^ 64 -> modest_life C T' s k.
Proof.
  induction 1 as [r cfg pin s E|s k cs H IH Hm|s k c H IH E]; intros Hk.
  - eapply ml_create. exact E.
  - destruct (builds_agree C T T' s k cs H Hk Hm) as [-> _]. apply ml_run; [apply IH; lia|].
    intros cs1 d cs2 ->.
    assert (modest_reads C T s cs1) as Hm1.
    { intros a d' b ->. apply (Hm a d' (b ++ CRead d :: cs2)). rewrite <- app_assoc. reflexivity. }
    destruct (builds_agree C T T' s k cs1 H) as [<- _]; [|exact Hm1|exact (Hm cs1 d cs2 eq_refl)].
    rewrite len_app in Hk. lia.
  - eapply ml_clone; [exact (IH Hk)|exact E].
Qed.

(** ** Complete mode *)
Section Complete.
Context (C : Crypto) (Z : Zip) (T T' : target) (F : features) {M : Type} (K : Codec M).

Definition scalm (s : secure_layer) (k : N) : Prop :=
  calm (minimal s) /\ load (minimal s) <= k /\ next_nonce_sent (minimal s) <= k.

Lemma bin_alike d s k s1 o :
  scalm s k -> k + 2 < 2 ^ 64 -> modest C (session_key (minimal s)) d -> read_bin C Z T d s = (s1, o) ->
  (exists o', read_bin C Z T' d s = (s1, o') /\ (o' = o \/ exists p p', o = Panic p /\ o' = Panic p')) /\
  scalm s1 (k + 2).
Proof.
  intros (Hc & Hl & Hn) Hk Hm E. unfold read_bin in *.
  destruct (read C T d (minimal s)) as [m o1] eqn:E1.
  destruct (inner_alike C T T' true d (minimal s) m o1 Hc ltac:(lia) Hm (or_introl eq_refl) E1)
    as ([K1 K2 K3] & o' & E' & Ho).
  assert (forall x, scalm (set_minimal m x) (k + 2)) as Hs.
  { intros x. unfold scalm. cbn. split; [exact K1|]. split; lia. }
  unfold read in *. rewrite E'.
  destruct Ho as [->|[(p & p' & -> & ->) _]].
  2: { injection E as <- <-. split; [|apply Hs]. eexists. split; [reflexivity|]. right. eauto. }
  destruct o1 as [[[al pk cd|cd|cd]|]|e|p].
  - destruct (uncompress_opt Z cd) as [x|e|p];
      [|injection E as <- <-; (split; [eexists; split; [reflexivity|left; reflexivity]|apply Hs])..].
    destruct (take_ack_msg_recv_too_early C T m) as [m2 o2] eqn:E2.
    destruct (take_alike C T T' m m2 o2 K1 ltac:(lia) E2) as (-> & J1 & J2 & J3).
    split.
    + exists o. split; [exact E|left; reflexivity].
    + assert (exists x, s1 = set_minimal m2 x) as [y ->].
      { destruct o2 as [[[]|]|e|p]; injection E as <- _; eexists; reflexivity. }
      unfold scalm. cbn. split; [exact J1|]. split; lia.
  - destruct (uncompress_opt Z cd) as [x|e|p];
      [|injection E as <- <-; (split; [eexists; split; [reflexivity|left; reflexivity]|apply Hs])..].
    destruct (drain_tmp_stack_user_msgs C T m) as [m2 o2] eqn:E2.
    destruct (drains_alike C T T' m m2 o2 K1 ltac:(lia) E2) as (-> & J1 & J2 & J3).
    split.
    + exists o. split; [exact E|left; reflexivity].
    + assert (exists x, s1 = set_minimal m2 x) as [y ->].
      { destruct o2 as [l|e|p]; injection E as <- _; eexists; reflexivity. }
      unfold scalm. cbn. split; [exact J1|]. split; lia.
  - injection E as <- <-. split; [eexists; split; [reflexivity|left; reflexivity]|apply Hs].
  - injection E as <- <-. split; [eexists; split; [reflexivity|left; reflexivity]|apply Hs].
  - injection E as <- <-. split; [eexists; split; [reflexivity|left; reflexivity]|apply Hs].
  - injection E as <- <-. split; [eexists; split; [reflexivity|left; reflexivity]|apply Hs].
Qed.

Lemma scalm_weaken s k k' : scalm s k -> k <= k' -> scalm s k'.
Proof. intros (A & B & D) H. split; [exact A|]. split; lia. Qed.

Lemma minimal_step c m m1 r k :
  calm m -> load m <= k -> next_nonce_sent m <= k -> k + 1 < 2 ^ 64 ->
  (forall d, c <> CRead d) -> call_step C T m c = (m1, r) ->
  call_step C T' m c = (m1, r) /\ forall x, scalm (set_minimal m1 x) (k + 2).
Proof.
  intros Hc Hl Hn Hk Hr E.
  destruct (step_alike C T T' m c m1 r) as ((r' & E' & Ha) & A & B & D); [exact Hc|lia|lia| |exact E|].
  { intros d ->. exfalso. exact (Hr d eq_refl). }
  split.
  - rewrite E'. inversion Ha as [|p p' H1 H2]; [reflexivity|]. subst r r'. f_equal.
    destruct c as [d| | |pk cd|cd|data w| |cfg]; try (cbn [call_step] in E; 
      repeat match type of E with context [match ?x with _ => _ end] => destruct x end; discriminate E).
    + exfalso. exact (Hr d eq_refl).
    + cbn [call_step] in E, E'. destruct (take_ack_msg_recv_too_early C T m) as [m2 o] eqn:E2.
      destruct (take_alike C T T' m m2 o Hc ltac:(lia) E2) as (E3 & _). rewrite E3 in E'. congruence.
  - intros x. unfold scalm. cbn. split; [exact A|]. split; lia.
Qed.

Lemma wconnect_calm x s w s1 w1 o k :
  scalm s k -> k + 1 < 2 ^ 64 -> writer_write_connect_msg C x s w = (s1, w1, o) -> scalm s1 (k + 2).
Proof.
  intros Hs Hk E. pose proof Hs as (Hc & Hl & Hn). unfold writer_write_connect_msg in E.
  destruct (sig_key_pair s) as [seed|]; [|injection E as <- _ _; eapply scalm_weaken; [exact Hs|lia]].
  destruct (create_connect_message C (ed25519_public C seed) x (minimal s)) as [m o1] eqn:E1.
  destruct (minimal_step (CConnect (ed25519_public C seed) x) (minimal s) m (RBytes o1) k Hc Hl Hn Hk) as [_ H];
    [discriminate|cbn [call_step]; rewrite E1; reflexivity|].
  destruct o1 as [b|e|p]; [destruct (write_signed C seed b w) as [w2 r]|..]; injection E as <- _ _; apply H.
Qed.

Lemma wack_calm x s w s1 w1 o k :
  scalm s k -> k + 1 < 2 ^ 64 -> writer_write_ack_msg C x s w = (s1, w1, o) -> scalm s1 (k + 2).
Proof.
  intros Hs Hk E. pose proof Hs as (Hc & Hl & Hn). unfold writer_write_ack_msg in E.
  destruct (sig_key_pair s) as [seed|]; [|injection E as <- _ _; eapply scalm_weaken; [exact Hs|lia]].
  destruct (create_ack_message C x (minimal s)) as [m o1] eqn:E1.
  destruct (minimal_step (CAck x) (minimal s) m (RBytes o1) k Hc Hl Hn Hk) as [_ H];
    [discriminate|cbn [call_step]; rewrite E1; reflexivity|].
  destruct o1 as [b|e|p]; [destruct (write_signed C seed b w) as [w2 r]|..]; injection E as <- _ _; apply H.
Qed.

Lemma wbin_alike x s w s1 w1 o k :
  scalm s k -> k + 1 < 2 ^ 64 -> writer_write_bin_message C T x s w = (s1, w1, o) ->
  writer_write_bin_message C T' x s w = (s1, w1, o) /\ scalm s1 (k + 2).
Proof.
  intros (Hc & Hl & Hn) Hk E. unfold writer_write_bin_message in *.
  destruct (write_message C T x (minimal s) w) as [[m w2] r] eqn:E1.
  destruct (minimal_step (CWrite x w) (minimal s) m (RWritten r w2) k Hc Hl Hn Hk) as [E' H];
    [discriminate|cbn [call_step]; rewrite E1; reflexivity|].
  cbn [call_step] in E'. destruct (write_message C T' x (minimal s) w) as [[m' w2'] r'].
  injection E' as -> -> ->. split; [exact E|]. injection E as <- _ _. apply H.
Qed.

Lemma sstep_alike s c s1 r k :
  scalm s k -> k + 2 < 2 ^ 64 -> (forall d, c = SRead d -> modest C (session_key (minimal s)) d) ->
  scall_step C Z T s c = (s1, r) ->
  (exists r', scall_step C Z T' s c = (s1, r') /\ tagree (TOther r : treply M) (TOther r')) /\ scalm s1 (k + 2).
Proof.
  intros Hs Hk Hm E. pose proof Hs as (Hc & Hl & Hn). destruct c as [d|cd w|cd w|data w| |cfg]; cbn [scall_step] in *.
  - destruct (read_bin C Z T d s) as [s2 o] eqn:E2. injection E as <- <-.
    destruct (bin_alike d s k s2 o Hs Hk (Hm d eq_refl) E2) as ((o' & -> & Ho) & Hs').
    split; [|exact Hs']. eexists. split; [reflexivity|]. destruct Ho as [->|(p & p' & -> & ->)]; constructor.
  - split; [exists r; split; [exact E|constructor]|].
    destruct (write_connect_msg_bin C Z cd s w) as [[s2 w2] o] eqn:E2. injection E as <- _.
    eapply wconnect_calm; [exact Hs|lia|exact E2].
  - split; [exists r; split; [exact E|constructor]|].
    destruct (write_ack_msg_bin C Z cd s w) as [[s2 w2] o] eqn:E2. injection E as <- _.
    eapply wack_calm; [exact Hs|lia|exact E2].
  - unfold write_bin in *. destruct (writer_write_bin_message C T _ s w) as [[s2 w2] o] eqn:E2. injection E as <- <-.
    destruct (wbin_alike _ _ _ _ _ _ k Hs ltac:(lia) E2) as (-> & Hs').
    split; [|exact Hs']. eexists. split; [reflexivity|constructor].
  - split; [exists r; split; [exact E|constructor]|].
    unfold sl_try_clone in E. destruct (try_clone (minimal s)) as [m o] eqn:E2.
    destruct (minimal_step CClone (minimal s) m (RClone o) k Hc Hl Hn ltac:(lia)) as [_ H];
      [discriminate|cbn [call_step]; rewrite E2; reflexivity|].
    destruct o; injection E as <- _; apply H.
  - split; [exists r; split; [exact E|constructor]|].
    unfold sl_change_config in E. destruct (change_config cfg (minimal s)) as [m o] eqn:E2.
    destruct (minimal_step (CConfig cfg) (minimal s) m (RUnit o) k Hc Hl Hn ltac:(lia)) as [_ H];
      [discriminate|cbn [call_step]; rewrite E2; reflexivity|].
    injection E as <- _; apply H.
Qed.

Lemma tstep_alike s c s1 r k :
  scalm s k -> k + 2 < 2 ^ 64 ->
  (forall d, c = VRead d \/ c = VBin (SRead d) -> modest C (session_key (minimal s)) d) ->
  tcall_step C Z T F K s c = (s1, r) ->
  (exists r', tcall_step C Z T' F K s c = (s1, r') /\ tagree r r') /\ scalm s1 (k + 2).
Proof.
  intros Hs Hk Hm E. assert (scalm s (k + 2)) as Hs2 by (eapply scalm_weaken; [exact Hs|lia]).
  destruct c as [d|cd w|cd w|m w|c]; cbn [tcall_step] in *.
  - unfold sl_read in *. destruct (read_bin C Z T d s) as [s2 o] eqn:E2.
    destruct (bin_alike d s k s2 o Hs Hk (Hm d (or_introl eq_refl)) E2) as ((o' & -> & Ho) & Hs').
    destruct Ho as [->|(p & p' & -> & ->)].
    + split; [exists r; split; [exact E|constructor]|]. destruct o; injection E as <- _; exact Hs'.
    + injection E as <- <-. split; [|exact Hs']. eexists. split; [reflexivity|constructor].
  - split; [exists r; split; [exact E|constructor]|].
    destruct (sl_write_connect_msg C Z K cd s w) as [[s2 w2] o] eqn:E2. injection E as <- _.
    unfold sl_write_connect_msg in E2. destruct (serialize_compress_opt Z K cd s) as [x|e|p].
    + eapply wconnect_calm; [exact Hs|lia|exact E2].
    + injection E2 as <- _ _. exact Hs2.
    + injection E2 as <- _ _. exact Hs2.
  - split; [exists r; split; [exact E|constructor]|].
    destruct (sl_write_ack_msg C Z K cd s w) as [[s2 w2] o] eqn:E2. injection E as <- _.
    unfold sl_write_ack_msg in E2. destruct (serialize_compress_opt Z K cd s) as [x|e|p].
    + eapply wack_calm; [exact Hs|lia|exact E2].
    + injection E2 as <- _ _. exact Hs2.
    + injection E2 as <- _ _. exact Hs2.
  - unfold sl_write in *. destruct (serialize K m _) as [x|e|p].
    + destruct (writer_write_bin_message C T _ s w) as [[s2 w2] o] eqn:E2. injection E as <- <-.
      destruct (wbin_alike _ _ _ _ _ _ k Hs ltac:(lia) E2) as (-> & Hs').
      split; [|exact Hs']. eexists. split; [reflexivity|constructor].
    + injection E as <- <-. split; [|exact Hs2]. eexists. split; [reflexivity|constructor].
    + injection E as <- <-. split; [|exact Hs2]. eexists. split; [reflexivity|constructor].
  - destruct (scall_step C Z T s c) as [s2 o] eqn:E2. injection E as <- <-.
    destruct (sstep_alike s c s2 o k Hs Hk) as ((r' & -> & Ha) & Hs'); [|exact E2|].
    { intros d ->. apply Hm. right. reflexivity. }
    split; [|exact Hs']. eexists. split; [reflexivity|exact Ha].
Qed.

Lemma trun_alike cs : forall s k,
  scalm s (2 * k) -> 2 * (k + len cs) < 2 ^ 64 -> modest_treads C Z T F K s cs ->
  fst (trun C Z T F K s cs) = fst (trun C Z T' F K s cs) /\
  Forall2 tagree (map snd (snd (trun C Z T F K s cs))) (map snd (snd (trun C Z T' F K s cs))) /\
  scalm (fst (trun C Z T F K s cs)) (2 * (k + len cs)).
Proof.
  induction cs as [|c cs IH]; intros s k Hs Hk Hm; cbn [trun].
  - split; [reflexivity|]. split; [constructor|]. eapply scalm_weaken; [exact Hs|]. lia.
  - rewrite len_cons in *. destruct (tcall_step C Z T F K s c) as [s1 r] eqn:E1.
    destruct (tstep_alike s c s1 r (2 * k)) as ((r' & E' & Ha) & Hs1); [exact Hs|lia| |exact E1|].
    { intros d Hd. exact (proj1 (Hm [] c d cs eq_refl Hd)). }
    rewrite E'. destruct (IH s1 (k + 1)) as (A & B & D).
    { eapply scalm_weaken; [exact Hs1|lia]. }
    { lia. }
    { intros cs1 c1 d cs2 -> Hd. specialize (Hm (c :: cs1) c1 d cs2 eq_refl Hd). cbn [trun] in Hm. rewrite E1 in Hm.
      destruct (trun C Z T F K s1 cs1) as [s2 h2]. exact Hm. }
    destruct (trun C Z T F K s1 cs) as [s2 h2]. destruct (trun C Z T' F K s1 cs) as [s2' h2']. cbn [fst snd map] in *.
    split; [exact A|]. split; [constructor; assumption|]. eapply scalm_weaken; [exact D|]. lia.
Qed.

Lemma slife_calm s k : modest_slife C Z T F K s k -> 2 * k < 2 ^ 64 -> scalm s (2 * k).
Proof.
  induction 1 as [r rs cfg given pin s E|s k cs H IH Hm|s k c H IH E]; intros Hk.
  - unfold sl_create in E.
    destruct (match given with Some s => Ok s | None => match rs with Some s => Ok s | None => Panic PRandom end end)
      as [seed|e|p]; cbn [obind] in E; try discriminate E.
    destruct (create C r cfg pin) as [m|e|p] eqn:Ec; cbn [obind] in E; try discriminate E. injection E as <-.
    apply create_calm in Ec as (A & B & D). unfold scalm. cbn [minimal]. rewrite B, D. split; [exact A|]. split; lia.
  - apply (trun_alike cs s k); [apply IH; lia|exact Hk|exact Hm].
  - destruct (IH Hk) as (A & B & D). unfold sl_try_clone in E.
    destruct (try_clone (minimal s)) as [m o] eqn:Ec. destruct o as [c'|e|p]; try discriminate E. injection E as <-.
    destruct (clone_calm (minimal s) c' A) as (A' & B' & D'); [rewrite Ec; reflexivity|].
    unfold scalm. cbn [minimal]. rewrite B', D'. split; [exact A'|]. split; assumption.
Qed.

Theorem complete_builds_agree s k cs :
  modest_slife C Z T F K s k -> 2 * (k + len cs) < 2 ^ 64 -> modest_treads C Z T F K s cs ->
  fst (trun C Z T F K s cs) = fst (trun C Z T' F K s cs) /\
  Forall2 tagree (map snd (snd (trun C Z T F K s cs))) (map snd (snd (trun C Z T' F K s cs))).
Proof.
  intros H Hk Hm. destruct (trun_alike cs s k) as (A & B & _); [apply slife_calm; [exact H|lia]|exact Hk|exact Hm|].
  split; assumption.
Qed.

End Complete.

Theorem slife_elsewhere C Z T T' F {M} (K : Codec M) s k :
  modest_slife C Z T F K s k -> 2 * k < 2 ^ 64 -> modest_slife C Z T' F K s k.
Proof.
  induction 1 as [r rs cfg given pin s E|s k cs H IH Hm|s k c H IH E]; intros Hk.
  - eapply msl_create. exact E.
  - destruct (complete_builds_agree C Z T T' F K s k cs H Hk Hm) as [-> _]. apply msl_run; [apply IH; lia|].
    intros cs1 c d cs2 -> Hd.
    assert (modest_treads C Z T F K s cs1) as Hm1.
    { intros a c' d' b -> Hd'. apply (Hm a c' d' (b ++ c :: cs2)); [|exact Hd']. rewrite <- app_assoc. reflexivity. }
    destruct (complete_builds_agree C Z T T' F K s k cs1 H) as [<- _]; [|exact Hm1|exact (Hm cs1 c d cs2 eq_refl Hd)].
    rewrite len_app in Hk. lia.
  - eapply msl_clone; [exact (IH Hk)|exact E].
Qed.

(** ** What an honest peer sends is modest *)
Lemma modest_frame ty content tail : 18 + len content < 2 ^ 32 -> modest_text (frame ty content ++ tail).
Proof.
  intros H L th HL E. unfold frame, frame_len in E. rewrite <- !app_assoc in E.
  do 2 apply app_inv_head in E. apply app_inv_len in E as [E _]; [|reflexivity].
  apply u64_be_inj in E; [|lia|exact HL]. lia.
Qed.

Theorem honest_modest C (HL : CryptoLaws C) :
  (forall key seed epk cd, 54 + len epk + len cd < 2 ^ 32 -> modest C key (signed_connect C seed epk cd)) /\
  (forall key seed epk cd, 50 + len cd < 2 ^ 32 -> modest C key (signed_ack C seed epk cd)) /\
  (forall k n data, keystream_ok C k -> 26 + len data < 2 ^ 32 -> modest C (Some k) (user_datagram C k n data)).
Proof.
  split; [|split].
  - intros key seed epk cd H. apply light_modest. split.
    + unfold signed_connect, connect_frame, frame, frame_len. rewrite <- app_assoc. eexists. reflexivity.
    + apply modest_frame. unfold connect_content. rewrite !len_app. change (len [x00; x00; x00; x00]) with 4.
      pose proof (law_ed25519_public_len C HL seed). unfold len in *. lia.
  - intros key seed epk cd H. apply light_modest. split.
    + unfold signed_ack, ack_frame, frame, frame_len. rewrite <- app_assoc. eexists. reflexivity.
    + apply modest_frame. rewrite len_app. pose proof (law_sha256_len C HL epk). unfold len in *. lia.
  - intros k n data Hk H.
    assert (modest_text (hashed C (user_frame n data))) as Ht.
    { apply modest_frame. rewrite len_app, len_u64_be. lia. }
    split.
    + intros L th HL' E. exfalso. unfold user_datagram, hashed, user_frame, frame, frame_len in E.
      rewrite <- !app_assoc in E. exact (seal_not_magic C HL k _ _ Hk E).
    + intros _ k' text [= <-] E. apply (seal_inj C {| overflow_checks := true; usize_width := P64 |} HL) in E. subst text. exact Ht.
Qed.

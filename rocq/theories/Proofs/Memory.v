(** C76: the memory of a layer. *)

From Coq Require Import Arith ZifyBool ZifyNat ZifyN.
From Verif.Model Require Import Minimal Complete.
From Verif.Spec Require Import Wire Datagram Trace ReadSpec Accept Session CompleteTrace Memory.
From Verif.Proofs Require Import BaseFacts ReaderFacts ReadCases WindowFacts Invariant Steps Failure Sending Nonces UserReads ReadSpecFacts Keys Ledger Early Histories Vocabulary CipherFacts CompleteFacts CompleteMode Hint.

Local Arguments sum : simpl never.
Lemma sum_nil : sum [] = 0.
Proof. reflexivity. Qed.
Lemma sum_one x : sum [x] = x.
Proof. unfold sum. cbn. lia. Qed.

Ltac unmatch E :=
  repeat match type of E with context [match ?x with _ => _ end] =>
    match x with context [match _ with _ => _ end] => fail 1 | _ => destruct x eqn:? end end.

Definition stored (s : msl) : N := opt_len (ack_msg_recv_too_early s) + sum (map len (tmp_stack_user_msgs s)).
Definition sec_len (o : option algo_with_secret) : N :=
  match o with Some (WithChacha k) => len (sk_key k) + len (sk_nonce k) + len (sk_aad k) | None => 0 end.
Definition kp_len (o : option ephemeral_kp) : N :=
  match o with Some kp => len (ekp_priv kp) + len (ekp_pub kp) | None => 0 end.

Record keys (s s1 : msl) : Prop := {
  k_epk : opt_len (peer_epk s1) <= N.max (opt_len (peer_epk s)) 32;
  k_pk : opt_len (peer_sig_pubkey s1) <= N.max (opt_len (peer_sig_pubkey s)) 32;
  k_sec : sec_len (encrypt_algo_with_secret s1) <= N.max (sec_len (encrypt_algo_with_secret s)) 48;
  k_kp : kp_len (ephemeral s1) <= kp_len (ephemeral s);
  k_pub : ephemeral_pubkey s1 = ephemeral_pubkey s
}.

Lemma keys_refl s : keys s s.
Proof. split; try lia. reflexivity. Qed.
Lemma keys_trans a b c : keys a b -> keys b c -> keys a c.
Proof. intros [] []. split; try lia. congruence. Qed.

Lemma sum_app a b : sum (a ++ b) = sum a + sum b.
Proof. unfold sum. induction a as [|x a IH]; [reflexivity|]. cbn [app fold_right]. rewrite IH. lia. Qed.

Lemma secret_48 seed : sec_len (Some (WithChacha (secret_key_new seed))) <= 48.
Proof. unfold secret_key_new, sec_len, len. cbn [sk_key sk_nonce sk_aad]. rewrite !firstn_length. lia. Qed.

Lemma stored_same s s1 x : ack_msg_recv_too_early s1 = ack_msg_recv_too_early s ->
  tmp_stack_user_msgs s1 = tmp_stack_user_msgs s -> stored s1 <= stored s + x.
Proof. unfold stored. intros -> ->. lia. Qed.
Lemma keys_same s s1 : peer_epk s1 = peer_epk s -> peer_sig_pubkey s1 = peer_sig_pubkey s ->
  encrypt_algo_with_secret s1 = encrypt_algo_with_secret s -> ephemeral s1 = ephemeral s ->
  ephemeral_pubkey s1 = ephemeral_pubkey s -> keys s s1.
Proof. intros A B D E F. split; rewrite ?A, ?B, ?D, ?E; try lia. exact F. Qed.

Section WithEnv.
Context (C : Crypto) (T : target).

Lemma build_48 al sec a : algo_build al sec = Ok a -> sec_len (Some a) <= 48.
Proof. destruct al. cbn. destruct sec; try discriminate. intros [= <-]. apply secret_48. Qed.

Lemma reader_headers sec b chk dd : reader_read C T sec b chk = Ok dd ->
  match dd_headers dd with HConnect epk _ pk => len epk <= 32 /\ len pk <= 32 | _ => True end.
Proof.
  unfold reader_read. intros H. apply obind_Ok in H as ((enc, t) & Hd & H).
  apply read_parse_inv in H as (L & th & h & l & ue & _ & _ & _ & Hh & _ & ->). cbn.
  destruct Hh; cbn; unfold len in *; [split|..]; try exact I; lia.
Qed.

Lemma inner_memory chk b s s1 o : read_inner C T chk b s = (s1, o) ->
  keys s s1 /\ stored s1 <= stored s + match o with Ok None => len b | _ => 0 end.
Proof.
  intros E. unfold read_inner in E. destruct (reader_read C T _ b chk) as [dd|e|p] eqn:Er.
  2, 3: injection E as <- <-; split; [split; cbn; try lia; reflexivity|apply stored_same; reflexivity].
  pose proof (reader_len _ _ _ _ _ _ Er) as Hl. pose proof (reader_headers _ _ _ _ Er) as Hh.
  destruct (dd_headers dd) as [epk al pk|ch|n].
  - destruct Hh as [H1 H2]. unfold read_connect, compute_shared_secret in E.
    unmatch E; injection E as <- <-;
      (split; [|apply stored_same; reflexivity]);
      repeat match goal with H : (_, _) = (_, _) |- _ => injection H; clear H; intros; subst end;
      try match goal with H : algo_build _ _ = Ok _ |- _ => apply build_48 in H end;
      split; unfold opt_len, sec_len, kp_len in *; cbn in *;
      repeat match goal with H : ?x = Some _ |- context [?x] => rewrite H end; try lia; try reflexivity.
  - unfold read_ack in E.
    unmatch E; injection E as <- <-;
      (split; [apply keys_same; reflexivity|]); try (apply stored_same; reflexivity).
    unfold stored. cbn. match goal with H : ack_msg_recv_too_early s = None |- _ => rewrite H end. cbn. lia.
  - unfold read_user in E.
    destruct (_ || _); [injection E as <- <-; split; [apply keys_refl|apply stored_same; reflexivity]|].
    destruct (apply_action (msl_status s) (Receive TUserMsg)) as [st [[[]|]|e|p]].
    + injection E as <- <-. split; [apply keys_same; reflexivity|].
      unfold stored. cbn. rewrite map_app, sum_app. cbn. rewrite sum_one. rewrite <- N.add_assoc. apply N.add_le_mono_l, N.add_le_mono_l. exact Hl.
    + destruct (do data_hashed <- _; _) as [[|]|e|p].
      2-4: injection E as <- <-; split; [apply keys_same; reflexivity|apply stored_same; reflexivity].
      destruct (update_window T n (set_status st s)) as [s2 o2] eqn:Eu.
      unfold update_window in Eu.
      unmatch Eu; injection Eu as <- <-; injection E as <- <-;
        (split; [apply keys_same; reflexivity|apply stored_same; reflexivity]).
    + injection E as <- <-. split; [apply keys_same; reflexivity|apply stored_same; reflexivity].
    + injection E as <- <-. split; [apply keys_same; reflexivity|apply stored_same; reflexivity].
Qed.

Lemma loop_memory bs : forall acc s s1 o, drain_loop C T bs acc s = (s1, o) ->
  keys s s1 /\ stored s1 <= stored s + sum (map len bs).
Proof.
  induction bs as [|b bs IH]; intros acc s s1 o E; cbn [drain_loop] in E.
  - injection E as <- <-. split; [apply keys_refl|apply stored_same; reflexivity].
  - destruct (read_inner C T false b s) as [s2 o2] eqn:E2. apply inner_memory in E2 as [K2 S2].
    change (sum (map len (b :: bs))) with (len b + sum (map len bs)).
    destruct o2 as [[m|]|e|p].
    + apply IH in E as [K S]. split; [exact (keys_trans _ _ _ K2 K)|lia].
    + apply IH in E as [K S]. split; [exact (keys_trans _ _ _ K2 K)|lia].
    + injection E as <- <-. split; [exact K2|lia].
    + injection E as <- <-. split; [exact K2|lia].
Qed.

Lemma drain_memory s s1 o : drain_tmp_stack_user_msgs C T s = (s1, o) -> keys s s1 /\ stored s1 <= stored s.
Proof.
  unfold drain_tmp_stack_user_msgs. intros E. apply loop_memory in E as [K S]. split.
  - eapply keys_trans; [|exact K]. apply keys_same; reflexivity.
  - unfold stored in *. cbn in S. rewrite ?sum_nil in S. lia.
Qed.

Lemma take_memory s s1 o : take_ack_msg_recv_too_early C T s = (s1, o) -> keys s s1 /\ stored s1 <= stored s.
Proof.
  unfold take_ack_msg_recv_too_early, read. destruct (ack_msg_recv_too_early s) as [b|] eqn:Eb.
  - intros E. apply inner_memory in E as [K S]. split.
    + eapply keys_trans; [|exact K]. apply keys_same; reflexivity.
    + unfold stored in *. cbn in S. rewrite Eb. cbn. destruct o as [[|]|e|p]; lia.
  - intros [= <- <-]. split; [apply keys_refl|lia].
Qed.

Lemma connect_memory pk cd s s1 o : create_connect_message C pk cd s = (s1, o) -> keys s s1 /\ stored s1 = stored s.
Proof.
  unfold create_connect_message. intros E. unmatch E; injection E as <- <-;
    (split; [apply keys_same; reflexivity|reflexivity]).
Qed.
Lemma ack_memory cd s s1 o : create_ack_message C cd s = (s1, o) -> keys s s1 /\ stored s1 = stored s.
Proof.
  unfold create_ack_message. intros E. unmatch E; injection E as <- <-;
    (split; [apply keys_same; reflexivity|reflexivity]).
Qed.
Lemma write_memory d w s s1 w1 o : write_message C T d s w = (s1, w1, o) -> keys s s1 /\ stored s1 = stored s.
Proof.
  unfold write_message. intros E. unmatch E; injection E as <- <- <-;
    (split; [apply keys_same; reflexivity|reflexivity]).
Qed.
Lemma clone_memory s s1 o : try_clone s = (s1, o) -> keys s s1 /\ stored s1 = stored s.
Proof.
  unfold try_clone. intros E. unmatch E; injection E as <- <-;
    (split; [apply keys_same; reflexivity|reflexivity]).
Qed.
Lemma config_memory c s s1 o : change_config c s = (s1, o) -> keys s s1 /\ stored s1 = stored s.
Proof.
  unfold change_config. intros E. unmatch E; injection E as <- <-;
    (split; [apply keys_same; reflexivity|reflexivity]).
Qed.

Lemma step_memory s c s1 r : call_step C T s c = (s1, r) ->
  keys s s1 /\ stored s1 <= stored s + total (put_aside [(c, r)]).
Proof.
  destruct c; cbn [call_step].
  - destruct (read C T incoming s) as [s2 o] eqn:E. intros [= <- <-]. apply inner_memory in E as [K S].
    split; [exact K|]. destruct o as [[|]|e|p]; unfold total; cbn [put_aside flat_map app map]; rewrite ?sum_one, ?sum_nil; exact S.
  - destruct (take_ack_msg_recv_too_early C T s) as [s2 o] eqn:E. intros [= <- <-]. apply take_memory in E as [K S].
    split; [exact K|]. cbn. lia.
  - destruct (drain_tmp_stack_user_msgs C T s) as [s2 o] eqn:E. intros [= <- <-]. apply drain_memory in E as [K S].
    split; [exact K|]. cbn. lia.
  - destruct (create_connect_message C public_key cd s) as [s2 o] eqn:E. intros [= <- <-]. apply connect_memory in E as [K S].
    split; [exact K|]. cbn. lia.
  - destruct (create_ack_message C cd s) as [s2 o] eqn:E. intros [= <- <-]. apply ack_memory in E as [K S].
    split; [exact K|]. cbn. lia.
  - destruct (write_message C T data s w) as [[s2 w2] o] eqn:E. intros [= <- <-]. apply write_memory in E as [K S].
    split; [exact K|]. cbn. lia.
  - destruct (try_clone s) as [s2 o] eqn:E. intros [= <- <-]. apply clone_memory in E as [K S].
    split; [exact K|]. cbn. lia.
  - destruct (change_config cfg s) as [s2 o] eqn:E. intros [= <- <-]. apply config_memory in E as [K S].
    split; [exact K|]. cbn. lia.
Qed.

Lemma total_cons (e : event) h : total (put_aside (e :: h)) = total (put_aside [e]) + total (put_aside h).
Proof. unfold total, put_aside. cbn [flat_map]. rewrite app_nil_r, map_app, sum_app. reflexivity. Qed.

Lemma run_memory cs : forall s s1 h, run C T s cs = (s1, h) -> keys s s1 /\ stored s1 <= stored s + total (put_aside h).
Proof.
  induction cs as [|c cs IH]; intros s s1 h E; cbn [run] in E.
  - injection E as <- <-. split; [apply keys_refl|apply stored_same; reflexivity].
  - destruct (call_step C T s c) as [s2 r] eqn:Ec. destruct (run C T s2 cs) as [s3 h3] eqn:Er.
    injection E as <- <-. apply step_memory in Ec as [K1 S1]. apply IH in Er as [K2 S2].
    rewrite total_cons. split; [exact (keys_trans _ _ _ K1 K2)|].
    etransitivity; [exact S2|]. rewrite N.add_assoc. apply N.add_le_mono_r. exact S1.
Qed.

Lemma held_split s : held s =
  stored s + opt_len (peer_epk s) + opt_len (peer_sig_pubkey s) + len (ephemeral_pubkey s)
  + kp_len (ephemeral s) + sec_len (encrypt_algo_with_secret s).
Proof. reflexivity. Qed.

Lemma bound s s1 x : keys s s1 -> stored s1 <= stored s + x -> held s1 <= held s + new_keys + x.
Proof. intros [A B D E F] H. rewrite !held_split, F. unfold new_keys. lia. Qed.

(** C76 *)
Lemma memory s cs s1 h : run C T s cs = (s1, h) -> held s1 <= held s + new_keys + total (put_aside h).
Proof. intros E. pose proof (run_memory cs s s1 h E) as [K S]. exact (bound s s1 _ K S). Qed.

Lemma replay_memory s : reachable C T s -> replay_bytes s <= 80000.
Proof. intros Hr. destruct (replay_memory_bounded C T s Hr) as [Hn _]. unfold replay_bytes. lia. Qed.

Lemma created_memory r cfg pin s0 : CryptoLaws C -> create C r cfg pin = Ok s0 ->
  exists sk, r = RngKey sk /\ held s0 = len sk + 64 + opt_len pin /\ replay_bytes s0 = 0.
Proof.
  intros HL E. unfold create in E. apply obind_Ok in E as (kp & Hk & E). injection E as <-.
  destruct r as [sk| |]; try discriminate. injection Hk as <-. exists sk. split; [reflexivity|].
  split; [|reflexivity]. unfold held, len. cbn. rewrite sum_nil, !(law_x25519_public_len C HL). unfold opt_len, len. lia.
Qed.

Lemma cloned_memory s c : snd (try_clone s) = Ok c -> held c <= held s /\ replay_bytes c = replay_bytes s.
Proof.
  unfold try_clone. destruct (msl_status s); try discriminate. intros [= <-].
  split; [|reflexivity]. unfold held. cbn. lia.
Qed.

(** ** After the negotiation *)
Definition settled (s : msl) : Prop :=
  peer_sig_pubkey s <> None /\ (msl_status s = NegotiationSuccessful \/ msl_status s = Fail).

Definition same_keys (s s1 : msl) : Prop :=
  peer_epk s1 = peer_epk s /\ peer_sig_pubkey s1 = peer_sig_pubkey s /\
  encrypt_algo_with_secret s1 = encrypt_algo_with_secret s /\ ephemeral s1 = ephemeral s /\
  ephemeral_pubkey s1 = ephemeral_pubkey s.

Ltac same := repeat split; try reflexivity; try (cbn; tauto); try (cbn; congruence).

Lemma got_some dd o : get_message dd = o -> o <> Ok None.
Proof. unfold get_message. destruct (slice _ _ _); cbn; congruence. Qed.

Lemma inner_settled chk b s s1 o : settled s -> read_inner C T chk b s = (s1, o) ->
  settled s1 /\ same_keys s s1 /\
  (ack_msg_recv_too_early s1 = ack_msg_recv_too_early s /\ tmp_stack_user_msgs s1 = tmp_stack_user_msgs s) /\ o <> Ok None.
Proof.
  intros [Hk Hs] E. unfold read_inner in E. destruct (reader_read C T _ b chk) as [dd|e|p] eqn:Er.
  2, 3: injection E as <- <-; same.
  pose proof (got_some dd _ eq_refl) as Hg.
  destruct (dd_headers dd) as [epk al pk|ch|n].
  - unfold read_connect in E. destruct (peer_sig_pubkey s) as [k|] eqn:Ek; [|congruence].
    destruct (negb _); [injection E as <- <-; same|].
    destruct (verify_sig _ _ _ _) as [[|]|e|p]; try (injection E as <- <-; same).
    destruct Hs as [Hs|Hs]; rewrite Hs in E; cbn in E; injection E as <- <-; same.
  - unfold read_ack in E. destruct (negb _); [injection E as <- <-; same|].
    destruct (peer_sig_pubkey s) as [k|] eqn:Ek; [|congruence].
    destruct (verify_sig _ _ _ _) as [[|]|e|p]; try (injection E as <- <-; same).
    destruct Hs as [Hs|Hs]; rewrite Hs in E; cbn in E; injection E as <- <-; same.
  - unfold read_user in E. destruct (_ || _); [injection E as <- <-; same|].
    destruct Hs as [Hs|Hs]; rewrite Hs in E; cbn [apply_action] in E; [|injection E as <- <-; same].
    destruct (do data_hashed <- _; _) as [[|]|e|p]; try (injection E as <- <-; same).
    destruct (update_window T n _) as [s2 o2] eqn:Eu. unfold update_window in Eu.
    unmatch Eu; injection Eu as <- <-; injection E as <- <-; same.
Qed.

Lemma kept_stored s s1 :
  ack_msg_recv_too_early s1 = ack_msg_recv_too_early s /\ tmp_stack_user_msgs s1 = tmp_stack_user_msgs s -> stored s1 = stored s.
Proof. unfold stored. intros [-> ->]. reflexivity. Qed.

Definition calm (s s1 : msl) : Prop := settled s1 /\ same_keys s s1 /\ stored s1 <= stored s.

Lemma calm_trans a b c : calm a b -> calm b c -> calm a c.
Proof.
  intros (A1 & (A2 & A3 & A4 & A5 & A6) & A7) (B1 & (B2 & B3 & B4 & B5 & B6) & B7).
  split; [exact B1|]. split; [|lia]. repeat split; congruence.
Qed.
Lemma calm_refl s : settled s -> calm s s.
Proof. intros H. split; [exact H|]. split; [repeat split|lia]. Qed.

Lemma loop_settled bs : forall acc s s1 o, settled s -> drain_loop C T bs acc s = (s1, o) -> calm s s1.
Proof.
  induction bs as [|b bs IH]; intros acc s s1 o Hs E; cbn [drain_loop] in E.
  - injection E as <- <-. exact (calm_refl s Hs).
  - destruct (read_inner C T false b s) as [s2 o2] eqn:E2. apply (inner_settled _ _ _ _ _ Hs) in E2 as (A & B & D & _). apply kept_stored in D.
    assert (calm s s2) as H2 by (split; [exact A|split; [exact B|lia]]).
    destruct o2 as [[m|]|e|p].
    1, 2: apply (IH _ _ _ _ A) in E; exact (calm_trans _ _ _ H2 E).
    1, 2: injection E as <- <-; exact H2.
Qed.

Lemma step_settled s c s1 r : settled s -> call_step C T s c = (s1, r) ->
  calm s s1 /\ put_aside [(c, r)] = [].
Proof.
  intros Hs. pose proof Hs as [Hk Ht]. destruct c; cbn [call_step].
  - destruct (read C T incoming s) as [s2 o] eqn:E. intros [= <- <-].
    apply (inner_settled _ _ _ _ _ Hs) in E as (A & B & D & Hn). apply kept_stored in D.
    split; [split; [exact A|split; [exact B|lia]]|]. destruct o as [[|]|e|p]; try reflexivity. congruence.
  - destruct (take_ack_msg_recv_too_early C T s) as [s2 o] eqn:E. intros [= <- <-]. split; [|reflexivity].
    unfold take_ack_msg_recv_too_early, read in E. destruct (ack_msg_recv_too_early s) as [b|] eqn:Eb;
      [|injection E as <- <-; exact (calm_refl s Hs)].
    apply inner_settled in E as (A & B & D & _); [|split; [exact Hk|exact Ht]]. apply kept_stored in D.
    split; [exact A|]. split; [exact B|]. unfold stored in *. cbn in D. lia.
  - destruct (drain_tmp_stack_user_msgs C T s) as [s2 o] eqn:E. intros [= <- <-]. split; [|reflexivity].
    unfold drain_tmp_stack_user_msgs in E.
    apply loop_settled in E; [|split; [exact Hk|exact Ht]]. destruct E as (A & B & D).
    split; [exact A|]. split; [exact B|]. unfold stored in *. cbn in D. rewrite ?sum_nil in D. lia.
  - destruct (create_connect_message C public_key cd s) as [s2 o] eqn:E. intros [= <- <-]. split; [|reflexivity]. unfold create_connect_message in E.
    destruct Ht as [Ht|Ht]; rewrite Ht in E; cbn in E; injection E as <- <-;
      (split; [split; cbn; tauto|split; [same|unfold stored; cbn; lia]]).
  - destruct (create_ack_message C cd s) as [s2 o] eqn:E. intros [= <- <-]. split; [|reflexivity]. unfold create_ack_message in E.
    destruct Ht as [Ht|Ht]; rewrite Ht in E; cbn in E; injection E as <- <-;
      (split; [split; cbn; tauto|split; [same|unfold stored; cbn; lia]]).
  - destruct (write_message C T data s w) as [[s2 w2] o] eqn:E. intros [= <- <-]. split; [|reflexivity].
    unfold write_message in E. unmatch E; injection E as <- <- <-;
      (split; [|split; [same|unfold stored; cbn; lia]]); (split; [exact Hk|]); cbn;
      destruct Ht as [Ht|Ht]; rewrite Ht in *; cbn in *;
      repeat match goal with H : (_, _) = (_, _) |- _ => injection H; clear H; intros; subst end; tauto.
  - destruct (try_clone s) as [s2 o] eqn:E. intros [= <- <-]. split; [|reflexivity].
    unfold try_clone in E. unmatch E; injection E as <- <-;
      (split; [|split; [same|unfold stored; cbn; lia]]); (split; [exact Hk|]); cbn; destruct Ht; intuition congruence.
  - destruct (change_config cfg s) as [s2 o] eqn:E. intros [= <- <-]. split; [|reflexivity].
    unfold change_config in E. unmatch E; injection E as <- <-;
      (split; [|split; [same|unfold stored; cbn; lia]]); (split; [exact Hk|exact Ht]).
Qed.

Lemma run_settled cs : forall s s1 h, settled s -> run C T s cs = (s1, h) -> calm s s1 /\ put_aside h = [].
Proof.
  induction cs as [|c cs IH]; intros s s1 h Hs E; cbn [run] in E.
  - injection E as <- <-. split; [exact (calm_refl s Hs)|reflexivity].
  - destruct (call_step C T s c) as [s2 r] eqn:Ec. destruct (run C T s2 cs) as [s3 h3] eqn:Er.
    injection E as <- <-. apply (step_settled _ _ _ _ Hs) in Ec as [K1 S1].
    apply (IH _ _ _ (proj1 K1)) in Er as [K2 S2]. split; [exact (calm_trans _ _ _ K1 K2)|].
    unfold put_aside in *. cbn [flat_map] in *. rewrite app_nil_r in S1. rewrite S1, S2. reflexivity.
Qed.

Lemma calm_bound s s1 : calm s s1 -> held s1 <= held s.
Proof. intros (_ & (A & B & D & E & F) & H). rewrite !held_split, A, B, D, E, F. lia. Qed.

(** A created layer is established only when it knows its peer. *)
Definition acquainted (s : msl) : Prop :=
  peer_sig_pubkey s <> None \/ msl_status s = Fail \/ exists l, msl_status s = OngoingNegotiation l WaitConnectMsg.

Lemma acquainted_action s a st r : acquainted s -> a <> Receive TConnect -> (a = Receive TAck -> peer_sig_pubkey s <> None) ->
  apply_action (msl_status s) a = (st, r) -> acquainted (set_status st s).
Proof.
  intros [H|[H|[l H]]] Ha Hb E; unfold acquainted; cbn; [left; exact H|rewrite H in E..].
  - injection E as <- _. right. left. reflexivity.
  - destruct a as [[]|[]]; cbn in E.
    + destruct l; injection E as <- _; right; right; eexists; reflexivity.
    + injection E as <- _; right; right; eexists; reflexivity.
    + injection E as <- _; right; left; reflexivity.
    + congruence.
    + left. apply Hb. reflexivity.
    + injection E as <- _; right; left; reflexivity.
Qed.

Lemma acquainted_mono s s1 : acquainted s -> (peer_sig_pubkey s <> None -> peer_sig_pubkey s1 <> None) ->
  (msl_status s1 = msl_status s \/ msl_status s1 = Fail) -> acquainted s1.
Proof.
  intros [H|[H|[l H]]] Hk Hs; [left; exact (Hk H)|..]; right; destruct Hs as [Hs|Hs]; rewrite Hs; eauto.
Qed.

Lemma inner_acquainted chk b s s1 o : acquainted s -> read_inner C T chk b s = (s1, o) -> acquainted s1.
Proof.
  intros Hs E. unfold read_inner in E. destruct (reader_read C T _ b chk) as [dd|e|p] eqn:Er.
  2, 3: injection E as <- <-; apply (acquainted_mono s); cbn; tauto.
  destruct (dd_headers dd) as [epk al pk|ch|n].
  - left. unfold read_connect, compute_shared_secret in E.
    unmatch E; injection E as <- <-;
      repeat match goal with H : (_, _) = (_, _) |- _ => injection H; clear H; intros; subst end;
      cbn; congruence.
  - unfold read_ack in E. destruct (negb _); [injection E as <- <-; exact Hs|].
    destruct (peer_sig_pubkey s) as [k|] eqn:Ek.
    + left. unmatch E; injection E as <- <-; cbn; congruence.
    + destruct (ack_msg_recv_too_early s); injection E as <- <-; apply (acquainted_mono s); cbn; tauto.
  - unfold read_user in E. destruct (_ || _); [injection E as <- <-; exact Hs|].
    destruct (apply_action (msl_status s) (Receive TUserMsg)) as [st r] eqn:Ea.
    assert (acquainted (set_status st s)) as H1 by (eapply acquainted_action; [exact Hs| | |exact Ea]; discriminate).
    destruct r as [[[]|]|e|p]; try (injection E as <- <-; exact H1).
    destruct (do data_hashed <- _; _) as [[|]|e|p]; try (injection E as <- <-; exact H1).
    destruct (update_window T n _) as [s2 o2] eqn:Eu. unfold update_window in Eu.
    unmatch Eu; injection Eu as <- <-; injection E as <- <-;
      (apply (acquainted_mono (set_status st s)); [exact H1|cbn; tauto|cbn; tauto]).
Qed.

Lemma loop_acquainted bs : forall acc s s1 o, acquainted s -> drain_loop C T bs acc s = (s1, o) -> acquainted s1.
Proof.
  induction bs as [|b bs IH]; intros acc s s1 o Hs E; cbn [drain_loop] in E.
  - injection E as <- <-. exact Hs.
  - destruct (read_inner C T false b s) as [s2 o2] eqn:E2. apply (inner_acquainted _ _ _ _ _ Hs) in E2.
    destruct o2 as [[m|]|e|p]; [exact (IH _ _ _ _ E2 E)..|injection E as <- <-; exact E2|injection E as <- <-; exact E2].
Qed.

Lemma step_acquainted s c s1 r : acquainted s -> call_step C T s c = (s1, r) -> acquainted s1.
Proof.
  intros Hs. destruct c; cbn [call_step].
  - destruct (read C T incoming s) as [s2 o] eqn:E. intros [= <- <-]. exact (inner_acquainted _ _ _ _ _ Hs E).
  - destruct (take_ack_msg_recv_too_early C T s) as [s2 o] eqn:E. intros [= <- <-].
    unfold take_ack_msg_recv_too_early, read in E. destruct (ack_msg_recv_too_early s) as [b|] eqn:Eb;
      [|injection E as <- <-; exact Hs]. apply inner_acquainted in E; [exact E|exact Hs].
  - destruct (drain_tmp_stack_user_msgs C T s) as [s2 o] eqn:E. intros [= <- <-].
    apply loop_acquainted in E; [exact E|exact Hs].
  - destruct (create_connect_message C public_key cd s) as [s2 o] eqn:E. intros [= <- <-]. unfold create_connect_message in E.
    destruct (apply_action _ _) as [st x] eqn:Ea.
    assert (acquainted (set_status st s)) as H1 by (eapply acquainted_action; [exact Hs| | |exact Ea]; discriminate).
    unmatch E; injection E as <- <-;
      repeat match goal with H : (_, _) = (_, _) |- _ => injection H; clear H; intros; subst end;
      first [exact H1|apply (acquainted_mono (set_status st s)); [exact H1|cbn; tauto|cbn; tauto]].
  - destruct (create_ack_message C cd s) as [s2 o] eqn:E. intros [= <- <-]. unfold create_ack_message in E.
    destruct (apply_action _ _) as [st x] eqn:Ea.
    assert (acquainted (set_status st s)) as H1 by (eapply acquainted_action; [exact Hs| | |exact Ea]; discriminate).
    unmatch E; injection E as <- <-;
      repeat match goal with H : (_, _) = (_, _) |- _ => injection H; clear H; intros; subst end;
      first [exact H1|apply (acquainted_mono (set_status st s)); [exact H1|cbn; tauto|cbn; tauto]].
  - destruct (write_message C T data s w) as [[s2 w2] o] eqn:E. intros [= <- <-]. unfold write_message in E.
    destruct (apply_action _ _) as [st x] eqn:Ea.
    assert (acquainted (set_status st s)) as H1 by (eapply acquainted_action; [exact Hs| | |exact Ea]; discriminate).
    destruct x as [x|e|p]; [|injection E as <- <- <-; exact H1..].
    assert (st = NegotiationSuccessful) as ->.
    { destruct (msl_status s) as [| |]; cbn in Ea; try discriminate. congruence. }
    unmatch E; injection E as <- <- <-;
      repeat match goal with H : (_, _) = (_, _) |- _ => injection H; clear H; intros; subst end;
      (apply (acquainted_mono (set_status NegotiationSuccessful s)); [exact H1|cbn; tauto|cbn; tauto]).
  - destruct (try_clone s) as [s2 o] eqn:E. intros [= <- <-].
    unfold try_clone in E. unmatch E; injection E as <- <-; apply (acquainted_mono s); cbn; tauto.
  - destruct (change_config cfg s) as [s2 o] eqn:E. intros [= <- <-].
    unfold change_config in E. unmatch E; injection E as <- <-; apply (acquainted_mono s); cbn; tauto.
Qed.

Lemma run_acquainted cs : forall s s1 h, acquainted s -> run C T s cs = (s1, h) -> acquainted s1.
Proof.
  induction cs as [|c cs IH]; intros s s1 h Hs E; cbn [run] in E.
  - injection E as <- <-. exact Hs.
  - destruct (call_step C T s c) as [s2 r] eqn:Ec. destruct (run C T s2 cs) as [s3 h3] eqn:Er.
    injection E as <- <-. exact (IH _ _ _ (step_acquainted _ _ _ _ Hs Ec) Er).
Qed.

Lemma created_acquainted r cfg pin s0 : create C r cfg pin = Ok s0 -> acquainted s0.
Proof.
  unfold create. intros E. apply obind_Ok in E as (kp & _ & E). injection E as <-. right. right. eexists. reflexivity.
Qed.

Lemma established_settled s : acquainted s -> established s -> settled s.
Proof.
  intros Hs He. apply established_iff in He. split; [|left; exact He].
  destruct Hs as [H|[H|[l H]]]; [exact H|congruence..].
Qed.

Lemma settled_memory r cfg pin s0 cs0 s h0 cs s1 h :
  create C r cfg pin = Ok s0 -> run C T s0 cs0 = (s, h0) -> established s -> run C T s cs = (s1, h) ->
  put_aside h = [] /\ held s1 <= held s.
Proof.
  intros Hc E0 He E.
  pose proof (established_settled s (run_acquainted _ _ _ _ (created_acquainted _ _ _ _ Hc) E0) He) as Hs.
  destruct (run_settled cs s s1 h Hs E) as [K A]. split; [exact A|]. exact (calm_bound s s1 K).
Qed.

(** ** Handing over what was put aside *)
Lemma loop_kept bs : forall acc s s1 o, settled s -> drain_loop C T bs acc s = (s1, o) ->
  ack_msg_recv_too_early s1 = ack_msg_recv_too_early s /\ tmp_stack_user_msgs s1 = tmp_stack_user_msgs s.
Proof.
  induction bs as [|b bs IH]; intros acc s s1 o Hs E; cbn [drain_loop] in E.
  - injection E as <- <-. split; reflexivity.
  - destruct (read_inner C T false b s) as [s2 o2] eqn:E2.
    apply (inner_settled _ _ _ _ _ Hs) in E2 as (A & _ & [D1 D2] & _). rewrite <- D1, <- D2.
    destruct o2 as [[m|]|e|p]; [exact (IH _ _ _ _ A E)..|injection E as <- <-; split; reflexivity|].
    injection E as <- <-; split; reflexivity.
Qed.

Lemma released_memory r cfg pin s0 cs0 s h0 cs s1 h :
  create C r cfg pin = Ok s0 -> run C T s0 cs0 = (s, h0) -> established s ->
  run C T s (CDrain :: CTakeAck :: cs) = (s1, h) ->
  held s1 <= held s0 + new_keys.
Proof.
  intros Hc E0 He E.
  pose proof (established_settled s (run_acquainted _ _ _ _ (created_acquainted _ _ _ _ Hc) E0) He) as Hs.
  pose proof (run_memory _ _ _ _ E0) as [K0 _].
  pose proof (run_memory _ _ _ _ E) as [K1 _].
  cbn [run call_step] in E. destruct (drain_tmp_stack_user_msgs C T s) as [s2 o2] eqn:E2.
  destruct (take_ack_msg_recv_too_early C T s2) as [s3 o3] eqn:E3.
  destruct (run C T s3 cs) as [s4 h4] eqn:E4. injection E as <- _.
  unfold drain_tmp_stack_user_msgs in E2.
  assert (settled (set_stack [] s)) as Hs' by (destruct Hs as [A B]; split; [exact A|exact B]).
  destruct (loop_settled _ _ _ _ _ Hs' E2) as (S2 & _ & _).
  pose proof (loop_kept _ _ _ _ _ Hs' E2) as [_ Hq]. cbn [tmp_stack_user_msgs set_stack] in Hq.
  assert (settled s3 /\ stored s3 = 0) as [S3 H3].
  { unfold take_ack_msg_recv_too_early, read in E3. destruct (ack_msg_recv_too_early s2) as [b|] eqn:Eb.
    - apply inner_settled in E3 as (A & _ & D & _); [|destruct S2 as [A B]; split; [exact A|exact B]].
      split; [exact A|]. apply kept_stored in D. rewrite D. unfold stored. cbn. rewrite Hq. reflexivity.
    - injection E3 as <- <-. split; [exact S2|]. unfold stored. rewrite Eb, Hq. reflexivity. }
  destruct (run_settled cs s3 s4 h4 S3 E4) as [(_ & _ & H4) _].
  assert (stored s4 <= stored s0 + 0) as H5 by lia.
  pose proof (bound s0 s4 0 (keys_trans _ _ _ K0 K1) H5) as H. lia.
Qed.

(** ** While the peer's ACK is missing *)
Lemma queue_memory s k d n data m : CryptoLaws C ->
  reachable C T s -> wants_only_ack s -> session_key s = Some k -> opens C T k d n data ->
  exists s1, run C T s (repeat (CRead d) m) = (s1, repeat (CRead d, RMsg (Ok None)) m) /\
    held s1 = held s + N.of_nat m * (len d - 16).
Proof.
  intros HL. revert s. induction m as [|m IH]; intros s HR Hw Hk Ho.
  - exists s. split; [reflexivity|]. lia.
  - pose proof (inv_reachable C T s HR) as HI.
    assert (~ received s n) as Hnr.
    { destruct (inv_nego C T s HI _ _ Hw) as (H1 & H2 & _). unfold received. rewrite H1, H2. cbn [In]. intros [H|[]]. lia. }
    destruct (opens_class C T HL _ _ _ _ Ho) as (text & L & Hd & Hc & _ & _ & _). rewrite <- Hk in Hc.
    assert (read C T d s = (set_stack (tmp_stack_user_msgs s ++ [text]) s, Ok None)) as Er.
    { destruct (read C T d s) as [s' o] eqn:E.
      apply (read_user_result C T HL s HI d text L n) in E; [|exact Hc].
      assert (~ established s) as Hne by (rewrite established_iff; unfold wants_only_ack in Hw; congruence).
      destruct E; try contradiction. reflexivity. }
    assert (len d - 16 = len text) as Hlen.
    { rewrite Hd. unfold len. rewrite seal_length by exact HL. lia. }
    destruct (IH (set_stack (tmp_stack_user_msgs s ++ [text]) s)) as (s' & H1 & H2); [|exact Hw|exact Hk|exact Ho|].
    { pose proof (reach_step C T s (CRead d) HR) as H. cbn [call_step] in H. rewrite Er in H. exact H. }
    exists s'. cbn [repeat run call_step]. rewrite Er, H1. split; [reflexivity|].
    rewrite H2, !held_split. unfold stored.
    cbn [set_stack ack_msg_recv_too_early tmp_stack_user_msgs peer_epk peer_sig_pubkey ephemeral_pubkey ephemeral
      encrypt_algo_with_secret].
    rewrite map_app, sum_app. cbn [map]. rewrite sum_one, Hlen, Nat2N.inj_succ, N.mul_succ_l. unfold bytes. lia.
Qed.

(** ** Complete mode *)
Context (Z : Zip).

Lemma msgs_nonempty l : forall acc o, acc <> [] -> uncompress_msgs Z l acc = o -> o <> Ok [].
Proof.
  induction l as [|m l IH]; intros acc o Ha E; cbn [uncompress_msgs] in E; [congruence|].
  destruct m as [al pk x|x|x]; [exact (IH _ _ Ha E)..|].
  destruct (uncompress_opt Z x) as [y|e|p]; cbn [obind] in E; [|congruence..].
  apply (IH _ _) in E; [exact E|]. destruct acc; discriminate.
Qed.

Lemma put_none d o : o <> Ok [] -> sput_aside [(SRead d, SMsgs o)] = [].
Proof. destruct o as [[|]|e|p]; [congruence|reflexivity..]. Qed.

Ltac lone :=
  eexists _; split; [cbn [run call_step];
    repeat match goal with H : _ = (_, _) |- _ => rewrite H; clear H end; reflexivity|reflexivity].

Lemma scall_aside s c s1 r : scall_step C Z T s c = (s1, r) ->
  exists cs h, run C T (minimal s) cs = (minimal s1, h) /\ put_aside h = sput_aside [(c, r)].
Proof.
  destruct c as [d|cd w|cd w|data w| |cfg]; cbn [scall_step].
  - destruct (read_bin C Z T d s) as [s2 o] eqn:E. intros [= <- <-].
    unfold read_bin in E.
    destruct (read C T d (minimal s)) as [m [[[a pk x|x|x]|]|e|p]] eqn:Er.
    + destruct (uncompress_opt Z x); try (injection E as <- <-; exists [CRead d]; lone).
      destruct (take_ack_msg_recv_too_early C T m) as [m2 [[[]|]|e|p]] eqn:Et;
        injection E as <- <-; exists [CRead d; CTakeAck]; eexists;
        (split; [cbn [run call_step]; rewrite Er, Et; reflexivity|]); try reflexivity.
      symmetry. apply put_none. destruct (uncompress_opt Z custom_data); discriminate.
    + destruct (uncompress_opt Z x); try (injection E as <- <-; exists [CRead d]; lone).
      destruct (drain_tmp_stack_user_msgs C T m) as [m2 [l|e|p]] eqn:Et;
        injection E as <- <-; exists [CRead d; CDrain]; eexists;
        (split; [cbn [run call_step]; rewrite Er, Et; reflexivity|]); try reflexivity.
      symmetry. apply put_none. eapply msgs_nonempty; [|reflexivity]. discriminate.
    + injection E as <- <-. exists [CRead d]. eexists. split; [cbn [run call_step]; rewrite Er; reflexivity|].
      symmetry. apply put_none. destruct (uncompress_opt Z x); discriminate.
    + injection E as <- <-. exists [CRead d]. lone.
    + injection E as <- <-. exists [CRead d]. lone.
    + injection E as <- <-. exists [CRead d]. lone.
  - unfold write_connect_msg_bin, writer_write_connect_msg.
    destruct (sig_key_pair s) as [seed|]; [|intros [= <- <-]; exists [], []; split; reflexivity].
    destruct (create_connect_message C _ _ (minimal s)) as [m [b|e|p]] eqn:Ec;
      [destruct (write_signed C seed b w)|..]; intros [= <- <-]; eexists [CConnect _ _]; lone.
  - unfold write_ack_msg_bin, writer_write_ack_msg.
    destruct (sig_key_pair s) as [seed|]; [|intros [= <- <-]; exists [], []; split; reflexivity].
    destruct (create_ack_message C _ (minimal s)) as [m [b|e|p]] eqn:Ec;
      [destruct (write_signed C seed b w)|..]; intros [= <- <-]; eexists [CAck _]; lone.
  - unfold write_bin, writer_write_bin_message.
    destruct (write_message C T _ (minimal s) w) as [[m w'] o] eqn:E. intros [= <- <-]. eexists [CWrite _ _]; lone.
  - unfold sl_try_clone. destruct (try_clone (minimal s)) as [m [x|e|p]] eqn:E; intros [= <- <-]; exists [CClone]; lone.
  - unfold sl_change_config. destruct (change_config cfg (minimal s)) as [m o] eqn:E; intros [= <- <-]. exists [CConfig cfg]. lone.
Qed.

Lemma srun_aside cs : forall s s1 h, srun C Z T s cs = (s1, h) ->
  exists mcs mh, run C T (minimal s) mcs = (minimal s1, mh) /\ put_aside mh = sput_aside h.
Proof.
  induction cs as [|c cs IH]; intros s s1 h E; cbn [srun] in E.
  - injection E as <- <-. exists [], []. split; reflexivity.
  - destruct (scall_step C Z T s c) as [s2 r] eqn:Ec. destruct (srun C Z T s2 cs) as [s3 h3] eqn:Er.
    injection E as <- <-. apply scall_aside in Ec as (c1 & h1 & R1 & P1). apply IH in Er as (c2 & h2 & R2 & P2).
    exists (c1 ++ c2), (h1 ++ h2). split; [eapply run_app; eassumption|].
    transitivity (put_aside h1 ++ put_aside h2); [apply flat_map_app|]. rewrite P1, P2.
    unfold sput_aside. cbn [flat_map]. rewrite app_nil_r. reflexivity.
Qed.

Lemma smemory s cs s1 h : srun C Z T s cs = (s1, h) ->
  held (minimal s1) <= held (minimal s) + new_keys + total (sput_aside h).
Proof.
  intros E. apply srun_aside in E as (mcs & mh & R & <-). exact (memory _ _ _ _ R).
Qed.

Lemma ssettled_memory r rs cfg seed pin s0 cs0 s h0 cs s1 h :
  sl_create C r rs cfg seed pin = Ok s0 -> srun C Z T s0 cs0 = (s, h0) -> sestablished s -> srun C Z T s cs = (s1, h) ->
  sput_aside h = [] /\ held (minimal s1) <= held (minimal s).
Proof.
  intros Hc E0 He E. apply sestablished_iff in He.
  apply srun_aside in E0 as (mcs0 & mh0 & R0 & _). apply srun_aside in E as (mcs & mh & R & <-).
  unfold sl_create in Hc. apply obind_Ok in Hc as (sd & _ & Hc). apply obind_Ok in Hc as (m & Hm & Hc). injection Hc as <-.
  exact (settled_memory _ _ _ _ _ _ _ _ _ _ Hm R0 He R).
Qed.

End WithEnv.

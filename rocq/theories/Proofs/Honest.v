(** Two honest peers over a reordering network: the invariant. *)

From Coq Require Import Arith ZifyBool ZifyNat ZifyN Permutation.
From Verif.Model Require Import Complete.
From Verif.Spec Require Import Wire Datagram Trace ReadSpec Accept Session Writers Attacks CompleteTrace Network.
From Verif.Proofs Require Import BaseFacts IoFacts CipherFacts ReaderFacts ReadCases WindowFacts Invariant
  Negotiation Failure DatagramFacts ReadSpecFacts Accept Keys TraceInv UserReads Ledger Nonces Sending Early
  Histories Corollaries CompleteFacts Steps CompleteMode Writing.

(** ** Lists *)
Definition some {A} (l : list A) : bool := match l with [] => false | _ => true end.
Lemma some_true {A} (l : list A) : some l = true <-> l <> [].
Proof. destruct l; cbn; split; congruence. Qed.
Lemma some_false {A} (l : list A) : some l = false <-> l = [].
Proof. destruct l; cbn; split; congruence. Qed.
Lemma some_app {A} (a b : list A) : some (a ++ b) = some a || some b.
Proof. destruct a; reflexivity. Qed.
Lemma some_map {A B} (f : A -> B) l : some (map f l) = some l.
Proof. destruct l; reflexivity. Qed.
Lemma some_perm {A} (a b : list A) : Permutation a b -> some a = some b.
Proof. intros H. destruct a; [apply Permutation_nil in H; subst; reflexivity|].
  destruct b; [symmetry in H; apply Permutation_nil in H; discriminate|reflexivity]. Qed.

Lemma conns_app a b : conns (a ++ b) = conns a ++ conns b. Proof. apply flat_map_app. Qed.
Lemma acks_app a b : acks (a ++ b) = acks a ++ acks b. Proof. apply flat_map_app. Qed.
Lemma users_app a b : users (a ++ b) = users a ++ users b. Proof. apply flat_map_app. Qed.
Lemma got_conns_app a b : got_conns (a ++ b) = got_conns a ++ got_conns b. Proof. apply flat_map_app. Qed.
Lemma got_acks_app a b : got_acks (a ++ b) = got_acks a ++ got_acks b. Proof. apply flat_map_app. Qed.
Lemma got_users_app a b : got_users (a ++ b) = got_users a ++ got_users b. Proof. apply flat_map_app. Qed.
Lemma conns_perm a b : Permutation a b -> Permutation (conns a) (conns b). Proof. apply Permutation_flat_map. Qed.
Lemma acks_perm a b : Permutation a b -> Permutation (acks a) (acks b). Proof. apply Permutation_flat_map. Qed.
Lemma users_perm a b : Permutation a b -> Permutation (users a) (users b). Proof. apply Permutation_flat_map. Qed.

Lemma without_nth_perm {A} i (l : list A) x :
  nth_error l i = Some x -> Permutation l (x :: without_nth i l).
Proof.
  intros H. apply nth_error_split in H as (a & b & -> & <-). unfold without_nth.
  rewrite firstn_app, Nat.sub_diag, firstn_all2 by lia. cbn [firstn]. rewrite app_nil_r.
  replace (skipn (S (length a)) (a ++ x :: b)) with b.
  - symmetry. apply Permutation_middle.
  - rewrite skipn_app, skipn_all2 by lia. replace (S (length a) - length a)%nat with 1%nat by lia. reflexivity.
Qed.

Section WithEnv.
Context (C : Crypto) (Z : Zip) (T : target).

(** ** Writing succeeds *)
Lemma connect_write_fwd cd a w seed r :
  takes_all w -> sig_key_pair a = Some seed -> msl_status (minimal a) = OngoingNegotiation Created r ->
  exists w', write_connect_msg_bin C Z cd a w
      = (set_minimal (set_status (OngoingNegotiation ConnectMsgSent r) (minimal a)) a, w', Ok tt) /\
    output w' = output w ++ signed_connect C seed (ephemeral_pubkey (minimal a)) (packed Z cd a).
Proof.
  intros Hw Hs Hst. unfold write_connect_msg_bin, writer_write_connect_msg. rewrite Hs.
  destruct (create_connect_message C _ _ (minimal a)) as [m oc] eqn:Ec.
  apply create_connect_cases in Ec as [(r' & Hst' & -> & ->)|(_ & e & _ & He)]; [|rewrite Hst in He; discriminate].
  rewrite Hst in Hst'. injection Hst' as <-. rewrite packed_custom.
  match goal with |- context [write_signed C seed ?b w] =>
    destruct (write_signed_all C seed b w Hw) as (w1 & -> & _ & H2) end.
  exists w1. split; [reflexivity|exact H2].
Qed.

Lemma ack_write_fwd cd a w seed l epk st :
  Inv C T (minimal a) -> takes_all w -> sig_key_pair a = Some seed ->
  msl_status (minimal a) = OngoingNegotiation l ValidConnectMsgReceived -> peer_epk (minimal a) = Some epk ->
  apply_action (msl_status (minimal a)) (Create TAck) = (st, Ok None) ->
  exists w', write_ack_msg_bin C Z cd a w = (set_minimal (set_status st (minimal a)) a, w', Ok tt) /\
    output w' = output w ++ signed_ack C seed epk (packed Z cd a).
Proof.
  intros HI Hw Hs Hst Hp Ha. unfold write_ack_msg_bin, writer_write_ack_msg. rewrite Hs.
  destruct (create_ack_message C _ (minimal a)) as [m oc] eqn:Ec.
  apply (create_ack_cases C T) in Ec as [(st' & epk' & Hst' & -> & Hp' & ->)|(_ & e & _ & He)];
    [|rewrite Ha in He; discriminate|exact HI].
  rewrite Ha in Hst'. injection Hst' as <-. rewrite Hp in Hp'. injection Hp' as <-. rewrite packed_custom.
  match goal with |- context [write_signed C seed ?b w] =>
    destruct (write_signed_all C seed b w Hw) as (w1 & -> & _ & H2) end.
  exists w1. split; [reflexivity|exact H2].
Qed.

Lemma user_write_fwd data a w k :
  takes_all w -> msl_status (minimal a) = NegotiationSuccessful -> session_key (minimal a) = Some k ->
  next_nonce_sent (minimal a) + 1 < 2 ^ 64 ->
  exists w', write_bin C Z T data a w
      = (set_minimal (set_next_nonce_sent (next_nonce_sent (minimal a) + 1) (minimal a)) a, w', Ok tt) /\
    output w' = output w ++ user_datagram C k (next_nonce_sent (minimal a)) (packed Z (Some data) a).
Proof.
  intros Hw Hst Hk Hn. unfold write_bin, writer_write_bin_message.
  destruct (write_message C T (compress Z data a) (minimal a) w) as [[m w1] o] eqn:E.
  apply write_message_cases in E as [(H & _)|[(_ & H & _)|(_ & k1 & o1 & Hk1 & He & H)]].
  - contradiction.
  - unfold session_key in Hk. rewrite H in Hk. discriminate.
  - unfold session_key in Hk. rewrite Hk1 in Hk. injection Hk as ->.
    destruct (encrypt_accepting C (hashed C (user_frame (next_nonce_sent (minimal a)) (compress Z data a))) k w Hw)
      as (w2 & E2 & _ & H2 & _).
    rewrite E2 in He. injection He as <- <-.
    assert (Hlt : (next_nonce_sent (minimal a) + 1 <? 2 ^ 64) = true) by (apply N.ltb_lt; exact Hn).
    destruct H as [(e & H & _)|[(_ & n & Hi & -> & ->)|(_ & p & Hi & _)]]; [discriminate| |];
      unfold u64_incr in Hi; rewrite Hlt in Hi; [|discriminate].
    injection Hi as <-. exists w2. split; [reflexivity|exact H2].
Qed.

(** ** One side *)
Context (HL : CryptoLaws C) (HZ : ZipLaws Z) (P : side -> party) (k : secret_key).
Context (Hk : forall x, derived_secret C (p_sk (P x)) (x25519_public C (p_sk (P (other x)))) = Some k).
Context (Hks : keystream_ok C k).

Definition epk_of (x : side) : bytes := x25519_public C (p_sk (P x)).

Definition ack_in (x : side) (cA aA : list (option bytes)) : bool := some aA && (p_pins (P x) || some cA).
Definition done (x : side) (aS cA aA : list (option bytes)) : bool := ack_in x cA aA && some aS.
Definition status_of (x : side) (cS aS cA aA : list (option bytes)) : status :=
  if done x aS cA aA then NegotiationSuccessful
  else OngoingNegotiation
         (if ack_in x cA aA then ValidAckMsgReceived else if some cS then ConnectMsgSent else Created)
         (if some aS then AckMsgSent else if some cA then ValidConnectMsgReceived else WaitConnectMsg).

Definition sound_user (y : N * bytes) (u : N * bytes) : Prop :=
  fst y = fst u /\ deflated Z (Some (snd u)) (snd y) /\ fst y < 2 ^ 64 /\ 26 + len (snd y) < 2 ^ usize_bits T.

(** What is written (c: CONNECT, a: ACK, u: user messages; S) and what was
    handed over (A) determine the layer and what it returned. *)
Record local (x : side) (cS aS : list (option bytes)) (uS : list (N * bytes))
    (cA aA : list (option bytes)) (uA : list (N * bytes))
    (s : secure_layer) (inb : list incoming_binary_message) : Prop := {
  l_reach : sreachable C Z T s;
  l_seed : sig_key_pair s = Some (p_seed (P x));
  l_clone : cloned (minimal s) = false;
  l_epk : ephemeral_pubkey (minimal s) = epk_of x;
  l_sk : forall kp, ephemeral (minimal s) = Some kp -> ekp_priv kp = p_sk (P x);
  l_status : msl_status (minimal s) = status_of x cS aS cA aA;
  l_peer : peer_sig_pubkey (minimal s)
    = if p_pins (P x) || some cA then Some (public_key C P (other x)) else None;
  l_pepk : some cA = true -> peer_epk (minimal s) = Some (epk_of (other x));
  l_key : some cA = true -> session_key (minimal s) = Some k;
  l_early : some aA && negb (ack_in x cA aA) = false -> ack_msg_recv_too_early (minimal s) = None;
  l_late : some aA && negb (ack_in x cA aA) = true -> exists cd c, aA = [cd] /\ deflated Z cd c /\
    50 + len c < 2 ^ usize_bits T /\
    ack_msg_recv_too_early (minimal s) = Some (signed_ack C (p_seed (P (other x))) (epk_of x) c);
  l_queue : done x aS cA aA = false -> exists ys,
    tmp_stack_user_msgs (minimal s) = map (fun y => hashed C (user_frame (fst y) (snd y))) ys /\
    Forall2 sound_user ys uA;
  l_drained : done x aS cA aA = true -> tmp_stack_user_msgs (minimal s) = [];
  l_received : done x aS cA aA = true -> forall m, received (minimal s) m <-> In m (map fst uA);
  l_used : done x aS cA aA = true -> used (minimal s) = len uA;
  l_taken : taken [] (map fst uA);
  l_next : next_nonce_sent (minimal s) = len uS;
  l_cause_ack : some aS = true -> some cA = true;
  l_cause_user : some uS = true -> done x aS cA aA = true;
  l_caused_user : some uA = true -> some cS = true /\ some aS = true;
  l_caused_ack : some aA = true -> some cS = true;
  l_inbox_conns : got_conns inb = map (fun cd => (cd, public_key C P (other x))) cA;
  l_inbox_acks : got_acks inb = if ack_in x cA aA then aA else [];
  l_inbox_users : got_users inb = if done x aS cA aA then map (fun u => Some (snd u)) uA else []
}.

(** A datagram travelling to [x]. *)
Definition carried (x : side) (pd : packet * bytes) : Prop :=
  match fst pd with
  | PConnect cd => exists c, deflated Z cd c /\ 86 + len c < 2 ^ usize_bits T /\
      snd pd = signed_connect C (p_seed (P (other x))) (epk_of (other x)) c
  | PAck cd => exists c, deflated Z cd c /\ 50 + len c < 2 ^ usize_bits T /\
      snd pd = signed_ack C (p_seed (P (other x))) (epk_of x) c
  | PData i data => exists c, sound_user (i, c) (i, data) /\ snd pd = user_datagram C k i c
  end.

Lemma packed_deflated cd s : deflated Z cd (packed Z cd s).
Proof. rewrite <- packed_custom. apply (compressed_deflated Z HZ). Qed.

Lemma reach_read s d s' o : sreachable C Z T s -> read_bin C Z T d s = (s', o) -> sreachable C Z T s'.
Proof. intros H E. apply (sreach_step C Z T s (SRead d)) in H. cbn [scall_step] in H. rewrite E in H. exact H. Qed.

Lemma fresh_takes cap : takes_all (fresh_writer cap).
Proof. reflexivity. Qed.
Lemma fresh_output cap : output (fresh_writer cap) = [].
Proof. reflexivity. Qed.

Ltac fields := constructor;
  cbn [set_minimal minimal sig_key_pair set_status set_stack set_ack_early set_next_nonce_sent set_window
      set_secret set_ephemeral set_peer_epk set_peer_sig_pubkey set_conf after_connect ack_msg_recv_too_early
      cloned conf encrypt_algo_with_secret ephemeral ephemeral_pubkey next_nonce_expected next_nonce_sent
      orphan_nonce_list peer_epk peer_sig_pubkey msl_status tmp_stack_user_msgs]; auto; try discriminate.

Lemma local_inv x cS aS uS cA aA uA s inb : local x cS aS uS cA aA uA s inb -> Inv C T (minimal s).
Proof. intros L. apply (inv_reachable C T), (sreachable_minimal C Z T), L. Qed.

Lemma local_connect_write x aS uS cA aA uA s inb cd cap :
  local x [] aS uS cA aA uA s inb -> fits T (packed Z cd s) ->
  exists s' w, write_connect_msg_bin C Z cd s (fresh_writer cap) = (s', w, Ok tt) /\
    local x [cd] aS uS cA aA uA s' inb /\ carried (other x) (PConnect cd, output w).
Proof.
  intros L Hf. destruct L.
  assert (aA = []) as -> by (apply some_false; destruct (some aA); [specialize (l_caused_ack0 eq_refl); discriminate|reflexivity]).
  assert (uA = []) as -> by (apply some_false; destruct (some uA); [destruct (l_caused_user0 eq_refl); discriminate|reflexivity]).
  cbn [some ack_in done andb] in *.
  destruct (connect_write_fwd cd s (fresh_writer cap) _ _ (fresh_takes cap) l_seed0 l_status0) as (w & E & Ho).
  eexists _, w. split; [exact E|]. split.
  - fields.
    apply (sreach_step C Z T s (SConnect cd (fresh_writer cap))) in l_reach0. cbn [scall_step] in l_reach0.
    rewrite E in l_reach0. exact l_reach0.
  - exists (packed Z cd s). cbn [snd]. split; [apply packed_deflated|]. unfold fits in Hf. split; [lia|].
    rewrite Ho, fresh_output, l_epk0. destruct x; reflexivity.
Qed.

Lemma nothing_received s l r : Inv C T s -> msl_status s = OngoingNegotiation l r ->
  (forall m, received s m <-> In m []) /\ used s = 0.
Proof.
  intros HI H. destruct (inv_nego C T s HI _ _ H) as (H1 & H2 & _). unfold received, used. rewrite H1, H2.
  split; [intros m; cbn [In]; split; [intros [Hm|[]]; lia|intros []]|reflexivity].
Qed.

Lemma local_ack_write x cS uS cA aA uA s inb cd cap :
  local x cS [] uS cA aA uA s inb -> some cA = true -> fits T (packed Z cd s) ->
  exists s' w, write_ack_msg_bin C Z cd s (fresh_writer cap) = (s', w, Ok tt) /\
    local x cS [cd] uS cA aA uA s' inb /\ carried (other x) (PAck cd, output w).
Proof.
  intros L Hc Hf. pose proof (local_inv _ _ _ _ _ _ _ _ _ L) as HI. destruct L.
  assert (uA = []) as -> by (apply some_false; destruct (some uA); [destruct (l_caused_user0 eq_refl); discriminate|reflexivity]).
  assert (done x [] cA aA = false) as Hd by (unfold done; apply andb_false_r).
  assert (uS = []) as -> by (apply some_false; destruct (some uS); [rewrite Hd in l_cause_user0; specialize (l_cause_user0 eq_refl); discriminate|reflexivity]).
  unfold status_of in l_status0. rewrite Hd, Hc in l_status0. cbn [some] in l_status0.
  rewrite Hd in l_queue0, l_inbox_users0. destruct (l_queue0 eq_refl) as (ys & Hq & Hys). inversion Hys; subst ys.
  destruct (nothing_received _ _ _ HI l_status0) as [Hr Hu].
  assert (exists st, apply_action (msl_status (minimal s)) (Create TAck) = (st, Ok None) /\
    st = status_of x cS [cd] cA aA) as (st & Hst & Est).
  { rewrite l_status0. unfold status_of, done. cbn [some]. destruct (ack_in x cA aA); [|destruct (some cS)]; cbn; eauto. }
  destruct (ack_write_fwd cd s (fresh_writer cap) _ _ _ st HI (fresh_takes cap) l_seed0 l_status0 (l_pepk0 Hc) Hst) as (w & E & Ho).
  eexists _, w. split; [exact E|]. split.
  - fields.
    + apply (sreach_step C Z T s (SAck cd (fresh_writer cap))) in l_reach0. cbn [scall_step] in l_reach0.
      rewrite E in l_reach0. exact l_reach0.
    + rewrite l_inbox_users0. destruct (done x [cd] cA aA); reflexivity.
  - exists (packed Z cd s). cbn [snd]. split; [apply packed_deflated|]. unfold fits in Hf. split; [lia|].
    rewrite Ho, fresh_output. destruct x; reflexivity.
Qed.

Lemma local_user_write x cS aS uS cA aA uA s inb data cap :
  local x cS aS uS cA aA uA s inb -> done x aS cA aA = true -> len uS + 1 < 2 ^ 64 ->
  fits T (packed Z (Some data) s) ->
  exists s' w, write_bin C Z T data s (fresh_writer cap) = (s', w, Ok tt) /\
    local x cS aS (uS ++ [(len uS, data)]) cA aA uA s' inb /\
    carried (other x) (PData (len uS) data, output w).
Proof.
  intros L Hd Hn Hf. destruct L.
  assert (some cA = true) as Hc by (apply l_cause_ack0; unfold done in Hd; apply andb_prop in Hd; apply Hd).
  unfold status_of in l_status0. rewrite Hd in l_status0.
  destruct (user_write_fwd data s (fresh_writer cap) k (fresh_takes cap) l_status0 (l_key0 Hc)) as (w & E & Ho);
    [rewrite l_next0; exact Hn|].
  eexists _, w. split; [exact E|]. split.
  - fields.
    + apply (sreach_step C Z T s (SWrite data (fresh_writer cap))) in l_reach0. cbn [scall_step] in l_reach0.
      rewrite E in l_reach0. exact l_reach0.
    + unfold status_of. rewrite Hd. exact l_status0.
    + rewrite l_next0, len_app, len_cons, len_nil. lia.
  - exists (packed Z (Some data) s). rewrite Ho, fresh_output, l_next0. split; [|reflexivity].
    unfold fits in Hf. repeat split; cbn [fst snd]; [apply (packed_deflated (Some data))|apply (packed_deflated (Some data))|lia|lia].
Qed.

Lemma local_config x cS aS uS cA aA uA s inb cfg :
  local x cS aS uS cA aA uA s inb ->
  exists s', sl_change_config cfg s = (s', Ok tt) /\ local x cS aS uS cA aA uA s' inb.
Proof.
  intros L. destruct L.
  assert (sl_change_config cfg s = (set_minimal (set_conf cfg (minimal s)) s, Ok tt)) as E
    by (unfold sl_change_config, change_config; rewrite l_clone0; reflexivity).
  eexists. split; [exact E|]. fields.
  apply (sreach_step C Z T s (SConfig cfg)) in l_reach0. cbn [scall_step] in l_reach0.
  rewrite E in l_reach0. exact l_reach0.
Qed.

(** ** Reading *)
Lemma local_connect_read x cS aS uS aA uA s inb cd d :
  local x cS aS uS [] aA uA s inb -> carried x (PConnect cd, d) ->
  exists s' l, read_bin C Z T d s = (s', Ok l) /\ local x cS aS uS [cd] aA uA s' (inb ++ l).
Proof.
  intros L (c & Hdc & Hb & Hd). cbn [snd] in Hd. subst d.
  pose proof (local_inv _ _ _ _ _ _ _ _ _ L) as HI. destruct L.
  assert (aS = []) as -> by (apply some_false; destruct (some aS); [specialize (l_cause_ack0 eq_refl); discriminate|reflexivity]).
  assert (uA = []) as -> by (apply some_false; destruct (some uA); [destruct (l_caused_user0 eq_refl); discriminate|reflexivity]).
  assert (forall cA, done x [] cA aA = false) as Hd by (intros cA; unfold done; apply andb_false_r).
  assert (uS = []) as -> by (apply some_false; destruct (some uS); [rewrite Hd in l_cause_user0; specialize (l_cause_user0 eq_refl); discriminate|reflexivity]).
  unfold status_of in l_status0. rewrite Hd in l_status0. cbn [some] in l_status0.
  assert (key_acceptable (minimal s) (ed25519_public C (p_seed (P (other x))))) as Hka
    by (unfold key_acceptable; rewrite l_peer0; destruct (p_pins (P x)); [right|left]; reflexivity).
  pose proof (read_connect_fwd C T HL (minimal s) _ _ (p_seed (P (other x))) (epk_of (other x)) c k HI Hka l_status0 l_sk0 (Hk x)
    (law_x25519_public_len C HL _) Hb) as Er.
  destruct (some aA && negb (ack_in x [] aA)) eqn:Ew.
  - destruct (l_late0 eq_refl) as (cd' & c' & -> & Hdc' & Hb' & Hearly). clear l_late0 l_early0.
    unfold ack_in in *. cbn [some andb orb] in *. rewrite orb_false_r in *. try rewrite orb_true_r in *. rewrite negb_true_iff in Ew.
    rewrite Ew in *.
    rewrite (l_caused_ack0 eq_refl) in *.
    set (m := set_ack_early None (after_connect ConnectMsgSent (epk_of (other x)) (ed25519_public C (p_seed (P (other x)))) k (minimal s))).
    assert (Inv C T m) as HIm.
    { apply inv_set_ack. pose proof (inv_read C T (minimal s) (signed_connect C (p_seed (P (other x))) (epk_of (other x)) c) HI) as H.
      rewrite Er in H. exact H. }
    assert (read_bin C Z T (signed_connect C (p_seed (P (other x))) (epk_of (other x)) c) s
      = (set_minimal (set_status (OngoingNegotiation ValidAckMsgReceived ValidConnectMsgReceived) m) s,
         Ok [IConnect cd (public_key C P (other x)); IAck cd'])) as E.
    { unfold read_bin. rewrite Er, (deflated_read Z cd c Hdc).
      unfold take_ack_msg_recv_too_early. cbn [after_connect set_secret set_ephemeral set_peer_epk
        set_status set_peer_sig_pubkey ack_msg_recv_too_early]. rewrite Hearly. fold m.
      change (set_ack_early None _) with m.
      rewrite <- l_epk0. change (ephemeral_pubkey (minimal s)) with (ephemeral_pubkey m).
      erewrite (read_ack_fwd C T HL m ValidConnectMsgReceived _ c' _ HIm); try reflexivity; [|exact Hb'].
      rewrite (deflated_read Z cd' c' Hdc'). reflexivity. }
    eexists _, _. split; [exact E|]. unfold m. fields; unfold ack_in, status_of, done, ack_in; cbn [some andb orb negb];
      rewrite ?orb_true_r; auto; try discriminate.
    + exact (reach_read _ _ _ _ l_reach0 E).
    + rewrite got_conns_app, l_inbox_conns0. reflexivity.
    + rewrite got_acks_app, l_inbox_acks0. reflexivity.
    + rewrite got_users_app, l_inbox_users0, Hd. reflexivity.
  - specialize (l_early0 eq_refl).
    assert (ack_in x [cd] aA = ack_in x [] aA) as Hai
      by (unfold ack_in in *; cbn [some] in *; rewrite orb_true_r, orb_false_r, andb_true_r in *;
          destruct (some aA), (p_pins (P x)); cbn in *; congruence).
    eassert (read_bin C Z T (signed_connect C (p_seed (P (other x))) (epk_of (other x)) c) s
      = (set_minimal _ s, Ok [IConnect cd (public_key C P (other x))])) as E.
    { unfold read_bin. rewrite Er, (deflated_read Z cd c Hdc), no_early_ack by exact l_early0. reflexivity. }
    eexists _, _. split; [exact E|]. fields; unfold status_of, done in *; rewrite ?Hai; cbn [some andb orb negb] in *;
      rewrite ?andb_false_r, ?orb_true_r in *; cbn [negb]; auto; try discriminate.
    + exact (reach_read _ _ _ _ l_reach0 E).
    + congruence.
    + rewrite got_conns_app, l_inbox_conns0. reflexivity.
    + rewrite got_acks_app, l_inbox_acks0. apply app_nil_r.
    + rewrite got_users_app, l_inbox_users0. reflexivity.
Qed.

Lemma uncompress_queue ys uA acc :
  Forall2 sound_user ys uA ->
  uncompress_msgs Z (drained ys) acc = Ok (acc ++ map (fun u => IMessage (Some (snd u))) uA).
Proof.
  intros H. revert acc. induction H as [|y u ys uA Hy _ IH]; intros acc; cbn [drained map uncompress_msgs].
  - rewrite app_nil_r. reflexivity.
  - destruct Hy as (_ & Hd & _). rewrite (deflated_read Z _ _ Hd). cbn [obind].
    change (map (fun x => MMessage (nonempty (snd x))) ys) with (drained ys). rewrite IH, <- app_assoc. reflexivity.
Qed.

Lemma sound_fst ys uA : Forall2 sound_user ys uA -> map fst ys = map fst uA.
Proof. induction 1 as [|y u ys uA Hy _ IH]; [reflexivity|]. cbn [map]. rewrite IH, (proj1 Hy). reflexivity. Qed.
Lemma sound_bounds ys uA : Forall2 sound_user ys uA ->
  Forall (fun x : N * bytes => fst x < 2 ^ 64 /\ 26 + len (snd x) < 2 ^ usize_bits T) ys.
Proof. induction 1 as [|y u ys uA Hy _ IH]; constructor; [split; apply Hy|exact IH]. Qed.
Lemma sound_len ys uA : Forall2 sound_user ys uA -> len ys = len uA.
Proof. induction 1; [reflexivity|]. rewrite !len_cons. congruence. Qed.

Lemma got_users_map (l : list (N * bytes)) :
  got_users (map (fun u => IMessage (Some (snd u))) l) = map (fun u => Some (snd u)) l.
Proof. induction l as [|u l IH]; [reflexivity|]. cbn. rewrite <- IH. reflexivity. Qed.
Lemma got_acks_map (l : list (N * bytes)) : got_acks (map (fun u => IMessage (Some (snd u))) l) = [].
Proof. induction l as [|u l IH]; [reflexivity|exact IH]. Qed.
Lemma got_conns_map (l : list (N * bytes)) : got_conns (map (fun u => IMessage (Some (snd u))) l) = [].
Proof. induction l as [|u l IH]; [reflexivity|exact IH]. Qed.

Lemma local_ack_read x cS aS uS cA uA s inb cd d :
  local x cS aS uS cA [] uA s inb -> some cS = true -> len uA < 2 ^ 64 -> carried x (PAck cd, d) ->
  exists s' l, read_bin C Z T d s = (s', Ok l) /\ local x cS aS uS cA [cd] uA s' (inb ++ l).
Proof.
  intros L Hc Hlen (c & Hdc & Hb & Hd). cbn [snd] in Hd. subst d.
  pose proof (local_inv _ _ _ _ _ _ _ _ _ L) as HI. destruct L.
  assert (done x aS cA [] = false) as Hd by reflexivity.
  assert (uS = []) as -> by (apply some_false; destruct (some uS); [rewrite Hd in l_cause_user0; specialize (l_cause_user0 eq_refl); discriminate|reflexivity]).
  unfold status_of in l_status0. rewrite Hd, Hc in l_status0. cbn [ack_in some andb] in l_status0.
  destruct (l_queue0 Hd) as (ys & Hq & Hys).
  destruct (nothing_received _ _ _ HI l_status0) as [Hr Hu].
  specialize (l_early0 eq_refl).
  rewrite <- l_epk0.
  destruct (p_pins (P x) || some cA) eqn:Epk.
  - assert (ack_in x cA [cd] = true) as Hai by exact Epk.
    assert (exists st, apply_action (msl_status (minimal s)) (Receive TAck) = (st, Ok None) /\
      st = status_of x cS aS cA [cd]) as (st & Hst & Est).
    { rewrite l_status0. unfold status_of, done. rewrite Hai. destruct (some aS); [|destruct (some cA)]; cbn; eauto. }
    pose proof (read_ack_fwd C T HL (minimal s) _ (p_seed (P (other x))) c st HI l_peer0 l_status0 Hst Hb) as Er.
    destruct (some aS) eqn:Eas.
    + assert (done x aS cA [cd] = true) as Hd' by (unfold done; rewrite Hai, Eas; reflexivity).
      unfold status_of in Est. rewrite Hd' in Est.
      set (m := set_stack [] (set_status st (minimal s))).
      assert (Inv C T m) as HIm.
      { apply (inv_set_stack_nil C T). pose proof (inv_read C T (minimal s) (signed_ack C (p_seed (P (other x))) (ephemeral_pubkey (minimal s)) c) HI) as H.
        rewrite Er in H. exact H. }
      destruct (drain_fwd C T HL k ys [] [] m HIm) as (v & l & Ed & HId & Hud & Hrd).
      * apply established_iff. exact Est.
      * exact (l_key0 (l_cause_ack0 eq_refl)).
      * exact Hks.
      * exact (sound_bounds _ _ Hys).
      * constructor.
      * exact Hr.
      * rewrite (sound_fst _ _ Hys). exact l_taken0.
      * change (used m) with (used (minimal s)). rewrite Hu, (sound_len _ _ Hys). lia.
      * assert (read_bin C Z T (signed_ack C (p_seed (P (other x))) (ephemeral_pubkey (minimal s)) c) s
          = (set_minimal (set_window v l m) s, Ok (IAck cd :: map (fun u => IMessage (Some (snd u))) uA))) as E.
        { unfold read_bin. rewrite Er, (deflated_read Z cd c Hdc). unfold drain_tmp_stack_user_msgs.
          cbn [set_status tmp_stack_user_msgs]. rewrite Hq. fold m. rewrite Ed. cbn [app].
          rewrite (uncompress_queue ys uA) by exact Hys. reflexivity. }
        eexists _, _. split; [exact E|].
        fields; rewrite ?Hai, ?Hd'; auto; try discriminate.
        -- exact (reach_read _ _ _ _ l_reach0 E).
        -- unfold status_of. rewrite Hd'. exact Est.
        -- rewrite Epk. exact l_peer0.
        -- intros _ n. rewrite <- (sound_fst _ _ Hys). exact (Hrd n).
        -- intros _. rewrite <- (sound_len _ _ Hys). change (used m) with (used (minimal s)) in Hud. rewrite Hu in Hud. exact Hud.
        -- rewrite got_conns_app, l_inbox_conns0. cbn. fold (got_conns (map (fun u : N * bytes => IMessage (Some (snd u))) uA)).
           rewrite got_conns_map. apply app_nil_r.
        -- rewrite got_acks_app, l_inbox_acks0. cbn. fold (got_acks (map (fun u : N * bytes => IMessage (Some (snd u))) uA)).
           rewrite got_acks_map. reflexivity.
        -- rewrite got_users_app, l_inbox_users0, Hd. cbn. fold (got_users (map (fun u : N * bytes => IMessage (Some (snd u))) uA)).
           apply got_users_map.
    + assert (done x aS cA [cd] = false) as Hd' by (unfold done; rewrite Eas; apply andb_false_r).
      assert (uA = []) as -> by (apply some_false; destruct (some uA); [destruct (l_caused_user0 eq_refl); discriminate|reflexivity]).
      inversion Hys; subst ys.
      assert (read_bin C Z T (signed_ack C (p_seed (P (other x))) (ephemeral_pubkey (minimal s)) c) s
          = (set_minimal (set_stack [] (set_status st (minimal s))) s, Ok [IAck cd])) as E.
      { unfold read_bin. rewrite Er, (deflated_read Z cd c Hdc). unfold drain_tmp_stack_user_msgs.
        cbn [set_status tmp_stack_user_msgs]. rewrite Hq. reflexivity. }
      eexists _, _. split; [exact E|].
      fields; rewrite ?Hai, ?Hd', ?Epk; auto; try discriminate.
      * exact (reach_read _ _ _ _ l_reach0 E).
      * intros _. exists []. split; [reflexivity|constructor].
      * congruence.
      * rewrite got_conns_app, l_inbox_conns0. apply app_nil_r.
      * rewrite got_acks_app, l_inbox_acks0. reflexivity.
      * rewrite got_users_app, l_inbox_users0, Hd. reflexivity.
  - assert (ack_in x cA [cd] = false) as Hai by exact Epk.
    assert (done x aS cA [cd] = false) as Hd' by (unfold done; rewrite Hai; reflexivity).
    pose proof (read_ack_early_fwd C T HL (minimal s) (p_seed (P (other x))) c HI l_peer0 l_early0 Hb) as Er.
    eassert (read_bin C Z T (signed_ack C (p_seed (P (other x))) (ephemeral_pubkey (minimal s)) c) s
          = (set_minimal _ s, Ok [])) as E by (unfold read_bin; rewrite Er; reflexivity).
    eexists _, _. split; [exact E|]. rewrite app_nil_r.
    fields; rewrite ?Hai, ?Hd'; auto; try discriminate.
    + exact (reach_read _ _ _ _ l_reach0 E).
    + unfold status_of. rewrite Hd', Hai, Hc. exact l_status0.
    + rewrite l_peer0, Epk. reflexivity.
    + intros _. exists cd, c. rewrite <- l_epk0. auto.
Qed.

Lemma taken_snoc ns n : taken [] ns -> nonce_acceptable ns n -> taken [] (ns ++ [n]).
Proof. intros H Hn. apply taken_app. split; [exact H|]. constructor; [exact Hn|constructor]. Qed.

Lemma local_user_read x cS aS uS cA aA uA s inb i data d :
  local x cS aS uS cA aA uA s inb -> some cS = true -> some aS = true -> len uA + 1 < 2 ^ 64 ->
  nonce_acceptable (map fst uA) i -> carried x (PData i data, d) ->
  exists s' l, read_bin C Z T d s = (s', Ok l) /\ local x cS aS uS cA aA (uA ++ [(i, data)]) s' (inb ++ l).
Proof.
  intros L Hc Ha Hlen Hacc (c & Hsu & Hd). cbn [snd] in Hd. subst d.
  pose proof (local_inv _ _ _ _ _ _ _ _ _ L) as HI. destruct L.
  pose proof (l_cause_ack0 Ha) as Hca.
  assert (taken [] (map fst (uA ++ [(i, data)]))) as Htk by (rewrite map_app; apply taken_snoc; assumption).
  destruct (done x aS cA aA) eqn:Hd.
  - unfold status_of in l_status0. rewrite Hd in l_status0.
    destruct Hsu as (_ & Hdc & Hi & Hb). cbn [fst snd] in *.
    pose proof (opens_user_datagram C T k i c Hi Hks Hb) as Ho.
    pose proof (proj2 (acceptable_room C T (minimal s) (map fst uA) i HI
      (taken_NoDup [] _ (NoDup_nil _) l_taken0) (l_received0 eq_refl)) Hacc) as Hroom.
    destruct (read_user_fwd C T HL (minimal s) k _ i c HI (proj2 (established_iff _) l_status0) (l_key0 Hca) Ho Hroom)
      as (v & l & Er & HI' & Hu' & Hr'); [rewrite (l_used0 eq_refl); exact Hlen|].
    assert (read_bin C Z T (user_datagram C k i c) s
      = (set_minimal (set_window v l (minimal s)) s, Ok [IMessage (Some data)])) as E.
    { unfold read_bin. rewrite Er, (deflated_read Z _ _ Hdc). reflexivity. }
    eexists _, _. split; [exact E|].
    fields; rewrite ?Hd; auto; try discriminate.
    + exact (reach_read _ _ _ _ l_reach0 E).
    + unfold status_of. rewrite Hd. exact l_status0.
    + intros _ m. rewrite map_app, in_app_iff, <- (l_received0 eq_refl m). cbn [map In fst].
      rewrite (Hr' m). intuition congruence.
    + intros _. rewrite len_app, len_cons, len_nil, <- (l_used0 eq_refl).
      change (used (set_window v l (minimal s)) = used (minimal s) + (0 + 1)). rewrite Hu'. lia.
    + rewrite got_conns_app, l_inbox_conns0. apply app_nil_r.
    + rewrite got_acks_app, l_inbox_acks0. apply app_nil_r.
    + rewrite got_users_app, l_inbox_users0, map_app. reflexivity.
  - assert (ack_in x cA aA = false) as Hai by (unfold done in Hd; rewrite Ha, andb_true_r in Hd; exact Hd).
    unfold status_of in l_status0. rewrite Hd, Hai, Hc, Ha in l_status0.
    pose proof Hsu as (_ & Hdc & Hi & Hb). cbn [fst snd] in *.
    pose proof (read_queue_fwd C T HL (minimal s) k i c HI l_status0 (l_key0 Hca) Hks Hi Hb) as Er.
    eassert (read_bin C Z T (user_datagram C k i c) s = (set_minimal _ s, Ok [])) as E
      by (unfold read_bin; rewrite Er; reflexivity).
    destruct (l_queue0 eq_refl) as (ys & Hq & Hys).
    eexists _, _. split; [exact E|]. rewrite app_nil_r.
    fields; rewrite ?Hd; auto; try discriminate.
    + exact (reach_read _ _ _ _ l_reach0 E).
    + unfold status_of. rewrite Hd, Hai, Hc, Ha. exact l_status0.
    + intros _. exists (ys ++ [(i, c)]). rewrite Hq, map_app. split; [reflexivity|].
      apply Forall2_app; [exact Hys|]. constructor; [exact Hsu|constructor].
Qed.

(** ** The network *)
Record netinv (n : net) : Prop := {
  ni_local : forall x, local x (conns (sent (n x))) (acks (sent (n x))) (users (sent (n x)))
    (conns (arrived (n x))) (acks (arrived (n x))) (users (arrived (n x))) (layer (n x)) (inbox (n x));
  ni_perm : forall x, Permutation (sent (n (other x))) (arrived (n x) ++ map fst (travelling (n x)));
  ni_carried : forall x, Forall (carried x) (travelling (n x));
  ni_conns : forall x, (length (conns (sent (n x))) <= 1)%nat;
  ni_acks : forall x, (length (acks (sent (n x))) <= 1)%nat;
  ni_users : forall x, len (users (sent (n x))) < 2 ^ 64;
  ni_numbers : forall x, map fst (users (sent (n x))) = map N.of_nat (seq 0 (length (users (sent (n x)))))
}.

Lemma other_other x : other (other x) = x. Proof. destruct x; reflexivity. Qed.

Lemma start_inv n : start C P n -> netinv n.
Proof.
  intros H. constructor.
  2: { intros x. destruct (H x) as (_ & _ & -> & -> & _), (H (other x)) as (_ & -> & _). constructor. }
  2: { intros x. destruct (H x) as (_ & _ & -> & _). constructor. }
  2-5: intros x; destruct (H x) as (_ & -> & _); cbn; try lia; reflexivity.
  intros x. destruct (H x) as (E & -> & _ & -> & ->). cbn [conns acks users flat_map].
  assert (sreachable C Z T (layer (n x))) as Hr by (eapply sreach_create; exact E).
  unfold sl_create, create, ekp_generate in E. cbn [obind] in E. injection E as E.
  revert Hr. rewrite <- E. intros Hr.
  fields.
  - intros kp Hkp. injection Hkp as <-. reflexivity.
  - cbn [some]. rewrite orb_false_r. reflexivity.
  - intros _. exists []. split; [reflexivity|constructor].
  - constructor.
Qed.

Lemma perm_conns n x : netinv n -> Permutation (conns (sent (n (other x))))
  (conns (arrived (n x)) ++ conns (map fst (travelling (n x)))).
Proof. intros H. rewrite <- conns_app. apply conns_perm, (ni_perm n H). Qed.
Lemma perm_acks n x : netinv n -> Permutation (acks (sent (n (other x))))
  (acks (arrived (n x)) ++ acks (map fst (travelling (n x)))).
Proof. intros H. rewrite <- acks_app. apply acks_perm, (ni_perm n H). Qed.
Lemma perm_users n x : netinv n -> Permutation (users (sent (n (other x))))
  (users (arrived (n x)) ++ users (map fst (travelling (n x)))).
Proof. intros H. rewrite <- users_app. apply users_perm, (ni_perm n H). Qed.

Lemma in_conns cd l : In (PConnect cd) l -> In cd (conns l).
Proof. intros H. apply in_flat_map. exists (PConnect cd). split; [exact H|left; reflexivity]. Qed.
Lemma in_acks cd l : In (PAck cd) l -> In cd (acks l).
Proof. intros H. apply in_flat_map. exists (PAck cd). split; [exact H|left; reflexivity]. Qed.
Lemma in_users i data l : In (PData i data) l -> In (i, data) (users l).
Proof. intros H. apply in_flat_map. exists (PData i data). split; [exact H|left; reflexivity]. Qed.
Lemma in_some {A} (a : A) l : In a l -> some l = true.
Proof. destruct l; [intros []|reflexivity]. Qed.

Lemma sent_some_conns n x : netinv n -> some (conns (arrived (n x))) = true -> some (conns (sent (n (other x)))) = true.
Proof. intros H Hs. rewrite (some_perm _ _ (perm_conns n x H)), some_app, Hs. reflexivity. Qed.
Lemma sent_some_acks n x : netinv n -> some (acks (arrived (n x))) = true -> some (acks (sent (n (other x)))) = true.
Proof. intros H Hs. rewrite (some_perm _ _ (perm_acks n x H)), some_app, Hs. reflexivity. Qed.

Lemma peer_acked n x : netinv n -> some (acks (sent (n (other x)))) = true -> some (conns (sent (n x))) = true.
Proof.
  intros H Hs. pose proof (l_cause_ack _ _ _ _ _ _ _ _ _ (ni_local n H (other x)) Hs) as Hc.
  apply sent_some_conns in Hc; [|exact H]. rewrite other_other in Hc. exact Hc.
Qed.
Lemma peer_sent n x : netinv n -> some (users (sent (n (other x)))) = true ->
  some (conns (sent (n x))) = true /\ some (acks (sent (n x))) = true.
Proof.
  intros H Hs. pose proof (l_cause_user _ _ _ _ _ _ _ _ _ (ni_local n H (other x)) Hs) as Hd.
  unfold done, ack_in in Hd. apply andb_prop in Hd as [Hd Ha]. apply andb_prop in Hd as [Hd _].
  split; [apply peer_acked; assumption|].
  apply sent_some_acks in Hd; [|exact H]. rewrite other_other in Hd. exact Hd.
Qed.

(** *** Writes *)
Lemma post_inv n x p s w :
  netinv n ->
  local x (conns (sent (n x) ++ [p])) (acks (sent (n x) ++ [p])) (users (sent (n x) ++ [p]))
    (conns (arrived (n x))) (acks (arrived (n x))) (users (arrived (n x))) s (inbox (n x)) ->
  carried (other x) (p, output w) ->
  (length (conns (sent (n x) ++ [p])) <= 1)%nat -> (length (acks (sent (n x) ++ [p])) <= 1)%nat ->
  len (users (sent (n x) ++ [p])) < 2 ^ 64 ->
  map fst (users (sent (n x) ++ [p])) = map N.of_nat (seq 0 (length (users (sent (n x) ++ [p])))) ->
  snd (post n x p (s, w, Ok tt)) = true /\ netinv (fst (post n x p (s, w, Ok tt))).
Proof.
  intros H Hl Hc H1 H2 H3 H4. split; [reflexivity|]. destruct H. cbn [post fst].
  constructor; intros y; destruct x, y; cbn [other upd layer sent travelling arrived inbox] in *; auto;
    try (apply ni_local0); try (apply (ni_perm0 Alice)); try (apply (ni_perm0 Bob));
    try (apply Forall_app; split; [apply ni_carried0|repeat constructor; exact Hc]).
  - rewrite map_app, app_assoc. apply Permutation_app_tail, (ni_perm0 Bob).
  - rewrite map_app, app_assoc. apply Permutation_app_tail, (ni_perm0 Alice).
Qed.

Lemma step_connect n x cd cap :
  netinv n -> conns (sent (n x)) = [] -> fits T (packed Z cd (layer (n x))) ->
  snd (net_step C Z T n (Connect x cd cap)) = true /\ netinv (fst (net_step C Z T n (Connect x cd cap))).
Proof.
  intros H Hs Hf. pose proof (ni_local n H x) as L. rewrite Hs in L.
  destruct (local_connect_write _ _ _ _ _ _ _ _ cd cap L Hf) as (s & w & E & L' & Hc).
  cbn [net_step]. rewrite E. apply post_inv; auto; rewrite ?conns_app, ?acks_app, ?users_app, ?Hs; cbn [conns acks users flat_map app];
    rewrite ?app_nil_r; auto; apply H.
Qed.

Lemma step_ack n x cd cap :
  netinv n -> got_conns (inbox (n x)) <> [] -> acks (sent (n x)) = [] -> fits T (packed Z cd (layer (n x))) ->
  snd (net_step C Z T n (Ack x cd cap)) = true /\ netinv (fst (net_step C Z T n (Ack x cd cap))).
Proof.
  intros H Hg Hs Hf. pose proof (ni_local n H x) as L. rewrite Hs in L.
  assert (some (conns (arrived (n x))) = true) as Hca.
  { rewrite (l_inbox_conns _ _ _ _ _ _ _ _ _ L) in Hg. apply some_true in Hg. rewrite some_map in Hg. exact Hg. }
  destruct (local_ack_write _ _ _ _ _ _ _ _ cd cap L Hca Hf) as (s & w & E & L' & Hc).
  cbn [net_step]. rewrite E. apply post_inv; auto; rewrite ?conns_app, ?acks_app, ?users_app, ?Hs; cbn [conns acks users flat_map app];
    rewrite ?app_nil_r; auto; apply H.
Qed.

Lemma step_send n x data cap :
  netinv n -> acks (sent (n x)) <> [] -> got_acks (inbox (n x)) <> [] -> len (users (sent (n x))) + 1 < 2 ^ 64 ->
  fits T (packed Z (Some data) (layer (n x))) ->
  snd (net_step C Z T n (Send x data cap)) = true /\ netinv (fst (net_step C Z T n (Send x data cap))).
Proof.
  intros H Ha Hg Hn Hf. pose proof (ni_local n H x) as L.
  assert (done x (acks (sent (n x))) (conns (arrived (n x))) (acks (arrived (n x))) = true) as Hd.
  { unfold done. apply some_true in Ha. rewrite Ha, andb_true_r.
    rewrite (l_inbox_acks _ _ _ _ _ _ _ _ _ L) in Hg. destruct (ack_in _ _ _); [reflexivity|contradiction]. }
  destruct (local_user_write _ _ _ _ _ _ _ _ _ data cap L Hd Hn Hf) as (s & w & E & L' & Hc).
  cbn [net_step]. rewrite E. apply post_inv; auto; rewrite ?conns_app, ?acks_app, ?users_app; cbn [conns acks users flat_map app];
    rewrite ?app_nil_r; auto; try apply H.
  - rewrite len_app, len_cons, len_nil. lia.
  - rewrite app_length, map_app, (ni_numbers n H). cbn [length map fst].
    rewrite seq_app, map_app. reflexivity.
Qed.

Lemma step_config n x cfg :
  netinv n -> snd (net_step C Z T n (Config x cfg)) = true /\ netinv (fst (net_step C Z T n (Config x cfg))).
Proof.
  intros H. destruct (local_config _ _ _ _ _ _ _ _ _ cfg (ni_local n H x)) as (s & E & L').
  cbn [net_step]. rewrite E. split; [reflexivity|]. destruct H. cbn [fst].
  constructor; intros y; destruct x, y; cbn [other upd layer sent travelling arrived inbox] in *; auto;
    try (apply ni_local0); try (apply (ni_perm0 Alice)); try (apply (ni_perm0 Bob)).
Qed.

(** *** Deliveries *)
Lemma without_nth_incl {A} i (l : list A) a : In a (without_nth i l) -> In a l.
Proof.
  unfold without_nth. rewrite in_app_iff. intros [H|H].
  - rewrite <- (firstn_skipn i l). apply in_or_app. left. exact H.
  - rewrite <- (firstn_skipn (S i) l). apply in_or_app. right. exact H.
Qed.

Lemma deliver_inv n x i p d s l :
  netinv n -> nth_error (travelling (n x)) i = Some (p, d) ->
  read_bin C Z T d (layer (n x)) = (s, Ok l) ->
  local x (conns (sent (n x))) (acks (sent (n x))) (users (sent (n x)))
    (conns (arrived (n x) ++ [p])) (acks (arrived (n x) ++ [p])) (users (arrived (n x) ++ [p])) s (inbox (n x) ++ l) ->
  snd (deliver C Z T n x i) = true /\ netinv (fst (deliver C Z T n x i)).
Proof.
  intros H Hn E L. unfold deliver. rewrite Hn, E. split; [reflexivity|]. destruct H. cbn [fst].
  pose proof (Permutation_map fst (without_nth_perm i _ _ Hn)) as Hp. cbn [map fst] in Hp.
  assert (Permutation (sent (n (other x))) ((arrived (n x) ++ [p]) ++ map fst (without_nth i (travelling (n x))))) as Hp'.
  { rewrite <- app_assoc. cbn [app]. rewrite (ni_perm0 x). apply Permutation_app_head. exact Hp. }
  constructor; intros y; destruct x, y; cbn [other upd layer sent travelling arrived inbox] in *; auto;
    try (apply ni_local0); try (apply (ni_perm0 Alice)); try (apply (ni_perm0 Bob));
    apply Forall_forall; intros a Ha; apply without_nth_incl in Ha; apply (proj1 (Forall_forall _ _) (ni_carried0 _) a Ha).
Qed.

Lemma one_each {A} (a : A) l1 l2 : (length (l1 ++ l2) <= 1)%nat -> In a l2 -> l1 = [].
Proof. rewrite app_length. destruct l1; [reflexivity|]. destruct l2; [intros _ []|cbn; lia]. Qed.

Lemma step_deliver n x i p d :
  netinv n -> nth_error (travelling (n x)) i = Some (p, d) ->
  match p with PData j _ => nonce_acceptable (map fst (users (arrived (n x)))) j | _ => True end ->
  snd (net_step C Z T n (Deliver x i)) = true /\ netinv (fst (net_step C Z T n (Deliver x i))).
Proof.
  intros H Hn HW. cbn [net_step]. pose proof (ni_local n H x) as L.
  pose proof (nth_error_In _ _ Hn) as Hin.
  pose proof (proj1 (Forall_forall _ _) (ni_carried n H x) _ Hin) as Hc.
  assert (In p (map fst (travelling (n x)))) as Hip by (apply (in_map fst) in Hin; exact Hin).
  assert (len (users (arrived (n x))) + len (users (map fst (travelling (n x)))) < 2 ^ 64) as Hlen.
  { pose proof (perm_users n x H) as Hp. apply Permutation_length in Hp. rewrite app_length in Hp.
    pose proof (ni_users n H (other x)) as Hu. unfold len in *. lia. }
  destruct p as [cd|cd|j data].
  - assert (conns (arrived (n x)) = []) as Ha.
    { apply (one_each cd _ (conns (map fst (travelling (n x))))); [|apply in_conns; exact Hip].
      rewrite <- (Permutation_length (perm_conns n x H)). apply (ni_conns n H). }
    rewrite Ha in L. destruct (local_connect_read _ _ _ _ _ _ _ _ cd d L Hc) as (s & l & E & L').
    apply (deliver_inv n x i _ d s l H Hn E). rewrite conns_app, acks_app, users_app, Ha.
    cbn [conns acks users flat_map app]. rewrite !app_nil_r. exact L'.
  - assert (acks (arrived (n x)) = []) as Ha.
    { apply (one_each cd _ (acks (map fst (travelling (n x))))); [|apply in_acks; exact Hip].
      rewrite <- (Permutation_length (perm_acks n x H)). apply (ni_acks n H). }
    rewrite Ha in L.
    assert (some (acks (sent (n (other x)))) = true) as Hs.
    { rewrite (some_perm _ _ (perm_acks n x H)), some_app. apply in_acks in Hip. rewrite (in_some _ _ Hip). apply orb_true_r. }
    destruct (local_ack_read _ _ _ _ _ _ _ _ cd d L (peer_acked n x H Hs) ltac:(lia) Hc) as (s & l & E & L').
    apply (deliver_inv n x i _ d s l H Hn E). rewrite conns_app, acks_app, users_app, Ha.
    cbn [conns acks users flat_map app]. rewrite !app_nil_r. exact L'.
  - apply in_users in Hip as Hiu.
    assert (some (users (sent (n (other x)))) = true) as Hs.
    { rewrite (some_perm _ _ (perm_users n x H)), some_app. rewrite (in_some _ _ Hiu). apply orb_true_r. }
    destruct (peer_sent n x H Hs) as [H1 H2].
    assert (1 <= len (users (map fst (travelling (n x))))) as H3.
    { destruct (users (map fst (travelling (n x)))); [destruct Hiu|]. rewrite len_cons. lia. }
    destruct (local_user_read _ _ _ _ _ _ _ _ _ j data d L H1 H2) as (s & l & E & L'); [|exact HW|exact Hc|].
    + lia.
    + apply (deliver_inv n x i _ d s l H Hn E). rewrite conns_app, acks_app, users_app.
      cbn [conns acks users flat_map app]. rewrite !app_nil_r. exact L'.
Qed.

Lemma step_inv n m :
  netinv n -> allowed Z T nonce_acceptable n m ->
  snd (net_step C Z T n m) = true /\ netinv (fst (net_step C Z T n m)).
Proof.
  intros H Ha. destruct m as [x cd cap|x cd cap|x data cap|x cfg|x i]; cbn [allowed] in Ha.
  - apply step_connect; [exact H|apply Ha|apply Ha].
  - apply step_ack; [exact H|apply Ha|apply Ha|apply Ha].
  - apply step_send; [exact H|apply Ha|apply Ha|apply Ha|apply Ha].
  - apply step_config; exact H.
  - destruct Ha as (p & d & Hn & HW). exact (step_deliver n x i p d H Hn HW).
Qed.

Lemma exec_inv n0 n : netinv n0 -> exec C Z T nonce_acceptable n0 n -> netinv n.
Proof. intros H0 E. induction E as [|n m E IH Ha]; [exact H0|]. apply step_inv; assumption. Qed.

(** ** What both sides can rely on *)
Lemma done_established n x : netinv n ->
  (sestablished (layer (n x)) <->
   done x (acks (sent (n x))) (conns (arrived (n x))) (acks (arrived (n x))) = true).
Proof.
  intros H. pose proof (ni_local n H x) as L. rewrite sestablished_iff, established_iff, (l_status _ _ _ _ _ _ _ _ _ L).
  unfold status_of. destruct (done _ _ _ _); split; congruence.
Qed.

Lemma net_not_failed n x : netinv n -> ~ sfailed C (layer (n x)).
Proof.
  intros H Hf. pose proof (ni_local n H x) as L. apply failed_iff in Hf.
  rewrite (l_status _ _ _ _ _ _ _ _ _ L) in Hf. unfold status_of in Hf. destruct (done _ _ _ _); discriminate.
Qed.

Lemma net_established n x : netinv n ->
  (sestablished (layer (n x)) <-> acks (sent (n x)) <> [] /\ got_acks (inbox (n x)) <> []).
Proof.
  intros H. rewrite (done_established n x H). pose proof (ni_local n H x) as L.
  rewrite (l_inbox_acks _ _ _ _ _ _ _ _ _ L), <- !some_true. unfold done.
  destruct (ack_in _ _ _) eqn:E; cbn [andb some].
  - assert (some (acks (arrived (n x))) = true) as -> by (unfold ack_in in E; apply andb_prop in E; apply E). tauto.
  - split; [discriminate|intros [_ ?]; discriminate].
Qed.

Lemma net_users_got n x : netinv n ->
  (sestablished (layer (n x)) -> got_users (inbox (n x)) = map (fun u => Some (snd u)) (users (arrived (n x)))) /\
  (~ sestablished (layer (n x)) -> got_users (inbox (n x)) = []).
Proof.
  intros H. rewrite (done_established n x H), (l_inbox_users _ _ _ _ _ _ _ _ _ (ni_local n H x)).
  destruct (done _ _ _ _); split; congruence.
Qed.

Lemma done_dec n x : netinv n -> sestablished (layer (n x)) \/ ~ sestablished (layer (n x)).
Proof.
  intros H. destruct (done x (acks (sent (n x))) (conns (arrived (n x))) (acks (arrived (n x)))) eqn:E.
  - left. exact (proj2 (done_established n x H) E).
  - right. rewrite (done_established n x H), E. discriminate.
Qed.

Lemma net_nothing_invented n x : netinv n ->
  exists rest, Permutation (map (fun u => Some (snd u)) (users (sent (n (other x))))) (got_users (inbox (n x)) ++ rest).
Proof.
  intros H. destruct (net_users_got n x H) as [H1 H2]. pose proof (perm_users n x H) as Hp.
  apply (Permutation_map (fun u : N * bytes => Some (snd u))) in Hp. rewrite map_app in Hp.
  destruct (done x (acks (sent (n x))) (conns (arrived (n x))) (acks (arrived (n x)))) eqn:E.
  - rewrite (H1 (proj2 (done_established n x H) E)). eauto.
  - rewrite H2; [cbn [app]; eauto|]. rewrite (done_established n x H), E. discriminate.
Qed.

Lemma net_all_got n x : netinv n -> travelling (n x) = [] -> sestablished (layer (n x)) ->
  Permutation (map (fun u => Some (snd u)) (users (sent (n (other x))))) (got_users (inbox (n x))).
Proof.
  intros H Ht He. rewrite (proj1 (net_users_got n x H) He).
  apply Permutation_map. pose proof (perm_users n x H) as Hp. rewrite Ht, app_nil_r in Hp. exact Hp.
Qed.

Lemma net_key n x : netinv n -> got_conns (inbox (n x)) <> [] -> session_key (minimal (layer (n x))) = Some k.
Proof.
  intros H Hg. pose proof (ni_local n H x) as L. apply (l_key _ _ _ _ _ _ _ _ _ L).
  rewrite (l_inbox_conns _ _ _ _ _ _ _ _ _ L) in Hg. apply some_true in Hg. rewrite some_map in Hg. exact Hg.
Qed.

Lemma net_conns n x : netinv n ->
  got_conns (inbox (n x)) = map (fun cd => (cd, public_key C P (other x))) (conns (arrived (n x))).
Proof. intros H. apply (l_inbox_conns _ _ _ _ _ _ _ _ _ (ni_local n H x)). Qed.

Lemma net_acks n x : netinv n ->
  got_acks (inbox (n x)) = if p_pins (P x) || some (conns (arrived (n x))) then acks (arrived (n x)) else [].
Proof.
  intros H. rewrite (l_inbox_acks _ _ _ _ _ _ _ _ _ (ni_local n H x)). unfold ack_in.
  destruct (acks (arrived (n x))); cbn [some andb]; [destruct (_ || _); reflexivity|reflexivity].
Qed.

(** ** Bounded reordering *)
Definition gaps (ns : list N) : Prop := forall m, In m ns -> gap_bounded ns m.

Lemma numbers_NoDup n x : netinv n -> NoDup (map fst (users (sent (n x)))).
Proof.
  intros H. rewrite (ni_numbers n H). apply FinFun.Injective_map_NoDup; [|apply seq_NoDup].
  intros a b E. apply Nat2N.inj. exact E.
Qed.

Lemma travelling_new n x i j data d : netinv n ->
  nth_error (travelling (n x)) i = Some (PData j data, d) -> ~ In j (map fst (users (arrived (n x)))).
Proof.
  intros H Hn Hin. pose proof (numbers_NoDup n (other x) H) as Hnd.
  pose proof (Permutation_map fst (perm_users n x H)) as Hp. rewrite map_app in Hp.
  apply (Permutation_NoDup Hp) in Hnd.
  apply nth_error_In, (in_map fst) in Hn. apply in_users, (in_map fst) in Hn. cbn [fst] in Hn.
  revert Hnd Hin Hn. generalize (map fst (users (map fst (travelling (n x))))) as l2.
  generalize (map fst (users (arrived (n x)))) as l1.
  induction l1 as [|a l1 IH]; intros l2 Hnd Hin Hn; [destruct Hin|].
  inversion Hnd as [|? ? Ha Hnd']; subst. destruct Hin as [->|Hin].
  - apply Ha, in_or_app. right. exact Hn.
  - exact (IH l2 Hnd' Hin Hn).
Qed.

(** The least missing number. *)
Lemma least_missing (ns : list N) (i : N) : ~ In i ns ->
  exists l, l <= i /\ ~ In l ns /\ forall m, m < l -> In m ns.
Proof.
  intros Hi. 
  assert (forall f b, (forall m, m < b -> In m ns) -> b <= i -> (N.to_nat (i - b) < f)%nat ->
    exists l, l <= i /\ ~ In l ns /\ forall m, m < l -> In m ns) as Hgo.
  { induction f as [|f IH]; intros b Hb Hle Hf; [lia|].
    destruct (in_dec N.eq_dec b ns) as [Hin|Hout].
    - assert (b <> i) by congruence. apply (IH (b + 1)); [|lia|lia].
      intros m Hm. destruct (N.eq_dec m b) as [->|]; [exact Hin|apply Hb; lia].
    - exists b. auto. }
  apply (Hgo (S (N.to_nat i)) 0); [intros m Hm; lia|lia|lia].
Qed.

(** A list of distinct numbers of an interval is not longer than the interval. *)
Lemma interval_length (l : list N) a w :
  NoDup l -> (forall m, In m l -> a < m <= a + w) -> len l <= w.
Proof.
  intros Hnd Hb.
  assert (incl l (map (fun i => a + 1 + N.of_nat i) (seq 0 (N.to_nat w)))) as Hi.
  { intros m Hm. apply Hb in Hm. apply in_map_iff. exists (N.to_nat (m - (a + 1))).
    rewrite in_seq. split; lia. }
  apply NoDup_incl_length in Hi; [|exact Hnd]. rewrite map_length, seq_length in Hi. unfold len. lia.
Qed.

Lemma gap_acceptable ns i : NoDup ns -> gaps ns -> gap_bounded ns i -> ~ In i ns -> nonce_acceptable ns i.
Proof.
  intros Hnd Hg Hi Hout. split; [exact Hout|].
  destruct (least_missing ns i Hout) as (l & Hl & Hlo & Hlb).
  destruct (N.eq_dec l i) as [->|Hne]; [left; exact Hlb|]. right. exists l. split; [exact Hlo|]. split; [exact Hlb|].
  assert (len (i :: filter (fun m => l <? m) ns) <= 10000) as Hlen.
  { apply (interval_length _ l).
    - constructor; [rewrite filter_In; tauto|apply NoDup_filter, Hnd].
    - intros m [->|Hm].
      + split; [lia|]. destruct (N.le_gt_cases m (l + 10000)) as [H|H]; [exact H|]. contradiction (Hlo (Hi l H)).
      + apply filter_In in Hm as [Hm Hlt]. apply N.ltb_lt in Hlt. split; [exact Hlt|].
        destruct (N.le_gt_cases m (l + 10000)) as [H|H]; [exact H|]. contradiction (Hlo (Hg m Hm l H)). }
  rewrite len_cons in Hlen. lia.
Qed.

Lemma gaps_snoc ns i : gaps ns -> gap_bounded ns i -> gaps (ns ++ [i]).
Proof.
  intros Hg Hi m Hm j Hj. apply in_or_app. left. apply in_app_or in Hm as [Hm|[<-|[]]]; [apply (Hg m Hm j Hj)|apply Hi, Hj].
Qed.

Lemma allowed_gap n m : netinv n -> (forall x, gaps (map fst (users (arrived (n x))))) ->
  allowed Z T gap_bounded n m -> allowed Z T nonce_acceptable n m.
Proof.
  intros H Hg. destruct m as [x cd cap|x cd cap|x data cap|x cfg|x i]; cbn [allowed]; auto.
  intros (p & d & Hn & HW). exists p, d. split; [exact Hn|]. destruct p as [| |j data]; auto.
  apply gap_acceptable; [|apply Hg|exact HW|exact (travelling_new n x i j data d H Hn)].
  apply (taken_NoDup [] _ (NoDup_nil _)), (l_taken _ _ _ _ _ _ _ _ _ (ni_local n H x)).
Qed.

Lemma gaps_step n m : netinv n -> (forall x, gaps (map fst (users (arrived (n x))))) ->
  allowed Z T gap_bounded n m -> forall x, gaps (map fst (users (arrived (fst (net_step C Z T n m) x)))).
Proof.
  intros H Hg Ha y. pose proof (proj1 (step_inv n m H (allowed_gap n m H Hg Ha))) as Hok.
  destruct m as [x cd cap|x cd cap|x data cap|x cfg|x i]; cbn [net_step] in *.
  - destruct (write_connect_msg_bin _ _ _ _ _) as [[s w] [u|e|p]]; destruct x, y; apply Hg.
  - destruct (write_ack_msg_bin _ _ _ _ _) as [[s w] [u|e|p]]; destruct x, y; apply Hg.
  - destruct (write_bin _ _ _ _ _ _) as [[s w] [u|e|p]]; destruct x, y; apply Hg.
  - destruct (sl_change_config _ _) as [s o]. destruct x, y; apply Hg.
  - destruct Ha as (p & d & Hn & HW). unfold deliver. rewrite Hn.
    destruct (read_bin C Z T d (layer (n x))) as [s o]. cbn [fst].
    assert (gaps (map fst (users (arrived (n x) ++ [p])))) as Hgx.
    { rewrite users_app, map_app. destruct p as [cd|cd|j data]; cbn [users flat_map map app fst];
        rewrite ?app_nil_r; try apply Hg. apply gaps_snoc; [apply Hg|exact HW]. }
    destruct x, y; cbn [upd arrived]; auto.
Qed.

Lemma exec_gap n0 n : netinv n0 -> (forall x, arrived (n0 x) = []) ->
  exec C Z T gap_bounded n0 n ->
  exec C Z T nonce_acceptable n0 n /\ forall x, gaps (map fst (users (arrived (n x)))).
Proof.
  intros H0 H1 E. induction E as [|n m E IH Ha].
  - split; [constructor|]. intros x. rewrite H1. intros m [].
  - destruct IH as [E' Hg]. pose proof (exec_inv n0 n H0 E') as H. split.
    + constructor; [exact E'|]. apply allowed_gap; assumption.
    + apply gaps_step; assumption.
Qed.

(** ** Progress *)
Lemma exec_trans W n0 n1 n2 : exec C Z T W n0 n1 -> exec C Z T W n1 n2 -> exec C Z T W n0 n2.
Proof. intros H1 H2. induction H2; [exact H1|]. constructor; assumption. Qed.

Definition before (p q : packet) : Prop :=
  match p, q with PData i _, PData j _ => i <= j | PData _ _, _ => False | _, _ => True end.
Lemma first_packet (l : list packet) : l <> [] -> exists p, In p l /\ forall q, In q l -> before p q.
Proof.
  induction l as [|a l IH]; [congruence|intros _].
  destruct l as [|b l].
  - exists a. split; [left; reflexivity|]. intros q [<-|[]]. destruct a; cbn; auto. lia.
  - destruct IH as (p & Hp & Hq); [discriminate|].
    destruct a as [cd|cd|i data].
    + exists (PConnect cd). split; [left; reflexivity|]. intros q _. exact I.
    + exists (PAck cd). split; [left; reflexivity|]. intros q _. exact I.
    + destruct p as [cd|cd|j data'].
      * exists (PConnect cd). split; [right; exact Hp|]. intros q _. exact I.
      * exists (PAck cd). split; [right; exact Hp|]. intros q _. exact I.
      * destruct (N.le_gt_cases i j) as [Hij|Hij].
        -- exists (PData i data). split; [left; reflexivity|]. intros q [<-|Hin]; [cbn; lia|].
           apply Hq in Hin. destruct q; cbn in *; try lia; destruct Hin.
        -- exists (PData j data'). split; [right; exact Hp|]. intros q [<-|Hin]; [cbn; lia|exact (Hq q Hin)].
Qed.

Lemma some_deliverable n x : netinv n -> travelling (n x) <> [] ->
  exists i, allowed Z T gap_bounded n (Deliver x i) /\ (i < length (travelling (n x)))%nat.
Proof.
  intros H Ht. destruct (first_packet (map fst (travelling (n x)))) as (p & Hp & Hq).
  { intros E. apply map_eq_nil in E. contradiction. }
  apply in_map_iff in Hp as ([p' d] & <- & Hin). cbn [fst] in Hq.
  apply In_nth_error in Hin as [i Hn]. exists i. split; [|apply nth_error_Some; congruence].
  exists p', d. split; [exact Hn|]. destruct p' as [cd|cd|j data]; auto.
  intros m Hm.
  pose proof (nth_error_In _ _ Hn) as Hin. apply (in_map fst) in Hin. apply in_users, (in_map fst) in Hin. cbn [fst] in Hin.
  pose proof (Permutation_map fst (perm_users n x H)) as Hp. rewrite map_app in Hp.
  assert (In j (map fst (users (sent (n (other x)))))) as Hj
    by (apply (Permutation_in _ (Permutation_sym Hp)), in_or_app; right; exact Hin).
  assert (In m (map fst (users (sent (n (other x)))))) as Hms.
  { rewrite (ni_numbers n H) in *. apply in_map_iff in Hj as (j' & Hj & Hs). apply in_seq in Hs.
    apply in_map_iff. exists (N.to_nat m). rewrite in_seq. split; lia. }
  apply (Permutation_in _ Hp), in_app_or in Hms as [Hms|Hms]; [exact Hms|].
  apply in_map_iff in Hms as ([m' data'] & Em & Hms). cbn [fst] in Em. subst m'.
  apply in_flat_map in Hms as (q & Hqin & Hqm). apply Hq in Hqin.
  destruct q as [| |j' data'']; [destruct Hqm|destruct Hqm|].
  destruct Hqm as [E|[]]. injection E as -> ->. cbn in Hqin. lia.
Qed.

Definition load (n : net) : nat := (length (travelling (n Alice)) + length (travelling (n Bob)))%nat.

Lemma without_nth_length {A} i (l : list A) : (i < length l)%nat -> S (length (without_nth i l)) = length l.
Proof. intros H. unfold without_nth. rewrite app_length, firstn_length, skipn_length. lia. Qed.

Lemma deliver_shape n x i : (i < length (travelling (n x)))%nat ->
  (S (load (fst (net_step C Z T n (Deliver x i)))) = load n)%nat /\
  forall y, sent (fst (net_step C Z T n (Deliver x i)) y) = sent (n y).
Proof.
  intros Hi. cbn [net_step]. unfold deliver. apply nth_error_Some in Hi as Hn.
  destruct (nth_error (travelling (n x)) i) as [[p d]|] eqn:En; [|contradiction].
  destruct (read_bin C Z T d (layer (n x))) as [s o]. cbn [fst].
  split.
  - apply without_nth_length in Hi. unfold load. destruct x; cbn [upd travelling]; lia.
  - intros y. destruct x, y; reflexivity.
Qed.

(** Nets whose deliveries respected the bound, and where every execution can go on. *)
Definition good (n : net) : Prop := netinv n /\ forall x, gaps (map fst (users (arrived (n x)))).
Lemma good_step n m : good n -> allowed Z T gap_bounded n m -> good (fst (net_step C Z T n m)).
Proof.
  intros [H Hg] Ha. split; [apply step_inv; [exact H|apply allowed_gap; assumption]|apply gaps_step; assumption].
Qed.

(** Moves that write no data. *)
Definition quiet (m : move) : Prop :=
  match m with Connect _ None _ | Ack _ None _ | Deliver _ _ => True | _ => False end.
Inductive qexec (n0 : net) : net -> Prop :=
| qexec_start : qexec n0 n0
| qexec_step n m : qexec n0 n -> allowed Z T gap_bounded n m -> quiet m -> qexec n0 (fst (net_step C Z T n m)).
Lemma qexec_trans n0 n1 n2 : qexec n0 n1 -> qexec n1 n2 -> qexec n0 n2.
Proof. intros H. induction 1 as [|n m _ IH Ha Hq]; [exact H|]. constructor; assumption. Qed.
Lemma qexec_exec n0 n1 : qexec n0 n1 -> exec C Z T gap_bounded n0 n1.
Proof. induction 1 as [|n m _ IH Ha Hq]; constructor; assumption. Qed.

Lemma deliver_all n : good n ->
  exists n', qexec n n' /\ good n' /\ (forall x, travelling (n' x) = []) /\
    forall x, sent (n' x) = sent (n x).
Proof.
  remember (load n) as f eqn:Hf. revert n Hf. induction f as [|f IH]; intros n Hf H.
  - exists n. split; [constructor|]. split; [exact H|]. split; [|reflexivity].
    intros x. apply length_zero_iff_nil. unfold load in Hf. destruct x; lia.
  - assert (exists x, travelling (n x) <> []) as [x Hx].
    { destruct (travelling (n Alice)) eqn:Ea; [|exists Alice; congruence].
      destruct (travelling (n Bob)) eqn:Eb; [|exists Bob; congruence].
      unfold load in Hf. rewrite Ea, Eb in Hf. discriminate. }
    destruct (some_deliverable n x (proj1 H) Hx) as (i & Ha & Hi).
    destruct (deliver_shape n x i Hi) as [Hl Hs].
    destruct (IH (fst (net_step C Z T n (Deliver x i))) ltac:(lia) (good_step _ _ H Ha)) as (n' & E & H' & Ht & Hs').
    exists n'. split; [|split; [exact H'|split; [exact Ht|]]].
    + apply (qexec_trans _ _ _ (qexec_step n n (Deliver x i) (qexec_start n) Ha I) E).
    + intros y. rewrite Hs', Hs. reflexivity.
Qed.

Lemma fits_none s : fits T (packed Z None s).
Proof. unfold fits. cbn [packed]. rewrite len_nil. unfold usize_bits. destruct (usize_width T); reflexivity. Qed.

Lemma ensure_connect n x : good n ->
  exists n', qexec n n' /\ good n' /\ some (conns (sent (n' x))) = true /\
    forall y, some (conns (sent (n y))) = true -> some (conns (sent (n' y))) = true.
Proof.
  intros H. destruct (some (conns (sent (n x)))) eqn:E.
  - exists n. split; [constructor|]. auto.
  - apply some_false in E.
    assert (allowed Z T gap_bounded n (Connect x None 0)) as Ha by (split; [exact E|apply fits_none]).
    pose proof (good_step _ _ H Ha) as H'. exists (fst (net_step C Z T n (Connect x None 0))).
    split; [constructor; [constructor|exact Ha|exact I]|]. split; [exact H'|].
    pose proof (proj1 (step_connect n x None 0 (proj1 H) E (fits_none _))) as Hok.
    cbn [net_step] in *. unfold post in *.
    destruct (write_connect_msg_bin _ _ _ _ _) as [[s w] [u|e|p]]; cbn [fst snd] in *; try discriminate.
    split.
    + destruct x; cbn [upd other sent]; rewrite conns_app, some_app; apply orb_true_r.
    + intros y Hy. destruct x, y; cbn [upd other sent]; rewrite ?conns_app, ?some_app, ?Hy; auto.
Qed.

Lemma ensure_ack n x : good n -> some (conns (arrived (n x))) = true ->
  exists n', qexec n n' /\ good n' /\ some (acks (sent (n' x))) = true /\
    forall y, (some (acks (sent (n y))) = true -> some (acks (sent (n' y))) = true) /\ arrived (n' y) = arrived (n y).
Proof.
  intros H Hc. destruct (some (acks (sent (n x)))) eqn:E.
  - exists n. split; [constructor|]. auto.
  - apply some_false in E.
    assert (got_conns (inbox (n x)) <> []) as Hg.
    { rewrite (net_conns n x (proj1 H)). apply some_true. rewrite some_map. exact Hc. }
    assert (allowed Z T gap_bounded n (Ack x None 0)) as Ha by (split; [exact Hg|split; [exact E|apply fits_none]]).
    pose proof (good_step _ _ H Ha) as H'. exists (fst (net_step C Z T n (Ack x None 0))).
    split; [constructor; [constructor|exact Ha|exact I]|]. split; [exact H'|].
    pose proof (proj1 (step_ack n x None 0 (proj1 H) Hg E (fits_none _))) as Hok.
    cbn [net_step] in *. unfold post in *.
    destruct (write_ack_msg_bin _ _ _ _ _) as [[s w] [u|e|p]]; cbn [fst snd] in *; try discriminate.
    split.
    + destruct x; cbn [upd other sent]; rewrite acks_app, some_app; apply orb_true_r.
    + intros y. split; [intros Hy|]; destruct x, y; cbn [upd other sent arrived]; rewrite ?acks_app, ?some_app, ?Hy; auto.
Qed.

Lemma arrived_all n x : netinv n -> travelling (n x) = [] -> Permutation (sent (n (other x))) (arrived (n x)).
Proof. intros H Ht. pose proof (ni_perm n H x) as Hp. rewrite Ht, app_nil_r in Hp. exact Hp. Qed.

Theorem completable_quietly n : good n ->
  exists n', qexec n n' /\ good n' /\
    forall x, sestablished (layer (n' x)) /\ travelling (n' x) = [].
Proof.
  intros H.
  destruct (ensure_connect n Alice H) as (n1 & E1 & H1 & C1 & _).
  destruct (ensure_connect n1 Bob H1) as (n2 & E2 & H2 & C2 & C2').
  destruct (deliver_all n2 H2) as (n3 & E3 & H3 & T3 & S3).
  assert (forall x, some (conns (arrived (n3 x))) = true) as C3.
  { intros x. rewrite <- (some_perm _ _ (conns_perm _ _ (arrived_all n3 x (proj1 H3) (T3 x)))), S3.
    destruct x; cbn [other]; auto. }
  destruct (ensure_ack n3 Alice H3 (C3 Alice)) as (n4 & E4 & H4 & A4 & A4').
  destruct (ensure_ack n4 Bob H4) as (n5 & E5 & H5 & A5 & A5').
  { rewrite (proj2 (A4' Bob)). apply C3. }
  destruct (deliver_all n5 H5) as (n6 & E6 & H6 & T6 & S6).
  exists n6. split; [|split; [exact H6|]].
  - apply (qexec_trans _ _ _ E1), (qexec_trans _ _ _ E2), (qexec_trans _ _ _ E3),
      (qexec_trans _ _ _ E4), (qexec_trans _ _ _ E5), E6.
  - intros x. split; [|apply T6]. apply (done_established n6 x (proj1 H6)).
    assert (forall y, some (acks (sent (n6 y))) = true) as A6.
    { intros y. rewrite S6. destruct y; [apply A5', A4|exact A5]. }
    unfold done, ack_in. rewrite A6.
    rewrite <- (some_perm _ _ (acks_perm _ _ (arrived_all n6 x (proj1 H6) (T6 x)))), A6.
    rewrite (l_cause_ack _ _ _ _ _ _ _ _ _ (ni_local n6 (proj1 H6) x) (A6 x)), orb_true_r. reflexivity.
Qed.

Theorem completable n : good n ->
  exists n', exec C Z T gap_bounded n n' /\ good n' /\
    forall x, sestablished (layer (n' x)) /\ travelling (n' x) = [].
Proof.
  intros H. destruct (completable_quietly n H) as (n' & E & H'). exists n'. split; [exact (qexec_exec _ _ E)|exact H'].
Qed.

End WithEnv.

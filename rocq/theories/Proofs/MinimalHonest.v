(** Two honest minimal-mode applications over a reordering network: the invariant. *)

From Coq Require Import Arith ZifyBool ZifyNat ZifyN Permutation.
From Verif.Model Require Import Minimal.
From Verif.Spec Require Import Wire Datagram Trace ReadSpec Accept Session Writers Attacks Network MinimalNetwork.
From Verif.Proofs Require Import BaseFacts IoFacts CipherFacts ReaderFacts ReadCases WindowFacts Invariant
  Negotiation Failure DatagramFacts ReadSpecFacts Accept Keys TraceInv UserReads Ledger Nonces Sending Early
  Histories Corollaries Steps CompleteMode Writing Honest.

(** ** Lists *)
Lemma read_conns_app a b : read_conns (a ++ b) = read_conns a ++ read_conns b. Proof. apply flat_map_app. Qed.
Lemma read_acks_app a b : read_acks (a ++ b) = read_acks a ++ read_acks b. Proof. apply flat_map_app. Qed.
Lemma read_users_app a b : read_users (a ++ b) = read_users a ++ read_users b. Proof. apply flat_map_app. Qed.

Lemma read_users_drained xs : read_users (drained xs) = map (fun u => nonempty (snd u)) xs.
Proof. induction xs as [|y xs IH]; [reflexivity|]. cbn. f_equal. exact IH. Qed.
Lemma read_acks_drained xs : read_acks (drained xs) = [].
Proof. induction xs as [|y xs IH]; [reflexivity|exact IH]. Qed.
Lemma read_conns_drained xs : read_conns (drained xs) = [].
Proof. induction xs as [|y xs IH]; [reflexivity|exact IH]. Qed.
Lemma drained_length xs : length (drained xs) = length xs.
Proof. apply map_length. Qed.

(** Numbers taken one after the other, none more than 10000 places early. *)
Inductive close : list N -> list N -> Prop :=
| close_nil ns : close ns []
| close_cons ns n l : gap_bounded ns n -> close (ns ++ [n]) l -> close ns (n :: l).

Lemma gap_more ns ns' n : incl ns ns' -> gap_bounded ns n -> gap_bounded ns' n.
Proof. intros Hi H j Hj. apply Hi, H, Hj. Qed.
Lemma close_more ns ns' l : incl ns ns' -> close ns l -> close ns' l.
Proof.
  intros Hi H. revert ns' Hi. induction H as [ns|ns n l Hn _ IH]; intros ns' Hi; constructor.
  - exact (gap_more _ _ _ Hi Hn).
  - apply IH. intros m Hm. apply in_app_or in Hm as [Hm|Hm]; apply in_or_app; auto.
Qed.
Lemma close_snoc ns l n : close ns l -> gap_bounded (ns ++ l) n -> close ns (l ++ [n]).
Proof.
  induction 1 as [ns|ns m l Hm _ IH]; intros Hn; cbn [app].
  - rewrite app_nil_r in Hn. constructor; [exact Hn|constructor].
  - constructor; [exact Hm|]. apply IH. rewrite <- app_assoc. exact Hn.
Qed.
Lemma close_app ns a b : close ns a -> close (ns ++ a) b -> close ns (a ++ b).
Proof.
  induction 1 as [ns|ns m l Hm _ IH]; cbn [app]; intros Hb; [rewrite app_nil_r in Hb; exact Hb|].
  constructor; [exact Hm|]. apply IH. rewrite <- app_assoc. exact Hb.
Qed.
Lemma close_gaps ns l : gaps ns -> close ns l -> gaps (ns ++ l).
Proof.
  intros Hg H. induction H as [ns|ns n l Hn _ IH]; [rewrite app_nil_r; exact Hg|].
  replace (ns ++ n :: l) with ((ns ++ [n]) ++ l) by (rewrite <- app_assoc; reflexivity).
  apply IH, gaps_snoc; assumption.
Qed.
Lemma nodup_left {A} (a b : list A) : NoDup (a ++ b) -> NoDup a.
Proof.
  induction a as [|m a IH]; intros H; [constructor|]. inversion H as [|? ? H1 H2]; subst.
  constructor; [|exact (IH H2)]. intros Hm. apply H1, in_or_app. left. exact Hm.
Qed.
Lemma close_taken ns l : NoDup (ns ++ l) -> gaps ns -> close ns l -> taken ns l.
Proof.
  intros Hnd Hg H. induction H as [ns|ns n l Hn _ IH]; constructor.
  - apply gap_acceptable; auto.
    + exact (nodup_left _ _ Hnd).
    + apply NoDup_remove_2 in Hnd. intros Hin. apply Hnd, in_or_app. left. exact Hin.
  - apply IH; [rewrite <- app_assoc; exact Hnd|apply gaps_snoc; assumption].
Qed.

Section WithEnv.
Context (C : Crypto) (T : target).
Context (HL : CryptoLaws C) (P : side -> party) (k : secret_key).
Context (Hk : forall x, derived_secret C (p_sk (P x)) (x25519_public C (p_sk (P (other x)))) = Some k).
Context (Hks : keystream_ok C k).

Notation epk_of := (Honest.epk_of C P).

Definition mstatus (ai : bool) (cS aS cA : list (option bytes)) : status :=
  if ai && some aS then NegotiationSuccessful
  else OngoingNegotiation
         (if ai then ValidAckMsgReceived else if some cS then ConnectMsgSent else Created)
         (if some aS then AckMsgSent else if some cA then ValidConnectMsgReceived else WaitConnectMsg).

Definition sound (y : N * bytes) : Prop := fst y < 2 ^ 64 /\ 26 + len (snd y) < 2 ^ usize_bits T.
Definition shown (cd : option bytes) : option bytes := nonempty (custom cd).

(** What is written (S), handed over (A), kept and returned determines the
    layer; [ai] tells whether the ACK was returned. *)
Record mlocal (x : side) (cS aS : list (option bytes)) (uS : list (N * bytes))
    (cA aA : list (option bytes)) (kp gt : list (N * bytes)) (ai : bool)
    (s : msl) (inb : list message) : Prop := {
  q_reach : reachable C T s;
  q_clone : cloned s = false;
  q_epk : ephemeral_pubkey s = epk_of x;
  q_sk : forall e, ephemeral s = Some e -> ekp_priv e = p_sk (P x);
  q_status : msl_status s = mstatus ai cS aS cA;
  q_peer : peer_sig_pubkey s = if p_pins (P x) || some cA then Some (public_key C P (other x)) else None;
  q_pepk : some cA = true -> peer_epk s = Some (epk_of (other x));
  q_key : some cA = true -> session_key s = Some k;
  q_ai : ai = true -> some aA = true;
  q_early : some aA && negb ai = false -> ack_msg_recv_too_early s = None;
  q_late : some aA && negb ai = true -> p_pins (P x) = false /\ exists cd, aA = [cd] /\
    50 + len (custom cd) < 2 ^ usize_bits T /\
    ack_msg_recv_too_early s = Some (signed_ack C (p_seed (P (other x))) (epk_of x) (custom cd));
  q_queue : tmp_stack_user_msgs s = map (fun y => hashed C (user_frame (fst y) (snd y))) kp;
  q_sound : Forall sound kp;
  q_received : forall m, received s m <-> In m (map fst gt);
  q_used : used s = len gt;
  q_none : ai = false -> gt = [];
  q_nodup : NoDup (map fst (gt ++ kp));
  q_close : close [] (map fst gt);
  q_next_close : close (map fst gt) (map fst kp);
  q_next : next_nonce_sent s = len uS;
  q_cause_ack : some aS = true -> some cA = true;
  q_cause_user : some uS = true -> ai = true /\ some aS = true;
  q_caused_user : some (gt ++ kp) = true -> some cS = true /\ some aS = true;
  q_caused_ack : some aA = true -> some cS = true;
  q_conns : read_conns inb = map (fun cd => (public_key C P (other x), shown cd)) cA;
  q_acks : read_acks inb = if ai then map shown aA else [];
  q_users : read_users inb = map (fun u => nonempty (snd u)) gt
}.

(** A datagram travelling to [x]. *)
Definition mcarried (x : side) (pd : packet * bytes) : Prop :=
  match fst pd with
  | PConnect cd => 86 + len (custom cd) < 2 ^ usize_bits T /\
      snd pd = signed_connect C (p_seed (P (other x))) (epk_of (other x)) (custom cd)
  | PAck cd => 50 + len (custom cd) < 2 ^ usize_bits T /\
      snd pd = signed_ack C (p_seed (P (other x))) (epk_of x) (custom cd)
  | PData i data => sound (i, data) /\ snd pd = user_datagram C k i data
  end.

Lemma mreach_step s c s' : reachable C T s -> fst (call_step C T s c) = s' -> reachable C T s'.
Proof. intros H <-. apply reach_step, H. Qed.

Ltac fields := constructor;
  cbn [set_status set_stack set_ack_early set_next_nonce_sent set_window
      set_secret set_ephemeral set_peer_epk set_peer_sig_pubkey set_conf after_connect ack_msg_recv_too_early
      cloned conf encrypt_algo_with_secret ephemeral ephemeral_pubkey next_nonce_expected next_nonce_sent
      orphan_nonce_list peer_epk peer_sig_pubkey msl_status tmp_stack_user_msgs]; auto; try discriminate.

Lemma mlocal_inv x cS aS uS cA aA kp gt ai s inb : mlocal x cS aS uS cA aA kp gt ai s inb -> Inv C T s.
Proof. intros L. apply (inv_reachable C T), L. Qed.

Ltac empty l := apply some_false; destruct (some l) eqn:?; [|reflexivity].

(** ** Writing *)
Lemma mlocal_connect_write x aS uS cA aA kp gt ai s inb cd :
  mlocal x [] aS uS cA aA kp gt ai s inb -> fits T (custom cd) ->
  exists s' b, create_connect_message C (public_key C P x) cd s = (s', Ok b) /\
    mlocal x [cd] aS uS cA aA kp gt ai s' inb /\
    mcarried (other x) (PConnect cd, b ++ ed25519_sign C (p_seed (P x)) b).
Proof.
  intros L Hf. destruct L.
  assert (aA = []) as -> by (empty aA; specialize (q_caused_ack0 eq_refl); discriminate).
  assert (ai = false) as -> by (destruct ai; [specialize (q_ai0 eq_refl); discriminate|reflexivity]).
  destruct (create_connect_message C (public_key C P x) cd s) as [s' o] eqn:E.
  pose proof E as E'. unfold mstatus in q_status0. cbn [some andb] in q_status0.
  apply create_connect_cases in E' as [(r & Hst & -> & ->)|(_ & e & _ & He)]; [|rewrite q_status0 in He; discriminate].
  eexists _, _. split; [reflexivity|]. split.
  - fields.
    + apply (mreach_step s (CConnect (public_key C P x) cd) _ q_reach0). cbn [call_step]. rewrite E. reflexivity.
    + unfold mstatus. cbn [some andb]. rewrite q_status0 in Hst. injection Hst as <-. reflexivity.
    + intros H. destruct (q_caused_user0 H) as [H1 _]. discriminate.
  - unfold fits in Hf. split; [lia|]. cbn [snd]. rewrite q_epk0. destruct x; reflexivity.
Qed.

Lemma mlocal_ack_write x cS uS cA aA kp gt ai s inb cd :
  mlocal x cS [] uS cA aA kp gt ai s inb -> some cA = true -> fits T (custom cd) ->
  exists s' b, create_ack_message C cd s = (s', Ok b) /\
    mlocal x cS [cd] uS cA aA kp gt ai s' inb /\
    mcarried (other x) (PAck cd, b ++ ed25519_sign C (p_seed (P x)) b).
Proof.
  intros L Hc Hf. pose proof (mlocal_inv _ _ _ _ _ _ _ _ _ _ _ L) as HI. destruct L.
  assert (gt ++ kp = []) as Hn by (empty (gt ++ kp); destruct (q_caused_user0 eq_refl); discriminate).
  apply app_eq_nil in Hn as [-> ->].
  assert (uS = []) as -> by (empty uS; destruct (q_cause_user0 eq_refl); discriminate).
  unfold mstatus in q_status0. rewrite Hc in q_status0. cbn [some andb] in q_status0. rewrite Bool.andb_false_r in q_status0.
  assert (exists st, apply_action (msl_status s) (Create TAck) = (st, Ok None) /\
    st = mstatus ai cS [cd] cA) as (st & Hst & Est).
  { rewrite q_status0. unfold mstatus. cbn [some]. destruct ai; [|destruct (some cS)]; cbn; eauto. }
  destruct (create_ack_message C cd s) as [s' o] eqn:E. pose proof E as E'.
  apply (create_ack_cases C T) in E' as [(st' & epk' & Hst' & -> & Hp' & ->)|(_ & e & _ & He)];
    [|rewrite Hst in He; discriminate|exact HI].
  rewrite Hst in Hst'. injection Hst' as <-. rewrite (q_pepk0 Hc) in Hp'. injection Hp' as <-.
  eexists _, _. split; [reflexivity|]. split.
  - fields.
    + apply (mreach_step s (CAck cd) _ q_reach0). cbn [call_step]. rewrite E. reflexivity.
  - unfold fits in Hf. split; [lia|]. cbn [snd]. destruct x; reflexivity.
Qed.

Lemma mlocal_user_write x cS aS uS cA aA kp gt s inb data cap :
  mlocal x cS aS uS cA aA kp gt true s inb -> some aS = true -> len uS + 1 < 2 ^ 64 -> fits T data ->
  exists s' w, write_message C T data s (fresh_writer cap) = (s', w, Ok tt) /\
    mlocal x cS aS (uS ++ [(len uS, data)]) cA aA kp gt true s' inb /\
    mcarried (other x) (PData (len uS) data, output w).
Proof.
  intros L Ha Hn Hf. destruct L. pose proof (q_cause_ack0 Ha) as Hc.
  unfold mstatus in q_status0. rewrite Ha in q_status0. cbn [andb] in q_status0.
  pose proof (q_key0 Hc) as Hkey.
  destruct (write_message C T data s (fresh_writer cap)) as [[s' w] o] eqn:E. pose proof E as E'.
  apply write_message_cases in E' as [(H & _)|[(_ & H & _)|(_ & k1 & o1 & Hk1 & He & H)]].
  - contradiction.
  - unfold session_key in Hkey. rewrite H in Hkey. discriminate.
  - unfold session_key in Hkey. rewrite Hk1 in Hkey. injection Hkey as ->.
    destruct (encrypt_accepting C (hashed C (user_frame (next_nonce_sent s) data)) k (fresh_writer cap) (fresh_takes cap))
      as (w2 & E2 & _ & H2 & _).
    rewrite E2 in He. injection He as <- <-.
    assert (Hlt : (next_nonce_sent s + 1 <? 2 ^ 64) = true) by (apply N.ltb_lt; rewrite q_next0; exact Hn).
    destruct H as [(e & H & _)|[(_ & n & Hi & -> & ->)|(_ & p & Hi & _)]]; [discriminate| |];
      unfold u64_incr in Hi; rewrite Hlt in Hi; [|discriminate].
    injection Hi as <-. eexists _, w2. split; [reflexivity|]. split.
    + fields.
      * apply (mreach_step s (CWrite data (fresh_writer cap)) _ q_reach0). cbn [call_step]. rewrite E. reflexivity.
      * unfold mstatus. rewrite Ha. exact q_status0.
      * rewrite q_next0, len_app, len_cons, len_nil. lia.
    + unfold fits in Hf. split; [split; cbn [fst snd]; lia|]. cbn [snd].
      change (output w2) with (bw_bytes w2). rewrite H2, q_next0. reflexivity.
Qed.

Lemma mlocal_config x cS aS uS cA aA kp gt ai s inb cfg :
  mlocal x cS aS uS cA aA kp gt ai s inb ->
  exists s', change_config cfg s = (s', Ok tt) /\ mlocal x cS aS uS cA aA kp gt ai s' inb.
Proof.
  intros L. destruct L.
  assert (change_config cfg s = (set_conf cfg s, Ok tt)) as E by (unfold change_config; rewrite q_clone0; reflexivity).
  eexists. split; [exact E|]. fields.
  apply (mreach_step s (CConfig cfg) _ q_reach0). cbn [call_step]. rewrite E. reflexivity.
Qed.

(** ** Reading *)
Lemma mlocal_connect_read x cS aS uS aA kp gt ai s inb cd d :
  mlocal x cS aS uS [] aA kp gt ai s inb -> mcarried x (PConnect cd, d) ->
  exists s' m, read C T d s = (s', Ok (Some m)) /\ mlocal x cS aS uS [cd] aA kp gt ai s' (inb ++ [m]).
Proof.
  intros L (Hb & Hd). cbn [snd] in Hd. subst d.
  pose proof (mlocal_inv _ _ _ _ _ _ _ _ _ _ _ L) as HI. destruct L.
  assert (aS = []) as -> by (empty aS; specialize (q_cause_ack0 eq_refl); discriminate).
  assert (gt ++ kp = []) as Hn by (empty (gt ++ kp); destruct (q_caused_user0 eq_refl); discriminate).
  apply app_eq_nil in Hn as [-> ->].
  assert (uS = []) as -> by (empty uS; destruct (q_cause_user0 eq_refl); discriminate).
  unfold mstatus in q_status0. cbn [some] in q_status0. rewrite Bool.andb_false_r in q_status0.
  assert (key_acceptable s (ed25519_public C (p_seed (P (other x))))) as Hka
    by (unfold key_acceptable; rewrite q_peer0; destruct (p_pins (P x)); [right|left]; reflexivity).
  pose proof (read_connect_fwd C T HL s _ _ (p_seed (P (other x))) (epk_of (other x)) (custom cd) k HI Hka q_status0 q_sk0 (Hk x)
    (law_x25519_public_len C HL _) Hb) as Er.
  eexists _, _. split; [exact Er|]. fields.
  - apply (mreach_step s (CRead (signed_connect C (p_seed (P (other x))) (epk_of (other x)) (custom cd))) _ q_reach0).
    cbn [call_step]. rewrite Er. reflexivity.
  - unfold mstatus. cbn [some]. rewrite Bool.andb_false_r. reflexivity.
  - cbn [some]. rewrite Bool.orb_true_r. reflexivity.
  - rewrite read_conns_app, q_conns0. reflexivity.
  - rewrite read_acks_app, q_acks0. apply app_nil_r.
  - rewrite read_users_app, q_users0. reflexivity.
Qed.

Lemma mlocal_ack_in x cS aS uS cA aA kp gt s s0 inb cd :
  mlocal x cS aS uS cA aA kp gt false s inb -> aA = [cd] \/ aA = [] -> some cS = true ->
  p_pins (P x) || some cA = true -> 50 + len (custom cd) < 2 ^ usize_bits T ->
  s0 = s \/ s0 = set_ack_early None s ->
  exists st m, read C T (signed_ack C (p_seed (P (other x))) (epk_of x) (custom cd)) s0 = (set_status st s0, Ok (Some m)) /\
    (reachable C T (set_status st s0) -> ack_msg_recv_too_early s0 = None ->
     mlocal x cS aS uS cA [cd] kp gt true (set_status st s0) (inb ++ [m])).
Proof.
  intros L Ha Hc Epk Hb Hs0. pose proof (mlocal_inv _ _ _ _ _ _ _ _ _ _ _ L) as HI. destruct L.
  rewrite Epk in q_peer0. unfold mstatus in q_status0. rewrite Hc in q_status0. cbn [andb] in q_status0.
  assert (exists st, apply_action (msl_status s) (Receive TAck) = (st, Ok None) /\
    st = mstatus true cS aS cA) as (st & Hst & Est).
  { rewrite q_status0. unfold mstatus. cbn [andb]. destruct (some aS); [|destruct (some cA)]; cbn; eauto. }
  assert (uS = []) as -> by (empty uS; destruct (q_cause_user0 eq_refl); discriminate).
  assert (Inv C T s0) as HI0 by (destruct Hs0 as [->| ->]; [exact HI|apply inv_set_ack, HI]).
  assert (read C T (signed_ack C (p_seed (P (other x))) (epk_of x) (custom cd)) s0
    = (set_status st s0, Ok (Some (MAck (nonempty (custom cd)))))) as Er.
  { replace (epk_of x) with (ephemeral_pubkey s0) by (destruct Hs0 as [->| ->]; exact q_epk0).
    apply (read_ack_fwd C T HL s0 (if some aS then AckMsgSent else if some cA then ValidConnectMsgReceived else WaitConnectMsg));
      destruct Hs0 as [->| ->]; auto. }
  exists st, (MAck (nonempty (custom cd))). split; [exact Er|]. intros Hr He.
  destruct Hs0 as [->| ->]; fields; cbn [some]; rewrite ?Epk; auto; try discriminate.
  all: try (rewrite read_conns_app, q_conns0; apply app_nil_r).
  all: try (rewrite read_acks_app, q_acks0; reflexivity).
  all: try (rewrite read_users_app, q_users0; apply app_nil_r).
Qed.

(** The result of a call that returns at most one message. *)
Definition returned (r : option message) : list message := match r with Some m => [m] | None => [] end.

Lemma mlocal_ack_read x cS aS uS cA kp gt ai s inb cd d :
  mlocal x cS aS uS cA [] kp gt ai s inb -> some cS = true -> mcarried x (PAck cd, d) ->
  exists s' r, read C T d s = (s', Ok r) /\
    mlocal x cS aS uS cA [cd] kp gt (p_pins (P x) || some cA) s' (inb ++ returned r).
Proof.
  intros L Hc (Hb & Hd). cbn [snd] in Hd. subst d.
  pose proof (mlocal_inv _ _ _ _ _ _ _ _ _ _ _ L) as HI.
  assert (ai = false) as -> by (destruct ai; [pose proof (q_ai _ _ _ _ _ _ _ _ _ _ _ L eq_refl); discriminate|reflexivity]).
  pose proof (q_reach _ _ _ _ _ _ _ _ _ _ _ L) as Hr.
  pose proof (q_early _ _ _ _ _ _ _ _ _ _ _ L eq_refl) as He.
  destruct (p_pins (P x) || some cA) eqn:Epk.
  - destruct (mlocal_ack_in x cS aS uS cA [] kp gt s s inb cd L (or_intror eq_refl) Hc Epk Hb (or_introl eq_refl))
      as (st & m & Er & HL').
    exists (set_status st s), (Some m). split; [exact Er|]. apply HL'; [|exact He].
    apply (mreach_step s (CRead (signed_ack C (p_seed (P (other x))) (epk_of x) (custom cd))) _ Hr).
    cbn [call_step]. rewrite Er. reflexivity.
  - destruct L. rewrite Epk in q_peer0.
    pose proof (read_ack_early_fwd C T HL s (p_seed (P (other x))) (custom cd) HI q_peer0 He Hb) as Er.
    rewrite q_epk0 in Er. exists (set_ack_early (Some (signed_ack C (p_seed (P (other x))) (epk_of x) (custom cd))) s), None.
    split; [exact Er|]. cbn [returned]. rewrite app_nil_r.
    fields; rewrite ?Epk; auto; try discriminate.
    + apply (mreach_step s (CRead (signed_ack C (p_seed (P (other x))) (epk_of x) (custom cd))) _ Hr).
      cbn [call_step]. rewrite Er. reflexivity.
    + intros _. split; [apply Bool.orb_false_elim in Epk; apply Epk|]. exists cd. auto.
Qed.

(** Asking for the early ACK. *)
Lemma mlocal_take x cS aS uS cA aA kp gt ai s inb :
  mlocal x cS aS uS cA aA kp gt ai s inb ->
  exists s' r, take_ack_msg_recv_too_early C T s = (s', Ok r) /\
    mlocal x cS aS uS cA aA kp gt (ai || some aA && some cA) s' (inb ++ returned r).
Proof.
  intros L. pose proof (mlocal_inv _ _ _ _ _ _ _ _ _ _ _ L) as HI.
  pose proof (q_reach _ _ _ _ _ _ _ _ _ _ _ L) as Hr.
  destruct (some aA && negb ai) eqn:Ew.
  - destruct (q_late _ _ _ _ _ _ _ _ _ _ _ L Ew) as (Hp & cd & -> & Hb & He).
    assert (ai = false) as -> by (destruct ai; [discriminate|reflexivity]). cbn [some andb orb].
    pose proof (q_caused_ack _ _ _ _ _ _ _ _ _ _ _ L eq_refl) as Hc.
    assert (forall s' r, read C T (signed_ack C (p_seed (P (other x))) (epk_of x) (custom cd)) (set_ack_early None s) = (s', r) ->
      take_ack_msg_recv_too_early C T s = (s', r)) as Ht.
    { intros s' r Er. unfold take_ack_msg_recv_too_early. rewrite He. exact Er. }
    destruct (some cA) eqn:Hca.
    + destruct (mlocal_ack_in x cS aS uS cA [cd] kp gt s (set_ack_early None s) inb cd L (or_introl eq_refl) Hc
        ltac:(rewrite Hca; apply Bool.orb_true_r) Hb (or_intror eq_refl)) as (st & m & Er & HL').
      exists (set_status st (set_ack_early None s)), (Some m). split; [exact (Ht _ _ Er)|]. apply HL'; [|reflexivity].
      apply (mreach_step s CTakeAck _ Hr). cbn [call_step]. rewrite (Ht _ _ Er). reflexivity.
    + destruct L. rewrite Hp, Hca in q_peer0. cbn [orb] in q_peer0.
      pose proof (read_ack_early_fwd C T HL (set_ack_early None s) (p_seed (P (other x))) (custom cd)
        (inv_set_ack C T None s HI) q_peer0 eq_refl Hb) as Er.
      change (ephemeral_pubkey (set_ack_early None s)) with (ephemeral_pubkey s) in Er. rewrite q_epk0 in Er.
      eexists _, None. split; [exact (Ht _ _ Er)|]. cbn [returned]. rewrite app_nil_r.
      fields; rewrite ?Hp, ?Hca; auto; try discriminate.
      * apply (mreach_step s CTakeAck _ Hr). cbn [call_step]. rewrite (Ht _ _ Er). reflexivity.
      * intros _. split; [reflexivity|]. exists cd. auto.
  - exists s, None. cbn [returned]. rewrite app_nil_r.
    split; [unfold take_ack_msg_recv_too_early; rewrite (q_early _ _ _ _ _ _ _ _ _ _ _ L Ew); reflexivity|].
    assert (ai || some aA && some cA = ai) as -> by (destruct ai, (some aA); [reflexivity..|discriminate|reflexivity]).
    exact L.
Qed.

(** A user message: returned at once if the ACK was, kept otherwise. *)
Lemma mlocal_user_read x cS aS uS cA aA kp gt ai s inb i data d :
  mlocal x cS aS uS cA aA kp gt ai s inb -> some cS = true -> some aS = true -> len gt + 1 < 2 ^ 64 ->
  gap_bounded (map fst (if ai then gt else kp)) i -> ~ In i (map fst (gt ++ kp)) -> mcarried x (PData i data, d) ->
  exists s' r, read C T d s = (s', Ok r) /\
    (if ai then r <> None else r = None) /\
    mlocal x cS aS uS cA aA (if ai then kp else kp ++ [(i, data)]) (if ai then gt ++ [(i, data)] else gt) ai s' (inb ++ returned r).
Proof.
  intros L Hc Ha Hlen Hgap Hnew (Hsu & Hd). cbn [snd] in Hd. subst d.
  pose proof (mlocal_inv _ _ _ _ _ _ _ _ _ _ _ L) as HI. destruct L.
  pose proof (q_cause_ack0 Ha) as Hca. pose proof Hsu as [Hi Hb]. cbn [fst snd] in Hi, Hb.
  unfold mstatus in q_status0. rewrite Ha, Hc in q_status0. rewrite Bool.andb_true_r in q_status0.
  assert (Hnd : NoDup (map fst gt)) by (rewrite map_app in q_nodup0; exact (nodup_left _ _ q_nodup0)).
  destruct ai.
  - assert (nonce_acceptable (map fst gt) i) as Hacc.
    { apply gap_acceptable; [exact Hnd| |exact Hgap|].
      - apply (close_gaps [] _); [intros m []|exact q_close0].
      - intros Hin. apply Hnew. rewrite map_app. apply in_or_app. left. exact Hin. }
    pose proof (opens_user_datagram C T k i data Hi Hks Hb) as Ho.
    pose proof (proj2 (acceptable_room C T s (map fst gt) i HI Hnd q_received0) Hacc) as Hroom.
    destruct (read_user_fwd C T HL s k _ i data HI (proj2 (established_iff _) q_status0) (q_key0 Hca) Ho Hroom)
      as (v & l & Er & HI' & Hu' & Hr'); [rewrite q_used0; exact Hlen|].
    exists (set_window v l s), (Some (MMessage (nonempty data))). split; [exact Er|]. split; [discriminate|].
    fields.
    + apply (mreach_step s (CRead (user_datagram C k i data)) _ q_reach0). cbn [call_step]. rewrite Er. reflexivity.
    + unfold mstatus. rewrite Ha. exact q_status0.
    + intros m. rewrite map_app, in_app_iff, <- (q_received0 m). cbn [map In fst]. rewrite (Hr' m). intuition congruence.
    + rewrite len_app, len_cons, len_nil, <- q_used0. rewrite Hu'. lia.
    + rewrite <- app_assoc. cbn [app]. rewrite map_app in *. cbn [map fst].
      apply NoDup_Add with (a := i) (l := map fst gt ++ map fst kp); [apply Add_app|auto].
    + rewrite map_app. apply close_snoc; [exact q_close0|exact Hgap].
    + rewrite map_app. apply (close_more (map fst gt)); [|exact q_next_close0]. intros m Hm. apply in_or_app. left. exact Hm.
    + rewrite read_conns_app, q_conns0. apply app_nil_r.
    + rewrite read_acks_app, q_acks0. apply app_nil_r.
    + rewrite read_users_app, q_users0, map_app. reflexivity.
  - pose proof (q_none0 eq_refl) as ->. cbn [app map] in *.
    pose proof (read_queue_fwd C T HL s k i data HI q_status0 (q_key0 Hca) Hks Hi Hb) as Er.
    eexists _, None. split; [exact Er|]. split; [reflexivity|]. cbn [returned]. rewrite app_nil_r.
    fields.
    + apply (mreach_step s (CRead (user_datagram C k i data)) _ q_reach0). cbn [call_step]. rewrite Er. reflexivity.
    + unfold mstatus. rewrite Ha, Hc. exact q_status0.
    + rewrite q_queue0, map_app. reflexivity.
    + apply Forall_app. split; [exact q_sound0|]. constructor; [exact Hsu|constructor].
    + cbn [app]. rewrite map_app. cbn [map fst]. apply NoDup_app_intro_snoc; assumption.
    + rewrite map_app. apply close_snoc; [exact q_next_close0|exact Hgap].
Qed.

(** Asking for the early user messages: all of them come if the ACK was
    returned, none otherwise, and then they stay. *)
Lemma mlocal_drain x cS aS uS cA aA kp gt ai s inb :
  mlocal x cS aS uS cA aA kp gt ai s inb -> len gt + len kp < 2 ^ 64 ->
  exists s' l, drain_tmp_stack_user_msgs C T s = (s', Ok l) /\
    length l = (if ai then length kp else O) /\
    mlocal x cS aS uS cA aA (if ai then [] else kp) (if ai then gt ++ kp else gt) ai s' (inb ++ l).
Proof.
  intros L Hlen. pose proof (mlocal_inv _ _ _ _ _ _ _ _ _ _ _ L) as HI. destruct L.
  pose proof (inv_queue C T s HI) as Hqd.
  destruct kp as [|y kp'].
  - assert (drain_tmp_stack_user_msgs C T s = (set_stack [] s, Ok [])) as E
      by (unfold drain_tmp_stack_user_msgs; rewrite q_queue0; reflexivity).
    exists (set_stack [] s), []. split; [exact E|]. split; [destruct ai; reflexivity|].
    rewrite (app_nil_r inb). replace (if ai then [] else []) with (@nil (N * bytes)) by (destruct ai; reflexivity).
    replace (if ai then gt ++ [] else gt) with gt by (destruct ai; rewrite ?app_nil_r; reflexivity).
    fields.
    apply (mreach_step s CDrain _ q_reach0). cbn [call_step]. rewrite E. reflexivity.
  - remember (y :: kp') as kp eqn:Ekp.
    destruct q_caused_user0 as [Hc Ha]; [subst kp; rewrite some_app; cbn [some]; apply Bool.orb_true_r|].
    pose proof (q_cause_ack0 Ha) as Hca.
    unfold mstatus in q_status0. rewrite Ha, Hc in q_status0. rewrite Bool.andb_true_r in q_status0.
    destruct ai.
    + destruct (drain_fwd C T HL k kp (map fst gt) [] (set_stack [] s) (inv_set_stack_nil C T s HI))
        as (v & l & Ed & HId & Hud & Hrd).
      * apply established_iff. exact q_status0.
      * exact (q_key0 Hca).
      * exact Hks.
      * exact q_sound0.
      * rewrite map_app in q_nodup0. exact (nodup_left _ _ q_nodup0).
      * exact q_received0.
      * rewrite map_app in q_nodup0. apply close_taken; [exact q_nodup0| |exact q_next_close0].
        apply (close_gaps [] _); [intros m []|exact q_close0].
      * change (used (set_stack [] s)) with (used s). rewrite q_used0. exact Hlen.
      * cbn [app] in Ed.
        assert (drain_tmp_stack_user_msgs C T s = (set_window v l (set_stack [] s), Ok (drained kp))) as E
          by (unfold drain_tmp_stack_user_msgs; rewrite q_queue0; exact Ed).
        eexists _, _. split; [exact E|]. split; [apply drained_length|].
        fields.
        -- apply (mreach_step s CDrain _ q_reach0). cbn [call_step]. rewrite E. reflexivity.
        -- unfold mstatus. rewrite Ha. exact q_status0.
        -- intros m. rewrite map_app. exact (Hrd m).
        -- rewrite len_app, <- q_used0. exact Hud.
        -- rewrite app_nil_r. exact q_nodup0.
        -- rewrite map_app. apply close_app; assumption.
        -- constructor.
        -- rewrite read_conns_app, q_conns0, read_conns_drained. apply app_nil_r.
        -- rewrite read_acks_app, q_acks0, read_acks_drained. apply app_nil_r.
        -- rewrite read_users_app, q_users0, read_users_drained, map_app. reflexivity.
    + destruct (inv_nego C T s HI _ _ q_status0) as (W1 & W2 & _).
      pose proof (drain_loop_requeue C T (tmp_stack_user_msgs s) [] [] s Hqd q_status0 W1 W2) as Ed. cbn [app] in Ed.
      assert (drain_tmp_stack_user_msgs C T s = (set_stack (tmp_stack_user_msgs s) s, Ok [])) as E
        by exact Ed.
      eexists _, _. split; [exact E|]. split; [reflexivity|]. rewrite app_nil_r.
      fields.
      * apply (mreach_step s CDrain _ q_reach0). cbn [call_step]. rewrite E. reflexivity.
      * unfold mstatus. rewrite Ha, Hc. exact q_status0.
Qed.

Lemma mlocal_ai x cS aS uS cA aA kp gt ai s inb :
  mlocal x cS aS uS cA aA kp gt ai s inb -> some (read_acks inb) = ai.
Proof.
  intros L. rewrite (q_acks _ _ _ _ _ _ _ _ _ _ _ L). destruct ai; [|reflexivity].
  rewrite some_map. apply (q_ai _ _ _ _ _ _ _ _ _ _ _ L eq_refl).
Qed.

(** ** The network *)
Definition told (a : agent) : bool := some (read_acks (a_inbox a)).
Definition alocal (x : side) (a : agent) : Prop :=
  mlocal x (conns (a_sent a)) (acks (a_sent a)) (users (a_sent a)) (conns (a_arrived a)) (acks (a_arrived a))
    (a_kept a) (a_got a) (told a) (a_layer a) (a_inbox a).

Record mnetinv (n : mnet) : Prop := {
  mi_local : forall x, alocal x (n x);
  mi_perm : forall x, Permutation (a_sent (n (other x))) (a_arrived (n x) ++ map fst (a_travelling (n x)));
  mi_split : forall x, Permutation (users (a_arrived (n x))) (a_got (n x) ++ a_kept (n x));
  mi_carried : forall x, Forall (mcarried x) (a_travelling (n x));
  mi_conns : forall x, (length (conns (a_sent (n x))) <= 1)%nat;
  mi_acks : forall x, (length (acks (a_sent (n x))) <= 1)%nat;
  mi_users : forall x, len (users (a_sent (n x))) < 2 ^ 64;
  mi_numbers : forall x, map fst (users (a_sent (n x))) = map N.of_nat (seq 0 (length (users (a_sent (n x)))))
}.

Lemma counted_told a : counted a = map fst (if told a then a_got a else a_kept a).
Proof. unfold counted, told. destruct (read_acks (a_inbox a)); reflexivity. Qed.

Lemma mstart_inv n : mstart C P n -> mnetinv n.
Proof.
  intros H. constructor.
  2: { intros x. destruct (H x) as (_ & _ & -> & -> & _), (H (other x)) as (_ & -> & _). constructor. }
  2: { intros x. destruct (H x) as (_ & _ & _ & -> & _ & -> & ->). constructor. }
  2: { intros x. destruct (H x) as (_ & _ & -> & _). constructor. }
  2-5: intros x; destruct (H x) as (_ & -> & _); cbn; try lia; reflexivity.
  intros x. unfold alocal, told. destruct (H x) as (E & -> & _ & -> & -> & -> & ->).
  cbn [conns acks users read_acks flat_map some].
  assert (reachable C T (a_layer (n x))) as Hr by (eapply reach_create; exact E).
  unfold create, ekp_generate in E. cbn [obind] in E. injection E as E.
  revert Hr. rewrite <- E. intros Hr.
  fields.
  - intros e He. injection He as <-. reflexivity.
  - cbn [some]. rewrite Bool.orb_false_r. reflexivity.
  - intros m. unfold received. cbn. split; [intros [Hm|[]]; lia|intros []].
  - constructor.
  - constructor.
  - constructor.
Qed.

Lemma mperm_conns n x : mnetinv n -> Permutation (conns (a_sent (n (other x))))
  (conns (a_arrived (n x)) ++ conns (map fst (a_travelling (n x)))).
Proof. intros H. rewrite <- conns_app. apply conns_perm, (mi_perm n H). Qed.
Lemma mperm_acks n x : mnetinv n -> Permutation (acks (a_sent (n (other x))))
  (acks (a_arrived (n x)) ++ acks (map fst (a_travelling (n x)))).
Proof. intros H. rewrite <- acks_app. apply acks_perm, (mi_perm n H). Qed.
Lemma mperm_users n x : mnetinv n -> Permutation (users (a_sent (n (other x))))
  ((a_got (n x) ++ a_kept (n x)) ++ users (map fst (a_travelling (n x)))).
Proof.
  intros H. rewrite <- (mi_split n H x), <- users_app. apply users_perm, (mi_perm n H).
Qed.

Lemma msent_some_conns n x : mnetinv n -> some (conns (a_arrived (n x))) = true -> some (conns (a_sent (n (other x)))) = true.
Proof. intros H Hs. rewrite (some_perm _ _ (mperm_conns n x H)), some_app, Hs. reflexivity. Qed.
Lemma msent_some_acks n x : mnetinv n -> some (acks (a_arrived (n x))) = true -> some (acks (a_sent (n (other x)))) = true.
Proof. intros H Hs. rewrite (some_perm _ _ (mperm_acks n x H)), some_app, Hs. reflexivity. Qed.

Lemma mpeer_acked n x : mnetinv n -> some (acks (a_sent (n (other x)))) = true -> some (conns (a_sent (n x))) = true.
Proof.
  intros H Hs. pose proof (q_cause_ack _ _ _ _ _ _ _ _ _ _ _ (mi_local n H (other x)) Hs) as Hc.
  apply msent_some_conns in Hc; [|exact H]. rewrite other_other in Hc. exact Hc.
Qed.
Lemma mpeer_sent n x : mnetinv n -> some (users (a_sent (n (other x)))) = true ->
  some (conns (a_sent (n x))) = true /\ some (acks (a_sent (n x))) = true.
Proof.
  intros H Hs. pose proof (mi_local n H (other x)) as L.
  destruct (q_cause_user _ _ _ _ _ _ _ _ _ _ _ L Hs) as [Hd Ha].
  split; [apply mpeer_acked; assumption|].
  apply (q_ai _ _ _ _ _ _ _ _ _ _ _ L) in Hd.
  apply msent_some_acks in Hd; [|exact H]. rewrite other_other in Hd. exact Hd.
Qed.

(** *** Writes *)
Lemma mpost_inv n x p s d :
  mnetinv n ->
  mlocal x (conns (a_sent (n x) ++ [p])) (acks (a_sent (n x) ++ [p])) (users (a_sent (n x) ++ [p]))
    (conns (a_arrived (n x))) (acks (a_arrived (n x))) (a_kept (n x)) (a_got (n x)) (told (n x)) s (a_inbox (n x)) ->
  mcarried (other x) (p, d) ->
  (length (conns (a_sent (n x) ++ [p])) <= 1)%nat -> (length (acks (a_sent (n x) ++ [p])) <= 1)%nat ->
  len (users (a_sent (n x) ++ [p])) < 2 ^ 64 ->
  map fst (users (a_sent (n x) ++ [p])) = map N.of_nat (seq 0 (length (users (a_sent (n x) ++ [p])))) ->
  snd (mpost n x p s (Ok d)) = true /\ mnetinv (fst (mpost n x p s (Ok d))).
Proof.
  intros H Hl Hc H1 H2 H3 H4. split; [reflexivity|]. destruct H. cbn [mpost fst].
  constructor; intros y; destruct x, y;
    cbn [other mupd a_layer a_sent a_travelling a_arrived a_inbox a_kept a_got] in *; auto;
    try (apply mi_local0); try (apply (mi_perm0 Alice)); try (apply (mi_perm0 Bob));
    try (apply (mi_split0 Alice)); try (apply (mi_split0 Bob));
    try (apply Forall_app; split; [apply mi_carried0|repeat constructor; exact Hc]).
  - rewrite map_app, app_assoc. apply Permutation_app_tail, (mi_perm0 Bob).
  - rewrite map_app, app_assoc. apply Permutation_app_tail, (mi_perm0 Alice).
Qed.

Lemma mstep_connect n x cd :
  mnetinv n -> conns (a_sent (n x)) = [] -> fits T (custom cd) ->
  snd (mnet_step C T P n (DoConnect x cd)) = true /\ mnetinv (fst (mnet_step C T P n (DoConnect x cd))).
Proof.
  intros H Hs Hf. pose proof (mi_local n H x) as L. unfold alocal in L. rewrite Hs in L.
  destruct (mlocal_connect_write _ _ _ _ _ _ _ _ _ _ cd L Hf) as (s & b & E & L' & Hc).
  cbn [mnet_step]. rewrite E. cbn [sign]. apply mpost_inv; auto; rewrite ?conns_app, ?acks_app, ?users_app, ?Hs;
    cbn [conns acks users flat_map app]; rewrite ?app_nil_r; auto; apply H.
Qed.

Lemma mstep_ack n x cd :
  mnetinv n -> read_conns (a_inbox (n x)) <> [] -> acks (a_sent (n x)) = [] -> fits T (custom cd) ->
  snd (mnet_step C T P n (DoAck x cd)) = true /\ mnetinv (fst (mnet_step C T P n (DoAck x cd))).
Proof.
  intros H Hg Hs Hf. pose proof (mi_local n H x) as L. unfold alocal in L. rewrite Hs in L.
  assert (some (conns (a_arrived (n x))) = true) as Hca.
  { rewrite (q_conns _ _ _ _ _ _ _ _ _ _ _ L) in Hg. apply some_true in Hg. rewrite some_map in Hg. exact Hg. }
  destruct (mlocal_ack_write _ _ _ _ _ _ _ _ _ _ cd L Hca Hf) as (s & b & E & L' & Hc).
  cbn [mnet_step]. rewrite E. cbn [sign]. apply mpost_inv; auto; rewrite ?conns_app, ?acks_app, ?users_app, ?Hs;
    cbn [conns acks users flat_map app]; rewrite ?app_nil_r; auto; apply H.
Qed.

Lemma mstep_send n x data cap :
  mnetinv n -> acks (a_sent (n x)) <> [] -> read_acks (a_inbox (n x)) <> [] ->
  len (users (a_sent (n x))) + 1 < 2 ^ 64 -> fits T data ->
  snd (mnet_step C T P n (DoSend x data cap)) = true /\ mnetinv (fst (mnet_step C T P n (DoSend x data cap))).
Proof.
  intros H Ha Hg Hn Hf. pose proof (mi_local n H x) as L. unfold alocal in L.
  apply some_true in Hg. fold (told (n x)) in Hg. rewrite Hg in L. apply some_true in Ha.
  destruct (mlocal_user_write _ _ _ _ _ _ _ _ _ _ data cap L Ha Hn Hf) as (s & w & E & L' & Hc).
  cbn [mnet_step]. rewrite E. apply mpost_inv; auto; rewrite ?Hg, ?conns_app, ?acks_app, ?users_app;
    cbn [conns acks users flat_map app]; rewrite ?app_nil_r; auto; try apply H.
  - rewrite len_app, len_cons, len_nil. lia.
  - rewrite app_length, map_app, (mi_numbers n H). cbn [length map fst].
    rewrite seq_app, map_app. reflexivity.
Qed.

(** A move of [x] that changes only its layer and what it was given. *)
Lemma own_inv n x s ib kp gt :
  mnetinv n -> Permutation (a_got (n x) ++ a_kept (n x)) (gt ++ kp) ->
  (exists ai, mlocal x (conns (a_sent (n x))) (acks (a_sent (n x))) (users (a_sent (n x)))
    (conns (a_arrived (n x))) (acks (a_arrived (n x))) kp gt ai s ib) ->
  mnetinv (mupd n x {| a_layer := s; a_sent := a_sent (n x); a_travelling := a_travelling (n x);
    a_arrived := a_arrived (n x); a_inbox := ib; a_kept := kp; a_got := gt |}).
Proof.
  intros H Hp (ai & L). pose proof (mlocal_ai _ _ _ _ _ _ _ _ _ _ _ L) as Hai. subst ai. destruct H.
  constructor; intros y; destruct x, y;
    cbn [other mupd a_layer a_sent a_travelling a_arrived a_inbox a_kept a_got] in *; auto;
    try (apply mi_local0); try (apply (mi_perm0 Alice)); try (apply (mi_perm0 Bob));
    try (rewrite <- Hp; apply mi_split0); try (apply (mi_split0 Alice)); try (apply (mi_split0 Bob)).
Qed.

Lemma mstep_config n x cfg :
  mnetinv n -> snd (mnet_step C T P n (DoConfig x cfg)) = true /\ mnetinv (fst (mnet_step C T P n (DoConfig x cfg))).
Proof.
  intros H. destruct (mlocal_config _ _ _ _ _ _ _ _ _ _ _ cfg (mi_local n H x)) as (s & E & L').
  cbn [mnet_step]. rewrite E. split; [reflexivity|]. cbn [fst]. unfold with_layer_of.
  apply own_inv; [exact H|reflexivity|]. eexists. exact L'.
Qed.

Lemma take_shape n x : mnetinv n -> exists s r,
  mnet_step C T P n (DoTakeAck x) =
    (mupd n x {| a_layer := s; a_sent := a_sent (n x); a_travelling := a_travelling (n x);
       a_arrived := a_arrived (n x); a_inbox := a_inbox (n x) ++ returned r;
       a_kept := a_kept (n x); a_got := a_got (n x) |}, true) /\
  mlocal x (conns (a_sent (n x))) (acks (a_sent (n x))) (users (a_sent (n x)))
    (conns (a_arrived (n x))) (acks (a_arrived (n x))) (a_kept (n x)) (a_got (n x))
    (told (n x) || some (acks (a_arrived (n x))) && some (conns (a_arrived (n x)))) s (a_inbox (n x) ++ returned r).
Proof.
  intros H. destruct (mlocal_take _ _ _ _ _ _ _ _ _ _ _ (mi_local n H x)) as (s & r & E & L').
  exists s, r. split; [|exact L']. cbn [mnet_step]. rewrite E. reflexivity.
Qed.

Lemma mstep_take n x :
  mnetinv n -> snd (mnet_step C T P n (DoTakeAck x)) = true /\ mnetinv (fst (mnet_step C T P n (DoTakeAck x))).
Proof.
  intros H. destruct (take_shape n x H) as (s & r & -> & L). split; [reflexivity|]. cbn [fst].
  apply own_inv; [exact H|reflexivity|]. eexists. exact L.
Qed.

Lemma mhanded n x : mnetinv n ->
  len (a_got (n x)) + len (a_kept (n x)) + len (users (map fst (a_travelling (n x)))) < 2 ^ 64.
Proof.
  intros H. pose proof (mperm_users n x H) as Hp. apply Permutation_length in Hp. rewrite !app_length in Hp.
  pose proof (mi_users n H (other x)) as Hu. unfold len in *. lia.
Qed.

Lemma drain_shape n x : mnetinv n -> exists s l,
  mnet_step C T P n (DoDrain x) =
    (mupd n x {| a_layer := s; a_sent := a_sent (n x); a_travelling := a_travelling (n x);
       a_arrived := a_arrived (n x); a_inbox := a_inbox (n x) ++ l;
       a_kept := if told (n x) then [] else a_kept (n x);
       a_got := if told (n x) then a_got (n x) ++ a_kept (n x) else a_got (n x) |}, true) /\
  mlocal x (conns (a_sent (n x))) (acks (a_sent (n x))) (users (a_sent (n x)))
    (conns (a_arrived (n x))) (acks (a_arrived (n x))) (if told (n x) then [] else a_kept (n x))
    (if told (n x) then a_got (n x) ++ a_kept (n x) else a_got (n x)) (told (n x)) s (a_inbox (n x) ++ l).
Proof.
  intros H. destruct (mlocal_drain _ _ _ _ _ _ _ _ _ _ _ (mi_local n H x)) as (s & l & E & El & L').
  { pose proof (mhanded n x H). lia. }
  exists s, l. split; [|exact L']. cbn [mnet_step]. rewrite E.
  cbn [with_layer_of a_layer a_sent a_travelling a_arrived a_inbox a_kept a_got]. rewrite El.
  destruct (told (n x)).
  - rewrite skipn_all, firstn_all. reflexivity.
  - cbn [skipn firstn]. rewrite app_nil_r. reflexivity.
Qed.

Lemma mstep_drain n x :
  mnetinv n -> snd (mnet_step C T P n (DoDrain x)) = true /\ mnetinv (fst (mnet_step C T P n (DoDrain x))).
Proof.
  intros H. destruct (drain_shape n x H) as (s & l & -> & L). split; [reflexivity|]. cbn [fst].
  apply own_inv; [exact H| |eexists; exact L].
  destruct (told (n x)); [rewrite app_nil_r|]; reflexivity.
Qed.

(** *** Deliveries *)
Lemma mdeliver_inv n x i p d s ib kp gt ai :
  mnetinv n -> nth_error (a_travelling (n x)) i = Some (p, d) ->
  Permutation (users [p] ++ a_got (n x) ++ a_kept (n x)) (gt ++ kp) ->
  mlocal x (conns (a_sent (n x))) (acks (a_sent (n x))) (users (a_sent (n x)))
    (conns (a_arrived (n x) ++ [p])) (acks (a_arrived (n x) ++ [p])) kp gt ai s ib ->
  mnetinv (mupd n x {| a_layer := s; a_sent := a_sent (n x); a_travelling := without_nth i (a_travelling (n x));
    a_arrived := a_arrived (n x) ++ [p]; a_inbox := ib; a_kept := kp; a_got := gt |}).
Proof.
  intros H Hn Hs L. pose proof (mlocal_ai _ _ _ _ _ _ _ _ _ _ _ L) as Hai. subst ai. destruct H.
  pose proof (Permutation_map fst (without_nth_perm i _ _ Hn)) as Hp. cbn [map fst] in Hp.
  assert (Permutation (a_sent (n (other x))) ((a_arrived (n x) ++ [p]) ++ map fst (without_nth i (a_travelling (n x))))) as Hp'.
  { rewrite <- app_assoc. cbn [app]. rewrite (mi_perm0 x). apply Permutation_app_head. exact Hp. }
  assert (Permutation (users (a_arrived (n x) ++ [p])) (gt ++ kp)) as Hsp.
  { rewrite users_app, (mi_split0 x), Permutation_app_comm. exact Hs. }
  constructor; intros y; destruct x, y;
    cbn [other mupd a_layer a_sent a_travelling a_arrived a_inbox a_kept a_got] in *; auto;
    try (apply mi_local0); try (apply (mi_perm0 Alice)); try (apply (mi_perm0 Bob));
    try (apply (mi_split0 Alice)); try (apply (mi_split0 Bob));
    apply Forall_forall; intros a Ha; apply without_nth_incl in Ha; apply (proj1 (Forall_forall _ _) (mi_carried0 _) a Ha).
Qed.

Lemma mnumbers_NoDup n x : mnetinv n -> NoDup (map fst (users (a_sent (n x)))).
Proof.
  intros H. rewrite (mi_numbers n H). apply FinFun.Injective_map_NoDup; [|apply seq_NoDup].
  intros a b E. apply Nat2N.inj. exact E.
Qed.
Lemma nodup_apart {A} (a b : list A) m : NoDup (a ++ b) -> In m b -> ~ In m a.
Proof.
  induction a as [|y a IH]; intros H Hb; [intros []|]. inversion H as [|? ? H1 H2]; subst.
  intros [->|Ha]; [|exact (IH H2 Hb Ha)]. apply H1, in_or_app. right. exact Hb.
Qed.
Lemma mtravelling_new n x i j data d : mnetinv n ->
  nth_error (a_travelling (n x)) i = Some (PData j data, d) -> ~ In j (map fst (a_got (n x) ++ a_kept (n x))).
Proof.
  intros H Hn. pose proof (mnumbers_NoDup n (other x) H) as Hnd.
  pose proof (Permutation_map fst (mperm_users n x H)) as Hp. rewrite map_app in Hp.
  apply (Permutation_NoDup Hp) in Hnd. apply (nodup_apart _ _ _ Hnd).
  apply nth_error_In, (in_map fst) in Hn. apply in_users, (in_map fst) in Hn. exact Hn.
Qed.

Lemma mstep_deliver n x i p d :
  mnetinv n -> nth_error (a_travelling (n x)) i = Some (p, d) ->
  match p with PData j _ => gap_bounded (counted (n x)) j | _ => True end ->
  snd (mnet_step C T P n (DoDeliver x i)) = true /\ mnetinv (fst (mnet_step C T P n (DoDeliver x i))).
Proof.
  intros H Hn HW. cbn [mnet_step]. pose proof (mi_local n H x) as L. unfold alocal in L.
  pose proof (nth_error_In _ _ Hn) as Hin.
  pose proof (proj1 (Forall_forall _ _) (mi_carried n H x) _ Hin) as Hc.
  assert (In p (map fst (a_travelling (n x)))) as Hip by (apply (in_map fst) in Hin; exact Hin).
  pose proof (mhanded n x H) as Hlen. unfold mdeliver. rewrite Hn.
  destruct p as [cd|cd|j data].
  - assert (conns (a_arrived (n x)) = []) as Ha.
    { apply (one_each cd _ (conns (map fst (a_travelling (n x))))); [|apply in_conns; exact Hip].
      rewrite <- (Permutation_length (mperm_conns n x H)). apply (mi_conns n H). }
    rewrite Ha in L. destruct (mlocal_connect_read _ _ _ _ _ _ _ _ _ _ cd d L Hc) as (s & m & E & L').
    rewrite E. cbn [users flat_map fst snd]. rewrite app_nil_r. split; [reflexivity|].
    eapply (mdeliver_inv n x i _ d s _ _ _ _ H Hn); [reflexivity|].
    rewrite conns_app, acks_app, Ha. cbn [conns acks flat_map app]. rewrite app_nil_r. exact L'.
  - assert (acks (a_arrived (n x)) = []) as Ha.
    { apply (one_each cd _ (acks (map fst (a_travelling (n x))))); [|apply in_acks; exact Hip].
      rewrite <- (Permutation_length (mperm_acks n x H)). apply (mi_acks n H). }
    rewrite Ha in L.
    assert (some (acks (a_sent (n (other x)))) = true) as Hs.
    { rewrite (some_perm _ _ (mperm_acks n x H)), some_app. apply in_acks in Hip. rewrite (in_some _ _ Hip). apply Bool.orb_true_r. }
    destruct (mlocal_ack_read _ _ _ _ _ _ _ _ _ _ cd d L (mpeer_acked n x H Hs) Hc) as (s & r & E & L').
    assert (conns (a_arrived (n x) ++ [PAck cd]) = conns (a_arrived (n x))) as E1
      by (rewrite conns_app; cbn [conns flat_map]; apply app_nil_r).
    assert (acks (a_arrived (n x) ++ [PAck cd]) = [cd]) as E2 by (rewrite acks_app, Ha; reflexivity).
    rewrite E. destruct r as [m|]; cbn [users flat_map fst snd returned] in *; rewrite app_nil_r in *; (split; [reflexivity|]);
      (eapply (mdeliver_inv n x i _ d s _ _ _ _ H Hn); [reflexivity|rewrite E1, E2; exact L']).
  - apply in_users in Hip as Hiu.
    assert (some (users (a_sent (n (other x)))) = true) as Hs.
    { rewrite (some_perm _ _ (mperm_users n x H)), some_app. rewrite (in_some _ _ Hiu). apply Bool.orb_true_r. }
    destruct (mpeer_sent n x H Hs) as [H1 H2].
    assert (1 <= len (users (map fst (a_travelling (n x))))) as H3.
    { destruct (users (map fst (a_travelling (n x)))); [destruct Hiu|]. rewrite len_cons. lia. }
    rewrite counted_told in HW.
    destruct (mlocal_user_read _ _ _ _ _ _ _ _ _ _ _ j data d L H1 H2 ltac:(lia) HW
      (mtravelling_new n x i j data d H Hn) Hc) as (s & r & E & Hr & L').
    assert (conns (a_arrived (n x) ++ [PData j data]) = conns (a_arrived (n x))) as E1
      by (rewrite conns_app; cbn [conns flat_map]; apply app_nil_r).
    assert (acks (a_arrived (n x) ++ [PData j data]) = acks (a_arrived (n x))) as E2
      by (rewrite acks_app; cbn [acks flat_map]; apply app_nil_r).
    rewrite E. destruct (told (n x)), r as [m|]; try congruence; cbn [users flat_map fst snd returned app] in *;
      (split; [reflexivity|]); (eapply (mdeliver_inv n x i _ d s _ _ _ _ H Hn); [|rewrite E1, E2; try rewrite app_nil_r in L'; exact L']);
      cbn [users flat_map app].
    + rewrite <- app_assoc. cbn [app]. apply Permutation_middle.
    + rewrite app_assoc. apply Permutation_cons_append.
Qed.

Lemma mstep_inv n m :
  mnetinv n -> mallowed T n m ->
  snd (mnet_step C T P n m) = true /\ mnetinv (fst (mnet_step C T P n m)).
Proof.
  intros H Ha. destruct m as [x cd|x cd|x data cap|x cfg|x|x|x i]; cbn [mallowed] in Ha.
  - apply mstep_connect; [exact H|apply Ha|apply Ha].
  - apply mstep_ack; [exact H|apply Ha|apply Ha|apply Ha].
  - apply mstep_send; [exact H|apply Ha|apply Ha|apply Ha|apply Ha].
  - apply mstep_config; exact H.
  - apply mstep_take; exact H.
  - apply mstep_drain; exact H.
  - destruct Ha as (p & d & Hn & HW). exact (mstep_deliver n x i p d H Hn HW).
Qed.

Lemma mexec_inv n0 n : mnetinv n0 -> mexec C T P n0 n -> mnetinv n.
Proof. intros H0 E. induction E as [|n m E IH Ha]; [exact H0|]. apply mstep_inv; assumption. Qed.

(** ** What both sides can rely on *)
Lemma mnet_established n x : mnetinv n ->
  (established (a_layer (n x)) <-> acks (a_sent (n x)) <> [] /\ read_acks (a_inbox (n x)) <> []).
Proof.
  intros H. rewrite established_iff, (q_status _ _ _ _ _ _ _ _ _ _ _ (mi_local n H x)), <- !some_true.
  fold (told (n x)). unfold mstatus. destruct (told (n x)), (some (acks (a_sent (n x)))); cbn [andb];
    (split; [intros E; try discriminate E; split; reflexivity|intros [E1 E2]; congruence]).
Qed.

Lemma mnet_not_failed n x : mnetinv n -> ~ failed C (a_layer (n x)).
Proof.
  intros H Hf. apply failed_iff in Hf.
  rewrite (q_status _ _ _ _ _ _ _ _ _ _ _ (mi_local n H x)) in Hf. unfold mstatus in Hf.
  destruct (_ && _); discriminate.
Qed.

Lemma mnet_conns n x : mnetinv n ->
  read_conns (a_inbox (n x)) = map (fun cd => (public_key C P (other x), shown cd)) (conns (a_arrived (n x))).
Proof. intros H. apply (q_conns _ _ _ _ _ _ _ _ _ _ _ (mi_local n H x)). Qed.

Lemma mnet_acks n x : mnetinv n ->
  read_acks (a_inbox (n x)) = if told (n x) then map shown (acks (a_arrived (n x))) else [].
Proof. intros H. apply (q_acks _ _ _ _ _ _ _ _ _ _ _ (mi_local n H x)). Qed.

Lemma mnet_users n x : mnetinv n ->
  read_users (a_inbox (n x)) = map (fun u => nonempty (snd u)) (a_got (n x)).
Proof. intros H. apply (q_users _ _ _ _ _ _ _ _ _ _ _ (mi_local n H x)). Qed.

Lemma mnet_key n x : mnetinv n -> read_conns (a_inbox (n x)) <> [] -> session_key (a_layer (n x)) = Some k.
Proof.
  intros H Hg. pose proof (mi_local n H x) as L. apply (q_key _ _ _ _ _ _ _ _ _ _ _ L).
  rewrite (mnet_conns n x H) in Hg. apply some_true in Hg. rewrite some_map in Hg. exact Hg.
Qed.

(** The ACK is returned at once when the peer's key is known. *)
Lemma mnet_pinned_ack n x : mnetinv n -> p_pins (P x) = true ->
  read_acks (a_inbox (n x)) = map shown (acks (a_arrived (n x))).
Proof.
  intros H Hp. rewrite (mnet_acks n x H). destruct (told (n x)) eqn:Et; [reflexivity|].
  destruct (acks (a_arrived (n x))) as [|cd l] eqn:Ea; [reflexivity|].
  pose proof (mi_local n H x) as L. unfold alocal in L. rewrite Et, Ea in L.
  destruct (q_late _ _ _ _ _ _ _ _ _ _ _ L eq_refl) as [Hf _]. congruence.
Qed.

Definition taken_ack (n : mnet) (x : side) : mnet := fst (mnet_step C T P n (DoTakeAck x)).
Definition drained_of (n : mnet) (x : side) : mnet := fst (mnet_step C T P n (DoDrain x)).

Lemma mupd_same n x a : mupd n x a x = a. Proof. destruct x; reflexivity. Qed.
Lemma mupd_other n x a : mupd n x a (other x) = n (other x). Proof. destruct x; reflexivity. Qed.

Lemma mnet_take n x : mnetinv n -> conns (a_arrived (n x)) <> [] ->
  read_acks (a_inbox (taken_ack n x x)) = map shown (acks (a_arrived (n x))).
Proof.
  intros H Hc. apply some_true in Hc. destruct (take_shape n x H) as (s & r & E & L).
  unfold taken_ack. rewrite E. cbn [fst]. rewrite mupd_same. cbn [a_inbox].
  rewrite (q_acks _ _ _ _ _ _ _ _ _ _ _ L), Hc, Bool.andb_true_r.
  pose proof (q_ai _ _ _ _ _ _ _ _ _ _ _ (mi_local n H x)) as Ht.
  destruct (told (n x)); [reflexivity|]. destruct (acks (a_arrived (n x))); reflexivity.
Qed.

Lemma mnet_drain n x : mnetinv n -> read_acks (a_inbox (n x)) <> [] ->
  a_kept (drained_of n x x) = [] /\ a_got (drained_of n x x) = a_got (n x) ++ a_kept (n x).
Proof.
  intros H Ha. apply some_true in Ha. fold (told (n x)) in Ha. destruct (drain_shape n x H) as (s & l & E & _).
  unfold drained_of. rewrite E. cbn [fst]. rewrite mupd_same. cbn [a_kept a_got]. rewrite Ha. auto.
Qed.

(** ** Progress *)
Lemma mexec_trans n0 n1 n2 : mexec C T P n0 n1 -> mexec C T P n1 n2 -> mexec C T P n0 n2.
Proof. intros H1 H2. induction H2; [exact H1|]. constructor; assumption. Qed.
Lemma mexec_one n m : mallowed T n m -> mexec C T P n (fst (mnet_step C T P n m)).
Proof. intros H. constructor; [constructor|exact H]. Qed.

Lemma msome_deliverable n x : mnetinv n -> (told (n x) = true -> a_kept (n x) = []) -> a_travelling (n x) <> [] ->
  exists i, mallowed T n (DoDeliver x i) /\ (i < length (a_travelling (n x)))%nat.
Proof.
  intros H Hd Ht. destruct (first_packet (map fst (a_travelling (n x)))) as (p & Hp & Hq).
  { intros E. apply map_eq_nil in E. contradiction. }
  apply in_map_iff in Hp as ([p' d] & <- & Hin). cbn [fst] in Hq.
  apply In_nth_error in Hin as [i Hn]. exists i. split; [|apply nth_error_Some; congruence].
  exists p', d. split; [exact Hn|]. destruct p' as [cd|cd|j data]; auto.
  intros m Hm.
  pose proof (nth_error_In _ _ Hn) as Hin. apply (in_map fst) in Hin. apply in_users, (in_map fst) in Hin. cbn [fst] in Hin.
  pose proof (Permutation_map fst (mperm_users n x H)) as Hp. rewrite map_app in Hp.
  assert (In j (map fst (users (a_sent (n (other x)))))) as Hj
    by (apply (Permutation_in _ (Permutation_sym Hp)), in_or_app; right; exact Hin).
  assert (In m (map fst (users (a_sent (n (other x)))))) as Hms.
  { rewrite (mi_numbers n H) in *. apply in_map_iff in Hj as (j' & Hj & Hs). apply in_seq in Hs.
    apply in_map_iff. exists (N.to_nat m). rewrite in_seq. split; lia. }
  apply (Permutation_in _ Hp), in_app_or in Hms as [Hms|Hms].
  - rewrite counted_told. destruct (told (n x)) eqn:Et.
    + rewrite (Hd eq_refl), app_nil_r in Hms. exact Hms.
    + pose proof (mi_local n H x) as L. unfold alocal in L. rewrite Et in L.
      rewrite (q_none _ _ _ _ _ _ _ _ _ _ _ L eq_refl) in Hms. exact Hms.
  - apply in_map_iff in Hms as ([m' data'] & Em & Hms). cbn [fst] in Em. subst m'.
    apply in_flat_map in Hms as (q & Hqin & Hqm). apply Hq in Hqin.
    destruct q as [| |j' data'']; [destruct Hqm|destruct Hqm|].
    destruct Hqm as [E|[]]. injection E as -> ->. cbn in Hqin. lia.
Qed.

Definition mload (n : mnet) : nat := (length (a_travelling (n Alice)) + length (a_travelling (n Bob)))%nat.

Lemma mdeliver_shape n x i : (i < length (a_travelling (n x)))%nat ->
  (S (mload (fst (mnet_step C T P n (DoDeliver x i)))) = mload n)%nat /\
  forall y, a_sent (fst (mnet_step C T P n (DoDeliver x i)) y) = a_sent (n y).
Proof.
  intros Hi. cbn [mnet_step]. unfold mdeliver. apply nth_error_Some in Hi as Hn.
  destruct (nth_error (a_travelling (n x)) i) as [[p d]|] eqn:En; [|contradiction].
  destruct (read C T d (a_layer (n x))) as [s o]. apply without_nth_length in Hi.
  destruct o as [[m|]|e|q]; cbn [fst];
    (split; [unfold mload; destruct x; cbn [mupd a_travelling]; lia|intros y; destruct x, y; reflexivity]).
Qed.

Lemma drain_keeps n x : mnetinv n ->
  mload (drained_of n x) = mload n /\ (forall y, a_sent (drained_of n x y) = a_sent (n y)) /\
  (forall y, a_travelling (drained_of n x y) = a_travelling (n y)) /\
  (forall y, a_arrived (drained_of n x y) = a_arrived (n y)) /\
  (told (drained_of n x x) = true -> a_kept (drained_of n x x) = []) /\
  (forall y, told (drained_of n x y) = told (n y)).
Proof.
  intros H. pose proof (mstep_drain n x H) as [_ H']. fold (drained_of n x) in H'.
  destruct (drain_shape n x H) as (s & l & E & L). unfold drained_of in *. rewrite E in *. cbn [fst] in *.
  split; [destruct x; reflexivity|]. split; [intros y; destruct x, y; reflexivity|].
  split; [intros y; destruct x, y; reflexivity|]. split; [intros y; destruct x, y; reflexivity|].
  assert (told (mupd n x {| a_layer := s; a_sent := a_sent (n x); a_travelling := a_travelling (n x);
    a_arrived := a_arrived (n x); a_inbox := a_inbox (n x) ++ l; a_kept := if told (n x) then [] else a_kept (n x);
    a_got := if told (n x) then a_got (n x) ++ a_kept (n x) else a_got (n x) |} x) = told (n x)) as Ht.
  { rewrite mupd_same. unfold told at 1. cbn [a_inbox]. exact (mlocal_ai _ _ _ _ _ _ _ _ _ _ _ L). }
  split.
  - rewrite Ht. intros ->. rewrite mupd_same. reflexivity.
  - intros y. destruct x, y; auto.
Qed.

Lemma mdeliver_all n : mnetinv n ->
  exists n', mexec C T P n n' /\ mnetinv n' /\ (forall x, a_travelling (n' x) = []) /\
    forall x, a_sent (n' x) = a_sent (n x).
Proof.
  remember (mload n) as f eqn:Hf. revert n Hf. induction f as [|f IH]; intros n Hf H.
  - exists n. split; [constructor|]. split; [exact H|]. split; [|reflexivity].
    intros x. apply length_zero_iff_nil. unfold mload in Hf. destruct x; lia.
  - assert (exists x, a_travelling (n x) <> []) as [x Hx].
    { destruct (a_travelling (n Alice)) eqn:Ea; [|exists Alice; congruence].
      destruct (a_travelling (n Bob)) eqn:Eb; [|exists Bob; congruence].
      unfold mload in Hf. rewrite Ea, Eb in Hf. discriminate. }
    destruct (drain_keeps n x H) as (D1 & D2 & D3 & _ & D5 & _).
    pose proof (proj2 (mstep_drain n x H)) as Hd. fold (drained_of n x) in Hd.
    destruct (msome_deliverable (drained_of n x) x Hd D5) as (i & Ha & Hi); [rewrite D3; exact Hx|].
    destruct (mdeliver_shape (drained_of n x) x i Hi) as [Hl Hs].
    destruct (IH (fst (mnet_step C T P (drained_of n x) (DoDeliver x i))) ltac:(lia) (proj2 (mstep_inv _ _ Hd Ha)))
      as (n' & E & H' & Ht & Hs').
    exists n'. split; [|split; [exact H'|split; [exact Ht|]]].
    + apply (mexec_trans _ (drained_of n x)); [exact (mexec_one n (DoDrain x) I)|].
      apply (mexec_trans _ _ _ (mexec_one _ _ Ha) E).
    + intros y. rewrite Hs', Hs. apply D2.
Qed.

Lemma fits_nothing : fits T (custom None).
Proof. unfold fits. cbn [custom]. rewrite len_nil. unfold usize_bits. destruct (usize_width T); reflexivity. Qed.

Lemma mensure_connect n x : mnetinv n ->
  exists n', mexec C T P n n' /\ mnetinv n' /\ some (conns (a_sent (n' x))) = true /\
    forall y, some (conns (a_sent (n y))) = true -> some (conns (a_sent (n' y))) = true.
Proof.
  intros H. destruct (some (conns (a_sent (n x)))) eqn:E.
  - exists n. split; [constructor|]. auto.
  - apply some_false in E.
    assert (mallowed T n (DoConnect x None)) as Ha by (split; [exact E|exact fits_nothing]).
    exists (fst (mnet_step C T P n (DoConnect x None))).
    split; [exact (mexec_one _ _ Ha)|]. split; [exact (proj2 (mstep_inv _ _ H Ha))|].
    pose proof (proj1 (mstep_inv _ _ H Ha)) as Hok.
    cbn [mnet_step] in *.
    destruct (create_connect_message _ _ _ _) as [s [b|e|p]]; cbn [sign mpost fst snd] in *; try discriminate.
    split.
    + destruct x; cbn [mupd other a_sent]; rewrite conns_app, some_app; apply Bool.orb_true_r.
    + intros y Hy. destruct x, y; cbn [mupd other a_sent]; rewrite ?conns_app, ?some_app, ?Hy; auto.
Qed.

Lemma mensure_ack n x : mnetinv n -> some (conns (a_arrived (n x))) = true ->
  exists n', mexec C T P n n' /\ mnetinv n' /\ some (acks (a_sent (n' x))) = true /\
    forall y, (some (acks (a_sent (n y))) = true -> some (acks (a_sent (n' y))) = true) /\ a_arrived (n' y) = a_arrived (n y).
Proof.
  intros H Hc. destruct (some (acks (a_sent (n x)))) eqn:E.
  - exists n. split; [constructor|]. auto.
  - apply some_false in E.
    assert (read_conns (a_inbox (n x)) <> []) as Hg.
    { rewrite (mnet_conns n x H). apply some_true. rewrite some_map. exact Hc. }
    assert (mallowed T n (DoAck x None)) as Ha by (split; [exact Hg|split; [exact E|exact fits_nothing]]).
    exists (fst (mnet_step C T P n (DoAck x None))).
    split; [exact (mexec_one _ _ Ha)|]. split; [exact (proj2 (mstep_inv _ _ H Ha))|].
    pose proof (proj1 (mstep_inv _ _ H Ha)) as Hok.
    cbn [mnet_step] in *.
    destruct (create_ack_message _ _ _) as [s [b|e|p]]; cbn [sign mpost fst snd] in *; try discriminate.
    split.
    + destruct x; cbn [mupd other a_sent]; rewrite acks_app, some_app; apply Bool.orb_true_r.
    + intros y. split; [intros Hy|]; destruct x, y; cbn [mupd other a_sent a_arrived]; rewrite ?acks_app, ?some_app, ?Hy; auto.
Qed.

Lemma marrived_all n x : mnetinv n -> a_travelling (n x) = [] -> Permutation (a_sent (n (other x))) (a_arrived (n x)).
Proof. intros H Ht. pose proof (mi_perm n H x) as Hp. rewrite Ht, app_nil_r in Hp. exact Hp. Qed.

(** Once nothing travels, asking for the early ACK and the early messages
    finishes the session of [x]. *)
Lemma mensure_taken n x : mnetinv n -> a_travelling (n x) = [] -> some (acks (a_sent (n x))) = true ->
  some (acks (a_sent (n (other x)))) = true ->
  exists n', mexec C T P n n' /\ mnetinv n' /\ n' (other x) = n (other x) /\
    established (a_layer (n' x)) /\ a_kept (n' x) = [] /\ a_travelling (n' x) = [] /\ a_sent (n' x) = a_sent (n x).
Proof.
  intros H Ht Ha Hao. pose proof (mi_local n H x) as L.
  pose proof (q_cause_ack _ _ _ _ _ _ _ _ _ _ _ L Ha) as Hc.
  pose proof (proj2 (mstep_take n x H)) as H1. fold (taken_ack n x) in H1.
  pose proof (mnet_take n x H ltac:(apply some_true, Hc)) as Hta.
  assert (taken_ack n x (other x) = n (other x)) as Ho
    by (destruct (take_shape n x H) as (s & r & E & _); unfold taken_ack; rewrite E; apply mupd_other).
  assert (a_travelling (taken_ack n x x) = a_travelling (n x) /\ a_sent (taken_ack n x x) = a_sent (n x)) as [Htr Hse]
    by (destruct (take_shape n x H) as (s & r & E & _); unfold taken_ack; rewrite E; cbn [fst]; rewrite mupd_same; auto).
  assert (read_acks (a_inbox (taken_ack n x x)) <> []) as Hra.
  { rewrite Hta. apply some_true. rewrite some_map.
    rewrite <- (some_perm _ _ (acks_perm _ _ (marrived_all n x H Ht))). exact Hao. }
  exists (drained_of (taken_ack n x) x).
  pose proof (proj2 (mstep_drain _ x H1)) as H2. fold (drained_of (taken_ack n x) x) in H2.
  destruct (drain_keeps _ x H1) as (_ & D2 & D3 & _ & D5 & D6).
  split; [apply (mexec_trans _ (taken_ack n x)); [exact (mexec_one n (DoTakeAck x) I)|exact (mexec_one _ (DoDrain x) I)]|].
  split; [exact H2|].
  split; [destruct (drain_shape _ x H1) as (s & l & E & _); unfold drained_of; rewrite E; cbn [fst]; rewrite mupd_other; exact Ho|].
  apply some_true in Hra. fold (told (taken_ack n x x)) in Hra.
  split.
  - apply (mnet_established _ x H2). rewrite D2, Hse. split; [apply some_true, Ha|].
    apply some_true. fold (told (drained_of (taken_ack n x) x x)). rewrite D6. exact Hra.
  - split; [apply D5; rewrite D6; exact Hra|]. rewrite D3, D2, Htr, Hse. auto.
Qed.

Theorem mcompletable n : mnetinv n ->
  exists n', mexec C T P n n' /\ mnetinv n' /\
    forall x, established (a_layer (n' x)) /\ a_travelling (n' x) = [] /\ a_kept (n' x) = [].
Proof.
  intros H.
  destruct (mensure_connect n Alice H) as (n1 & E1 & H1 & C1 & _).
  destruct (mensure_connect n1 Bob H1) as (n2 & E2 & H2 & C2 & C2').
  destruct (mdeliver_all n2 H2) as (n3 & E3 & H3 & T3 & S3).
  assert (forall x, some (conns (a_arrived (n3 x))) = true) as C3.
  { intros x. rewrite <- (some_perm _ _ (conns_perm _ _ (marrived_all n3 x H3 (T3 x)))), S3.
    destruct x; cbn [other]; auto. }
  destruct (mensure_ack n3 Alice H3 (C3 Alice)) as (n4 & E4 & H4 & A4 & A4').
  destruct (mensure_ack n4 Bob H4) as (n5 & E5 & H5 & A5 & A5').
  { rewrite (proj2 (A4' Bob)). apply C3. }
  destruct (mdeliver_all n5 H5) as (n6 & E6 & H6 & T6 & S6).
  assert (forall y, some (acks (a_sent (n6 y))) = true) as A6.
  { intros y. rewrite S6. destruct y; [apply A5', A4|exact A5]. }
  destruct (mensure_taken n6 Alice H6 (T6 Alice) (A6 Alice) (A6 Bob)) as (n7 & E7 & H7 & O7 & F7 & K7 & T7 & S7).
  cbn [other] in O7.
  destruct (mensure_taken n7 Bob H7) as (n8 & E8 & H8 & O8 & F8 & K8 & T8 & S8).
  { rewrite O7. apply T6. }
  { rewrite O7. apply A6. }
  { cbn [other]. rewrite S7. apply A6. }
  cbn [other] in O8.
  exists n8. split; [|split; [exact H8|]].
  - apply (mexec_trans _ _ _ E1), (mexec_trans _ _ _ E2), (mexec_trans _ _ _ E3),
      (mexec_trans _ _ _ E4), (mexec_trans _ _ _ E5), (mexec_trans _ _ _ E6), (mexec_trans _ _ _ E7), E8.
  - intros []; [rewrite O8|]; auto.
Qed.

End WithEnv.

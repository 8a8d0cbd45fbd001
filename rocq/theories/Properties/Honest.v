(** C39: two honest peers over a network that reorders.

    [exec C Z T gap_bounded n0 n]: the applications and the network of
    Spec/Network.v lead from [n0] to [n], no user message being handed over
    while one sent more than 10000 messages before it is missing.  With
    [nonce_acceptable] instead, only as much is asked as the receiver needs. *)

From Coq Require Import Permutation.
From Verif.Model Require Import Complete.
From Verif.Spec Require Import Wire Trace ReadSpec Session Writers CompleteTrace Network.
From Verif.Proofs Require Import Histories Honest.
From Verif.Instances Require Import Toy Scenario CompleteScenario NetScenario.

Lemma both_ways C P k : CryptoLaws C -> session_secret C P = Some k ->
  forall x, derived_secret C (p_sk (P x)) (x25519_public C (p_sk (P (other x)))) = Some k.
Proof. intros HL H []; cbn [other]; [exact H|]. rewrite (derived_secret_comm C HL). exact H. Qed.

Lemma net_inv C Z T P k n0 n :
  CryptoLaws C -> ZipLaws Z -> session_secret C P = Some k -> keystream_ok C k -> start C P n0 ->
  exec C Z T nonce_acceptable n0 n -> netinv C Z T P k n.
Proof.
  intros HL HZ Hs Hk H0. pose proof (both_ways C P k HL Hs) as Hb.
  apply (exec_inv C Z T HL HZ P k Hb Hk). exact (start_inv C Z T P k Hb n0 H0).
Qed.

Lemma net_good C Z T P k n0 n :
  CryptoLaws C -> ZipLaws Z -> session_secret C P = Some k -> keystream_ok C k -> start C P n0 ->
  exec C Z T gap_bounded n0 n -> exec C Z T nonce_acceptable n0 n /\ good C Z T P k n.
Proof.
  intros HL HZ Hs Hk H0 E. pose proof (both_ways C P k HL Hs) as Hb.
  destruct (exec_gap C Z T HL HZ P k Hb Hk n0 n (start_inv C Z T P k Hb n0 H0)
    (fun x => proj1 (proj2 (proj2 (proj2 (H0 x))))) E) as [E' Hg].
  split; [exact E'|]. split; [|exact Hg]. exact (net_inv C Z T P k n0 n HL HZ Hs Hk H0 E').
Qed.

(** No call fails and no layer gives up. *)
Theorem C39_no_call_fails : forall (C : Crypto) (Z : Zip) (T : target), CryptoLaws C -> ZipLaws Z ->
  forall P k n0 n, session_secret C P = Some k -> keystream_ok C k -> start C P n0 ->
  exec C Z T gap_bounded n0 n ->
  (forall x, ~ sfailed C (layer (n x))) /\
  (forall m, allowed Z T gap_bounded n m -> snd (net_step C Z T n m) = true).
Proof.
  intros C Z T HL HZ P k n0 n Hs Hk H0 E. pose proof (both_ways C P k HL Hs) as Hb.
  destruct (net_good C Z T P k n0 n HL HZ Hs Hk H0 E) as [_ [Hi Hg]]. split.
  - intros x. exact (net_not_failed C Z T P k n x Hi).
  - intros m Ha. apply (step_inv C Z T HL HZ P k Hb Hk); [exact Hi|].
    exact (allowed_gap C Z T P k n m Hi Hg Ha).
Qed.
Print Assumptions C39_no_call_fails.

Theorem C39_no_call_fails_wider : forall (C : Crypto) (Z : Zip) (T : target), CryptoLaws C -> ZipLaws Z ->
  forall P k n0 n, session_secret C P = Some k -> keystream_ok C k -> start C P n0 ->
  exec C Z T nonce_acceptable n0 n ->
  (forall x, ~ sfailed C (layer (n x))) /\
  (forall m, allowed Z T nonce_acceptable n m -> snd (net_step C Z T n m) = true).
Proof.
  intros C Z T HL HZ P k n0 n Hs Hk H0 E. pose proof (both_ways C P k HL Hs) as Hb.
  pose proof (net_inv C Z T P k n0 n HL HZ Hs Hk H0 E) as Hi. split.
  - intros x. exact (net_not_failed C Z T P k n x Hi).
  - intros m Ha. apply (step_inv C Z T HL HZ P k Hb Hk); assumption.
Qed.
Print Assumptions C39_no_call_fails_wider.

(** Bounded reordering is within what the receiver accepts, so the theorems
    below hold for it too. *)
Theorem C39_bounded_reordering : forall (C : Crypto) (Z : Zip) (T : target), CryptoLaws C -> ZipLaws Z ->
  forall P k n0 n, session_secret C P = Some k -> keystream_ok C k -> start C P n0 ->
  exec C Z T gap_bounded n0 n -> exec C Z T nonce_acceptable n0 n.
Proof. intros. eapply net_good; eassumption. Qed.
Print Assumptions C39_bounded_reordering.

(** The network neither loses nor adds: what one side wrote is what was handed
    to the other plus what still travels. *)
Theorem C39_network : forall (C : Crypto) (Z : Zip) (T : target), CryptoLaws C -> ZipLaws Z ->
  forall P k n0 n, session_secret C P = Some k -> keystream_ok C k -> start C P n0 ->
  exec C Z T nonce_acceptable n0 n ->
  forall x, Permutation (sent (n (other x))) (arrived (n x) ++ map fst (travelling (n x))).
Proof. intros C Z T HL HZ P k n0 n Hs Hk H0 E. apply (ni_perm C Z T P k n (net_inv C Z T P k n0 n HL HZ Hs Hk H0 E)). Qed.
Print Assumptions C39_network.

(** What the application has read, as a function of what was handed over, in
    that order: the CONNECT at once, with the other's key; the ACK at once, or
    with the CONNECT; the user messages at once, or with the ACK. *)
Theorem C39_inbox : forall (C : Crypto) (Z : Zip) (T : target), CryptoLaws C -> ZipLaws Z ->
  forall P k n0 n, session_secret C P = Some k -> keystream_ok C k -> start C P n0 ->
  exec C Z T nonce_acceptable n0 n -> forall x,
  got_conns (inbox (n x)) = map (fun cd => (cd, public_key C P (other x))) (conns (arrived (n x))) /\
  (p_pins (P x) = true \/ conns (arrived (n x)) <> [] -> got_acks (inbox (n x)) = acks (arrived (n x))) /\
  (~ (p_pins (P x) = true \/ conns (arrived (n x)) <> []) -> got_acks (inbox (n x)) = []) /\
  (sestablished (layer (n x)) ->
     got_users (inbox (n x)) = map (fun u => Some (snd u)) (users (arrived (n x)))) /\
  (~ sestablished (layer (n x)) -> got_users (inbox (n x)) = []).
Proof.
  intros C Z T HL HZ P k n0 n Hs Hk H0 E x. pose proof (net_inv C Z T P k n0 n HL HZ Hs Hk H0 E) as Hi.
  split; [exact (net_conns C Z T P k n x Hi)|].
  rewrite (net_acks C Z T P k n x Hi), <- some_true, <- Bool.orb_true_iff.
  destruct (p_pins (P x) || some (conns (arrived (n x)))).
  - split; [reflexivity|]. split; [congruence|]. exact (net_users_got C Z T P k n x Hi).
  - split; [discriminate|]. split; [reflexivity|]. exact (net_users_got C Z T P k n x Hi).
Qed.
Print Assumptions C39_inbox.

(** A side has negotiated exactly when it wrote its ACK and read the other's;
    from its CONNECT on it holds the common secret. *)
Theorem C39_established : forall (C : Crypto) (Z : Zip) (T : target), CryptoLaws C -> ZipLaws Z ->
  forall P k n0 n, session_secret C P = Some k -> keystream_ok C k -> start C P n0 ->
  exec C Z T nonce_acceptable n0 n -> forall x,
  (sestablished (layer (n x)) <-> acks (sent (n x)) <> [] /\ got_acks (inbox (n x)) <> []) /\
  (got_conns (inbox (n x)) <> [] -> session_key (minimal (layer (n x))) = Some k).
Proof.
  intros C Z T HL HZ P k n0 n Hs Hk H0 E x. pose proof (net_inv C Z T P k n0 n HL HZ Hs Hk H0 E) as Hi.
  split; [exact (net_established C Z T P k n x Hi)|exact (net_key C Z T P k n x Hi)].
Qed.
Print Assumptions C39_established.

(** Once the CONNECT and the ACK of both were handed over, both have negotiated. *)
Theorem C39_negotiated : forall (C : Crypto) (Z : Zip) (T : target), CryptoLaws C -> ZipLaws Z ->
  forall P k n0 n, session_secret C P = Some k -> keystream_ok C k -> start C P n0 ->
  exec C Z T nonce_acceptable n0 n ->
  (forall x, conns (arrived (n x)) <> [] /\ acks (arrived (n x)) <> []) ->
  forall x, sestablished (layer (n x)) /\ session_key (minimal (layer (n x))) = Some k.
Proof.
  intros C Z T HL HZ P k n0 n Hs Hk H0 E Ha x. pose proof (net_inv C Z T P k n0 n HL HZ Hs Hk H0 E) as Hi.
  destruct (Ha x) as [Hc Hack]. destruct (Ha (other x)) as [_ Hao].
  assert (got_conns (inbox (n x)) <> []) as Hg.
  { rewrite (net_conns C Z T P k n x Hi). apply some_true. rewrite some_map. apply some_true, Hc. }
  split; [|exact (net_key C Z T P k n x Hi Hg)].
  apply (net_established C Z T P k n x Hi). split.
  - apply some_true. apply some_true in Hao. apply (sent_some_acks C Z T P k n (other x) Hi) in Hao.
    rewrite other_other in Hao. exact Hao.
  - rewrite (net_acks C Z T P k n x Hi). apply some_true in Hc. rewrite Hc, Bool.orb_true_r. exact Hack.
Qed.
Print Assumptions C39_negotiated.

(** Nothing is delivered that was not sent, nor more often than it was sent;
    and everything once nothing travels any more. *)
Theorem C39_exactly_once : forall (C : Crypto) (Z : Zip) (T : target), CryptoLaws C -> ZipLaws Z ->
  forall P k n0 n, session_secret C P = Some k -> keystream_ok C k -> start C P n0 ->
  exec C Z T nonce_acceptable n0 n -> forall x,
  let sent_data := map (fun u => Some (snd u)) (users (sent (n (other x)))) in
  (exists rest, Permutation sent_data (got_users (inbox (n x)) ++ rest)) /\
  (travelling (n x) = [] -> sestablished (layer (n x)) -> Permutation sent_data (got_users (inbox (n x)))).
Proof.
  intros C Z T HL HZ P k n0 n Hs Hk H0 E x. pose proof (net_inv C Z T P k n0 n HL HZ Hs Hk H0 E) as Hi.
  split; [exact (net_nothing_invented C Z T P k n x Hi)|exact (net_all_got C Z T P k n x Hi)].
Qed.
Print Assumptions C39_exactly_once.

(** Nothing gets stuck: at any point the two sides can still finish the
    negotiation and receive everything sent. *)
Theorem C39_never_stuck : forall (C : Crypto) (Z : Zip) (T : target), CryptoLaws C -> ZipLaws Z ->
  forall P k n0 n, session_secret C P = Some k -> keystream_ok C k -> start C P n0 ->
  exec C Z T gap_bounded n0 n ->
  exists n', exec C Z T gap_bounded n n' /\
    forall x, sestablished (layer (n' x)) /\ travelling (n' x) = [].
Proof.
  intros C Z T HL HZ P k n0 n Hs Hk H0 E. pose proof (both_ways C P k HL Hs) as Hb.
  destruct (net_good C Z T P k n0 n HL HZ Hs Hk H0 E) as [_ Hg].
  destruct (completable C Z T HL HZ P k Hb Hk n Hg) as (n' & E' & _ & H). eauto.
Qed.
Print Assumptions C39_never_stuck.

(** The session of Instances/NetScenario.v: an early ACK, early and reordered
    user messages. *)
Example C39_case :
  CryptoLaws toy /\ ZipLaws toy_zip /\ session_secret toy parties = Some kAB /\ keystream_ok toy kAB /\
  start toy parties net0 /\ exec toy toy_zip T gap_bounded net0 (net_after moves) /\
  (forall x, conns (arrived (net_after moves x)) <> [] /\ acks (arrived (net_after moves x)) <> []) /\
  sent (net_after moves Alice) = [PConnect (Some [x05]); PAck None; PData 0 [x41]; PData 1 []] /\
  arrived (net_after moves Bob) = [PConnect (Some [x05]); PData 1 []; PData 0 [x41]; PAck None] /\
  travelling (net_after moves Bob) = [] /\ map fst (travelling (net_after moves Alice)) = [PData 0 [x61; x62]] /\
  (forall x, sestablished (layer (net_after moves x))).
Proof.
  split; [exact toy_laws|]. split; [exact toy_zip_laws|]. split; [exact secret_net0|].
  split; [exact (toy_keystream_ok kAB)|]. split; [exact start_net0|]. split; [exact exec_net|].
  split; [intros []; vm_compute; split; discriminate|].
  split; [vm_compute; reflexivity|]. split; [vm_compute; reflexivity|]. split; [vm_compute; reflexivity|].
  split; [vm_compute; reflexivity|]. intros []; eexists; vm_compute; reflexivity.
Qed.

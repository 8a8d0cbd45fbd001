(** C73: two honest applications in minimal mode over a network that reorders.

    [mexec C T P n0 n]: the applications and the network of
    Spec/MinimalNetwork.v lead from [n0] to [n].  An application may ask for
    the early ACK and for the early user messages at any time, also too soon,
    repeatedly or late. *)

From Coq Require Import Permutation.
From Verif.Model Require Import Minimal.
From Verif.Spec Require Import Wire Trace ReadSpec Session Writers Network MinimalNetwork.
From Verif.Proofs Require Import Histories Honest MinimalHonest.
From Verif.Properties Require Import Honest.
From Verif.Instances Require Import Toy Scenario CompleteScenario NetScenario MinimalNetScenario.

Lemma mnet_inv C T P k n0 n :
  CryptoLaws C -> session_secret C P = Some k -> keystream_ok C k -> mstart C P n0 ->
  mexec C T P n0 n -> mnetinv C T P k n.
Proof.
  intros HL Hs Hk H0. pose proof (both_ways C P k HL Hs) as Hb.
  apply (mexec_inv C T HL P k Hb Hk). exact (mstart_inv C T P k Hb n0 H0).
Qed.

(** No call fails and no layer gives up. *)
Theorem C73_no_call_fails : forall (C : Crypto) (T : target), CryptoLaws C ->
  forall P k n0 n, session_secret C P = Some k -> keystream_ok C k -> mstart C P n0 -> mexec C T P n0 n ->
  (forall x, ~ failed C (a_layer (n x))) /\
  (forall m, mallowed T n m -> snd (mnet_step C T P n m) = true).
Proof.
  intros C T HL P k n0 n Hs Hk H0 E. pose proof (both_ways C P k HL Hs) as Hb.
  pose proof (mnet_inv C T P k n0 n HL Hs Hk H0 E) as Hi. split.
  - intros x. exact (mnet_not_failed C T P k n x Hi).
  - intros m Ha. apply (mstep_inv C T HL P k Hb Hk); assumption.
Qed.
Print Assumptions C73_no_call_fails.

(** What the application has been given: the CONNECT at once, with the other's
    key; the ACK at once if the other's key was known beforehand; never
    anything else than what was handed over. *)
Theorem C73_inbox : forall (C : Crypto) (T : target), CryptoLaws C ->
  forall P k n0 n, session_secret C P = Some k -> keystream_ok C k -> mstart C P n0 -> mexec C T P n0 n ->
  forall x,
  read_conns (a_inbox (n x))
    = map (fun cd => (public_key C P (other x), nonempty (custom cd))) (conns (a_arrived (n x))) /\
  (read_acks (a_inbox (n x)) = [] \/
   read_acks (a_inbox (n x)) = map (fun cd => nonempty (custom cd)) (acks (a_arrived (n x)))) /\
  (p_pins (P x) = true ->
   read_acks (a_inbox (n x)) = map (fun cd => nonempty (custom cd)) (acks (a_arrived (n x)))) /\
  read_users (a_inbox (n x)) = map (fun u => nonempty (snd u)) (a_got (n x)) /\
  Permutation (users (a_arrived (n x))) (a_got (n x) ++ a_kept (n x)) /\
  Permutation (a_sent (n (other x))) (a_arrived (n x) ++ map fst (a_travelling (n x))).
Proof.
  intros C T HL P k n0 n Hs Hk H0 E x. pose proof (mnet_inv C T P k n0 n HL Hs Hk H0 E) as Hi.
  split; [exact (mnet_conns C T P k n x Hi)|].
  split; [rewrite (mnet_acks C T P k n x Hi); destruct (told (n x)); [right|left]; reflexivity|].
  split; [exact (mnet_pinned_ack C T P k n x Hi)|].
  split; [exact (mnet_users C T P k n x Hi)|].
  split; [exact (mi_split C T P k n Hi x)|exact (mi_perm C T P k n Hi x)].
Qed.
Print Assumptions C73_inbox.

(** Asking works: once the CONNECT was read, asking for the early ACK leaves
    no ACK behind; once the ACK was read, asking for the early messages leaves
    no user message behind. *)
Theorem C73_asked : forall (C : Crypto) (T : target), CryptoLaws C ->
  forall P k n0 n, session_secret C P = Some k -> keystream_ok C k -> mstart C P n0 -> mexec C T P n0 n ->
  forall x,
  (read_conns (a_inbox (n x)) <> [] ->
   let n' := fst (mnet_step C T P n (DoTakeAck x)) in
   read_acks (a_inbox (n' x)) = map (fun cd => nonempty (custom cd)) (acks (a_arrived (n x)))) /\
  (read_acks (a_inbox (n x)) <> [] ->
   let n' := fst (mnet_step C T P n (DoDrain x)) in
   Permutation (map (fun u => nonempty (snd u)) (users (a_arrived (n x)))) (read_users (a_inbox (n' x)))).
Proof.
  intros C T HL P k n0 n Hs Hk H0 E x. pose proof (both_ways C P k HL Hs) as Hb.
  pose proof (mnet_inv C T P k n0 n HL Hs Hk H0 E) as Hi. split; intros H n'.
  - apply (mnet_take C T HL P k n x Hi). rewrite (mnet_conns C T P k n x Hi) in H.
    apply some_true in H. rewrite some_map in H. apply some_true, H.
  - pose proof (proj2 (mstep_drain C T HL P k Hb Hk n x Hi)) as Hi'.
    unfold n'. rewrite (mnet_users C T P k _ x Hi').
    destruct (mnet_drain C T HL P k Hb Hk n x Hi H) as [_ Hg]. unfold drained_of in Hg. rewrite Hg.
    apply Permutation_map, (mi_split C T P k n Hi x).
Qed.
Print Assumptions C73_asked.

(** A side has negotiated exactly when it wrote its ACK and read the other's;
    from its CONNECT on it holds the common secret. *)
Theorem C73_established : forall (C : Crypto) (T : target), CryptoLaws C ->
  forall P k n0 n, session_secret C P = Some k -> keystream_ok C k -> mstart C P n0 -> mexec C T P n0 n ->
  forall x,
  (established (a_layer (n x)) <-> acks (a_sent (n x)) <> [] /\ read_acks (a_inbox (n x)) <> []) /\
  (read_conns (a_inbox (n x)) <> [] -> session_key (a_layer (n x)) = Some k).
Proof.
  intros C T HL P k n0 n Hs Hk H0 E x. pose proof (mnet_inv C T P k n0 n HL Hs Hk H0 E) as Hi.
  split; [exact (mnet_established C T P k n x Hi)|exact (mnet_key C T P k n x Hi)].
Qed.
Print Assumptions C73_established.

(** Nothing is delivered that was not sent, nor more often than it was sent;
    and everything once nothing travels any more and the early messages were
    asked for. *)
Theorem C73_exactly_once : forall (C : Crypto) (T : target), CryptoLaws C ->
  forall P k n0 n, session_secret C P = Some k -> keystream_ok C k -> mstart C P n0 -> mexec C T P n0 n ->
  forall x,
  let sent_data := map (fun u => nonempty (snd u)) (users (a_sent (n (other x)))) in
  (exists rest, Permutation sent_data (read_users (a_inbox (n x)) ++ rest)) /\
  (a_travelling (n x) = [] -> read_acks (a_inbox (n x)) <> [] ->
   Permutation sent_data (read_users (a_inbox (fst (mnet_step C T P n (DoDrain x)) x)))).
Proof.
  intros C T HL P k n0 n Hs Hk H0 E x sent_data. pose proof (mnet_inv C T P k n0 n HL Hs Hk H0 E) as Hi. split.
  - pose proof (mperm_users C T P k n x Hi) as Hp.
    apply (Permutation_map (fun u : N * bytes => nonempty (snd u))) in Hp. rewrite !map_app, <- app_assoc in Hp.
    rewrite (mnet_users C T P k n x Hi). eexists. exact Hp.
  - intros Ht Ha. apply (Permutation_trans (l' := map (fun u => nonempty (snd u)) (users (a_arrived (n x))))).
    + apply Permutation_map, users_perm, (marrived_all C T P k n x Hi Ht).
    + apply (C73_asked C T HL P k n0 n Hs Hk H0 E x), Ha.
Qed.
Print Assumptions C73_exactly_once.

(** Nothing gets stuck: at any point the two sides can still finish the
    negotiation and be given everything sent. *)
Theorem C73_never_stuck : forall (C : Crypto) (T : target), CryptoLaws C ->
  forall P k n0 n, session_secret C P = Some k -> keystream_ok C k -> mstart C P n0 -> mexec C T P n0 n ->
  exists n', mexec C T P n n' /\
    forall x, established (a_layer (n' x)) /\ a_travelling (n' x) = [] /\
      Permutation (map (fun u => nonempty (snd u)) (users (a_sent (n' (other x))))) (read_users (a_inbox (n' x))).
Proof.
  intros C T HL P k n0 n Hs Hk H0 E. pose proof (both_ways C P k HL Hs) as Hb.
  destruct (mcompletable C T HL P k Hb Hk n (mnet_inv C T P k n0 n HL Hs Hk H0 E)) as (n' & E' & Hi & H).
  exists n'. split; [exact E'|]. intros x. destruct (H x) as (H1 & H2 & H3). split; [exact H1|]. split; [exact H2|].
  rewrite (mnet_users C T P k n' x Hi). apply Permutation_map.
  pose proof (mperm_users C T P k n' x Hi) as Hp. rewrite H2, H3, !app_nil_r in Hp. exact Hp.
Qed.
Print Assumptions C73_never_stuck.

(** The session of Instances/MinimalNetScenario.v. *)
Lemma mnet_log :
  a_sent (mnet_after mmoves Alice)
    = [PConnect (Some [x05]); PAck None; PData 0 [x41]; PData 1 []; PData 2 [x42]] /\
  a_arrived (mnet_after mmoves Bob)
    = [PConnect (Some [x05]); PData 1 []; PData 0 [x41]; PAck None; PData 2 [x42]] /\
  a_travelling (mnet_after mmoves Bob) = [] /\ map fst (a_travelling (mnet_after mmoves Alice)) = [PData 0 [x61; x62]] /\
  a_inbox (mnet_after mmoves Alice) = [MConnect [x00; x00; x00; x00] pkB None; MAck None] /\
  a_inbox (mnet_after mmoves Bob)
    = [MConnect [x00; x00; x00; x00] pkA (Some [x05]); MAck None; MMessage (Some [x42]); MMessage None; MMessage (Some [x41])].
Proof. vm_compute. repeat split. Qed.
Example C73_case :
  CryptoLaws toy /\ session_secret toy parties = Some kAB /\ keystream_ok toy kAB /\
  mstart toy parties mnet0 /\ mexec toy T parties mnet0 (mnet_after mmoves) /\
  read_users (a_inbox (mnet_after mmoves Bob)) = [Some [x42]; None; Some [x41]] /\
  (forall x, established (a_layer (mnet_after mmoves x))).
Proof.
  split; [exact toy_laws|]. split; [exact secret_net0|]. split; [exact (toy_keystream_ok kAB)|].
  split; [exact mstart_mnet0|]. split; [exact mexec_mnet|].
  split; [vm_compute; reflexivity|]. intros []; eexists; vm_compute; reflexivity.
Qed.

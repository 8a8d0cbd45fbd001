(** C75: the buffer [read_bin] and [read] ask for before they inflate a payload. *)

From Verif.Model Require Import Hint.
From Verif.Spec Require Import Wire Datagram Trace ReadSpec Accept Session Writers Attacks CompleteTrace Typed TypedTrace Builds Hint.
From Verif.Proofs Require Import UserReads Hint.
From Verif.Instances Require Import Toy Scenario CompleteScenario.
From Verif.Properties Require Import Builds.

(** ** C75 *)

(** As long as every datagram is shorter than a tenth of the address space, the
    methods that ask for the buffer do the same as those of the other theorems,
    over any history. *)
Theorem C75_harmless : forall (C : Crypto) (Z : Zip) (T : target) (F : features) (M : Type) (K : Codec M) s cs,
  roomy_life C Z T F K s -> Forall (roomy_call T) cs ->
  sreachable C Z T s /\ hrun C Z T F K s cs = trun C Z T F K s cs.
Proof. exact @hint_harmless. Qed.
Print Assumptions C75_harmless.

(** Above that it depends on the payload alone.  When five times its size is no
    size a vector can have, the call panics, the connection goes on and the
    message is lost. *)
Theorem C75_lost : forall (C : Crypto) (Z : Zip) (T : target) (F : features) (M : Type) (K : Codec M), CryptoLaws C ->
  forall s k d n data,
  sreachable C Z T s -> sestablished s -> session_key (minimal s) = Some k ->
  opens C T k d n data -> ~ affordable T (len data) -> window_room (minimal s) n ->
  next_nonce_expected (minimal s) + len (orphan_nonce_list (minimal s)) + 1 < 2 ^ 64 ->
  exists s' p, (p = POverflow \/ p = PCapacity) /\
    hcall_step C Z T F K s (VBin (SRead d)) = (s', TOther (SMsgs (Panic p))) /\
    hcall_step C Z T F K s (VRead d) = (s', TMsgs (Panic p)) /\
    sestablished s' /\
    hcall_step C Z T F K s' (VBin (SRead d)) = (s', TOther (SMsgs (Err (RecvInvalidMsg InvalidNonce)))).
Proof. exact @oversized. Qed.
Print Assumptions C75_lost.

Theorem C75_delivered : forall (C : Crypto) (Z : Zip) (T : target) (F : features) (M : Type) (K : Codec M), CryptoLaws C ->
  forall s k d n data,
  sreachable C Z T s -> sestablished s -> session_key (minimal s) = Some k ->
  opens C T k d n data -> affordable T (len data) -> window_room (minimal s) n ->
  next_nonce_expected (minimal s) + len (orphan_nonce_list (minimal s)) + 1 < 2 ^ 64 ->
  hcall_step C Z T F K s (VBin (SRead d)) = tcall_step C Z T F K s (VBin (SRead d)) /\
  hcall_step C Z T F K s (VRead d) = tcall_step C Z T F K s (VRead d).
Proof. exact @affordable_message. Qed.
Print Assumptions C75_delivered.

(** C74 with these methods. *)
Theorem C75_builds_agree : forall (C : Crypto) (Z : Zip) (F : features) (M : Type) (K : Codec M) (T T' : target) s k cs,
  modest_slife C Z T F K s k -> 2 * (k + len cs) < 2 ^ 64 -> modest_treads C Z T F K s cs ->
  fst (hrun C Z T F K s cs) = fst (hrun C Z T' F K s cs) /\
  Forall2 tagree (map snd (snd (hrun C Z T F K s cs))) (map snd (snd (hrun C Z T' F K s cs))).
Proof. exact @hint_builds_agree. Qed.
Print Assumptions C75_builds_agree.

(** A message of 429,496,730 bytes, about a tenth of the 32-bit address space,
    for the established layer [SA4] of a 32-bit build. *)
Definition payload_of (n : N) : bytes := repeat x00 (N.to_nat n).
Lemma len_payload n : len (payload_of n) = n.
Proof. unfold len, payload_of. rewrite repeat_length. apply N2Nat.id. Qed.

Lemma SA4_facts :
  fst (srun toy toy_zip release32 SA0 scallsA) = SA4 /\ session_key (minimal SA4) = Some kAB /\
  next_nonce_expected (minimal SA4) = 0 /\ orphan_nonce_list (minimal SA4) = [] /\
  msl_status (minimal SA4) = NegotiationSuccessful.
Proof. vm_compute. exact (conj eq_refl (conj eq_refl (conj eq_refl (conj eq_refl eq_refl)))). Qed.

Lemma large_facts n : 26 + n < 2 ^ 32 ->
  let d := user_datagram toy kAB 0 (payload_of n) in
  sreachable toy toy_zip release32 SA4 /\ sestablished SA4 /\ session_key (minimal SA4) = Some kAB /\
  opens toy release32 kAB d 0 (payload_of n) /\ window_room (minimal SA4) 0 /\
  next_nonce_expected (minimal SA4) + len (orphan_nonce_list (minimal SA4)) + 1 < 2 ^ 64.
Proof.
  intros Hn d. destruct SA4_facts as (E1 & E2 & E3 & E4 & E5).
  split. { rewrite <- E1. eapply CompleteFacts.srun_reachable; [eapply sreach_create; exact created_SA0|].
           apply surjective_pairing. }
  split. { apply CompleteMode.sestablished_iff, Failure.established_iff. exact E5. }
  split; [exact E2|]. split.
  { apply Sending.opens_user_datagram; [reflexivity|apply toy_keystream_ok|]. rewrite len_payload. exact Hn. }
  split.
  - split; [|left; symmetry; exact E3]. unfold received. rewrite E3, E4. intros [H|[]]. lia.
  - rewrite E3, E4. reflexivity.
Qed.

Lemma too_large : ~ affordable release32 429496730.
Proof. intros [_ H]. vm_compute in H. discriminate H. Qed.

Example C75_case : exists d data,
  len data = 429496730 /\ sreachable toy toy_zip release32 SA4 /\ sestablished SA4 /\
  session_key (minimal SA4) = Some kAB /\ opens toy release32 kAB d 0 data /\
  ~ affordable release32 (len data) /\ window_room (minimal SA4) 0 /\
  next_nonce_expected (minimal SA4) + len (orphan_nonce_list (minimal SA4)) + 1 < 2 ^ 64.
Proof.
  destruct (large_facts 429496730 eq_refl) as (A & B & D & E & G & H).
  exists (user_datagram toy kAB 0 (payload_of 429496730)), (payload_of 429496730).
  rewrite len_payload.
  exact (conj eq_refl (conj A (conj B (conj D (conj E (conj too_large (conj G H))))))).
Qed.

(** With twice the size the product wraps around: a release build is given a
    buffer of 4 bytes and goes on, a debug build panics. *)
Definition debug32 : target := {| overflow_checks := true; usize_width := P32 |}.
Example C75_sizes :
  affordable release32 429496729 /\ ~ affordable release32 429496730 /\
  affordable release32 858993460 /\ ~ affordable debug32 858993460.
Proof.
  split; [split; [discriminate|reflexivity]|]. split; [exact too_large|].
  split; [split; [discriminate|reflexivity]|]. intros [H _]. specialize (H eq_refl). discriminate H.
Qed.

(** So the buffer does make a difference. *)
Theorem C75_refuted :
  ~ (forall (C : Crypto) (Z : Zip) (T : target) (F : features) (M : Type) (K : Codec M), CryptoLaws C -> ZipLaws Z ->
     forall s c, sreachable C Z T s -> hcall_step C Z T F K s c = tcall_step C Z T F K s c).
Proof.
  intros H. destruct (large_facts 429496730 eq_refl) as (A & B & D & E & G & I).
  assert (~ affordable release32 (len (payload_of 429496730))) as Hn by (rewrite len_payload; exact too_large).
  destruct (C75_lost toy toy_zip release32 all_features bytes toy_codec toy_laws _ _ _ _ _ A B D E Hn G I)
    as (s' & p & _ & Hp & _).
  specialize (H toy toy_zip release32 all_features bytes toy_codec toy_laws toy_zip_laws _
                (VBin (SRead (user_datagram toy kAB 0 (payload_of 429496730)))) A).
  apply (plain_no_panic toy toy_zip release32 all_features toy_codec toy_laws _ _ _ _ _ A B D E G I p).
  rewrite <- H, Hp. reflexivity.
Qed.
Print Assumptions C75_refuted.

(** The session of C74, with these methods. *)
Lemma harmless_facts :
  forallb (fun d => 5 * len d <? 2 ^ 63) [connectB [x00; x05]; ackB []; typed_message; runt] = true.
Proof. vm_compute. reflexivity. Qed.
Example C75_harmless_case :
  roomy_life toy toy_zip T all_features toy_codec SA0 /\ Forall (roomy_call T) sessionSA.
Proof.
  split; [eapply rl_create; exact created_SA0|].
  pose proof harmless_facts as H. rewrite forallb_forall in H.
  assert (forall d, In d [connectB [x00; x05]; ackB []; typed_message; runt] -> roomy T d) as Hr.
  { intros d Hd. apply N.ltb_lt. exact (H d Hd). }
  constructor; [exact I|]. constructor; [apply Hr; exact (or_introl eq_refl)|].
  constructor; [exact I|]. constructor; [apply Hr; exact (or_intror (or_introl eq_refl))|].
  constructor; [apply Hr; exact (or_intror (or_intror (or_introl eq_refl)))|].
  constructor; [apply Hr; exact (or_intror (or_intror (or_intror (or_introl eq_refl))))|constructor].
Qed.

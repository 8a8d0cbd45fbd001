(** C74: 32 or 64 bits, overflow checks or not: all builds behave alike on
    modest datagrams. *)

From Verif.Model Require Import Serde.
From Verif.Spec Require Import Wire Datagram Trace ReadSpec Accept Session Writers Attacks CompleteTrace Typed TypedTrace Builds.
From Verif.Proofs Require Import Builds.
From Verif.Instances Require Import Toy Scenario CompleteScenario.

(** ** C74 *)

(** A layer that was created, used and cloned, and is used on, in a history
    shorter than 2^64 calls where every datagram read announces a length that
    fits in 32 bits: whatever the build, it ends in the same state and answers
    the same; a read that panics in one build panics in the other. *)
Theorem C74_builds_agree : forall (C : Crypto) (T T' : target) s k cs,
  modest_life C T s k -> k + len cs < 2 ^ 64 -> modest_reads C T s cs ->
  fst (run C T s cs) = fst (run C T' s cs) /\
  Forall2 agree (map snd (snd (run C T s cs))) (map snd (snd (run C T' s cs))).
Proof. exact builds_agree. Qed.
Print Assumptions C74_builds_agree.

(** The layer could have come where it is in the other build. *)
Theorem C74_same_life : forall (C : Crypto) (T T' : target) s k,
  modest_life C T s k -> k < 2 ^ 64 -> modest_life C T' s k.
Proof. exact life_elsewhere. Qed.
Print Assumptions C74_same_life.

(** The same in complete mode, through the binary and the typed methods. *)
Theorem C74_complete_builds_agree : forall (C : Crypto) (Z : Zip) (T T' : target) (F : features) (M : Type) (K : Codec M)
  s k cs,
  modest_slife C Z T F K s k -> 2 * (k + len cs) < 2 ^ 64 -> modest_treads C Z T F K s cs ->
  fst (trun C Z T F K s cs) = fst (trun C Z T' F K s cs) /\
  Forall2 tagree (map snd (snd (trun C Z T F K s cs))) (map snd (snd (trun C Z T' F K s cs))).
Proof. exact complete_builds_agree. Qed.
Print Assumptions C74_complete_builds_agree.

Theorem C74_complete_same_life : forall (C : Crypto) (Z : Zip) (T T' : target) (F : features) (M : Type) (K : Codec M) s k,
  modest_slife C Z T F K s k -> 2 * k < 2 ^ 64 -> modest_slife C Z T' F K s k.
Proof. exact slife_elsewhere. Qed.
Print Assumptions C74_complete_same_life.

(** What an honest peer sends is modest, as long as the custom data or the
    message is shorter than 4 gigabytes and the session key is not one of those
    of C08. *)
Theorem C74_honest : forall (C : Crypto), CryptoLaws C ->
  (forall key seed epk cd, 54 + len epk + len cd < 2 ^ 32 -> modest C key (signed_connect C seed epk cd)) /\
  (forall key seed epk cd, 50 + len cd < 2 ^ 32 -> modest C key (signed_ack C seed epk cd)) /\
  (forall k n data, keystream_ok C k -> 26 + len data < 2 ^ 32 -> modest C (Some k) (user_datagram C k n data)).
Proof. exact honest_modest. Qed.
Print Assumptions C74_honest.

(** Not so for datagrams that announce more: a CONNECT whose length field is
    2^32 too large is accepted by a 32-bit build and makes a 64-bit build
    panic. *)
Definition wide_text : bytes := frame_len (2 ^ 32 + 70) [x00; x01] (connect_content epkB pkB []).
Definition wide : bytes := wide_text ++ toy_sign seedB wide_text.
Lemma wide_read :
  map snd (snd (run toy release32 A0 [CRead wide])) = [RMsg (Ok (Some (MConnect [x00; x00; x00; x00] pkB None)))] /\
  map snd (snd (run toy release64 A0 [CRead wide])) = [RMsg (Panic PSliceRange)].
Proof. split; vm_compute; reflexivity. Qed.

Theorem C74_refuted :
  ~ (forall (C : Crypto) (T T' : target), CryptoLaws C -> forall r cfg pin s cs,
     create C r cfg pin = Ok s -> len cs < 2 ^ 64 ->
     Forall2 agree (map snd (snd (run C T s cs))) (map snd (snd (run C T' s cs)))).
Proof.
  intros H. specialize (H toy release32 release64 toy_laws (RngKey skA) config_default None A0 [CRead wide] created_A0 eq_refl).
  destruct wide_read as [E E']. rewrite E, E' in H. inversion H as [|? ? ? ? Ha _]; subst. inversion Ha.
Qed.
Print Assumptions C74_refuted.

(** A session with a datagram of five bytes in it: the builds panic for
    different reasons, and go on alike. *)
Definition runt : bytes := [x01; x02; x03; x04; x05].
Definition sessionA : list call :=
  callsA ++ [CRead (msgA 1 [x42]); CRead runt; CRead (msgA 0 [x41]); CWrite [x31] vec_writer].

Lemma modest_cons C T s1 s c cs :
  fst (call_step C T s c) = s1 -> (forall d, c = CRead d -> modest C (session_key s) d) -> modest_reads C T s1 cs ->
  modest_reads C T s (c :: cs).
Proof.
  intros <- H1 H2 cs1 d cs2 E. destruct cs1 as [|c1 cs1].
  - injection E as -> _. apply H1. reflexivity.
  - injection E as <- E. specialize (H2 cs1 d cs2 E). cbn [run]. destruct (call_step C T s c) as [s1 r].
    cbn [fst] in H2. destruct (run C T s1 cs1) as [s2 h2]. exact H2.
Qed.
Lemma modest_nil C T s : modest_reads C T s [].
Proof. intros cs1 d cs2 E. destruct cs1; discriminate E. Qed.
Lemma modest_runt key : modest toy key runt.
Proof.
  split.
  - intros L th _ E. discriminate E.
  - intros _ k text _ E. exfalso. assert (length (seal toy k text) = 5%nat) as Hl by (rewrite <- E; reflexivity).
    unfold seal in Hl. rewrite app_length, (law_mac_len toy toy_laws) in Hl. lia.
Qed.

Definition A5 := Eval vm_compute in after A4 [CRead (msgA 1 [x42])].
Definition A7 := Eval vm_compute in after A5 [CRead (msgA 0 [x41])].
Lemma stages :
  fst (call_step toy T A0 (CConnect pkA None)) = A1 /\
  fst (call_step toy T A1 (CRead (connectB [x05]))) = A2 /\
  fst (call_step toy T A2 (CAck (Some [x06]))) = A3 /\
  fst (call_step toy T A3 (CRead (ackB []))) = A4 /\
  fst (call_step toy T A4 (CRead (msgA 1 [x42]))) = A5 /\
  fst (call_step toy T A5 (CRead runt)) = A5 /\
  fst (call_step toy T A5 (CRead (msgA 0 [x41]))) = A7.
Proof. vm_compute. exact (conj eq_refl (conj eq_refl (conj eq_refl (conj eq_refl (conj eq_refl (conj eq_refl eq_refl)))))). Qed.
Lemma stage_keys : session_key A4 = Some kAB /\ session_key A5 = Some kAB.
Proof. split; vm_compute; reflexivity. Qed.
Lemma honest_messages :
  connectB [x05] = signed_connect toy seedB epkB [x05] /\ ackB [] = signed_ack toy seedB epkA [].
Proof. split; vm_compute; reflexivity. Qed.

Lemma modest_sessionA : modest_reads toy T A0 sessionA.
Proof.
  destruct (C74_honest toy toy_laws) as (H1 & H2 & H3). destruct honest_messages as [M1 M2].
  destruct stages as (S1 & S2 & S3 & S4 & S5 & S6 & S7). destruct stage_keys as [K4 K5].
  assert (forall n data, 26 + len data < 2 ^ 32 -> modest toy (Some kAB) (msgA n data)) as H3'.
  { intros n data. apply H3, toy_keystream_ok. }
  apply (modest_cons _ _ _ _ _ _ S1); [intros d E; discriminate E|].
  apply (modest_cons _ _ _ _ _ _ S2); [intros d E; injection E as <-; rewrite M1; apply H1; reflexivity|].
  apply (modest_cons _ _ _ _ _ _ S3); [intros d E; discriminate E|].
  apply (modest_cons _ _ _ _ _ _ S4); [intros d E; injection E as <-; rewrite M2; apply H2; reflexivity|].
  apply (modest_cons _ _ _ _ _ _ S5); [intros d E; injection E as <-; rewrite K4; apply H3'; reflexivity|].
  apply (modest_cons _ _ _ _ _ _ S6); [intros d E; injection E as <-; apply modest_runt|].
  apply (modest_cons _ _ _ _ _ _ S7); [intros d E; injection E as <-; rewrite K5; apply H3'; reflexivity|].
  eapply modest_cons; [reflexivity|intros d E; discriminate E|apply modest_nil].
Qed.

Definition reply_of (T : target) (n : nat) : reply := nth n (map snd (snd (run toy T A0 sessionA))) (RUnit (Ok tt)).
Lemma runt_replies : reply_of release64 5 = RMsg (Panic PSliceRange) /\ reply_of debug64 5 = RMsg (Panic POverflow).
Proof. split; vm_compute; reflexivity. Qed.
Lemma later_reply : reply_of release32 6 = RMsg (Ok (Some (MMessage (Some [x41])))).
Proof. vm_compute. reflexivity. Qed.

Example C74_case :
  modest_life toy T A0 0 /\ 0 + len sessionA < 2 ^ 64 /\ modest_reads toy T A0 sessionA /\
  reply_of release64 5 = RMsg (Panic PSliceRange) /\ reply_of debug64 5 = RMsg (Panic POverflow) /\
  reply_of release32 6 = RMsg (Ok (Some (MMessage (Some [x41])))).
Proof.
  split; [eapply ml_create; exact created_A0|]. split; [reflexivity|]. split; [exact modest_sessionA|].
  split; [exact (proj1 runt_replies)|]. split; [exact (proj2 runt_replies)|exact later_reply].
Qed.

(** The same in complete mode: the negotiation, a typed message in CBOR, the
    datagram of five bytes. *)
Definition typed_message : bytes := msgA 0 ([x00] ++ header Cbor ++ [xa0; x33]).
Definition sessionSA : list (tcall bytes) :=
  map VBin scallsA ++ [VRead typed_message; VRead runt].

Lemma modest_tcons C Z T F K s1 s (c : tcall bytes) cs :
  fst (tcall_step C Z T F K s c) = s1 ->
  (forall d, c = VRead d \/ c = VBin (SRead d) -> modest C (session_key (minimal s)) d /\ 5 * len d < 2 ^ 31) ->
  modest_treads C Z T F K s1 cs -> modest_treads C Z T F K s (c :: cs).
Proof.
  intros <- H1 H2 cs1 c1 d cs2 E Hd. destruct cs1 as [|c2 cs1].
  - injection E as -> _. apply H1. exact Hd.
  - injection E as <- E. specialize (H2 cs1 c1 d cs2 E Hd). cbn [trun]. destruct (tcall_step C Z T F K s c) as [s1 r].
    cbn [fst] in H2. destruct (trun C Z T F K s1 cs1) as [s2 h2]. exact H2.
Qed.

Definition SA5 := Eval vm_compute in fst (tcall_step toy toy_zip T all_features toy_codec SA4 (VRead typed_message)).
Lemma sstages :
  let step := tcall_step toy toy_zip T all_features toy_codec in
  fst (step SA0 (VBin (SConnect None vec_writer))) = SA1 /\
  fst (step SA1 (VBin (SRead (connectB [x00; x05])))) = SA2 /\
  fst (step SA2 (VBin (SAck (Some [x06]) vec_writer))) = SA3 /\
  fst (step SA3 (VBin (SRead (ackB [])))) = SA4 /\
  fst (step SA4 (VRead typed_message)) = SA5.
Proof. vm_compute. exact (conj eq_refl (conj eq_refl (conj eq_refl (conj eq_refl eq_refl)))). Qed.
Lemma sstage_facts :
  session_key (minimal SA4) = Some kAB /\
  connectB [x00; x05] = signed_connect toy seedB epkB [x00; x05] /\
  forallb (fun d => 5 * len d <? 2 ^ 31) [connectB [x00; x05]; ackB []; typed_message; runt] = true.
Proof. vm_compute. exact (conj eq_refl (conj eq_refl eq_refl)). Qed.

Lemma modest_sessionSA : modest_treads toy toy_zip T all_features toy_codec SA0 sessionSA.
Proof.
  destruct (C74_honest toy toy_laws) as (H1 & H2 & H3). destruct honest_messages as [_ M2].
  destruct sstages as (S1 & S2 & S3 & S4 & S5). destruct sstage_facts as (K4 & M1 & Hl).
  rewrite forallb_forall in Hl.
  assert (forall d, In d [connectB [x00; x05]; ackB []; typed_message; runt] -> 5 * len d < 2 ^ 31) as Hl'.
  { intros d Hd. apply N.ltb_lt. exact (Hl d Hd). }
  apply (modest_tcons _ _ _ _ _ _ _ _ _ S1); [intros d [E|E]; discriminate E|].
  apply (modest_tcons _ _ _ _ _ _ _ _ _ S2).
  { intros d [E|E]; [discriminate E|]. injection E as <-.
    split; [rewrite M1; apply H1; reflexivity|apply Hl'; exact (or_introl eq_refl)]. }
  apply (modest_tcons _ _ _ _ _ _ _ _ _ S3); [intros d [E|E]; discriminate E|].
  apply (modest_tcons _ _ _ _ _ _ _ _ _ S4).
  { intros d [E|E]; [discriminate E|]. injection E as <-.
    split; [rewrite M2; apply H2; reflexivity|apply Hl'; exact (or_intror (or_introl eq_refl))]. }
  apply (modest_tcons _ _ _ _ _ _ _ _ _ S5).
  { intros d [E|E]; [|discriminate E]. injection E as <-.
    split; [rewrite K4; apply H3; [apply toy_keystream_ok|reflexivity]|apply Hl'; exact (or_intror (or_intror (or_introl eq_refl)))]. }
  eapply modest_tcons; [reflexivity| |intros cs1 c d cs2 E; destruct cs1; discriminate E].
  intros d [E|E]; [|discriminate E]. injection E as <-.
  split; [apply modest_runt|apply Hl'; exact (or_intror (or_intror (or_intror (or_introl eq_refl))))].
Qed.

Definition sreply_of (T : target) (n : nat) : treply bytes :=
  nth n (map snd (snd (trun toy toy_zip T all_features toy_codec SA0 sessionSA))) (TOther (SUnit (Ok tt))).
Lemma sreplies :
  sreply_of release32 4 = TMsgs (Ok [TMMessage (Some [x33])]) /\
  sreply_of release64 5 = TMsgs (Panic PSliceRange) /\ sreply_of debug64 5 = TMsgs (Panic POverflow).
Proof. vm_compute. exact (conj eq_refl (conj eq_refl eq_refl)). Qed.

Example C74_complete_case :
  modest_slife toy toy_zip T all_features toy_codec SA0 0 /\ 2 * (0 + len sessionSA) < 2 ^ 64 /\
  modest_treads toy toy_zip T all_features toy_codec SA0 sessionSA /\
  sreply_of release32 4 = TMsgs (Ok [TMMessage (Some [x33])]) /\
  sreply_of release64 5 = TMsgs (Panic PSliceRange) /\ sreply_of debug64 5 = TMsgs (Panic POverflow).
Proof.
  split; [eapply msl_create; exact created_SA0|]. split; [reflexivity|]. split; [exact modest_sessionSA|]. exact sreplies.
Qed.

(** Writing user messages: what is written, and the nonces sent. *)

From Coq Require Import Arith ZifyBool ZifyNat ZifyN.
From Verif.Model Require Import Minimal.
From Verif.Spec Require Import Wire Datagram Trace ReadSpec Accept Session Writers.
From Verif.Proofs Require Import BaseFacts IoFacts CipherFacts ReaderFacts ReadCases WindowFacts Invariant
  Negotiation Failure DatagramFacts ReadSpecFacts Accept Keys TraceInv UserReads Ledger Nonces.

Section WithEnv.
Context (C : Crypto) (T : target) (HL : CryptoLaws C).

(** What reading never changes. *)
Definition sendside (s : msl) := (next_nonce_sent s, cloned s, conf s).

Lemma read_inner_sendside chk d s s' o : read_inner C T chk d s = (s', o) -> sendside s' = sendside s.
Proof.
  intros E. apply read_inner_cases in E.
  destruct E;
    try match goal with H : compute_shared_secret _ _ _ = _ |- _ =>
      unfold compute_shared_secret in H;
      repeat match type of H with
      | context[match ?x with _ => _ end] => destruct x
      end; injection H as <- <- end;
    try match goal with H : update_window _ _ _ = _ |- _ =>
        apply update_window_shape in H as [(v & l & -> & _)|[-> _]] end;
    try match goal with |- context[pin ?pk s] => destruct (pin_fields pk s) as [? ->] end;
    reflexivity.
Qed.

Lemma drain_loop_sendside bs acc s s' o :
  drain_loop C T bs acc s = (s', o) -> sendside s' = sendside s.
Proof.
  revert acc s. induction bs as [|b bs IH]; intros acc s E; cbn [drain_loop] in E.
  - injection E as <- <-. reflexivity.
  - destruct (read_inner C T false b s) as [s1 o1] eqn:E1. apply read_inner_sendside in E1. rewrite <- E1.
    destruct o1 as [[m|]|e|p]; try (injection E as <- <-; reflexivity); eapply IH; exact E.
Qed.

Lemma step_sent s c s' r :
  Inv C T s -> call_step C T s c = (s', r) ->
  next_nonce_sent s + 1 < 2 ^ 64 \/ written (c, r) = false ->
  next_nonce_sent s' = next_nonce_sent s + (if written (c, r) then 1 else 0).
Proof.
  intros HI E Hb. unfold written in *. cbn [snd] in *.
  destruct c; cbn [call_step] in E.
  - destruct (read C T incoming s) as [s1 o] eqn:Er. injection E as <- <-.
    apply read_inner_sendside in Er. injection Er as -> _ _. lia.
  - unfold take_ack_msg_recv_too_early in E. destruct (ack_msg_recv_too_early s) as [b|].
    + destruct (read C T b (set_ack_early None s)) as [s1 o] eqn:Er. injection E as <- <-.
      apply read_inner_sendside in Er. injection Er as -> _ _. cbn. lia.
    + injection E as <- <-. lia.
  - destruct (drain_tmp_stack_user_msgs C T s) as [s1 o] eqn:Er. injection E as <- <-.
    apply drain_loop_sendside in Er. injection Er as -> _ _. cbn. lia.
  - destruct (create_connect_message C public_key cd s) as [s1 o] eqn:Er. injection E as <- <-.
    apply create_connect_cases in Er as [(r & _ & -> & _)|(-> & _)]; cbn; lia.
  - destruct (create_ack_message C cd s) as [s1 o] eqn:Er. injection E as <- <-.
    apply (create_ack_cases C T) in Er as [(st & epk & _ & -> & _)|(-> & _)]; try exact HI; cbn; lia.
  - destruct (write_message C T data s w) as [[s1 w'] o] eqn:Er. injection E as <- <-.
    apply write_message_cases in Er
        as [(_ & -> & _ & [(l & r & _ & ->)|(_ & ->)])|[(_ & _ & -> & _ & ->)|(Hst & k & o1 & _ & _ &
            [(e & _ & -> & ->)|[(_ & n & Hn & -> & ->)|(_ & p & _ & -> & ->)]])]]; cbn [next_nonce_sent set_status set_next_nonce_sent]; try lia.
    destruct Hb as [Hb|Hb]; [|discriminate].
    rewrite u64_incr_small in Hn by exact Hb. injection Hn as <-. reflexivity.
  - unfold try_clone in E. destruct (msl_status s); injection E as <- <-; cbn; lia.
  - unfold change_config in E. destruct (cloned s); injection E as <- <-; cbn; lia.
Qed.

Lemma sent_count s0 cs s h :
  reachable C T s0 -> run C T s0 cs = (s, h) ->
  next_nonce_sent s0 + N.of_nat (count written h) < 2 ^ 64 ->
  next_nonce_sent s = next_nonce_sent s0 + N.of_nat (count written h).
Proof.
  intros HR. revert s h. induction cs as [|c cs IH] using rev_ind; intros s h E Hb.
  - injection E as <- <-. cbn. lia.
  - rewrite run_snoc in E. destruct (run C T s0 cs) as [s1 h1] eqn:E1.
    destruct (call_step C T s1 c) as [s2 r] eqn:E2. injection E as <- <-.
    rewrite count_snoc in *. specialize (IH _ _ eq_refl).
    assert (Inv C T s1) as HI1.
    { pose proof (inv_run C T s0 cs (inv_reachable C T s0 HR)) as H. rewrite E1 in H. exact H. }
    apply step_sent in E2; [|exact HI1|].
    + rewrite E2, IH by lia. destruct (written (c, r)); lia.
    + rewrite IH by lia. destruct (written (c, r)); [left; lia|right; reflexivity].
Qed.

(** ** C03 *)
Lemma write_ok data s w s' w' :
  takes_all w \/ 16 < bw_cap w ->
  write_message C T data s w = (s', w', Ok tt) ->
  exists k, session_key s = Some k /\ established s /\
    output w' = output w ++ user_datagram C k (next_nonce_sent s) data.
Proof.
  intros Hw E. apply write_message_cases in E
    as [(_ & _ & _ & [(l & r & _ & H)|(_ & H)])|[(_ & _ & _ & _ & H)|(Hst & k & o1 & Hk & He &
        [(e & _ & H & _)|[(-> & n & Hn & -> & _)|(_ & p & _ & _ & H)]])]]; try discriminate.
  exists k. split; [apply session_key_some; exact Hk|]. split; [apply established_iff; exact Hst|].
  destruct Hw as [Hw|Hw].
  - destruct (encrypt_accepting C (hashed C (user_frame (next_nonce_sent s) data)) k w Hw) as (w1 & H1 & _ & H2 & _).
    rewrite H1 in He. injection He as <-. exact H2.
  - exact (encrypt_ok_complete C HL _ _ _ _ Hw He).
Qed.

(** A user message that is written, when none of the obstacles is there. *)
Lemma write_succeeds data s w k :
  established s -> session_key s = Some k -> takes_all w -> next_nonce_sent s + 1 < 2 ^ 64 ->
  exists w', write_message C T data s w = (set_next_nonce_sent (next_nonce_sent s + 1) s, w', Ok tt) /\
    takes_all w' /\ output w' = output w ++ user_datagram C k (next_nonce_sent s) data.
Proof.
  intros He Hk Hw Hb. apply established_iff in He. apply session_key_some in Hk.
  destruct (encrypt_accepting C (hashed C (user_frame (next_nonce_sent s) data)) k w Hw) as (w1 & H1 & H2 & H3 & _).
  exists w1. split; [|split; [exact H2|exact H3]].
  destruct (write_message C T data s w) as [[s' w'] o] eqn:E. apply write_message_cases in E
    as [(H & _)|[(_ & H & _)|(_ & k' & o1 & Hk' & Hen &
        [(e & -> & _ & _)|[(_ & n & Hn & -> & ->)|(_ & p & Hp & _)]])]]; try congruence.
  - assert (k' = k) by congruence. subst k'. rewrite H1 in Hen. injection Hen as <- _.
    rewrite u64_incr_small in Hn by exact Hb. injection Hn as <-. reflexivity.
  - rewrite u64_incr_small in Hp by exact Hb. discriminate.
Qed.

Lemma run_secret_mono s cs s' h k :
  reachable C T s -> run C T s cs = (s', h) -> session_key s = Some k -> session_key s' = Some k.
Proof.
  intros HR. revert s' h. induction cs as [|c cs IH] using rev_ind; intros s' h E Hk.
  - injection E as <- <-. exact Hk.
  - rewrite run_snoc in E. destruct (run C T s cs) as [s1 h1] eqn:E1.
    destruct (call_step C T s1 c) as [s2 r] eqn:E2. injection E as <- <-.
    eapply step_secret_mono; [exact HL| |exact E2|eapply IH; [reflexivity|exact Hk]].
    pose proof (inv_run C T s cs (inv_reachable C T s HR)) as H. rewrite E1 in H. exact H.
Qed.

Lemma run_reachable s cs s' h : reachable C T s -> run C T s cs = (s', h) -> reachable C T s'.
Proof. intros HR E. pose proof (reachable_run C T s cs HR) as H. rewrite E in H. exact H. Qed.

(** ** C30: on any handle, a successful write sends the nonce that follows the
    number of successful writes so far. *)
Theorem sent_nonces_handle s0 cs s h1 h2 data w w' :
  reachable C T s0 ->
  run C T s0 cs = (s, h1 ++ (CWrite data w, RWritten (Ok tt) w') :: h2) ->
  takes_all w \/ 16 < bw_cap w ->
  next_nonce_sent s0 + N.of_nat (count written h1) < 2 ^ 64 ->
  exists k, session_key s = Some k /\
    output w' = output w ++ user_datagram C k (next_nonce_sent s0 + N.of_nat (count written h1)) data.
Proof.
  intros HR E Hw Hb. apply run_split in E as (cs1 & cs2 & sm & -> & E1 & E2).
  destruct cs2 as [|c cs2]; [discriminate|]. cbn [run] in E2.
  destruct (call_step C T sm c) as [s1 r1] eqn:E3.
  destruct (run C T s1 cs2) as [s2 h2'] eqn:E4. injection E2 as <- -> -> ->.
  cbn [call_step] in E3. destruct (write_message C T data sm w) as [[s1' w1] o] eqn:Ew.
  injection E3 as -> -> ->.
  destruct (write_ok _ _ _ _ _ Hw Ew) as (k & Hk & _ & Ho).
  pose proof (run_reachable _ _ _ _ HR E1) as HRm.
  exists k. split.
  - assert (call_step C T sm (CWrite data w) = (s1, RWritten (Ok tt) w')) as E3
      by (cbn [call_step]; rewrite Ew; reflexivity).
    eapply run_secret_mono; [|exact E4|].
    + replace s1 with (fst (call_step C T sm (CWrite data w))) by (rewrite E3; reflexivity).
      apply reach_step, HRm.
    + eapply step_secret_mono; [exact HL|apply inv_reachable; exact HRm|exact E3|exact Hk].
  - rewrite Ho, (sent_count _ _ _ _ HR E1 Hb). reflexivity.
Qed.

Theorem sent_nonces_count r cfg pin s0 cs s h1 h2 data w w' :
  create C r cfg pin = Ok s0 ->
  run C T s0 cs = (s, h1 ++ (CWrite data w, RWritten (Ok tt) w') :: h2) ->
  takes_all w \/ 16 < bw_cap w ->
  N.of_nat (count written h1) < 2 ^ 64 ->
  exists k, session_key s = Some k /\
    output w' = output w ++ user_datagram C k (N.of_nat (count written h1)) data.
Proof.
  intros Hc E Hw Hb. destruct (created_fresh _ _ _ _ _ Hc) as (_ & _ & _ & F4).
  destruct (sent_nonces_handle s0 cs s h1 h2 data w w') as (k & H1 & H2); auto.
  { eapply reach_create, Hc. } { rewrite F4. exact Hb. }
  exists k. split; [exact H1|]. rewrite H2, F4. reflexivity.
Qed.

(** ** C31 *)
Theorem failed_write_no_reuse s cs s' h1 h2 data w er w' :
  reachable C T s ->
  run C T s cs = (s', h1 ++ (CWrite data w, RWritten (Err er) w') :: h2) ->
  failed C s' /\ forall e, In e h2 -> inert e.
Proof.
  intros HR E. eapply (failure_is_permanent C T s cs s' _ (h1 ++ [(CWrite data w, RWritten (Err er) w')]) h2 HR E).
  - rewrite <- app_assoc. reflexivity.
  - exists (CWrite data w, RWritten (Err er) w'). split; [apply in_app_iff; right; left; reflexivity|reflexivity].
Qed.

(** A failed write hands over at most a beginning of the datagram. *)
Theorem failed_write_prefix s data w s' w' er :
  write_message C T data s w = (s', w', Err er) ->
  w' = w \/ exists k j, session_key s = Some k /\
    output w' = output w ++ firstn j (user_datagram C k (next_nonce_sent s) data).
Proof.
  intros E. apply write_message_cases in E
    as [(_ & _ & -> & _)|[(_ & _ & _ & -> & _)|(_ & k & o1 & Hk & Hen & _)]]; auto.
  right. apply encrypt_prefix in Hen as [j Hj]. exists k, j. split; [apply session_key_some; exact Hk|exact Hj].
Qed.

(** ** C32 *)
Theorem clone_sends_same_nonce s s1 c k data1 data2 w1 w2 :
  try_clone s = (s1, Ok c) -> session_key s = Some k -> next_nonce_sent s + 1 < 2 ^ 64 ->
  takes_all w1 -> takes_all w2 ->
  exists s1' w1' c' w2' n,
    write_message C T data1 s1 w1 = (s1', w1', Ok tt) /\
    write_message C T data2 c w2 = (c', w2', Ok tt) /\
    output w1' = output w1 ++ user_datagram C k n data1 /\
    output w2' = output w2 ++ user_datagram C k n data2.
Proof.
  intros E Hk Hb H1 H2. unfold try_clone in E. destruct (msl_status s) eqn:Hst; try discriminate.
  injection E as <- <-.
  destruct (write_succeeds data1 (set_cloned true s) w1 k) as (w1' & W1 & _ & O1); auto.
  { apply established_iff. exact Hst. }
  edestruct (write_succeeds data2) as (w2' & W2 & _ & O2); [| |exact H2| |].
  4: { do 4 eexists. exists (next_nonce_sent s). split; [exact W1|]. split; [exact W2|].
       split; [exact O1|exact O2]. }
  { apply established_iff. reflexivity. } { exact Hk. } { exact Hb. }
Qed.

Theorem clone_replays s s1 c d o :
  reachable C T s -> try_clone s = (s1, Ok c) ->
  (snd (read C T d s1) = Ok (Some (MMessage o)) <-> snd (read C T d c) = Ok (Some (MMessage o))).
Proof.
  intros HR E. assert (reachable C T s1 /\ reachable C T c) as [HR1 HRc].
  { split.
    - pose proof (reach_step C T s CClone HR) as H. cbn [call_step] in H. rewrite E in H. exact H.
    - eapply reach_clone; [exact HR|]. rewrite E. reflexivity. }
  rewrite (user_delivered_iff C T HL s1 (inv_reachable C T s1 HR1) d).
  rewrite (user_delivered_iff C T HL c (inv_reachable C T c HRc) d).
  unfold try_clone in E. destruct (msl_status s) eqn:Hst; try discriminate. injection E as <- <-.
  assert (established (set_cloned true s)) as He1 by (apply established_iff; exact Hst).
  split; intros (k & n & data & (H1 & H2 & H3 & H4 & H5 & H6 & H7) & Ho); exists k, n, data;
    (split; [|exact Ho]); (repeat split; try assumption).
  all: try (apply established_iff; reflexivity).
  all: try apply H6; try exact H7.
Qed.

(** ** C33 *)
Theorem send_overflow_panics s data w k :
  established s -> session_key s = Some k -> takes_all w ->
  next_nonce_sent s = 2 ^ 64 - 1 -> overflow_checks T = true ->
  exists w', write_message C T data s w = (s, w', Panic POverflow) /\
    output w' = output w ++ user_datagram C k (2 ^ 64 - 1) data.
Proof.
  intros He Hk Hw Hn Hoc. apply established_iff in He. apply session_key_some in Hk.
  destruct (encrypt_accepting C (hashed C (user_frame (next_nonce_sent s) data)) k w Hw) as (w1 & H1 & H2 & H3 & _).
  exists w1. rewrite <- Hn. split; [|exact H3].
  assert (u64_incr T (next_nonce_sent s) = Panic POverflow) as Hi.
  { rewrite Hn. unfold u64_incr. rewrite Hoc. reflexivity. }
  destruct (write_message C T data s w) as [[s' w'] o] eqn:E. apply write_message_cases in E
    as [(H & _)|[(_ & H & _)|(_ & k' & o1 & Hk' & Hen &
        [(e & -> & _ & _)|[(_ & n & Hn' & -> & ->)|(_ & p & Hp & -> & ->)]])]]; try congruence.
Qed.

Theorem send_overflow_wraps s data w k data2 w2 :
  established s -> session_key s = Some k -> takes_all w -> takes_all w2 ->
  next_nonce_sent s = 2 ^ 64 - 1 -> overflow_checks T = false ->
  exists s' w' s2 w2', write_message C T data s w = (s', w', Ok tt) /\
    output w' = output w ++ user_datagram C k (2 ^ 64 - 1) data /\
    write_message C T data2 s' w2 = (s2, w2', Ok tt) /\
    output w2' = output w2 ++ user_datagram C k 0 data2.
Proof.
  intros He Hk Hw Hw2 Hn Hoc. pose proof He as He0. pose proof Hk as Hk0.
  apply established_iff in He. apply session_key_some in Hk.
  destruct (encrypt_accepting C (hashed C (user_frame (next_nonce_sent s) data)) k w Hw) as (w1 & H1 & H2 & H3 & _).
  assert (u64_incr T (next_nonce_sent s) = Ok 0) as Hi.
  { rewrite Hn. unfold u64_incr. rewrite Hoc. reflexivity. }
  destruct (write_succeeds data2 (set_next_nonce_sent 0 s) w2 k) as (w2' & W2 & _ & O2); auto; try reflexivity.
  { apply established_iff. exact He. }
  exists (set_next_nonce_sent 0 s), w1. eexists. exists w2'.
  rewrite <- Hn. split; [|split; [exact H3|split; [exact W2|exact O2]]].
  destruct (write_message C T data s w) as [[s' w'] o] eqn:E. apply write_message_cases in E
    as [(H & _)|[(_ & H & _)|(_ & k' & o1 & Hk' & Hen &
        [(e & -> & _ & _)|[(_ & n & Hn' & -> & ->)|(_ & p & Hp & -> & ->)]])]]; try congruence.
Qed.

(** The text of an authentic user message, read at the expected nonce. *)
Lemma read_expected s k d data s1 o :
  Inv C T s -> established s -> session_key s = Some k ->
  opens C T k d (next_nonce_expected s) data ->
  update_window T (next_nonce_expected s) s = (s1, o) ->
  read C T d s = (s1, match o with
                      | Ok _ => Ok (Some (MMessage (nonempty data)))
                      | Err e => Err e
                      | Panic p => Panic p
                      end).
Proof.
  intros HI He Hk Ho Hu.
  destruct (opens_class C T HL _ _ _ _ Ho) as (text & L & Hd & Hc & [Hle Hh] & Hq & Hg).
  destruct (inv_window C T s HI) as (A & B & D & Hx).
  assert (~ received s (next_nonce_expected s)) as Hnr.
  { intros [H|H]; [lia|]. rewrite Forall_forall in B. apply B in H. lia. }
  apply not_received in Hnr as [N1 N2].
  unfold read, read_inner.
  rewrite <- Hk in Hc. pose proof (reader_of_class C T HL s d _ Hc) as Hr. cbn [class_outcome] in Hr. rewrite Hr.
  change (dd_headers (frame_data T text L (KUser (next_nonce_expected s)))) with (HUserMsg (next_nonce_expected s)).
  cbv beta iota. unfold read_user.
  assert ((next_nonce_expected s <? next_nonce_expected s) ||
          set_contains (next_nonce_expected s) (orphan_nonce_list s) = false) as ->.
  { apply orb_false_iff. split; [apply N.ltb_ge; lia|apply set_contains_nIn; exact N2]. }
  apply established_iff in He. rewrite He. cbn [apply_action]. rewrite <- He, set_status_same.
  change (dd_data (frame_data T text L (KUser (next_nonce_expected s)))) with text.
  change (dd_user_msg_end (frame_data T text L (KUser (next_nonce_expected s)))) with (text_end T L).
  unfold slice_to, slice_from. rewrite (proj2 (N.leb_le _ _) Hle). cbn [obind].
  rewrite Hh, bytes_eqb_refl. rewrite Hu. destruct o as [[]|e|p]; [|reflexivity|reflexivity].
  rewrite Hg. reflexivity.
Qed.

(** Messages written by the library open (on a target where they fit). *)
Lemma opens_user_datagram k n data :
  n < 2 ^ 64 -> keystream_ok C k -> 26 + len data < 2 ^ usize_bits T ->
  opens C T k (user_datagram C k n data) n data.
Proof.
  intros Hn Hk Hb. split; [exact Hn|]. split; [exact Hk|].
  exists (hashed C (user_frame n data)). split; [|reflexivity].
  exists (2 + len (u64_be n ++ data)). split; [|reflexivity].
  rewrite len_app, len_u64_be. unfold length_field.
  assert (2 ^ usize_bits T <= 2 ^ 64) by (apply N.pow_le_mono_r; [lia|unfold usize_bits; destruct (usize_width T); lia]).
  split; [lia|]. split; [apply N.mod_small; lia|lia].
Qed.

Lemma window_top s : Inv C T s -> next_nonce_expected s = 2 ^ 64 - 1 -> orphan_nonce_list s = [].
Proof.
  intros HI Hn. destruct (inv_window C T s HI) as (_ & B & _).
  destruct (orphan_nonce_list s) as [|m l]; [reflexivity|]. apply Forall_inv in B. lia.
Qed.

Theorem receive_overflow_panics s k d data :
  reachable C T s -> established s -> session_key s = Some k ->
  next_nonce_expected s = 2 ^ 64 - 1 -> opens C T k d (2 ^ 64 - 1) data ->
  overflow_checks T = true -> read C T d s = (s, Panic POverflow).
Proof.
  intros HR He Hk Hn Ho Hoc. pose proof (inv_reachable C T s HR) as HI. rewrite <- Hn in Ho.
  rewrite (read_expected s k d data s (Panic POverflow)); auto.
  unfold update_window. rewrite N.eqb_refl.
  assert (u64_incr T (next_nonce_expected s) = Panic POverflow) as ->; [|reflexivity].
  rewrite Hn. unfold u64_incr. rewrite Hoc. reflexivity.
Qed.

Theorem receive_overflow_replays s k d data :
  reachable C T s -> established s -> session_key s = Some k ->
  next_nonce_expected s = 2 ^ 64 - 1 -> opens C T k d (2 ^ 64 - 1) data ->
  overflow_checks T = false ->
  exists s', read C T d s = (s', Ok (Some (MMessage (nonempty data)))) /\
    forall d' n' data', opens C T k d' n' data' ->
      snd (read C T d' s') = Ok (Some (MMessage (nonempty data'))).
Proof.
  intros HR He Hk Hn Ho Hoc. pose proof (inv_reachable C T s HR) as HI. rewrite <- Hn in Ho.
  pose proof (window_top s HI Hn) as Hor.
  assert (update_window T (next_nonce_expected s) s = (set_window 0 [] s, Ok tt)) as Hu.
  { unfold update_window. rewrite N.eqb_refl.
    assert (u64_incr T (next_nonce_expected s) = Ok 0) as ->.
    { rewrite Hn. unfold u64_incr. rewrite Hoc. reflexivity. }
    rewrite Hor. reflexivity. }
  pose proof (read_expected s k d data _ _ HI He Hk Ho Hu) as Er.
  exists (set_window 0 [] s). split; [exact Er|].
  intros d' n' data' Ho'.
  pose proof (inv_read C T s d HI) as HI'. rewrite Er in HI'. cbn [fst] in HI'.
  apply (delivered_when C T HL _ k d' n' data' HI'); auto.
  - apply established_iff. apply established_iff in He. exact He.
  - unfold used. cbn. lia.
  - split; [|right; cbn; lia]. intros [H|[]]. cbn in H. lia.
Qed.

(** Both counters can be brought to any value. *)
Theorem send_counter_reaches s k n :
  reachable C T s -> established s -> session_key s = Some k ->
  next_nonce_sent s <= n -> n < 2 ^ 64 ->
  exists s', reachable C T s' /\ established s' /\ session_key s' = Some k /\ next_nonce_sent s' = n.
Proof.
  intros HR He Hk Hle. replace n with (next_nonce_sent s + (n - next_nonce_sent s)) by lia.
  generalize (n - next_nonce_sent s). clear n Hle. intros n. induction n as [|n IH] using N.peano_ind.
  - rewrite N.add_0_r. intros _. exists s. auto.
  - rewrite N.add_succ_r. set (m := next_nonce_sent s + n) in *. intros Hb. destruct IH as (s' & H1 & H2 & H3 & H4); [lia|].
    destruct (write_succeeds [] s' {| bw_cap := 0; bw_buf := []; bw_sink := {| sink_data := []; sink_script := [] |} |} k)
      as (w' & Ew & _ & _); auto; [reflexivity|lia|].
    exists (set_next_nonce_sent (next_nonce_sent s' + 1) s').
    split; [|split; [|split]].
    + pose proof (reach_step C T s' (CWrite [] {| bw_cap := 0; bw_buf := []; bw_sink := {| sink_data := []; sink_script := [] |} |}) H1) as Hr.
      cbn [call_step] in Hr. rewrite Ew in Hr. exact Hr.
    + apply established_iff. apply established_iff in H2. exact H2.
    + exact H3.
    + cbn. lia.
Qed.

Theorem receive_counter_reaches s k n :
  reachable C T s -> established s -> session_key s = Some k -> keystream_ok C k ->
  orphan_nonce_list s = [] -> next_nonce_expected s <= n -> n < 2 ^ 64 ->
  exists s', reachable C T s' /\ established s' /\ session_key s' = Some k /\
    orphan_nonce_list s' = [] /\ next_nonce_expected s' = n.
Proof.
  intros HR He Hk Hks Hor Hle. replace n with (next_nonce_expected s + (n - next_nonce_expected s)) by lia.
  generalize (n - next_nonce_expected s). clear n Hle. intros n. induction n as [|n IH] using N.peano_ind.
  - rewrite N.add_0_r. intros _. exists s. auto.
  - rewrite N.add_succ_r. set (m := next_nonce_expected s + n) in *. intros Hb. destruct IH as (s' & H1 & H2 & H3 & H4 & H5); [lia|].
    assert (26 + len (@nil byte) < 2 ^ usize_bits T) as Hfit
      by (unfold usize_bits; destruct (usize_width T); reflexivity).
    pose proof (opens_user_datagram k m [] ltac:(lia) Hks Hfit) as Ho. rewrite <- H5 in Ho.
    assert (update_window T (next_nonce_expected s') s' = (set_window (next_nonce_expected s' + 1) [] s', Ok tt)) as Hu.
    { unfold update_window. rewrite N.eqb_refl, u64_incr_small, H4 by lia. reflexivity. }
    pose proof (read_expected s' k _ [] _ _ (inv_reachable C T s' H1) H2 H3 Ho Hu) as Er.
    exists (set_window (next_nonce_expected s' + 1) [] s').
    split; [|split; [|split; [|split]]].
    + pose proof (reach_step C T s' (CRead (user_datagram C k (next_nonce_expected s') [])) H1) as Hr.
      cbn [call_step] in Hr. rewrite Er in Hr. exact Hr.
    + apply established_iff. apply established_iff in H2. exact H2.
    + exact H3.
    + reflexivity.
    + cbn. lia.
Qed.

End WithEnv.

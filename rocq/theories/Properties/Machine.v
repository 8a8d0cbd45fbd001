(** C71: the whole behaviour of a minimal layer. *)

From Coq Require Import Permutation.
From Verif.Model Require Import Minimal.
From Verif.Spec Require Import Wire Datagram Trace ReadSpec Accept Session Writers Machine.
From Verif.Proofs Require Import Machine.
From Verif.Instances Require Import Toy Scenario.

(** ** C71 *)

(** Along every history of calls, from the creation on and through clones, a
    layer answers as the machine of Spec/Machine.v does: same messages, same
    errors, same bytes written, panics where the machine panics. *)
Theorem C71_refines : forall (C : Crypto) (T : target), CryptoLaws C ->
  forall s m k cs s' h,
  embodies C T s m k -> run C T s cs = (s', h) -> k + len h < 2 ^ 64 ->
  exists m', shows C T m h m' /\ embodies C T s' m' (k + len h).
Proof. exact machine_refinement. Qed.
Print Assumptions C71_refines.

(** The machine leaves no choice: with writers that take all they are given,
    two histories of the same calls carry the same answers and end in the same
    machine. *)
Theorem C71_deterministic : forall (C : Crypto) (T : target), CryptoLaws C ->
  forall h m m1 h' m2,
  shows C T m h m1 -> shows C T m h' m2 -> map fst h = map fst h' ->
  Forall2 same_reply (map snd h) (map snd h') \/ good_writers (map fst h) ->
  Forall2 same_reply (map snd h) (map snd h') /\ m1 = m2.
Proof. exact shows_det. Qed.
Print Assumptions C71_deterministic.

(** What the machine remembers is what can be told of the layer. *)
Theorem C71_view : forall (C : Crypto) (T : target), CryptoLaws C ->
  forall s m k, embodies C T s m k -> k < 2 ^ 64 ->
  (failed C s <-> m_failed m = true) /\
  (established s <-> m_failed m = false /\ complete m) /\
  session_key s = secret C m /\ (forall n, received s n <-> In n (m_numbers m)).
Proof. exact machine_view. Qed.
Print Assumptions C71_view.

(** Two layers that embody the same machine, or machines that differ only in
    the order of the messages received, cannot be told apart: the configuration
    and the way they came there are of no consequence either. *)
Theorem C71_no_hidden_state : forall (C : Crypto) (T : target), CryptoLaws C ->
  forall s1 s2 m m' k1 k2 cs s1' h1 s2' h2,
  embodies C T s1 m k1 -> embodies C T s2 m' k2 -> alike m m' -> good_writers cs ->
  run C T s1 cs = (s1', h1) -> run C T s2 cs = (s2', h2) ->
  k1 + len h1 < 2 ^ 64 -> k2 + len h2 < 2 ^ 64 ->
  Forall2 same_reply (map snd h1) (map snd h2).
Proof. exact machine_no_hidden_state. Qed.
Print Assumptions C71_no_hidden_state.

(** User messages that are delivered in one order and in another leave no trace
    of the order: every later call is answered the same way. *)
Theorem C71_order_forgotten : forall (C : Crypto) (T : target), CryptoLaws C ->
  forall sk cfg pin s0 cs0 s h0 ds ds' cs sa ha sb hb sa' ha' sb' hb',
  create C (RngKey sk) cfg pin = Ok s0 -> run C T s0 cs0 = (s, h0) ->
  Permutation ds ds' -> good_writers cs ->
  run C T s (map CRead ds) = (sa, ha) -> Forall user_answer ha ->
  run C T s (map CRead ds') = (sb, hb) -> Forall user_answer hb ->
  run C T sa cs = (sa', ha') -> run C T sb cs = (sb', hb') ->
  len cs0 + len ds + len cs < 2 ^ 64 ->
  Forall2 same_reply (map snd ha') (map snd hb').
Proof.
  intros C T HL sk cfg pin s0 cs0 s h0 ds ds' cs sa ha sb hb sa' ha' sb' hb' Hc E HP Hg Ea Ua Eb Ub Ea' Eb' Hl.
  assert (len h0 = len cs0) as Hlen.
  { pose proof (run_calls C T cs0 s0 s h0 E) as H. rewrite <- H. unfold len. rewrite map_length. reflexivity. }
  destruct (C71_refines C T HL s0 (new_machine sk pin) 0 cs0 s h0) as (m & _ & He).
  - eapply em_create. exact Hc.
  - exact E.
  - rewrite Hlen. clear - Hl. apply N.le_lt_trans with (len cs0 + len ds + len cs); [lia|exact Hl].
  - eapply (machine_order C T HL s m _ ds ds' cs); try eassumption. rewrite Hlen. exact Hl.
Qed.
Print Assumptions C71_order_forgotten.

(** A negotiation, two messages read, one of them twice, and one written; then a
    third message is read by a clone. *)
Definition lifeA : list call :=
  callsA ++ [CRead (msgA 1 [x42]); CRead (msgA 0 [x41]); CRead (msgA 1 [x42]);
             CWrite [x31] vec_writer].
Definition read2 : list call := [CRead (msgA 2 [])].
Definition cloneA : msl :=
  Eval vm_compute in match snd (try_clone (after A0 lifeA)) with Ok c => c | _ => A0 end.
Lemma cloned : snd (try_clone (after A0 lifeA)) = Ok cloneA.
Proof. vm_compute. reflexivity. Qed.
Lemma clone_reads : log cloneA read2 = [(CRead (msgA 2 []), RMsg (Ok (Some (MMessage None))))].
Proof. vm_compute. reflexivity. Qed.
Lemma lifeA_length : len (log A0 lifeA) = 8.
Proof. vm_compute. reflexivity. Qed.
Lemma lifeA_nonces : next_nonce_expected (after A0 lifeA) = 2 /\ orphan_nonce_list (after A0 lifeA) = [].
Proof. split; vm_compute; reflexivity. Qed.
Lemma lifeA_established : established (after A0 lifeA) /\ session_key (after A0 lifeA) = Some kAB.
Proof. split; [eexists; vm_compute; reflexivity|vm_compute; reflexivity]. Qed.

Example C71_case :
  embodies toy T A0 (new_machine skA None) 0 /\
  (exists m, shows toy T (new_machine skA None) (log A0 lifeA) m /\
     embodies toy T (after A0 lifeA) m 8 /\
     m_failed m = false /\ complete m /\ secret toy m = Some kAB /\
     (forall n, In n (m_numbers m) <-> n < 2) /\
     exists m', embodies toy T cloneA (clone_of m) 8 /\
       shows toy T (clone_of m) [(CRead (msgA 2 []), RMsg (Ok (Some (MMessage None))))] m') /\
  good_writers lifeA.
Proof.
  assert (embodies toy T A0 (new_machine skA None) 0) as H0.
  { eapply em_create. exact created_A0. }
  split; [exact H0|]. split.
  - destruct (C71_refines toy T toy_laws A0 (new_machine skA None) 0 lifeA (after A0 lifeA) (log A0 lifeA)
      H0 (run_log _ _)) as (m & Hs & He); [rewrite lifeA_length; reflexivity|].
    rewrite lifeA_length in He. change (0 + 8) with 8 in He.
    destruct (C71_view toy T toy_laws _ _ _ He) as (V1 & V2 & V3 & V4); [reflexivity|].
    exists m. split; [exact Hs|]. split; [exact He|].
    destruct lifeA_established as [Hest Hkey].
    apply V2 in Hest as [F1 F2]. split; [exact F1|]. split; [exact F2|].
    split; [rewrite <- V3; exact Hkey|].
    split.
    + intros n. rewrite <- V4. unfold received. destruct lifeA_nonces as [-> ->].
      split; [intros [H|[]]; exact H|intros H; left; exact H].
    + pose proof (em_clone toy T _ _ _ _ He cloned) as Hc.
      destruct (C71_refines toy T toy_laws _ _ _ _ _ _ Hc (run_log cloneA read2)) as (m' & Hs' & _);
        [rewrite clone_reads; reflexivity|].
      exists m'. split; [exact Hc|]. rewrite clone_reads in Hs'. exact Hs'.
  - intros data w Hin. unfold lifeA, callsA in Hin. cbn [app In] in Hin.
    repeat (destruct Hin as [Hin|Hin]; [first [discriminate Hin|injection Hin as <- <-; reflexivity]|]). contradiction.
Qed.

(** Three messages in two orders, then a fourth one, one of the three again, and
    one written. *)
Definition three : list bytes := [msgA 2 [x43]; msgA 0 [x41]; msgA 1 [x42]].
Definition three' : list bytes := [msgA 0 [x41]; msgA 2 [x43]; msgA 1 [x42]].
Definition then_calls : list call := [CRead (msgA 3 []); CRead (msgA 2 [x43]); CWrite [x31] vec_writer].
Lemma three_answers :
  map snd (log (after A0 callsA) (map CRead three)) =
    map (fun d => RMsg (Ok (Some (MMessage (Some d))))) [[x43]; [x41]; [x42]] /\
  map snd (log (after A0 callsA) (map CRead three')) =
    map (fun d => RMsg (Ok (Some (MMessage (Some d))))) [[x41]; [x43]; [x42]].
Proof. split; vm_compute; reflexivity. Qed.
Lemma then_answers :
  firstn 2 (map snd (log (after (after A0 callsA) (map CRead three)) then_calls)) =
    [RMsg (Ok (Some (MMessage None))); RMsg (Err (RecvInvalidMsg InvalidNonce))].
Proof. vm_compute. reflexivity. Qed.
Example C71_order_case :
  create toy (RngKey skA) config_default None = Ok A0 /\ run toy T A0 callsA = (after A0 callsA, log A0 callsA) /\
  Permutation three three' /\ good_writers then_calls /\
  Forall user_answer (log (after A0 callsA) (map CRead three)) /\
  Forall user_answer (log (after A0 callsA) (map CRead three')) /\
  len callsA + len three + len then_calls < 2 ^ 64.
Proof.
  assert (forall (h : history) l, map snd h = map (fun d => RMsg (Ok (Some (MMessage (Some d))))) l -> Forall user_answer h) as Hu.
  { intros h. induction h as [|e h IH]; intros [|d l] E; try discriminate E; [constructor|].
    injection E as E1 E2. constructor; [exists (Some d); exact E1|exact (IH l E2)]. }
  destruct three_answers as [H1 H2].
  split; [exact created_A0|]. split; [apply run_log|]. split; [apply perm_swap|].
  split; [|split; [exact (Hu _ _ H1)|split; [exact (Hu _ _ H2)|reflexivity]]].
  intros data w [Hin|[Hin|[Hin|[]]]]; [discriminate Hin|discriminate Hin|injection Hin as <- <-; reflexivity].
Qed.

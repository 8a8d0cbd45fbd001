(** C82: one connection, any number of handles.

    [family C T f tr] (Spec/Family.v): [f] are the handles of one connection,
    the created layer first and then the clones in order of birth, after the
    calls [tr], interleaved in any way.  [past clones tr t] are the calls that
    the handle used at position [t] has behind it: those made on it before and,
    for a clone, those its parent had behind it when it was cloned. *)

From Coq Require Import Arith.
From Verif.Model Require Import Complete.
From Verif.Spec Require Import Wire Datagram Trace ReadSpec Accept Session Writers Receiver CompleteTrace
  CompleteAdversary Typed TypedTrace CompleteReceiver Family.
From Verif.Proofs Require Import Failure Sending CompleteMode Family SFamily FamilyReceiver.
From Verif.Instances Require Import Toy Scenario CompleteScenario.

(** ** Concrete families *)

Lemma toy_opens n data d : d = msgA n data -> n < 2 ^ 64 -> 26 + len data < 2 ^ 64 -> opens toy T kAB d n data.
Proof. intros -> H1 H2. apply opens_user_datagram; [exact H1|apply toy_keystream_ok|exact H2]. Qed.

(** Calls made on the handles of a family, one after the other. *)
Fixpoint fam_run (f : list msl) (cs : list (nat * call)) : list msl * trace event :=
  match cs with
  | [] => (f, [])
  | (i, c) :: cs' =>
      let '(s', r) := call_step toy T (nth i f dummy) c in
      let '(f', tr) := fam_run (replace i s' f ++ born (c, r)) cs' in
      (f', (i, (c, r)) :: tr)
  end.

(** Every call is on a handle that exists. *)
Fixpoint fam_ok (f : list msl) (cs : list (nat * call)) : bool :=
  match cs with
  | [] => true
  | (i, c) :: cs' =>
      let '(s', r) := call_step toy T (nth i f dummy) c in
      Nat.ltb i (length f) && fam_ok (replace i s' f ++ born (c, r)) cs'
  end.

Lemma fam_run_family f tr cs : family toy T f tr -> fam_ok f cs = true ->
  family toy T (fst (fam_run f cs)) (tr ++ snd (fam_run f cs)).
Proof.
  revert f tr. induction cs as [|[i c] cs IH]; intros f tr HF Hok; cbn [fam_run fam_ok] in *.
  - cbn [fst snd]. rewrite app_nil_r. exact HF.
  - destruct (call_step toy T (nth i f dummy) c) as [s' r] eqn:E. apply andb_prop in Hok as [Hi Hok].
    apply Nat.ltb_lt in Hi.
    specialize (IH (replace i s' f ++ born (c, r)) (tr ++ [(i, (c, r))])).
    destruct (fam_run (replace i s' f ++ born (c, r)) cs) as [f' tr']. cbn [fst snd] in *.
    rewrite <- app_assoc in IH. apply IH; [|exact Hok].
    eapply (family_call toy T f tr i _ c s' r (c, r) HF); [|exact E|reflexivity].
    apply nth_error_nth'. exact Hi.
Qed.

Lemma fam_run_A0 cs : fam_ok [A0] cs = true -> family toy T (fst (fam_run [A0] cs)) (snd (fam_run [A0] cs)).
Proof. exact (fam_run_family [A0] [] cs (family_create toy T _ _ _ _ created_A0)). Qed.

(** The negotiation (calls 0-3), a message (4), a clone (5); then one message
    written through each handle (6, 7) and one datagram of the peer given to
    both (8, 9). *)
Definition shared : list (nat * call) :=
  map (pair 0%nat) callsA ++
  [(0%nat, CWrite [x41] vec_writer); (0%nat, CClone); (0%nat, CWrite [x42] vec_writer); (1%nat, CWrite [x43] vec_writer);
   (0%nat, CRead (msgA 0 [x31])); (1%nat, CRead (msgA 0 [x31]))].
Definition shared_f := Eval vm_compute in fst (fam_run [A0] shared).
Definition shared_tr := Eval vm_compute in snd (fam_run [A0] shared).
Lemma shared_family : family toy T shared_f shared_tr.
Proof.
  replace shared_f with (fst (fam_run [A0] shared)) by (vm_compute; exact eq_refl).
  replace shared_tr with (snd (fam_run [A0] shared)) by (vm_compute; exact eq_refl).
  apply fam_run_A0. vm_compute. exact eq_refl.
Qed.

(** The use [try_clone] is made for: handle 0 only writes after the cloning,
    handle 1 only reads. *)
Definition split_use : list (nat * call) :=
  map (pair 0%nat) callsA ++
  [(0%nat, CClone); (0%nat, CWrite [x41] vec_writer); (1%nat, CRead (msgA 0 [x31])); (1%nat, CRead (msgA 0 [x31]));
   (0%nat, CWrite [x42] vec_writer); (1%nat, CRead (msgA 2 [x32]))].
Definition split_f := Eval vm_compute in fst (fam_run [A0] split_use).
Definition split_tr := Eval vm_compute in snd (fam_run [A0] split_use).
Lemma split_family : family toy T split_f split_tr.
Proof.
  replace split_f with (fst (fam_run [A0] split_use)) by (vm_compute; exact eq_refl).
  replace split_tr with (snd (fam_run [A0] split_use)) by (vm_compute; exact eq_refl).
  apply fam_run_A0. vm_compute. exact eq_refl.
Qed.

Fixpoint sfam_run (f : list secure_layer) (cs : list (nat * scall)) : list secure_layer * trace (scall * sreply) :=
  match cs with
  | [] => (f, [])
  | (i, c) :: cs' =>
      let '(s', r) := scall_step toy toy_zip T (nth i f SA0) c in
      let '(f', tr) := sfam_run (replace i s' f ++ sborn (c, r)) cs' in
      (f', (i, (c, r)) :: tr)
  end.
Fixpoint sfam_ok (f : list secure_layer) (cs : list (nat * scall)) : bool :=
  match cs with
  | [] => true
  | (i, c) :: cs' =>
      let '(s', r) := scall_step toy toy_zip T (nth i f SA0) c in
      Nat.ltb i (length f) && sfam_ok (replace i s' f ++ sborn (c, r)) cs'
  end.

Lemma sfam_run_family f tr cs : sfamily toy toy_zip T f tr -> sfam_ok f cs = true ->
  sfamily toy toy_zip T (fst (sfam_run f cs)) (tr ++ snd (sfam_run f cs)).
Proof.
  revert f tr. induction cs as [|[i c] cs IH]; intros f tr HF Hok; cbn [sfam_run sfam_ok] in *.
  - cbn [fst snd]. rewrite app_nil_r. exact HF.
  - destruct (scall_step toy toy_zip T (nth i f SA0) c) as [s' r] eqn:E. apply andb_prop in Hok as [Hi Hok].
    apply Nat.ltb_lt in Hi.
    specialize (IH (replace i s' f ++ sborn (c, r)) (tr ++ [(i, (c, r))])).
    destruct (sfam_run (replace i s' f ++ sborn (c, r)) cs) as [f' tr']. cbn [fst snd] in *.
    rewrite <- app_assoc in IH. apply IH; [|exact Hok].
    eapply (sfamily_call toy toy_zip T f tr i _ c s' r (c, r) HF); [|exact E|reflexivity].
    apply nth_error_nth'. exact Hi.
Qed.

Lemma sfam_run_SA0 cs : sfam_ok [SA0] cs = true -> sfamily toy toy_zip T (fst (sfam_run [SA0] cs)) (snd (sfam_run [SA0] cs)).
Proof. exact (sfam_run_family [SA0] [] cs (sfamily_create toy toy_zip T _ _ _ _ _ _ created_SA0)). Qed.

Definition sshared : list (nat * scall) :=
  map (pair 0%nat) scallsA ++
  [(0%nat, SWrite [x41] vec_writer); (0%nat, SClone); (0%nat, SWrite [x42] vec_writer); (1%nat, SWrite [x43] vec_writer);
   (0%nat, SRead (msgA 0 [x00; x31])); (1%nat, SRead (msgA 0 [x00; x31]))].
Definition sshared_f := Eval vm_compute in fst (sfam_run [SA0] sshared).
Definition sshared_tr := Eval vm_compute in snd (sfam_run [SA0] sshared).
Lemma sshared_family : sfamily toy toy_zip T sshared_f sshared_tr.
Proof.
  replace sshared_f with (fst (sfam_run [SA0] sshared)) by (vm_compute; exact eq_refl).
  replace sshared_tr with (snd (sfam_run [SA0] sshared)) by (vm_compute; exact eq_refl).
  apply sfam_run_SA0. vm_compute. exact eq_refl.
Qed.

(** ** C82, what is written *)

(** All the handles have one key, and the number of a user message is the
    number of user messages that the handle it is written through has behind
    it. *)
Theorem C82_numbers : forall (C : Crypto) (T : target), CryptoLaws C -> forall f tr,
  family C T f tr -> len tr < 2 ^ 64 ->
  exists k, (forall x k', In x f -> session_key x = Some k' -> k' = k) /\
    forall t i data w w', nth_error tr t = Some (i, (CWrite data w, RWritten (Ok tt) w')) ->
      takes_all w \/ 16 < bw_cap w ->
      (forall x, In x f -> session_key x = Some k) /\
      output w' = output w ++ user_datagram C k (N.of_nat (count written (events tr (past clones tr t)))) data.
Proof. exact family_numbers. Qed.
Print Assumptions C82_numbers.

Example C82_numbers_case :
  family toy T shared_f shared_tr /\ len shared_tr < 2 ^ 64 /\ map session_key shared_f = [Some kAB; Some kAB] /\
  map (past clones shared_tr) [4; 6; 7]%nat = [[0; 1; 2; 3]; [0; 1; 2; 3; 4; 5]; [0; 1; 2; 3; 4; 5]]%nat /\
  map (fun t => count written (events shared_tr (past clones shared_tr t))) [4; 6; 7]%nat = [0; 1; 1]%nat /\
  map (fun t => match nth_error shared_tr t with Some (_, (_, RWritten (Ok tt) w)) => output w | _ => [] end) [4; 6; 7]%nat =
    [msgA 0 [x41]; msgA 1 [x42]; msgA 1 [x43]].
Proof. split; [exact shared_family|]. repeat (split; [vm_compute; exact eq_refl|]). vm_compute. exact eq_refl. Qed.

(** A number is used twice exactly when two messages were written of which
    the first is not in the past of the second: through two handles, neither
    of which was cloned from the other after its message. *)
Theorem C82_reuse : forall (C : Crypto) (T : target), CryptoLaws C -> forall f tr k,
  family C T f tr -> len tr < 2 ^ 64 -> good_writers tr ->
  (exists x, In x f /\ session_key x = Some k) ->
  ((exists t1 t2 n, t1 <> t2 /\ n < 2 ^ 64 /\ wrote C k tr t1 n /\ wrote C k tr t2 n) <->
   (exists t1 t2, (t1 < t2)%nat /\ is_write tr t1 /\ is_write tr t2 /\ ~ In t1 (past clones tr t2))).
Proof. exact family_reuse. Qed.
Print Assumptions C82_reuse.

(** In particular, never when one handle does all the writing. *)
Theorem C82_one_writer : forall (C : Crypto) (T : target), CryptoLaws C -> forall f tr k j,
  family C T f tr -> len tr < 2 ^ 64 -> good_writers tr ->
  (exists x, In x f /\ session_key x = Some k) ->
  (forall t i data w w', nth_error tr t = Some (i, (CWrite data w, RWritten (Ok tt) w')) -> i = j) ->
  forall t1 t2 n, n < 2 ^ 64 -> wrote C k tr t1 n -> wrote C k tr t2 n -> t1 = t2.
Proof. exact family_one_writer. Qed.
Print Assumptions C82_one_writer.

Example C82_reuse_case :
  family toy T shared_f shared_tr /\ len shared_tr < 2 ^ 64 /\ good_writers shared_tr /\
  (exists x, In x shared_f /\ session_key x = Some kAB) /\
  wrote toy kAB shared_tr 6 1 /\ wrote toy kAB shared_tr 7 1 /\ ~ In 6%nat (past clones shared_tr 7) /\
  family toy T split_f split_tr /\ good_writers split_tr /\ (exists x, In x split_f /\ session_key x = Some kAB) /\
  map fst (filter (fun x => written (snd x)) split_tr) = [0; 0]%nat /\
  wrote toy kAB split_tr 5 0 /\ wrote toy kAB split_tr 8 1.
Proof.
  assert (forall tr, forallb (fun x => match snd x with (CWrite _ w, _) => 16 <? bw_cap w | _ => true end) tr = true ->
            good_writers tr) as Hg.
  { intros tr H i data w r Hin. rewrite forallb_forall in H. specialize (H _ Hin). cbn in H. right. apply N.ltb_lt, H. }
  split; [exact shared_family|]. split; [vm_compute; exact eq_refl|].
  split; [apply Hg; vm_compute; exact eq_refl|].
  split; [exists (nth 0 shared_f dummy); split; [left; vm_compute; exact eq_refl|vm_compute; exact eq_refl]|].
  split; [eexists _, _, _, _; split; [reflexivity|vm_compute; exact eq_refl]|].
  split; [eexists _, _, _, _; split; [reflexivity|vm_compute; exact eq_refl]|].
  split; [vm_compute; intuition discriminate|].
  split; [exact split_family|]. split; [apply Hg; vm_compute; exact eq_refl|].
  split; [exists (nth 0 split_f dummy); split; [left; vm_compute; exact eq_refl|vm_compute; exact eq_refl]|].
  split; [vm_compute; exact eq_refl|].
  split; eexists _, _, _, _; (split; [reflexivity|vm_compute; exact eq_refl]).
Qed.

(** ** C82, what is received *)

(** For every handle, what was delivered in its life is accounted for: each
    message from its own datagram under its own number.  Until something was
    lost an established handle delivers a message exactly when its number was
    not delivered in its life and is not too far ahead: what other handles
    received since they separated makes no difference. *)
Theorem C82_accounts : forall (C : Crypto) (T : target), CryptoLaws C -> forall f tr i s,
  family C T f tr -> len tr + 1 < 2 ^ 64 -> nth_error f i = Some s ->
  let h := events tr (life clones tr i) in
  exists l, accounts C T s (submitted h) h l /\
    (lossless h -> established s -> forall k d n data, session_key s = Some k -> opens C T k d n data ->
       (snd (read C T d s) = Ok (Some (MMessage (nonempty data))) <->
        nonce_acceptable (map (fun e => snd (fst e)) l) n)).
Proof. exact family_accounts. Qed.
Print Assumptions C82_accounts.

Example C82_accounts_case :
  family toy T shared_f shared_tr /\ len shared_tr + 1 < 2 ^ 64 /\
  user_deliveries (events shared_tr (life clones shared_tr 0)) = [Some [x31]] /\
  user_deliveries (events shared_tr (life clones shared_tr 1)) = [Some [x31]] /\
  snd (read toy T (msgA 0 [x31]) (nth 1 shared_f dummy)) <> Ok (Some (MMessage (Some [x31]))) /\
  snd (read toy T (msgA 1 [x33]) (nth 1 shared_f dummy)) = Ok (Some (MMessage (Some [x33]))).
Proof.
  split; [exact shared_family|]. repeat (split; [vm_compute; exact eq_refl|]).
  split; [vm_compute; discriminate|vm_compute; exact eq_refl].
Qed.

(** Given any further datagrams, a handle answers as the receiver of
    Spec/Receiver.v started with the numbers delivered in its life. *)
Theorem C82_receiver : forall (C : Crypto) (T : target), CryptoLaws C -> forall f tr i s k,
  family C T f tr -> len tr < 2 ^ 64 -> nth_error f i = Some s ->
  let h := events tr (life clones tr i) in
  lossless h -> established s -> session_key s = Some k ->
  exists l, accounts C T s (submitted h) h l /\
    forall ds ms, Forall2 (fun d m => opens C T k d (fst m) (snd m)) ds ms -> len tr + len ds < 2 ^ 64 ->
    exists os s' R', answers C T s ds os s' /\
      receives {| taken := map (fun e => snd (fst e)) l; dead := false |} ms os R' /\
      (failed C s' <-> dead R' = true) /\ (established s' <-> dead R' = false).
Proof. exact family_receiver. Qed.
Print Assumptions C82_receiver.

(** Handle 0 of [split_use] has received nothing, handle 1 the numbers 0 and
    2: the same two datagrams, the answers of two receivers. *)
Definition split_0 := nth 0 split_f dummy.
Definition split_1 := nth 1 split_f dummy.
Example C82_receiver_case :
  family toy T split_f split_tr /\ len split_tr + 2 < 2 ^ 64 /\
  nth_error split_f 0 = Some split_0 /\ nth_error split_f 1 = Some split_1 /\
  lossless (events split_tr (life clones split_tr 0)) /\ lossless (events split_tr (life clones split_tr 1)) /\
  established split_0 /\ established split_1 /\ map session_key split_f = [Some kAB; Some kAB] /\
  user_deliveries (events split_tr (life clones split_tr 0)) = [] /\
  user_deliveries (events split_tr (life clones split_tr 1)) = [Some [x31]; Some [x32]] /\
  map snd (snd (run toy T split_0 [CRead (msgA 2 [x32]); CRead (msgA 1 [x33])])) =
    [RMsg (Ok (Some (MMessage (Some [x32])))); RMsg (Ok (Some (MMessage (Some [x33]))))] /\
  map snd (snd (run toy T split_1 [CRead (msgA 2 [x32]); CRead (msgA 1 [x33])])) =
    [RMsg (Err (RecvInvalidMsg InvalidNonce)); RMsg (Ok (Some (MMessage (Some [x33]))))].
Proof.
  assert (forall h, forallb (fun e => negb (panics (snd e)) && match snd e with RMsgs (Err _) => false | _ => true end) h = true ->
            lossless h) as Hl.
  { intros h H. rewrite forallb_forall in H. split.
    - intros e He. specialize (H e He). apply andb_prop in H as [H _]. destruct (panics (snd e)); [discriminate H|reflexivity].
    - intros e er He Hs. specialize (H e He). rewrite Hs in H. discriminate H. }
  split; [exact split_family|]. do 3 (split; [vm_compute; exact eq_refl|]).
  do 2 (split; [apply Hl; vm_compute; exact eq_refl|]).
  do 2 (split; [apply established_iff; vm_compute; exact eq_refl|]).
  repeat (split; [vm_compute; exact eq_refl|]). vm_compute. exact eq_refl.
Qed.

(** A message is never delivered to a handle that has its delivery behind it. *)
Theorem C82_replay : forall (C : Crypto) (T : target), CryptoLaws C -> forall f tr k t1 t2 n,
  family C T f tr -> len tr < 2 ^ 64 -> (exists x, In x f /\ session_key x = Some k) -> (t1 < t2)%nat ->
  received_at C T k tr t1 n -> received_at C T k tr t2 n -> ~ In t1 (past clones tr t2).
Proof. exact family_replay. Qed.
Print Assumptions C82_replay.

(** In particular, at most once when one handle does all the reading. *)
Theorem C82_one_reader : forall (C : Crypto) (T : target), CryptoLaws C -> forall f tr k j,
  family C T f tr -> len tr < 2 ^ 64 -> (exists x, In x f /\ session_key x = Some k) ->
  (forall t i d o, nth_error tr t = Some (i, (CRead d, RMsg (Ok (Some (MMessage o))))) -> i = j) ->
  forall t1 t2 n, received_at C T k tr t1 n -> received_at C T k tr t2 n -> t1 = t2.
Proof. exact family_one_reader. Qed.
Print Assumptions C82_one_reader.

(** Read without "in the past": false.  The same datagram is delivered once
    by each of two handles. *)
Theorem C82_replay_refuted :
  ~ (forall (C : Crypto) (T : target), CryptoLaws C -> forall f tr k t1 t2 n,
     family C T f tr -> len tr < 2 ^ 64 -> (exists x, In x f /\ session_key x = Some k) -> 
     received_at C T k tr t1 n -> received_at C T k tr t2 n -> t1 = t2).
Proof.
  intros H. assert (8 = 9)%nat as F; [|discriminate].
  apply (H toy T toy_laws shared_f shared_tr kAB 8%nat 9%nat 0 shared_family).
  - vm_compute. exact eq_refl.
  - exists (nth 0 shared_f dummy). split; [left; vm_compute; exact eq_refl|vm_compute; exact eq_refl].
  - eexists _, _, _, _. split; [reflexivity|]. apply (toy_opens _ [x31]); vm_compute; exact eq_refl.
  - eexists _, _, _, _. split; [reflexivity|]. apply (toy_opens _ [x31]); vm_compute; exact eq_refl.
Qed.
Print Assumptions C82_replay_refuted.

Example C82_replay_case :
  received_at toy T kAB split_tr 6 0 /\ received_at toy T kAB split_tr 9 2 /\
  map fst (filter (fun x => match snd x with (CRead _, RMsg (Ok (Some (MMessage _)))) => true | _ => false end) split_tr) = [1; 1]%nat /\
  (exists i d, nth_error split_tr 7 = Some (i, (CRead d, RMsg (Err (RecvInvalidMsg InvalidNonce)))) /\ d = msgA 0 [x31]).
Proof.
  split. { eexists _, _, _, _. split; [reflexivity|]. apply (toy_opens _ [x31]); vm_compute; exact eq_refl. }
  split. { eexists _, _, _, _. split; [reflexivity|]. apply (toy_opens _ [x32]); vm_compute; exact eq_refl. }
  split; [vm_compute; exact eq_refl|]. eexists _, _. split; [reflexivity|vm_compute; exact eq_refl].
Qed.

(** ** C82, complete mode *)
Theorem C82_complete_numbers : forall (C : Crypto) (Z : Zip) (T : target), CryptoLaws C -> ZipLaws Z -> forall f tr,
  sfamily C Z T f tr -> len tr < 2 ^ 64 ->
  exists k, (forall x k', In x f -> session_key (minimal x) = Some k' -> k' = k) /\
    forall t i data w w', nth_error tr t = Some (i, (SWrite data w, SWritten (Ok tt) w')) ->
      takes_all w \/ 16 < bw_cap w ->
      (forall x, In x f -> session_key (minimal x) = Some k) /\
      swrote C Z k tr t (N.of_nat (length (filter swritten (events tr (past sclones tr t))))).
Proof. exact sfamily_numbers. Qed.
Print Assumptions C82_complete_numbers.

Theorem C82_complete_reuse : forall (C : Crypto) (Z : Zip) (T : target), CryptoLaws C -> ZipLaws Z -> forall f tr k,
  sfamily C Z T f tr -> len tr < 2 ^ 64 -> sgood_writers tr ->
  (exists x, In x f /\ session_key (minimal x) = Some k) ->
  ((exists t1 t2 n, t1 <> t2 /\ n < 2 ^ 64 /\ swrote C Z k tr t1 n /\ swrote C Z k tr t2 n) <->
   (exists t1 t2, (t1 < t2)%nat /\ is_swrite tr t1 /\ is_swrite tr t2 /\ ~ In t1 (past sclones tr t2))).
Proof. exact sfamily_reuse. Qed.
Print Assumptions C82_complete_reuse.

Theorem C82_complete_one_writer : forall (C : Crypto) (Z : Zip) (T : target), CryptoLaws C -> ZipLaws Z -> forall f tr k j,
  sfamily C Z T f tr -> len tr < 2 ^ 64 -> sgood_writers tr ->
  (exists x, In x f /\ session_key (minimal x) = Some k) ->
  (forall t i data w w', nth_error tr t = Some (i, (SWrite data w, SWritten (Ok tt) w')) -> i = j) ->
  forall t1 t2 n, n < 2 ^ 64 -> swrote C Z k tr t1 n -> swrote C Z k tr t2 n -> t1 = t2.
Proof. exact sfamily_one_writer. Qed.
Print Assumptions C82_complete_one_writer.

Theorem C82_complete_replay : forall (C : Crypto) (Z : Zip) (T : target), CryptoLaws C -> forall f tr k t1 t2 n,
  sfamily C Z T f tr -> len tr + 1 < 2 ^ 64 -> (exists x, In x f /\ session_key (minimal x) = Some k) -> (t1 < t2)%nat ->
  sreceived_at C T k tr t1 n -> sreceived_at C T k tr t2 n -> ~ In t1 (past sclones tr t2).
Proof. exact sfamily_replay. Qed.
Print Assumptions C82_complete_replay.

(** As [C82_receiver], for a handle that the acknowledgement was returned to,
    or that was cloned from such a handle. *)
Theorem C82_complete_receiver : forall (C : Crypto) (Z : Zip) (T : target), CryptoLaws C -> ZipLaws Z -> forall f tr i s k x,
  sfamily C Z T f tr -> 2 * len tr < 2 ^ 64 -> nth_error f i = Some s ->
  let sh := events tr (life sclones tr i) in
  snever_panics sh -> sreturned sh (IAck x) -> sestablished s -> session_key (minimal s) = Some k ->
  exists l : list (N * bytes),
    NoDup (map fst l) /\
    (forall n z, In (n, z) l -> exists d, sread sh d /\ opens C T k d n z) /\
    ((forall e, In e sh -> zip_error (snd e) = false) ->
       Forall2 (fun m o => deflated Z o (snd m)) l (smessages sh)) /\
    forall ds ms, Forall2 (fun d m => opens C T k d (fst m) (snd m)) ds ms -> 2 * len tr + len ds < 2 ^ 64 ->
    exists os s' R', sanswers C Z T s ds os s' /\
      sreceives Z {| taken := map fst l; dead := false |} ms os R' /\
      (sfailed C s' <-> dead R' = true) /\ (sestablished s' <-> dead R' = false).
Proof. exact sfamily_receiver. Qed.
Print Assumptions C82_complete_receiver.

(** The clone of [sshared], which has received number 0 itself and the
    acknowledgement through its parent. *)
Definition sshared_1 := nth 1 sshared_f SA0.
Example C82_complete_receiver_case :
  let sh := events sshared_tr (life sclones sshared_tr 1) in
  sfamily toy toy_zip T sshared_f sshared_tr /\ 2 * len sshared_tr + 2 < 2 ^ 64 /\
  nth_error sshared_f 1 = Some sshared_1 /\ snever_panics sh /\ (exists x, sreturned sh (IAck x)) /\
  sestablished sshared_1 /\ session_key (minimal sshared_1) = Some kAB /\ smessages sh = [Some [x31]] /\
  map snd (snd (srun toy toy_zip T sshared_1 [SRead (msgA 0 [x00; x31]); SRead (msgA 1 [x00; x33])])) =
    [SMsgs (Err (RecvInvalidMsg InvalidNonce)); SMsgs (Ok [IMessage (Some [x33])])].
Proof.
  intros sh. split; [exact sshared_family|]. do 2 (split; [vm_compute; exact eq_refl|]).
  split. { assert (forallb (fun e => negb (spanics (snd e))) sh = true) as H by (vm_compute; exact eq_refl).
    rewrite forallb_forall in H. intros e He. specialize (H e He). destruct (spanics (snd e)); [discriminate H|reflexivity]. }
  split. { unfold sreturned. eexists _, _, _. split; [right; right; right; left; reflexivity|]. left. reflexivity. }
  split; [apply sestablished_iff, established_iff; vm_compute; exact eq_refl|].
  repeat (split; [vm_compute; exact eq_refl|]). vm_compute. exact eq_refl.
Qed.

Example C82_complete_case :
  sfamily toy toy_zip T sshared_f sshared_tr /\ len sshared_tr + 1 < 2 ^ 64 /\ sgood_writers sshared_tr /\
  map (fun x => session_key (minimal x)) sshared_f = [Some kAB; Some kAB] /\
  swrote toy toy_zip kAB sshared_tr 4 0 /\ swrote toy toy_zip kAB sshared_tr 6 1 /\ swrote toy toy_zip kAB sshared_tr 7 1 /\
  sreceived_at toy T kAB sshared_tr 8 0 /\ sreceived_at toy T kAB sshared_tr 9 0 /\
  ~ In 6%nat (past sclones sshared_tr 7) /\ ~ In 8%nat (past sclones sshared_tr 9).
Proof.
  split; [exact sshared_family|]. split; [vm_compute; exact eq_refl|]. split.
  { assert (forallb (fun x => match snd x with (SWrite _ w, _) => 16 <? bw_cap w | _ => true end) sshared_tr = true) as H
      by (vm_compute; exact eq_refl).
    intros i data w r Hin. rewrite forallb_forall in H. specialize (H _ Hin). cbn in H. right. apply N.ltb_lt, H. }
  split; [vm_compute; exact eq_refl|].
  split; [eexists _, _, _, _, [x00; x41]; split; [reflexivity|split; [vm_compute; exact eq_refl|vm_compute; exact eq_refl]]|].
  split; [eexists _, _, _, _, [x00; x42]; split; [reflexivity|split; [vm_compute; exact eq_refl|vm_compute; exact eq_refl]]|].
  split; [eexists _, _, _, _, [x00; x43]; split; [reflexivity|split; [vm_compute; exact eq_refl|vm_compute; exact eq_refl]]|].
  split. { eexists _, _, _, _. split; [reflexivity|]. apply (toy_opens _ [x00; x31]); vm_compute; exact eq_refl. }
  split. { eexists _, _, _, _. split; [reflexivity|]. apply (toy_opens _ [x00; x31]); vm_compute; exact eq_refl. }
  split; vm_compute; intuition discriminate.
Qed.

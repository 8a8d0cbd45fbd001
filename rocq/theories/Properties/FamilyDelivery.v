(** C84: a connection used through one writing handle there and one reading
    handle here loses nothing that arrives. *)

From Coq Require Import Arith Permutation.
From Verif.Model Require Import Complete.
From Verif.Spec Require Import Wire Datagram Trace ReadSpec Accept Session Writers Receiver CompleteReceiver Adversary CompleteTrace
  CompleteAdversary Family FamilyAdversary FamilyDelivery.
From Verif.Proofs Require Import BaseFacts FamilyDelivery.
From Verif.Instances Require Import Toy Scenario CompleteScenario.
From Verif.Properties Require Import Nonces Adversary Family FamilyAdversary.

(** ** C84 *)

(** Handle [j] writes there.  Handle [i] here has delivered nothing yet and is
    given the datagrams of the messages at the places [ps]: some of them,
    repeated, in an order in which none overtakes another by more than 10000, or
    at most 10000 of them.  Each is delivered the first time it comes, and each
    repetition is refused. *)
Theorem C84_delivered_once : forall (C : Crypto) (T : target), CryptoLaws C -> forall f tr i s k g u j,
  family C T f tr -> nth_error f i = Some s ->
  lossless (events tr (life clones tr i)) -> user_deliveries (events tr (life clones tr i)) = [] ->
  established s -> session_key s = Some k -> keystream_ok C k ->
  family C T g u -> len u < 2 ^ 64 -> good_writers u -> holds (g, u) k -> only writes_user u j ->
  forall ps xs, picked (posted u) ps xs -> (forall x, In x xs -> len (snd x) < 2 ^ usize_bits T) ->
    len tr + len ps < 2 ^ 64 -> in_window_of ps \/ len (nodup N.eq_dec ps) <= 10000 ->
    exists s', answers C T s (map snd xs) (once [] (combine ps (map fst xs))) s' /\ established s'.
Proof. exact family_delivers. Qed.
Print Assumptions C84_delivered_once.

(** When everything written there arrives here, everything is delivered. *)
Theorem C84_all_delivered : forall (C : Crypto) (T : target), CryptoLaws C -> forall f tr i s k g u j,
  family C T f tr -> nth_error f i = Some s ->
  lossless (events tr (life clones tr i)) -> user_deliveries (events tr (life clones tr i)) = [] ->
  established s -> session_key s = Some k -> keystream_ok C k ->
  family C T g u -> len u < 2 ^ 64 -> good_writers u -> holds (g, u) k -> only writes_user u j ->
  forall ps xs, picked (posted u) ps xs -> (forall x, In x xs -> len (snd x) < 2 ^ usize_bits T) ->
    len tr + len ps < 2 ^ 64 -> in_window_of ps \/ len ps <= 10000 ->
    Permutation (map N.to_nat ps) (seq 0 (length (posted u))) ->
    exists s', answers C T s (map snd xs) (map (fun x => Ok (Some (MMessage (nonempty (fst x))))) xs) s' /\ established s' /\
      Permutation (map fst xs) (writes (map snd u)).
Proof. exact family_delivers_all. Qed.
Print Assumptions C84_all_delivered.

(** The reading handle: a clone made after the negotiation. *)
Definition reader_use : list (nat * call) := map (pair 0%nat) callsA ++ [(0%nat, CClone); (0%nat, CWrite [x41] vec_writer)].
Definition reader_f := Eval vm_compute in fst (fam_run [A0] reader_use).
Definition reader_tr := Eval vm_compute in snd (fam_run [A0] reader_use).
Definition reader_1 := Eval vm_compute in nth 1 reader_f dummy.
Lemma reader_family : family toy T reader_f reader_tr.
Proof.
  replace reader_f with (fst (fam_run [A0] reader_use)) by (vm_compute; exact eq_refl).
  replace reader_tr with (snd (fam_run [A0] reader_use)) by (vm_compute; exact eq_refl).
  apply fam_run_A0. vm_compute. exact eq_refl.
Qed.
Lemma reader_life : lossless (events reader_tr (life clones reader_tr 1)).
Proof. apply lossless_check. vm_compute. exact eq_refl. Qed.
Lemma reader_established : established reader_1.
Proof. eexists. vm_compute. exact eq_refl. Qed.

Lemma good_check (tr : trace event) :
  forallb (fun x => match fst (snd x) with CWrite _ w => 16 <? bw_cap w | _ => true end) tr = true -> good_writers tr.
Proof. intros H i data w r Hin. rewrite forallb_forall in H. specialize (H _ Hin). right. apply N.ltb_lt, H. Qed.

(** The third message first, then the first twice, then the second. *)
Definition arrivals : list (bytes * bytes) :=
  [([x32], msgA 2 [x32]); ([x31], msgA 0 [x31]); ([x31], msgA 0 [x31]); ([x33], msgA 1 [x33])].
Example C84_case :
  family toy T reader_f reader_tr /\ nth_error reader_f 1 = Some reader_1 /\
  lossless (events reader_tr (life clones reader_tr 1)) /\ user_deliveries (events reader_tr (life clones reader_tr 1)) = [] /\
  established reader_1 /\ session_key reader_1 = Some kAB /\ keystream_ok toy kAB /\
  family toy T peer_f peer_tr /\ len peer_tr < 2 ^ 64 /\ good_writers peer_tr /\ holds (peer_f, peer_tr) kAB /\
  only writes_user peer_tr 0 /\ picked (posted peer_tr) [2; 0; 0; 1] arrivals /\
  (forall x, In x arrivals -> len (snd x) < 2 ^ usize_bits T) /\ len reader_tr + len [2; 0; 0; 1] < 2 ^ 64 /\
  len (nodup N.eq_dec [2; 0; 0; 1]) <= 10000 /\
  once [] (combine [2; 0; 0; 1] (map fst arrivals)) =
    [Ok (Some (MMessage (Some [x32]))); Ok (Some (MMessage (Some [x31]))); Err (RecvInvalidMsg InvalidNonce);
     Ok (Some (MMessage (Some [x33])))] /\
  picked (posted peer_tr) [2; 0; 1] [([x32], msgA 2 [x32]); ([x31], msgA 0 [x31]); ([x33], msgA 1 [x33])] /\
  Permutation (map N.to_nat [2; 0; 1]) (seq 0 (length (posted peer_tr))).
Proof.
  split; [exact reader_family|]. split; [vm_compute; exact eq_refl|]. split; [exact reader_life|]. split; [vm_compute; exact eq_refl|].
  split; [exact reader_established|]. split; [vm_compute; exact eq_refl|]. split; [apply toy_keystream_ok|].
  split; [exact peer_family|]. split; [vm_compute; exact eq_refl|]. split; [apply good_check; vm_compute; exact eq_refl|].
  split; [exact peer_holds|]. split. { eapply only_check; [intros e; apply some_check|vm_compute; exact eq_refl]. }
  split. { repeat (apply Forall2_cons; [vm_compute; exact eq_refl|]). apply Forall2_nil. }
  split. { intros x Hx. repeat (destruct Hx as [<-|Hx]; [vm_compute; exact eq_refl|]). destruct Hx. }
  split; [vm_compute; exact eq_refl|]. split; [vm_compute; discriminate|]. split; [vm_compute; exact eq_refl|].
  split. { repeat (apply Forall2_cons; [vm_compute; exact eq_refl|]). apply Forall2_nil. }
  change (seq 0 (length (posted peer_tr))) with [0; 1; 2]%nat. change (map N.to_nat [2; 0; 1]) with [2; 0; 1]%nat.
  apply (Permutation_cons_append [0; 1]%nat 2%nat).
Qed.

(** Without one writing handle: false.  Two handles write one message each,
    under the same number, and the second to arrive is refused. *)
Definition writers_use : list (nat * call) :=
  map (pair 0%nat) callsB ++ [(0%nat, CClone); (0%nat, CWrite [x31] vec_writer); (1%nat, CWrite [x32] vec_writer)].
Definition writers_f := Eval vm_compute in fst (fam_run [B0] writers_use).
Definition writers_tr := Eval vm_compute in snd (fam_run [B0] writers_use).
Lemma writers_family : family toy T writers_f writers_tr.
Proof.
  replace writers_f with (fst (fam_run [B0] writers_use)) by (vm_compute; exact eq_refl).
  replace writers_tr with (snd (fam_run [B0] writers_use)) by (vm_compute; exact eq_refl).
  apply fam_run_B0. vm_compute. exact eq_refl.
Qed.
Theorem C84_any_writers_refuted :
  ~ (forall (C : Crypto) (T : target), CryptoLaws C -> forall f tr i s k g u,
     family C T f tr -> nth_error f i = Some s ->
     lossless (events tr (life clones tr i)) -> user_deliveries (events tr (life clones tr i)) = [] ->
     established s -> session_key s = Some k -> keystream_ok C k ->
     family C T g u -> len u < 2 ^ 64 -> good_writers u -> holds (g, u) k ->
     forall ps xs, picked (posted u) ps xs -> (forall x, In x xs -> len (snd x) < 2 ^ usize_bits T) ->
       len tr + len ps < 2 ^ 64 -> in_window_of ps \/ len ps <= 10000 ->
       Permutation (map N.to_nat ps) (seq 0 (length (posted u))) ->
       exists s', answers C T s (map snd xs) (map (fun x => Ok (Some (MMessage (nonempty (fst x))))) xs) s' /\ established s' /\
         Permutation (map fst xs) (writes (map snd u))).
Proof.
  intros H.
  destruct (H toy T toy_laws reader_f reader_tr 1%nat reader_1 kAB writers_f writers_tr reader_family eq_refl reader_life
    ltac:(vm_compute; exact eq_refl) reader_established eq_refl (toy_keystream_ok _) writers_family ltac:(vm_compute; exact eq_refl)
    ltac:(apply good_check; vm_compute; exact eq_refl)) with (ps := [0; 1])
    (xs := [([x31], msgA 0 [x31]); ([x32], msgA 0 [x32])]) as (s' & [Ha _] & _).
  - exists (nth 0 writers_f dummy). split; [left; vm_compute; exact eq_refl|vm_compute; exact eq_refl].
  - repeat (apply Forall2_cons; [vm_compute; exact eq_refl|]). apply Forall2_nil.
  - intros x Hx. repeat (destruct Hx as [<-|Hx]; [vm_compute; exact eq_refl|]). destruct Hx.
  - vm_compute. exact eq_refl.
  - right. vm_compute. discriminate.
  - apply Permutation_refl.
  - apply (f_equal (fun x => map snd (snd x))) in Ha. vm_compute in Ha. discriminate Ha.
Qed.
Print Assumptions C84_any_writers_refuted.

(** Complete mode: [read_bin] has returned the peer's ACK on the reading handle,
    or on the one it was cloned from. *)
Theorem C84_complete_returned_once : forall (C : Crypto) (Z : Zip) (T : target), CryptoLaws C -> ZipLaws Z ->
  forall f tr i s k g u j x,
  sfamily C Z T f tr -> nth_error f i = Some s ->
  let sh := events tr (life sclones tr i) in
  snever_panics sh -> sreturned sh (IAck x) -> smessages sh = [] -> (forall e, In e sh -> zip_error (snd e) = false) ->
  sestablished s -> session_key (minimal s) = Some k -> keystream_ok C k ->
  sfamily C Z T g u -> len u < 2 ^ 64 -> sgood_writers u -> sholds (g, u) k -> only swrites_user u j ->
  forall ps xs, picked (sposted u) ps xs -> (forall x, In x xs -> len (snd x) < 2 ^ usize_bits T) ->
    2 * len tr + len ps < 2 ^ 64 -> in_window_of ps \/ len (nodup N.eq_dec ps) <= 10000 ->
    exists s', sanswers C Z T s (map snd xs) (once_each (fun d => IMessage (Some d)) [] (combine ps (map fst xs))) s' /\ sestablished s'.
Proof. exact sfamily_delivers. Qed.
Print Assumptions C84_complete_returned_once.

Theorem C84_complete_all_returned : forall (C : Crypto) (Z : Zip) (T : target), CryptoLaws C -> ZipLaws Z ->
  forall f tr i s k g u j x,
  sfamily C Z T f tr -> nth_error f i = Some s ->
  let sh := events tr (life sclones tr i) in
  snever_panics sh -> sreturned sh (IAck x) -> smessages sh = [] -> (forall e, In e sh -> zip_error (snd e) = false) ->
  sestablished s -> session_key (minimal s) = Some k -> keystream_ok C k ->
  sfamily C Z T g u -> len u < 2 ^ 64 -> sgood_writers u -> sholds (g, u) k -> only swrites_user u j ->
  forall ps xs, picked (sposted u) ps xs -> (forall x, In x xs -> len (snd x) < 2 ^ usize_bits T) ->
    2 * len tr + len ps < 2 ^ 64 -> in_window_of ps \/ len ps <= 10000 ->
    Permutation (map N.to_nat ps) (seq 0 (length (sposted u))) ->
    exists s', sanswers C Z T s (map snd xs) (map (fun x => Ok [IMessage (Some (fst x))]) xs) s' /\ sestablished s' /\
      Permutation (map fst xs) (swrites (map snd u)).
Proof. exact sfamily_delivers_all. Qed.
Print Assumptions C84_complete_all_returned.

Definition sreader_use : list (nat * scall) := map (pair 0%nat) scallsA ++ [(0%nat, SClone); (0%nat, SWrite [x41] vec_writer)].
Definition sreader_f := Eval vm_compute in fst (sfam_run [SA0] sreader_use).
Definition sreader_tr := Eval vm_compute in snd (sfam_run [SA0] sreader_use).
Definition sreader_1 := Eval vm_compute in nth 1 sreader_f SA0.
Lemma sreader_family : sfamily toy toy_zip T sreader_f sreader_tr.
Proof.
  replace sreader_f with (fst (sfam_run [SA0] sreader_use)) by (vm_compute; exact eq_refl).
  replace sreader_tr with (snd (sfam_run [SA0] sreader_use)) by (vm_compute; exact eq_refl).
  apply sfam_run_SA0. vm_compute. exact eq_refl.
Qed.
Lemma sgood_check (tr : trace (scall * sreply)) :
  forallb (fun x => match fst (snd x) with SWrite _ w => 16 <? bw_cap w | _ => true end) tr = true -> sgood_writers tr.
Proof. intros H i data w r Hin. rewrite forallb_forall in H. specialize (H _ Hin). right. apply N.ltb_lt, H. Qed.

Example C84_complete_case :
  let sh := events sreader_tr (life sclones sreader_tr 1) in
  let xs := [([x33], msgA 1 [x00; x33]); ([x31], msgA 0 [x00; x31])] in
  sfamily toy toy_zip T sreader_f sreader_tr /\ nth_error sreader_f 1 = Some sreader_1 /\
  snever_panics sh /\ (exists x, sreturned sh (IAck x)) /\ smessages sh = [] /\ (forall e, In e sh -> zip_error (snd e) = false) /\
  sestablished sreader_1 /\ session_key (minimal sreader_1) = Some kAB /\ keystream_ok toy kAB /\
  sfamily toy toy_zip T speer_f speer_tr /\ len speer_tr < 2 ^ 64 /\ sgood_writers speer_tr /\ sholds (speer_f, speer_tr) kAB /\
  only swrites_user speer_tr 0 /\ picked (sposted speer_tr) [1; 0] xs /\
  (forall x, In x xs -> len (snd x) < 2 ^ usize_bits T) /\ 2 * len sreader_tr + len [1; 0] < 2 ^ 64 /\ len [1; 0] <= 10000 /\
  Permutation (map N.to_nat [1; 0]) (seq 0 (length (sposted speer_tr))).
Proof.
  intros sh xs.
  split; [exact sreader_family|]. split; [vm_compute; exact eq_refl|].
  split. { assert (forallb (fun e => negb (spanics (snd e))) sh = true) as H by (vm_compute; exact eq_refl).
    rewrite forallb_forall in H. intros e He. specialize (H e He). destruct (spanics (snd e)); [discriminate H|reflexivity]. }
  split. { unfold sreturned. eexists _, _, _. split; [right; right; right; left; reflexivity|]. left. reflexivity. }
  split; [vm_compute; exact eq_refl|].
  split. { assert (forallb (fun e => negb (zip_error (snd e))) sh = true) as H by (vm_compute; exact eq_refl).
    rewrite forallb_forall in H. intros e He. specialize (H e He). destruct (zip_error (snd e)); [discriminate H|reflexivity]. }
  split; [eexists; vm_compute; exact eq_refl|]. split; [vm_compute; exact eq_refl|]. split; [apply toy_keystream_ok|].
  split; [exact speer_family|]. split; [vm_compute; exact eq_refl|]. split; [apply sgood_check; vm_compute; exact eq_refl|].
  split; [exact speer_holds|]. split. { eapply only_check; [intros e; apply some_check|vm_compute; exact eq_refl]. }
  split. { repeat (apply Forall2_cons; [vm_compute; exact eq_refl|]). apply Forall2_nil. }
  split. { intros x Hx. repeat (destruct Hx as [<-|Hx]; [vm_compute; exact eq_refl|]). destruct Hx. }
  split; [vm_compute; exact eq_refl|]. split; [vm_compute; discriminate|].
  apply perm_swap.
Qed.

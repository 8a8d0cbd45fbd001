(** C72: the whole behaviour of a SecureLayer. *)

From Coq Require Import Permutation.
From Verif.Model Require Import Serde.
From Verif.Spec Require Import Wire Datagram Trace ReadSpec Accept Session Writers CompleteTrace Typed TypedTrace Machine
  CompleteMachine.
From Verif.Proofs Require Import CompleteMachine.
From Verif.Instances Require Import Toy Scenario CompleteScenario.

(** ** C72 *)

(** Along every history of binary calls, from the creation on and through
    clones, a SecureLayer answers as the machine of Spec/CompleteMachine.v. *)
Theorem C72_refines : forall (C : Crypto) (Z : Zip) (T : target), CryptoLaws C ->
  forall s x k cs s' h,
  sembodies C Z T s x k -> srun C Z T s cs = (s', h) -> 2 * (k + len h) < 2 ^ 64 ->
  exists x', sshows C Z T x h x' /\ sembodies C Z T s' x' (k + len h).
Proof. exact smachine_refinement. Qed.
Print Assumptions C72_refines.

(** Typed and binary calls mixed. *)
Theorem C72_typed_refines : forall (C : Crypto) (Z : Zip) (T : target), CryptoLaws C ->
  forall (F : features) (M : Type) (K : Codec M) s x k cs s' h,
  sembodies C Z T s x k -> trun C Z T F K s cs = (s', h) -> 2 * (k + len h) < 2 ^ 64 ->
  exists x' k', tshows C Z T F K x h x' /\ sembodies C Z T s' x' k' /\ k' <= k + len h.
Proof. exact tmachine_refinement. Qed.
Print Assumptions C72_typed_refines.

(** With writers that take all they are given, the machine leaves no choice. *)
Theorem C72_deterministic : forall (C : Crypto) (Z : Zip) (T : target), CryptoLaws C ->
  forall h x x1 h' x2,
  sshows C Z T x h x1 -> sshows C Z T x h' x2 -> map fst h = map fst h' ->
  Forall2 same_sreply (map snd h) (map snd h') \/ sgood_writers (map fst h) ->
  Forall2 same_sreply (map snd h) (map snd h') /\ x1 = x2.
Proof. exact sshows_det. Qed.
Print Assumptions C72_deterministic.

Theorem C72_typed_deterministic : forall (C : Crypto) (Z : Zip) (T : target), CryptoLaws C ->
  forall (F : features) (M : Type) (K : Codec M) h x x1 h' x2,
  tshows C Z T F K x h x1 -> tshows C Z T F K x h' x2 -> map fst h = map fst h' -> tgood_writers (map fst h) ->
  Forall2 same_treply (map snd h) (map snd h') /\ x1 = x2.
Proof. exact tshows_det. Qed.
Print Assumptions C72_typed_deterministic.

(** What the machine remembers is what can be told of the layer. *)
Theorem C72_view : forall (C : Crypto) (Z : Zip) (T : target), CryptoLaws C ->
  forall s x k, sembodies C Z T s x k -> 2 * k < 2 ^ 64 ->
  (sfailed C s <-> m_failed (sm_layer x) = true) /\
  (sestablished s <-> m_failed (sm_layer x) = false /\ complete (sm_layer x)) /\
  session_key (minimal s) = secret C (sm_layer x) /\
  (forall n, received (minimal s) n <-> In n (m_numbers (sm_layer x))).
Proof. exact smachine_view. Qed.
Print Assumptions C72_view.

(** Two layers that embody the same machine, or machines that differ only in
    the order of the messages received, cannot be told apart, by binary calls or
    by typed ones. *)
Theorem C72_no_hidden_state : forall (C : Crypto) (Z : Zip) (T : target), CryptoLaws C ->
  forall s1 s2 x x' k1 k2 cs s1' h1 s2' h2,
  sembodies C Z T s1 x k1 -> sembodies C Z T s2 x' k2 -> salike x x' -> sgood_writers cs ->
  srun C Z T s1 cs = (s1', h1) -> srun C Z T s2 cs = (s2', h2) ->
  2 * (k1 + len h1) < 2 ^ 64 -> 2 * (k2 + len h2) < 2 ^ 64 ->
  Forall2 same_sreply (map snd h1) (map snd h2).
Proof. exact smachine_no_hidden_state. Qed.
Print Assumptions C72_no_hidden_state.

Theorem C72_typed_no_hidden_state : forall (C : Crypto) (Z : Zip) (T : target), CryptoLaws C ->
  forall (F : features) (M : Type) (K : Codec M) s1 s2 x x' k1 k2 cs s1' h1 s2' h2,
  sembodies C Z T s1 x k1 -> sembodies C Z T s2 x' k2 -> salike x x' -> tgood_writers cs ->
  trun C Z T F K s1 cs = (s1', h1) -> trun C Z T F K s2 cs = (s2', h2) ->
  2 * (k1 + len h1) < 2 ^ 64 -> 2 * (k2 + len h2) < 2 ^ 64 ->
  Forall2 same_treply (map snd h1) (map snd h2).
Proof. exact tmachine_no_hidden_state. Qed.
Print Assumptions C72_typed_no_hidden_state.

(** The order in which user messages arrived leaves no trace, through either
    interface: whatever calls [cs0] came before, two layers given the same
    messages in two orders answer every later call in the same way. *)
Theorem C72_order_forgotten : forall (C : Crypto) (Z : Zip) (T : target), CryptoLaws C ->
  forall (F : features) (M : Type) (K : Codec M) sk rs cfg given pin s0 cs0 s h0 qs qs' cs sa ha sb hb sa' ha' sb' hb',
  sl_create C (RngKey sk) rs cfg given pin = Ok s0 -> trun C Z T F K s0 cs0 = (s, h0) ->
  Permutation qs qs' -> tgood_writers cs ->
  trun C Z T F K s qs = (sa, ha) -> Forall tuser_answer ha ->
  trun C Z T F K s qs' = (sb, hb) -> Forall tuser_answer hb ->
  trun C Z T F K sa cs = (sa', ha') -> trun C Z T F K sb cs = (sb', hb') ->
  2 * (len cs0 + len qs + len cs) < 2 ^ 64 ->
  Forall2 same_treply (map snd ha') (map snd hb').
Proof. intros C Z T HL F M K. exact (tmachine_order C Z T HL F K). Qed.
Print Assumptions C72_order_forgotten.

(** A negotiation, a message read, one that cannot be inflated, the first one
    again, and one written; then, with typed calls, a value that cannot be
    expressed in the configured format, another format, a value written and a
    value read. *)
Definition slifeA : list scall :=
  scallsA ++ [SRead (msgA 0 [x00; x41]); SRead (msgA 1 [x77]); SRead (msgA 0 [x00; x41]); SWrite [x31] vec_writer].
Definition cbor_config : config :=
  {| cfg_compression := 0; cfg_compression_min_size := 8192;
     cfg_message_format := Cbor; cfg_encrypt_algo := Chacha20Poly1305Aead |}.
Definition tlifeA : list (tcall bytes) :=
  [VWrite [x32] vec_writer; VBin (SConfig cbor_config); VWrite [x32] vec_writer;
   VRead (msgA 2 ([x00] ++ header Cbor ++ [xa0; x33]))].
Definition tlog s (cs : list (tcall bytes)) := snd (trun toy toy_zip T all_features toy_codec s cs).
Definition tafter s (cs : list (tcall bytes)) := fst (trun toy toy_zip T all_features toy_codec s cs).
Lemma trun_log s cs : trun toy toy_zip T all_features toy_codec s cs = (tafter s cs, tlog s cs).
Proof. unfold tafter, tlog. destruct (trun toy toy_zip T all_features toy_codec s cs); reflexivity. Qed.

Lemma slifeA_log : len (slog SA0 slifeA) = 8 /\
  map (fun e => smsgs (snd e)) (skipn 4 (slog SA0 slifeA)) =
  [Ok [IMessage (Some [x41])]; Err (ZipError (IoOther 2)); Err (RecvInvalidMsg InvalidNonce); Ok []].
Proof. split; vm_compute; reflexivity. Qed.
Lemma tlifeA_log : len (tlog (safter SA0 slifeA) tlifeA) = 4 /\
  map snd (tlog (safter SA0 slifeA) tlifeA) =
  [TOther (SWritten (Err (SerdeError UseSuffixedBinFunctions)) vec_writer); TOther (SUnit (Ok tt));
   TOther (SWritten (Ok tt) (snd (fst (write_bin toy toy_zip T (header Cbor ++ [xa0; x32]) (safter SA0 slifeA) vec_writer))));
   TMsgs (Ok [TMMessage (Some [x33])])].
Proof. split; vm_compute; reflexivity. Qed.
Lemma slifeA_nonces :
  next_nonce_expected (minimal (safter SA0 slifeA)) = 2 /\ orphan_nonce_list (minimal (safter SA0 slifeA)) = [].
Proof. split; vm_compute; reflexivity. Qed.
Lemma slifeA_established :
  sestablished (safter SA0 slifeA) /\ session_key (minimal (safter SA0 slifeA)) = Some kAB.
Proof. split; [eexists; vm_compute; reflexivity|vm_compute; reflexivity]. Qed.

Example C72_case :
  sembodies toy toy_zip T SA0 (new_smachine skA seedA None config_default) 0 /\
  (exists x, sshows toy toy_zip T (new_smachine skA seedA None config_default) (slog SA0 slifeA) x /\
     sembodies toy toy_zip T (safter SA0 slifeA) x 8 /\
     m_failed (sm_layer x) = false /\ complete (sm_layer x) /\ secret toy (sm_layer x) = Some kAB /\
     (forall n, In n (m_numbers (sm_layer x)) <-> n < 2) /\
     exists x', tshows toy toy_zip T all_features toy_codec x (tlog (safter SA0 slifeA) tlifeA) x') /\
  sgood_writers slifeA /\ tgood_writers tlifeA.
Proof.
  assert (sembodies toy toy_zip T SA0 (new_smachine skA seedA None config_default) 0) as H0.
  { eapply se_create; [exact created_SA0|left; reflexivity]. }
  split; [exact H0|]. split; [|split].
  - destruct slifeA_log as [Hl _]. destruct tlifeA_log as [Hl' _].
    destruct (C72_refines toy toy_zip T toy_laws SA0 _ 0 slifeA (safter SA0 slifeA) (slog SA0 slifeA)
      H0 (srun_log _ _)) as (x & Hs & He); [rewrite Hl; reflexivity|].
    rewrite Hl in He. change (0 + 8) with 8 in He.
    destruct (C72_view toy toy_zip T toy_laws _ _ _ He) as (V1 & V2 & V3 & V4); [reflexivity|].
    exists x. split; [exact Hs|]. split; [exact He|].
    destruct slifeA_established as [Hest Hkey].
    apply V2 in Hest as [F1 F2]. split; [exact F1|]. split; [exact F2|].
    split; [rewrite <- V3; exact Hkey|]. split.
    + intros n. rewrite <- V4. unfold received. destruct slifeA_nonces as [-> ->].
      split; [intros [H|[]]; exact H|intros H; left; exact H].
    + destruct (C72_typed_refines toy toy_zip T toy_laws all_features bytes toy_codec _ _ _ tlifeA _ _ He
        (trun_log _ _)) as (x' & k' & Ht & _); [rewrite Hl'; reflexivity|]. exists x'. exact Ht.
  - intros w. split; intros y Hin; unfold slifeA, scallsA in Hin; cbn [app In] in Hin;
      repeat match goal with
             | H : _ \/ _ |- _ => destruct H
             | H : False |- _ => contradiction
             | H : _ = _ :> scall |- _ => first [discriminate H|injection H as _ <-; reflexivity]
             end.
  - intros c k v w Hin Hv. unfold tlifeA in Hin. cbn [In] in Hin.
    repeat (destruct Hin as [<-|Hin]; [first [discriminate Hv|injection Hv as _ _ <-; reflexivity]|]). contradiction.
Qed.

(** Three messages read in two orders, one of them through the typed interface,
    then a fourth one, one of the three again, and one written. *)
Definition cborA (n : N) (d : byte) : bytes := msgA n ([x00] ++ header Cbor ++ [xa0; d]).
Definition tbefore : list (tcall bytes) := map VBin (scallsA ++ [SConfig cbor_config]).
Definition tthree : list (tcall bytes) := [VRead (cborA 2 x43); VBin (SRead (cborA 0 x41)); VRead (cborA 1 x42)].
Definition tthree' : list (tcall bytes) := [VBin (SRead (cborA 0 x41)); VRead (cborA 2 x43); VRead (cborA 1 x42)].
Definition tthen : list (tcall bytes) := [VRead (cborA 3 x44); VBin (SRead (cborA 2 x43)); VWrite [x31] vec_writer].
Lemma tthree_answers :
  map (fun e => items (snd e)) (tlog (tafter SA0 tbefore) tthree) =
    [[(KindMessage, Some (inl [x43]), [])]; [(KindMessage, Some (inr (header Cbor ++ [xa0; x41])), [])];
     [(KindMessage, Some (inl [x42]), [])]] /\
  map (fun e => items (snd e)) (tlog (tafter SA0 tbefore) tthree') =
    [[(KindMessage, Some (inr (header Cbor ++ [xa0; x41])), [])]; [(KindMessage, Some (inl [x43]), [])];
     [(KindMessage, Some (inl [x42]), [])]].
Proof. split; vm_compute; reflexivity. Qed.
Lemma tthen_answers :
  firstn 2 (map snd (tlog (tafter (tafter SA0 tbefore) tthree) tthen)) =
    [TMsgs (Ok [TMMessage (Some [x44])]); TOther (SMsgs (Err (RecvInvalidMsg InvalidNonce)))].
Proof. vm_compute. reflexivity. Qed.
Example C72_order_case :
  (exists rs, sl_create toy (RngKey skA) rs config_default (Some seedA) None = Ok SA0) /\
  Permutation tthree tthree' /\ tgood_writers tthen /\
  Forall tuser_answer (tlog (tafter SA0 tbefore) tthree) /\
  Forall tuser_answer (tlog (tafter SA0 tbefore) tthree') /\
  2 * (len tbefore + len tthree + len tthen) < 2 ^ 64.
Proof.
  assert (forall (h : list (tcall bytes * treply bytes)) l,
    map (fun e => items (snd e)) h = map (fun v => [(KindMessage, v, [])]) l -> Forall tuser_answer h) as Hu.
  { intros h. induction h as [|e h IH]; intros [|d l] E; try discriminate E; [constructor|].
    injection E as E1 E2. constructor; [exists d; exact E1|exact (IH l E2)]. }
  destruct tthree_answers as [H1 H2].
  split; [exists None; exact created_SA0|]. split; [apply perm_swap|]. split.
  - intros c k v w [<-|[<-|[<-|[]]]] Hv; [discriminate Hv|discriminate Hv|injection Hv as _ _ <-; reflexivity].
  - split; [exact (Hu _ [Some (inl [x43]); Some (inr (header Cbor ++ [xa0; x41])); Some (inl [x42])] H1)|].
    split; [exact (Hu _ [Some (inr (header Cbor ++ [xa0; x41])); Some (inl [x43]); Some (inl [x42])] H2)|reflexivity].
Qed.

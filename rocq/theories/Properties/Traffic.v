(** C80: what a layer sends tells no more than its keys, the peer's ephemeral
    key and what it was asked to send. *)

From Verif.Model Require Import Complete.
From Verif.Spec Require Import Wire Datagram Trace ReadSpec Accept Session Writers CompleteTrace Machine CompleteMachine
  Attacks Traffic.
From Verif.Proofs Require Import Traffic.
From Verif.Instances Require Import Toy Scenario CompleteScenario.

(** ** C80, minimal mode *)

(** All the traffic of a layer, whatever it reads, is a function of its private
    key, one ephemeral key that was offered to it and the requests. *)
Theorem C80_traffic : forall (C : Crypto) (T : target), CryptoLaws C ->
  forall private cfg pin s0 cs s h,
  create C (RngKey private) cfg pin = Ok s0 -> run C T s0 cs = (s, h) ->
  good_writers cs -> len h < 2 ^ 64 ->
  exists peer,
    flat_map emitted h = traffic C private peer 0 (flat_map requested h) /\
    (Exists needs_peer (flat_map requested h) -> exists d, In (CRead d) cs /\ offers C T pin d peer).
Proof. intros C T HL private cfg pin s0 cs s h. exact (traffic_of C T HL private cfg pin s0 cs s h). Qed.
Print Assumptions C80_traffic.

(** So two layers with the same private key and the same requests, one that
    expects a key and one that does not, one that speaks first and one that
    listens first, send the same bytes to the same peer. *)
Theorem C80_symmetric : forall (C : Crypto) (T : target), CryptoLaws C ->
  forall private cfg1 cfg2 pin1 pin2 s1 s2 cs1 cs2 s1' s2' h1 h2,
  create C (RngKey private) cfg1 pin1 = Ok s1 -> run C T s1 cs1 = (s1', h1) -> good_writers cs1 -> len h1 < 2 ^ 64 ->
  create C (RngKey private) cfg2 pin2 = Ok s2 -> run C T s2 cs2 = (s2', h2) -> good_writers cs2 -> len h2 < 2 ^ 64 ->
  (forall d1 d2 e1 e2, In (CRead d1) cs1 -> offers C T pin1 d1 e1 -> In (CRead d2) cs2 -> offers C T pin2 d2 e2 -> e1 = e2) ->
  flat_map requested h1 = flat_map requested h2 ->
  flat_map emitted h1 = flat_map emitted h2.
Proof. intros C T HL private. exact (same_traffic C T HL private). Qed.
Print Assumptions C80_symmetric.

(** An observer who also sends does tell the two apart, in the first answer: a
    CONNECT signed with a key of their own. *)
Theorem C80_active_observer_refuted : forall (C : Crypto) (T : target), CryptoLaws C ->
  forall private cfg k s1 s2 seed epk cd,
  create C (RngKey private) cfg (Some k) = Ok s1 -> create C (RngKey private) cfg None = Ok s2 ->
  k <> ed25519_public C seed -> length epk = 32%nat -> derived_secret C private epk <> None ->
  86 + len cd < 2 ^ usize_bits T ->
  map snd (snd (run C T s1 [CRead (signed_connect C seed epk cd); CAck None])) =
    [RMsg (Err UnexpectedRemoteSigPubKey); RBytes (Err ForbidWriteAckMsgNow)] /\
  map snd (snd (run C T s2 [CRead (signed_connect C seed epk cd); CAck None])) =
    [RMsg (Ok (Some (MConnect [x00; x00; x00; x00] (ed25519_public C seed) (nonempty cd))));
     RBytes (Ok (ack_frame (sha256 C epk) []))].
Proof. intros C T HL. exact (probe C T HL). Qed.
Print Assumptions C80_active_observer_refuted.

(** ** C80, complete mode *)
Theorem C80_complete_traffic : forall (C : Crypto) (Z : Zip) (T : target), CryptoLaws C ->
  forall private rs cfg given expected seed s0 cs s h,
  sl_create C (RngKey private) rs cfg given expected = Ok s0 ->
  given = Some seed \/ given = None /\ rs = Some seed ->
  srun C Z T s0 cs = (s, h) -> sgood_writers cs -> 2 * len h < 2 ^ 64 ->
  exists peer,
    flat_map semitted h = straffic C Z private seed peer cfg 0 (flat_map srequested h) /\
    (Exists sneeds_peer (flat_map srequested h) -> exists d, In (SRead d) cs /\ offers C T expected d peer).
Proof. intros C Z T HL. exact (straffic_of C Z T HL). Qed.
Print Assumptions C80_complete_traffic.

Theorem C80_complete_symmetric : forall (C : Crypto) (Z : Zip) (T : target), CryptoLaws C ->
  forall private seed cfg rs1 rs2 given1 given2 pin1 pin2 s1 s2 cs1 cs2 s1' s2' h1 h2,
  sl_create C (RngKey private) rs1 cfg given1 pin1 = Ok s1 -> given1 = Some seed \/ given1 = None /\ rs1 = Some seed ->
  srun C Z T s1 cs1 = (s1', h1) -> sgood_writers cs1 -> 2 * len h1 < 2 ^ 64 ->
  sl_create C (RngKey private) rs2 cfg given2 pin2 = Ok s2 -> given2 = Some seed \/ given2 = None /\ rs2 = Some seed ->
  srun C Z T s2 cs2 = (s2', h2) -> sgood_writers cs2 -> 2 * len h2 < 2 ^ 64 ->
  (forall d1 d2 e1 e2, In (SRead d1) cs1 -> offers C T pin1 d1 e1 -> In (SRead d2) cs2 -> offers C T pin2 d2 e2 -> e1 = e2) ->
  flat_map srequested h1 = flat_map srequested h2 ->
  flat_map semitted h1 = flat_map semitted h2.
Proof. intros C Z T HL. exact (same_straffic C Z T HL). Qed.
Print Assumptions C80_complete_symmetric.

(** ** Both roles of the toy session *)

(** The client expects B's key and speaks first.  It is sent a message. *)
Definition client : list call :=
  [CConnect pkA None; CRead (connectB [x05]); CAck None; CRead (ackB []);
   CRead (msgA 0 [x41]); CWrite [x31] vec_writer].
(** The server expects no key in particular and listens first; B's ACK
    overtakes B's CONNECT. *)
Definition server : list call :=
  [CRead (ackB [x07]); CRead (connectB []); CConnect pkA None; CAck None; CTakeAck; CWrite [x31] vec_writer].

Definition sclient : list scall :=
  [SConnect None vec_writer; SRead (connectB [x00; x05]); SAck (Some [x06]) vec_writer; SRead (ackB []);
   SRead (msgA 0 [x00; x41]); SWrite [x31] vec_writer].
Definition sserver : list scall :=
  [SRead (connectB []); SConnect None vec_writer; SRead (ackB []); SAck (Some [x06]) vec_writer; SWrite [x31] vec_writer].
Definition SA0p : secure_layer := Eval vm_compute in sfresh skA seedA (Some pkB).

Lemma offered cs1 cs2 pin1 pin2 :
  (forall d, In (CRead d) cs1 -> firstn 2 (skipn 16 d) = [x00; x01] -> firstn 32 (skipn 18 d) = epkB) ->
  (forall d, In (CRead d) cs2 -> firstn 2 (skipn 16 d) = [x00; x01] -> firstn 32 (skipn 18 d) = epkB) ->
  forall d1 d2 e1 e2, In (CRead d1) cs1 -> offers toy T pin1 d1 e1 -> In (CRead d2) cs2 -> offers toy T pin2 d2 e2 -> e1 = e2.
Proof.
  intros H1 H2 d1 d2 e1 e2 I1 O1 I2 O2.
  apply offers_shape in O1 as (_ & Y1 & -> & _). apply offers_shape in O2 as (_ & Y2 & -> & _).
  rewrite (H1 _ I1 Y1), (H2 _ I2 Y2). reflexivity.
Qed.

Ltac each := repeat match goal with
  | H : _ \/ _ |- _ => destruct H as [H|H]
  | H : False |- _ => contradiction
  | H : _ = CRead _ |- _ => first [discriminate H|injection H as <-]
  | H : _ = CWrite _ _ |- _ => first [discriminate H|injection H as <- <-]
  end.

Example C80_case :
  (forall e1 e2 d1 d2, In (CRead d1) client -> offers toy T (Some pkB) d1 e1 ->
     In (CRead d2) server -> offers toy T None d2 e2 -> e1 = e2) /\
  good_writers client /\ good_writers server /\
  flat_map requested (log A0p client) = [PutConnect pkA None; PutAck None; PutUser [x31]] /\
  flat_map requested (log A0 server) = [PutConnect pkA None; PutAck None; PutUser [x31]] /\
  flat_map emitted (log A0p client) = [connect_frame epkA pkA []; ack_frame (toy_hash epkB) []; msgA 0 [x31]] /\
  flat_map emitted (log A0 server) = flat_map emitted (log A0p client).
Proof.
  split; [|split; [|split]].
  - intros e1 e2 d1 d2 I1 O1 I2 O2. eapply (offered client server); [| |exact I1|exact O1|exact I2|exact O2];
      clear; unfold client, server; cbn [In]; intros d H; each; intros E;
      first [vm_compute in E; discriminate E|vm_compute; reflexivity].
  - unfold client. intros data w H. cbn [In] in H. each. reflexivity.
  - unfold server. intros data w H. cbn [In] in H. each. reflexivity.
  - split; [|split; [|split]]; vm_compute; exact eq_refl.
Qed.

Example C80_complete_case :
  sl_create toy (RngKey skA) None config_default (Some seedA) (Some pkB) = Ok SA0p /\
  flat_map srequested (slog SA0p sclient) = [SPutConnect None; SPutAck (Some [x06]); SPutUser [x31]] /\
  flat_map srequested (slog SA0 sserver) = [SPutConnect None; SPutAck (Some [x06]); SPutUser [x31]] /\
  flat_map semitted (slog SA0p sclient) = [connectA []; ackA [x00; x06]; msgA 0 [x00; x31]] /\
  flat_map semitted (slog SA0 sserver) = flat_map semitted (slog SA0p sclient).
Proof. split; [|split; [|split; [|split]]]; vm_compute; exact eq_refl. Qed.

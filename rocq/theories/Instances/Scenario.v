(** A concrete session of the toy instance, used by the Examples: layers A and
    B, their negotiation messages, and the layers at each stage. *)

From Verif.Model Require Import Serde.
From Verif.Spec Require Import Wire Trace.
From Verif.Instances Require Import Toy.

Definition T := release64.

Definition seedA : bytes := [x11; x12; x13].
Definition seedB : bytes := [x21; x22; x23].
Definition pkA : bytes := Eval vm_compute in pad32 seedA.
Definition pkB : bytes := Eval vm_compute in pad32 seedB.
Definition skA : bytes := [xa1; xa2; xa3; xa4].
Definition skB : bytes := [xb1; xb2; xb3; xb4].
Definition epkA : bytes := Eval vm_compute in pad32 skA.
Definition epkB : bytes := Eval vm_compute in pad32 skB.

(** The layer a successful [create] returns. *)
Definition dummy : msl := {|
  ack_msg_recv_too_early := None; cloned := false; conf := config_default;
  encrypt_algo_with_secret := None; ephemeral := None; ephemeral_pubkey := [];
  next_nonce_expected := 0; next_nonce_sent := 0; orphan_nonce_list := []; peer_epk := None;
  peer_sig_pubkey := None; msl_status := Fail; tmp_stack_user_msgs := [] |}.
Definition fresh (sk : bytes) (pin : option bytes) : msl :=
  match create toy (RngKey sk) config_default pin with Ok s => s | _ => dummy end.

Definition A0 : msl := Eval vm_compute in fresh skA None.
Definition B0 : msl := Eval vm_compute in fresh skB None.

(** Signed messages as they travel. *)
Definition connectA (cd : bytes) : bytes :=
  connect_frame epkA pkA cd ++ toy_sign seedA (connect_frame epkA pkA cd).
Definition connectB (cd : bytes) : bytes :=
  connect_frame epkB pkB cd ++ toy_sign seedB (connect_frame epkB pkB cd).
Definition ackA (cd : bytes) : bytes :=
  ack_frame (toy_hash epkB) cd ++ toy_sign seedA (ack_frame (toy_hash epkB) cd).
Definition ackB (cd : bytes) : bytes :=
  ack_frame (toy_hash epkA) cd ++ toy_sign seedB (ack_frame (toy_hash epkA) cd).

Definition after (s : msl) (cs : list call) : msl := fst (run toy T s cs).

(** A's side, stage by stage (the layers are written out, not their computation). *)
Definition A1 := Eval vm_compute in after A0 [CConnect pkA None].
Definition A2 := Eval vm_compute in after A1 [CRead (connectB [x05])].
Definition A3 := Eval vm_compute in after A2 [CAck (Some [x06])].
Definition A4 := Eval vm_compute in after A3 [CRead (ackB [])].

(** B's side. *)
Definition B1 := Eval vm_compute in after B0 [CConnect pkB (Some [x05])].
Definition B2 := Eval vm_compute in after B1 [CRead (connectA [])].
Definition B3 := Eval vm_compute in after B2 [CAck None].
Definition B4 := Eval vm_compute in after B3 [CRead (ackA [x06])].

(** The session key of both. *)
Definition key_of_layer (s : msl) : secret_key :=
  match encrypt_algo_with_secret s with
  | Some (WithChacha k) => k
  | None => secret_key_new []
  end.
Definition kAB : secret_key := Eval vm_compute in key_of_layer A4.

(** User messages written by A. *)
Definition msgA (n : N) (data : bytes) : bytes := user_datagram toy kAB n data.

Lemma reachable_fresh sk pin : reachable toy T (fresh sk pin).
Proof. eapply (reach_create toy T (RngKey sk) config_default pin). reflexivity. Qed.

Lemma reachable_after s cs : reachable toy T s -> reachable toy T (after s cs).
Proof.
  unfold after. revert s. induction cs as [|c cs IH]; intros s H; cbn [run]; [exact H|].
  pose proof (reach_step toy T s c H) as H1. destruct (call_step toy T s c) as [s1 r].
  specialize (IH s1 H1). destruct (run toy T s1 cs). exact IH.
Qed.

Lemma reachable_A0 : reachable toy T A0. Proof. exact (reachable_fresh skA None). Qed.
Lemma reachable_A1 : reachable toy T A1.
Proof. replace A1 with (after A0 [CConnect pkA None]) by (vm_compute; reflexivity). apply reachable_after, reachable_A0. Qed.
Lemma reachable_A2 : reachable toy T A2.
Proof. replace A2 with (after A1 [CRead (connectB [x05])]) by (vm_compute; reflexivity). apply reachable_after, reachable_A1. Qed.
Lemma reachable_A3 : reachable toy T A3.
Proof. replace A3 with (after A2 [CAck (Some [x06])]) by (vm_compute; reflexivity). apply reachable_after, reachable_A2. Qed.
Lemma reachable_A4 : reachable toy T A4.
Proof. replace A4 with (after A3 [CRead (ackB [])]) by (vm_compute; reflexivity). apply reachable_after, reachable_A3. Qed.
Lemma reachable_B0 : reachable toy T B0. Proof. exact (reachable_fresh skB None). Qed.
Lemma reachable_B1 : reachable toy T B1.
Proof. replace B1 with (after B0 [CConnect pkB (Some [x05])]) by (vm_compute; reflexivity). apply reachable_after, reachable_B0. Qed.
Lemma reachable_B2 : reachable toy T B2.
Proof. replace B2 with (after B1 [CRead (connectA [])]) by (vm_compute; reflexivity). apply reachable_after, reachable_B1. Qed.
Lemma reachable_B3 : reachable toy T B3.
Proof. replace B3 with (after B2 [CAck None]) by (vm_compute; reflexivity). apply reachable_after, reachable_B2. Qed.
Lemma reachable_B4 : reachable toy T B4.
Proof. replace B4 with (after B3 [CRead (ackA [x06])]) by (vm_compute; reflexivity). apply reachable_after, reachable_B3. Qed.

(** The stages are what they should be. *)
Example stages_A :
  map msl_status [A0; A1; A2; A3; A4] =
  [OngoingNegotiation Created WaitConnectMsg; OngoingNegotiation ConnectMsgSent WaitConnectMsg;
   OngoingNegotiation ConnectMsgSent ValidConnectMsgReceived;
   OngoingNegotiation ConnectMsgSent AckMsgSent; NegotiationSuccessful].
Proof. vm_compute. reflexivity. Qed.

Example stages_B :
  map msl_status [B0; B1; B2; B3; B4] =
  [OngoingNegotiation Created WaitConnectMsg; OngoingNegotiation ConnectMsgSent WaitConnectMsg;
   OngoingNegotiation ConnectMsgSent ValidConnectMsgReceived;
   OngoingNegotiation ConnectMsgSent AckMsgSent; NegotiationSuccessful].
Proof. vm_compute. reflexivity. Qed.

Example same_key : key_of_layer A4 = key_of_layer B4 /\ encrypt_algo_with_secret A4 = Some (WithChacha kAB).
Proof. vm_compute. split; reflexivity. Qed.

(** ** Histories *)

Definition log (s : msl) (cs : list call) : history := snd (run toy T s cs).

Lemma run_log s cs : run toy T s cs = (after s cs, log s cs).
Proof. unfold after, log. destruct (run toy T s cs); reflexivity. Qed.

Lemma created_A0 : create toy (RngKey skA) config_default None = Ok A0. Proof. reflexivity. Qed.
Lemma created_B0 : create toy (RngKey skB) config_default None = Ok B0. Proof. reflexivity. Qed.

(** The four negotiation calls of A, then two user messages read and one
    written. *)
Definition callsA : list call :=
  [CConnect pkA None; CRead (connectB [x05]); CAck (Some [x06]); CRead (ackB [])].
Definition callsB : list call :=
  [CConnect pkB (Some [x05]); CRead (connectA []); CAck None; CRead (ackA [x06])].
Definition chatA : list call :=
  callsA ++ [CRead (msgA 1 [x77]); CRead (msgA 0 [x78; x79]); CWrite [x31] vec_writer].

(** The same with a pinned key. *)
Definition A0p : msl := Eval vm_compute in fresh skA (Some pkB).
Lemma created_A0p : create toy (RngKey skA) config_default (Some pkB) = Ok A0p. Proof. reflexivity. Qed.

Definition replies (h : history) : list reply := map snd h.

Example negotiation_log :
  replies (log A0 callsA) =
  [RBytes (Ok (connect_frame epkA pkA []));
   RMsg (Ok (Some (MConnect [x00; x00; x00; x00] pkB (Some [x05]))));
   RBytes (Ok (ack_frame (toy_hash epkB) [x06]));
   RMsg (Ok (Some (MAck None)))].
Proof. vm_compute. reflexivity. Qed.

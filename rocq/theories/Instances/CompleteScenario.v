(** The example session in complete mode (toy instances): the layers A and B of
    Scenario.v with their signing keys, at each stage. *)

From Verif.Model Require Import Serde.
From Verif.Spec Require Import Wire Trace Writers CompleteTrace.
From Verif.Instances Require Import Toy Scenario.

Definition sdummy : secure_layer := {| minimal := dummy; sig_key_pair := None |}.
Definition sfresh (sk seed : bytes) (pin : option bytes) : secure_layer :=
  match sl_create toy (RngKey sk) None config_default (Some seed) pin with Ok s => s | _ => sdummy end.

Definition SA0 : secure_layer := Eval vm_compute in sfresh skA seedA None.
Definition SB0 : secure_layer := Eval vm_compute in sfresh skB seedB None.
Lemma created_SA0 : sl_create toy (RngKey skA) None config_default (Some seedA) None = Ok SA0.
Proof. reflexivity. Qed.
Lemma created_SB0 : sl_create toy (RngKey skB) None config_default (Some seedB) None = Ok SB0.
Proof. reflexivity. Qed.

Definition safter (s : secure_layer) (cs : list scall) : secure_layer := fst (srun toy toy_zip T s cs).
Definition slog (s : secure_layer) (cs : list scall) : shistory := snd (srun toy toy_zip T s cs).
Lemma srun_log s cs : srun toy toy_zip T s cs = (safter s cs, slog s cs).
Proof. unfold safter, slog. destruct (srun toy toy_zip T s cs); reflexivity. Qed.

(** Payloads are deflated: [x00] is the toy marker of level 0. *)
Definition scallsA : list scall :=
  [SConnect None vec_writer; SRead (connectB [x00; x05]); SAck (Some [x06]) vec_writer; SRead (ackB [])].
Definition scallsB : list scall :=
  [SConnect (Some [x05]) vec_writer; SRead (connectA []); SAck None vec_writer; SRead (ackA [x00; x06])].

Definition SA1 := Eval vm_compute in safter SA0 (firstn 1 scallsA).
Definition SA2 := Eval vm_compute in safter SA0 (firstn 2 scallsA).
Definition SA3 := Eval vm_compute in safter SA0 (firstn 3 scallsA).
Definition SA4 := Eval vm_compute in safter SA0 scallsA.
Definition SB1 := Eval vm_compute in safter SB0 (firstn 1 scallsB).
Definition SB2 := Eval vm_compute in safter SB0 (firstn 2 scallsB).
Definition SB3 := Eval vm_compute in safter SB0 (firstn 3 scallsB).
Definition SB4 := Eval vm_compute in safter SB0 scallsB.

Lemma sreachable_run s cs : sreachable toy toy_zip T s -> sreachable toy toy_zip T (safter s cs).
Proof.
  unfold safter. revert s. induction cs as [|c cs IH]; intros s H; cbn [srun]; [exact H|].
  pose proof (sreach_step toy toy_zip T s c H) as H1. destruct (scall_step toy toy_zip T s c) as [s1 r].
  specialize (IH s1 H1). destruct (srun toy toy_zip T s1 cs). exact IH.
Qed.
Lemma sreachable_SA0 : sreachable toy toy_zip T SA0.
Proof. exact (sreach_create toy toy_zip T _ _ _ _ _ _ created_SA0). Qed.
Lemma sreachable_SB0 : sreachable toy toy_zip T SB0.
Proof. exact (sreach_create toy toy_zip T _ _ _ _ _ _ created_SB0). Qed.
Ltac by_run s cs H := replace s with cs by (vm_compute; reflexivity); apply sreachable_run, H.
Lemma sreachable_SA1 : sreachable toy toy_zip T SA1.
Proof. by_run SA1 (safter SA0 (firstn 1 scallsA)) sreachable_SA0. Qed.
Lemma sreachable_SA2 : sreachable toy toy_zip T SA2.
Proof. by_run SA2 (safter SA0 (firstn 2 scallsA)) sreachable_SA0. Qed.
Lemma sreachable_SA3 : sreachable toy toy_zip T SA3.
Proof. by_run SA3 (safter SA0 (firstn 3 scallsA)) sreachable_SA0. Qed.
Lemma sreachable_SA4 : sreachable toy toy_zip T SA4.
Proof. by_run SA4 (safter SA0 scallsA) sreachable_SA0. Qed.
Lemma sreachable_SB1 : sreachable toy toy_zip T SB1.
Proof. by_run SB1 (safter SB0 (firstn 1 scallsB)) sreachable_SB0. Qed.
Lemma sreachable_SB2 : sreachable toy toy_zip T SB2.
Proof. by_run SB2 (safter SB0 (firstn 2 scallsB)) sreachable_SB0. Qed.
Lemma sreachable_SB3 : sreachable toy toy_zip T SB3.
Proof. by_run SB3 (safter SB0 (firstn 3 scallsB)) sreachable_SB0. Qed.
Lemma sreachable_SB4 : sreachable toy toy_zip T SB4.
Proof. by_run SB4 (safter SB0 scallsB) sreachable_SB0. Qed.

(** Signed messages as the writers leave them. *)
Definition sent_of (r : sreply) : bytes := match r with SWritten (Ok _) w => output w | _ => [] end.
Definition smsgs (r : sreply) : outcome (list incoming_binary_message) :=
  match r with SMsgs o => o | _ => Ok [] end.

Example snegotiation_log :
  map snd (slog SA0 scallsA) =
  [SWritten (Ok tt) (snd (fst (write_connect_msg_bin toy toy_zip None SA0 vec_writer)));
   SMsgs (Ok [IConnect (Some [x05]) pkB]);
   SWritten (Ok tt) (snd (fst (write_ack_msg_bin toy toy_zip (Some [x06]) SA2 vec_writer)));
   SMsgs (Ok [IAck None])] /\
  map (fun e => sent_of (snd e)) (slog SA0 scallsA) = [connectA []; []; ackA [x00; x06]; []].
Proof. split; vm_compute; reflexivity. Qed.

Example snegotiation_log_B :
  map (fun e => sent_of (snd e)) (slog SB0 scallsB) = [connectB [x00; x05]; []; ackB []; []] /\
  map (fun e => smsgs (snd e)) (slog SB0 scallsB) =
    [Ok []; Ok [IConnect None pkA]; Ok []; Ok [IAck (Some [x06])]].
Proof. split; vm_compute; reflexivity. Qed.

(** The same session with a typed message format. *)
Definition formatted (f : message_format) (s : secure_layer) : secure_layer :=
  with_conf {| cfg_compression := 9; cfg_compression_min_size := 0;
               cfg_message_format := f; cfg_encrypt_algo := Chacha20Poly1305Aead |} s.
Lemma sreachable_formatted f s :
  cloned (minimal s) = false -> sreachable toy toy_zip T s -> sreachable toy toy_zip T (formatted f s).
Proof.
  intros Hc H.
  replace (formatted f s) with (fst (scall_step toy toy_zip T s (SConfig
    {| cfg_compression := 9; cfg_compression_min_size := 0;
       cfg_message_format := f; cfg_encrypt_algo := Chacha20Poly1305Aead |}))).
  - apply sreach_step, H.
  - cbn [scall_step]. unfold sl_change_config, change_config. rewrite Hc. reflexivity.
Qed.

(** C85: what layers with the default configuration write. *)

From Coq Require Import Arith.
From Verif.Model Require Import Serde.
From Verif.Spec Require Import Wire Datagram Trace ReadSpec Accept Session Writers Attacks CompleteTrace Typed TypedTrace Default.
From Verif.Proofs Require Import BaseFacts Default.
From Verif.Instances Require Import Toy Scenario CompleteScenario.

(** ** C85 *)

(** The binary methods: every successful write puts out the documented message
    around the payload stored below 8192 bytes, compressed at level 1 from there
    on. *)
Theorem C85_written : forall (C : Crypto) (Z : Zip) (T : target) (F : features) (M : Type) (K : Codec M), CryptoLaws C ->
  forall s w, default_life C Z T F K s -> takes_all w ->
  (forall cd s' w', write_connect_msg_bin C Z cd s w = (s', w', Ok tt) ->
    exists seed, sig_key_pair s = Some seed /\
      output w' = output w ++ signed_connect C seed (ephemeral_pubkey (minimal s)) (default_payload Z cd)) /\
  (forall cd s' w', write_ack_msg_bin C Z cd s w = (s', w', Ok tt) ->
    exists seed epk, sig_key_pair s = Some seed /\ peer_epk (minimal s) = Some epk /\
      output w' = output w ++ signed_ack C seed epk (default_payload Z cd)) /\
  (forall data s' w', write_bin C Z T data s w = (s', w', Ok tt) ->
    exists k, session_key (minimal s) = Some k /\
      output w' = output w ++ user_datagram C k (next_nonce_sent (minimal s)) (default_payload Z (Some data))).
Proof. exact @default_written. Qed.
Print Assumptions C85_written.

(** The typed methods refuse every value: the default format is raw binary. *)
Theorem C85_typed_refused : forall (C : Crypto) (Z : Zip) (T : target) (F : features) (M : Type) (K : Codec M),
  forall s m w, default_life C Z T F K s ->
  sl_write_connect_msg C Z K (Some m) s w = (s, w, Err (SerdeError UseSuffixedBinFunctions)) /\
  sl_write_ack_msg C Z K (Some m) s w = (s, w, Err (SerdeError UseSuffixedBinFunctions)) /\
  sl_write C Z T K m s w = (s, w, Err (SerdeError UseSuffixedBinFunctions)).
Proof. exact @default_refused. Qed.
Print Assumptions C85_typed_refused.

(** Without custom data they work, as the binary ones. *)
Theorem C85_typed_none : forall (C : Crypto) (Z : Zip) (M : Type) (K : Codec M) s w,
  sl_write_connect_msg C Z K None s w = write_connect_msg_bin C Z None s w /\
  sl_write_ack_msg C Z K None s w = write_ack_msg_bin C Z None s w.
Proof. exact @typed_none. Qed.
Print Assumptions C85_typed_none.

(** Two layers with the default configuration, before and after the negotiation,
    and a clone. *)
Lemma default_SA0 : default_life toy toy_zip T all_features toy_codec SA0.
Proof. apply (dl_create toy toy_zip T all_features toy_codec (RngKey skA) None (Some seedA) None). vm_compute. exact eq_refl. Qed.
Lemma default_run cs s : default_life toy toy_zip T all_features toy_codec s ->
  forallb (fun c => match c with SConfig _ => false | _ => true end) cs = true ->
  default_life toy toy_zip T all_features toy_codec (safter s cs).
Proof.
  unfold safter. revert s. induction cs as [|c cs IH]; intros s H Hc; cbn [srun forallb] in *; [exact H|].
  apply andb_prop in Hc as [Hc1 Hc2].
  assert (default_life toy toy_zip T all_features toy_codec (fst (scall_step toy toy_zip T s c))) as H1.
  { pose proof (dl_call toy toy_zip T all_features toy_codec s (VBin c) H) as X. cbn [tcall_step] in X.
    destruct (scall_step toy toy_zip T s c) as [s1 r]. apply X. intros cfg [= ->]. discriminate Hc1. }
  destruct (scall_step toy toy_zip T s c) as [s1 r]. specialize (IH s1 H1 Hc2). destruct (srun toy toy_zip T s1 cs). exact IH.
Qed.
Lemma default_SA4 : default_life toy toy_zip T all_features toy_codec SA4.
Proof.
  replace SA4 with (safter SA0 scallsA) by (vm_compute; exact eq_refl). apply default_run; [exact default_SA0|reflexivity].
Qed.

Example C85_case :
  default_life toy toy_zip T all_features toy_codec SA4 /\ takes_all vec_writer /\
  (exists c, snd (sl_try_clone SA4) = Ok c /\ default_life toy toy_zip T all_features toy_codec c) /\
  (exists s' w', write_bin toy toy_zip T [x31; x32] SA4 vec_writer = (s', w', Ok tt)) /\
  (exists s' w', write_connect_msg_bin toy toy_zip (Some [x31]) SA0 vec_writer = (s', w', Ok tt)) /\
  default_payload toy_zip (Some [x31; x32]) = [x00; x31; x32] /\
  default_payload toy_zip (Some (repeat x31 (N.to_nat 8191))) = x00 :: repeat x31 (N.to_nat 8191) /\
  default_payload toy_zip (Some (repeat x31 (N.to_nat 8192))) = x01 :: repeat x31 (N.to_nat 8192).
Proof.
  split; [exact default_SA4|]. split; [vm_compute; tauto|].
  split. { assert (exists c, snd (sl_try_clone SA4) = Ok c) as [c E] by (eexists; vm_compute; exact eq_refl).
    exists c. split; [exact E|]. exact (dl_clone _ _ _ _ _ SA4 c default_SA4 E). }
  split; [eexists _, _; vm_compute; exact eq_refl|]. split; [eexists _, _; vm_compute; exact eq_refl|].
  split; [vm_compute; exact eq_refl|].
  split; unfold default_payload, len; rewrite repeat_length, N2Nat.id; cbn [deflate toy_zip N.ltb N.compare Pos.compare Pos.compare_cont]; f_equal.
Qed.

(** After [change_config]: not so.  A layer told to compress everything at level
    9 writes a short CONNECT at that level. *)
Definition squeezer : config :=
  {| cfg_compression := 9; cfg_compression_min_size := 0; cfg_message_format := RawBinary;
     cfg_encrypt_algo := Chacha20Poly1305Aead |}.
Theorem C85_any_configuration_refuted :
  ~ (forall (C : Crypto) (Z : Zip) (T : target), CryptoLaws C -> forall s w, sreachable C Z T s -> takes_all w ->
     forall cd s' w', write_connect_msg_bin C Z cd s w = (s', w', Ok tt) ->
     exists seed, sig_key_pair s = Some seed /\
       output w' = output w ++ signed_connect C seed (ephemeral_pubkey (minimal s)) (default_payload Z cd)).
Proof.
  intros H. assert (sreachable toy toy_zip T (safter SA0 [SConfig squeezer])) as HR by apply sreachable_run, sreachable_SA0.
  destruct (write_connect_msg_bin toy toy_zip (Some [x31]) (safter SA0 [SConfig squeezer]) vec_writer) as [[s' w'] o] eqn:E.
  vm_compute in E. injection E as <- <- <-.
  edestruct (H toy toy_zip T toy_laws _ vec_writer HR ltac:(vm_compute; tauto) (Some [x31])) as (seed & Hs & Ho); [vm_compute; exact eq_refl|].
  vm_compute in Hs. injection Hs as <-. vm_compute in Ho. discriminate Ho.
Qed.
Print Assumptions C85_any_configuration_refuted.

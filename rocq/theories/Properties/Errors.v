(** C79: which errors each method returns. *)

From Verif.Model Require Import Serde.
From Verif.Spec Require Import Wire Datagram Trace ReadSpec Accept Session Writers CompleteTrace TypedTrace Errors.
From Verif.Proofs Require Import Invariant Fragile Typed Errors.
From Verif.Instances Require Import Toy Scenario CompleteScenario.
From Verif.Properties Require Import Nonces Fragile.

(** ** Witnesses, minimal mode *)
Definition junk : bytes := magic ++ [xff; xff; xff; xff].
Definition noise : bytes := repeat xff 64.
Definition failing_writer (io : io_error) : bufwriter :=
  {| bw_cap := 0; bw_buf := []; bw_sink := {| sink_data := []; sink_script := [WAccept 1000; WFail io] |} |}.
Definition signB (m : bytes) : bytes := m ++ toy_sign seedB m.
Definition signA (m : bytes) : bytes := m ++ toy_sign seedA m.

Definition occurs (o : op) (e : error) : Prop :=
  exists C T s c, CryptoLaws C /\ reachable C T s /\ op_of c = o /\ fails (snd (call_step C T s c)) e.

Lemma occurs_toy s cs c e : reachable toy T s -> fails (snd (call_step toy T (after s cs) c)) e -> occurs (op_of c) e.
Proof.
  intros HR H. exists toy, T, (after s cs), c. split; [exact toy_laws|]. split; [apply reachable_after; exact HR|].
  split; [reflexivity|exact H].
Qed.

Ltac witness HR cs c := eapply (occurs_toy _ cs c); [exact HR|vm_compute; exact eq_refl].

Lemma run_reach s cs s' h : reachable toy T s -> run toy T s cs = (s', h) -> reachable toy T s'.
Proof. intros HR E. pose proof (reachable_after s cs HR) as H. unfold after in H. rewrite E in H. exact H. Qed.

(** 10000 messages wait for number 0. *)
Definition later (n : nat) : list call := map (fun i => CRead (msgA (N.of_nat i + 1) [x00])) (seq 0 n).
Definition overtaken : list call :=
  [CConnect pkA None; CRead (connectB [x05]); CAck (Some [x06]); CRead (msgA 10001 [x40]); CRead (ackB [])].

Lemma later_run cs :
  len (log A0 cs) + 10002 < 2 ^ 64 -> lossless (log A0 cs) -> established (after A0 cs) ->
  session_key (after A0 cs) = Some kAB -> user_deliveries (log A0 cs) = [] ->
  exists s', run toy T (after A0 cs) (later (N.to_nat 10000)) =
    (s', map (fun i => (CRead (msgA (N.of_nat i + 1) [x00]), RMsg (Ok (Some (MMessage (Some [x00])))))) (seq 0 (N.to_nat 10000))) /\
  tmp_stack_user_msgs s' = tmp_stack_user_msgs (after A0 cs) /\ session_key s' = Some kAB /\
  snd (read toy T (msgA 10001 [x40]) s') = Err TooManyUnorderedMsgs.
Proof.
  intros Hb Hl He Hk Hn.
  assert (forall i : nat, 26 + len [x00] < 2 ^ usize_bits T) as Hf by (intros _; vm_compute; reflexivity).
  pose proof (run_log A0 cs) as E. pose proof (toy_keystream_ok kAB) as Hks.
  generalize dependent (log A0 cs). intros h Hb Hl Hn E.
  generalize dependent (after A0 cs). intros s He Hk E.
  destruct (first_message_lost toy T toy_laws _ _ _ _ _ _ _ _ (fun _ => [x00]) created_A0 E Hb Hl He Hk Hks Hn Hf)
    as (s1 & E1 & He1 & Hkill).
  exists s1. split; [exact E1|]. split; [|split].
  - eapply (later_stack toy T toy_laws); try eassumption. exact created_A0. exact Hf. apply le_n.
  - destruct (later_delivered toy T toy_laws _ _ _ _ _ _ _ _ (fun _ => [x00]) created_A0 E Hb Hl He Hk Hks Hn Hf (N.to_nat 10000) (le_n _))
      as (s2 & E2 & _ & Hk2). congruence.
  - apply Hkill; vm_compute; reflexivity.
Qed.

Lemma overtaken_run : exists s', run toy T (after A0 overtaken) (later (N.to_nat 10000)) =
    (s', map (fun i => (CRead (msgA (N.of_nat i + 1) [x00]), RMsg (Ok (Some (MMessage (Some [x00])))))) (seq 0 (N.to_nat 10000))) /\
  tmp_stack_user_msgs s' = tmp_stack_user_msgs (after A0 overtaken) /\ session_key s' = Some kAB /\
  snd (read toy T (msgA 10001 [x40]) s') = Err TooManyUnorderedMsgs.
Proof.
  apply later_run; [vm_compute; reflexivity|apply lossless_check; vm_compute; reflexivity|eexists; vm_compute; reflexivity|
    vm_compute; reflexivity|vm_compute; reflexivity].
Qed.

Lemma read_occurs e : listed ORead e -> occurs ORead e.
Proof.
  intros H. cbn [listed read_errors map app In] in H. repeat destruct H as [<-|H].
  - witness reachable_A1 [CRead junk] (CRead (connectB [])).
  - witness reachable_A4 (@nil call) (CRead noise).
  - witness reachable_A1 (@nil call) (CRead (signB (connect_frame zero32 pkB []))).
  - witness reachable_A2 (@nil call) (CRead (connectA [])).
  - destruct overtaken_run as (s' & E & _ & _ & H).
    exists toy, T, s', (CRead (msgA 10001 [x40])). split; [exact toy_laws|].
    split; [exact (run_reach _ _ _ _ (reachable_after A0 overtaken reachable_A0) E)|].
    split; [reflexivity|]. cbn [call_step]. destruct (read toy T (msgA 10001 [x40]) s') as [s2 o]. exact H.
  - witness reachable_A1 (@nil call) (CRead (ackA [])).
  - witness reachable_A1 (@nil call) (CRead (signA (connect_frame epkB pkB []))).
  - witness reachable_A4 (@nil call) (CRead (seal toy kAB (repeat x00 64))).
  - witness reachable_A4 [CRead (msgA 0 [x40])] (CRead (msgA 0 [x40])).
  - witness reachable_A4 (@nil call) (CRead (ackB [])).
  - witness reachable_A2 (@nil call) (CRead (connectB [])).
  - witness reachable_A1 (@nil call) (CRead noise).
  - witness reachable_A4 (@nil call) (CRead (hashed toy (user_frame 0 [x40]))).
  - witness reachable_A1 (@nil call) (CRead (magic ++ version ++ u64_be 2 ++ [xff; xff])).
  - witness reachable_A1 (@nil call) (CRead (magic ++ version ++ u64_be 70 ++ [x00; x01] ++ repeat xff 68)).
  - witness reachable_A1 (@nil call) (CRead junk).
  - destruct H.
Qed.

Lemma take_occurs e : listed OTakeAck e -> occurs OTakeAck e.
Proof.
  intros H. cbn [listed In] in H. repeat destruct H as [<-|H].
  - witness reachable_A1 [CRead (ackB []); CRead (connectB []); CRead junk] CTakeAck.
  - witness reachable_A1 [CRead (signA (ack_frame (toy_hash epkA) [])); CRead (connectB [])] CTakeAck.
  - witness reachable_A0 [CRead (ackB []); CRead (connectB [])] CTakeAck.
  - destruct H.
Qed.

Lemma drain_occurs e : listed ODrain e -> occurs ODrain e.
Proof.
  intros H. cbn [listed In] in H. repeat destruct H as [<-|H].
  - witness reachable_A3 [CRead (msgA 0 [x40]); CRead junk] CDrain.
  - destruct overtaken_run as (s' & E & Hs & Hk & H).
    exists toy, T, s', CDrain. split; [exact toy_laws|].
    assert (reachable toy T s') as HR.
    { exact (run_reach _ _ _ _ (reachable_after A0 overtaken reachable_A0) E). }
    split; [exact HR|]. split; [reflexivity|].
    assert (tmp_stack_user_msgs (after A0 overtaken) = [hashed toy (user_frame 10001 [x40])]) as Hw by (vm_compute; reflexivity).
    rewrite Hw in Hs.
    pose proof (drain_one toy T s' kAB (hashed toy (user_frame 10001 [x40])) TooManyUnorderedMsgs toy_laws Hs) as Hd.
    specialize (Hd ltac:(pose proof (inv_queue toy T s' (inv_reachable toy T s' HR)) as Hq; rewrite Hs in Hq; exact (Forall_inv Hq)) Hk (toy_keystream_ok kAB) H).
    cbn [call_step]. destruct (drain_tmp_stack_user_msgs toy T s') as [s2 o]. exact Hd.
  - witness reachable_A3 [CRead (msgA 0 [x40]); CRead (msgA 0 [x40]); CRead (ackB [])] CDrain.
  - witness reachable_A3 [CRead (seal toy kAB (user_frame 0 [x40] ++ zero32)); CRead (ackB [])] CDrain.
  - destruct H.
Qed.

Lemma others_occur o e : o <> ORead -> o <> OTakeAck -> o <> ODrain -> listed o e -> occurs o e.
Proof.
  intros H1 H2 H3 H. destruct o; try contradiction; cbn [listed In] in H; clear H1 H2 H3.
  - repeat destruct H as [<-|H]; [| |destruct H].
    + witness reachable_A0 [CRead junk] (CConnect pkA None).
    + witness reachable_A1 (@nil call) (CConnect pkA None).
  - repeat destruct H as [<-|H]; [| |destruct H].
    + witness reachable_A2 [CRead junk] (CAck None).
    + witness reachable_A1 (@nil call) (CAck None).
  - destruct H as [H|[io ->]]; [repeat destruct H as [<-|H]; [| |destruct H]|].
    + witness reachable_A4 [CRead junk] (CWrite [x01] vec_writer).
    + witness reachable_A3 (@nil call) (CWrite [x01] vec_writer).
    + witness reachable_A4 (@nil call) (CWrite [x01] (failing_writer io)).
  - repeat destruct H as [<-|H]; [|destruct H]. witness reachable_A3 (@nil call) CClone.
  - repeat destruct H as [<-|H]; [|destruct H]. witness reachable_A4 [CClone] (CConfig config_default).
Qed.

(** ** C79, minimal mode *)

(** The errors a method of the minimal layer returns, with any libraries, after
    any calls, are those of its line in Spec/Errors.v. *)
Theorem C79_minimal : forall (o : op) (e : error),
  listed o e <->
  exists C T s c, CryptoLaws C /\ reachable C T s /\ op_of c = o /\ fails (snd (call_step C T s c)) e.
Proof.
  intros o e. split.
  - intros H. change (occurs o e). destruct o; [exact (read_occurs e H)|exact (take_occurs e H)|exact (drain_occurs e H)|
      (apply others_occur; [discriminate..|exact H])..].
  - intros (C & T' & s & c & _ & HR & <- & H). exact (errors_listed C T' s c e HR H).
Qed.
Print Assumptions C79_minimal.

(** ** Witnesses, complete mode *)
Definition soccurs (o : sop) (e : error) : Prop :=
  exists C Z T s c, CryptoLaws C /\ ZipLaws Z /\ sreachable C Z T s /\ sop_of c = o /\
    sfails (snd (scall_step C Z T s c)) e.

Lemma soccurs_toy s cs c e : sreachable toy toy_zip T s ->
  sfails (snd (scall_step toy toy_zip T (safter s cs) c)) e -> soccurs (sop_of c) e.
Proof.
  intros HR H. exists toy, toy_zip, T, (safter s cs), c. split; [exact toy_laws|]. split; [exact toy_zip_laws|].
  split; [apply sreachable_run; exact HR|]. split; [reflexivity|exact H].
Qed.
Ltac switness HR cs c := eapply (soccurs_toy _ cs c); [exact HR|vm_compute; exact eq_refl].

(** A library that reports any error. *)
Definition zip_io (io : io_error) : Zip := {|
  deflate := deflate toy_zip;
  inflate := fun b => match inflate toy_zip b with inl x => inl x | inr _ => inr io end |}.
Lemma zip_io_laws io : ZipLaws (zip_io io).
Proof.
  destruct toy_zip_laws as [H1 H2]. constructor; [|exact H2].
  intros l b. cbn [zip_io inflate deflate]. rewrite H1. reflexivity.
Qed.

Definition plain_calls : list call := [CConnect pkA None; CRead (connectB []); CAck None; CRead (ackB [])].
Definition splain_calls : list scall := [SConnect None vec_writer; SRead (connectB []); SAck None vec_writer; SRead (ackB [])].

Lemma soverflow : exists s, sreachable toy toy_zip T s /\
  sfails (snd (scall_step toy toy_zip T s (SRead (msgA 10001 [x40])))) TooManyUnorderedMsgs.
Proof.
  destruct (later_run plain_calls) as (s' & E & _ & _ & H);
    [vm_compute; reflexivity|apply lossless_check; vm_compute; reflexivity|eexists; vm_compute; reflexivity|
     vm_compute; reflexivity|vm_compute; reflexivity|].
  assert (minimal (safter SA0 splain_calls) = after A0 plain_calls) as Em by (vm_compute; reflexivity).
  pose proof (sreachable_run SA0 splain_calls sreachable_SA0) as HR.
  generalize dependent (safter SA0 splain_calls). intros s Em HR. rewrite <- Em in E. clear Em.
  exists (set_minimal s' s). split.
  - rewrite <- (sreads_minimal toy toy_zip T (fun i => msgA (N.of_nat i + 1) [x00]) (fun _ => Some [x00]) (seq 0 (N.to_nat 10000)) s s').
    + exact (sreachable_run s _ HR).
    + intros _ _. eexists. vm_compute. exact eq_refl.
    + exact E.
  - cbn [scall_step]. unfold read_bin. cbn [set_minimal minimal].
    destruct (read toy T (msgA 10001 [x40]) s') as [m o]. cbn [snd] in H. subst o. reflexivity.
Qed.

Lemma sread_occurs e : slisted SORead e -> soccurs SORead e.
Proof.
  intros [H|[io ->]].
  2:{ exists toy, (zip_io io), T, SA0, (SRead (connectB [xff])). split; [exact toy_laws|].
      split; [apply zip_io_laws|]. split; [exact (sreach_create toy (zip_io io) T _ _ _ _ _ _ created_SA0)|].
      split; [reflexivity|]. vm_compute. exact eq_refl. }
  cbn [listed read_errors map app In] in H. repeat destruct H as [<-|H].
  - switness sreachable_SA1 [SRead junk] (SRead (connectB [])).
  - switness sreachable_SA4 (@nil scall) (SRead noise).
  - switness sreachable_SA1 (@nil scall) (SRead (signB (connect_frame zero32 pkB []))).
  - switness sreachable_SA2 (@nil scall) (SRead (connectA [])).
  - destruct soverflow as (s & HR & H). exists toy, toy_zip, T, s, (SRead (msgA 10001 [x40])).
    split; [exact toy_laws|]. split; [exact toy_zip_laws|]. split; [exact HR|]. split; [reflexivity|exact H].
  - switness sreachable_SA1 (@nil scall) (SRead (ackA [])).
  - switness sreachable_SA1 (@nil scall) (SRead (signA (connect_frame epkB pkB []))).
  - switness sreachable_SA4 (@nil scall) (SRead (seal toy kAB (repeat x00 64))).
  - switness sreachable_SA4 [SRead (msgA 0 [x00])] (SRead (msgA 0 [x00])).
  - switness sreachable_SA4 (@nil scall) (SRead (ackB [])).
  - switness sreachable_SA2 (@nil scall) (SRead (connectB [])).
  - switness sreachable_SA1 (@nil scall) (SRead noise).
  - switness sreachable_SA4 (@nil scall) (SRead (hashed toy (user_frame 0 [x40]))).
  - switness sreachable_SA1 (@nil scall) (SRead (magic ++ version ++ u64_be 2 ++ [xff; xff])).
  - switness sreachable_SA1 (@nil scall) (SRead (magic ++ version ++ u64_be 70 ++ [x00; x01] ++ repeat xff 68)).
  - switness sreachable_SA1 (@nil scall) (SRead junk).
  - destruct H.
Qed.

Definition refusing_writer : bufwriter :=
  {| bw_cap := 0; bw_buf := []; bw_sink := {| sink_data := []; sink_script := [WFail (IoOther 5)] |} |}.
(** A clone. *)
Definition SC : secure_layer := Eval vm_compute in
  match snd (sl_try_clone SA4) with Ok c => c | _ => sdummy end.
Lemma sreachable_SC : sreachable toy toy_zip T SC.
Proof. eapply (sreach_clone toy toy_zip T SA4 SC); [exact sreachable_SA4|vm_compute; reflexivity]. Qed.

Lemma sothers_occur o e : o <> SORead -> slisted o e -> soccurs o e.
Proof.
  intros H1 H. destruct o; try contradiction; cbn [slisted listed In] in H; clear H1.
  - destruct H as [H| ->]; [repeat destruct H as [<-|H]; [| |destruct H]|].
    + switness sreachable_SA0 [SRead junk] (SConnect None vec_writer).
    + switness sreachable_SA1 (@nil scall) (SConnect None vec_writer).
    + switness sreachable_SA0 (@nil scall) (SConnect None refusing_writer).
  - destruct H as [H|[-> | ->]]; [repeat destruct H as [<-|H]; [| |destruct H]| |].
    + switness sreachable_SA2 [SRead junk] (SAck None vec_writer).
    + switness sreachable_SA1 (@nil scall) (SAck None vec_writer).
    + switness sreachable_SC (@nil scall) (SAck None vec_writer).
    + switness sreachable_SA2 (@nil scall) (SAck None refusing_writer).
  - destruct H as [H|[io ->]]; [repeat destruct H as [<-|H]; [| |destruct H]|].
    + switness sreachable_SA4 [SRead junk] (SWrite [x01] vec_writer).
    + switness sreachable_SA3 (@nil scall) (SWrite [x01] vec_writer).
    + switness sreachable_SA4 (@nil scall) (SWrite [x01] (failing_writer io)).
  - repeat destruct H as [<-|H]; [|destruct H]. switness sreachable_SA3 (@nil scall) SClone.
  - repeat destruct H as [<-|H]; [|destruct H]. switness sreachable_SA4 [SClone] (SConfig config_default).
Qed.

(** ** C79, complete mode *)

(** The same for the binary methods of the complete layer. *)
Theorem C79_complete : forall (o : sop) (e : error),
  slisted o e <->
  exists C Z T s c, CryptoLaws C /\ ZipLaws Z /\ sreachable C Z T s /\ sop_of c = o /\
    sfails (snd (scall_step C Z T s c)) e.
Proof.
  intros o e. split.
  - intros H. change (soccurs o e). destruct o; [exact (sread_occurs e H)|(apply sothers_occur; [discriminate|exact H])..].
  - intros (C & Z & T' & s & c & _ & _ & HR & <- & H). exact (serrors_listed C Z T' s c e HR H).
Qed.
Print Assumptions C79_complete.

(** [create], of both layers. *)
Theorem C79_create : forall (e : error),
  (In e create_errors <-> exists C r cfg pin, CryptoLaws C /\ create C r cfg pin = Err e) /\
  (In e create_errors <-> exists C r rs cfg given pin, CryptoLaws C /\ sl_create C r rs cfg given pin = Err e).
Proof.
  intros e. split; split.
  - intros [<-|[<-|[]]]; [exists toy, RngFailPriv, config_default, None|exists toy, RngFailPub, config_default, None];
      (split; [exact toy_laws|reflexivity]).
  - intros (C & r & cfg & pin & _ & H). exact (create_errors_listed C _ _ _ _ H).
  - intros [<-|[<-|[]]]; [exists toy, RngFailPriv, None, config_default, (Some seedA), None
      |exists toy, RngFailPub, None, config_default, (Some seedA), None]; (split; [exact toy_laws|reflexivity]).
  - intros (C & r & rs & cfg & given & pin & _ & H). exact (screate_errors_listed C _ _ _ _ _ _ H).
Qed.
Print Assumptions C79_create.

(** ** Witnesses, typed methods *)
Definition toccurs (o : top) (e : error) : Prop :=
  exists C Z T F (M : Type) (K : Codec M) s c, CryptoLaws C /\ ZipLaws Z /\ CodecLaws K /\ sreachable C Z T s /\
    top_of c = o /\ tfails (snd (tcall_step C Z T F K s c)) e.

(** Any witness of a reading, or of a writing without payload, is one of the typed method. *)
Lemma toccurs_bin o e : soccurs o e -> toccurs (TOBin o) e.
Proof.
  intros (C & Z & T' & s & c & HL & HZ & HR & <- & H).
  exists C, Z, T', all_features, bytes, toy_codec, s, (VBin c).
  split; [exact HL|]. split; [exact HZ|]. split; [exact toy_codec_laws|]. split; [exact HR|].
  split; [reflexivity|]. cbn [tcall_step]. destruct (scall_step C Z T' s c) as [s' r]. exact H.
Qed.
Lemma toccurs_read e : soccurs SORead e -> toccurs TORead e.
Proof.
  intros (C & Z & T' & s & c & HL & HZ & HR & Ho & H). destruct c as [d| | | | |]; try discriminate Ho.
  exists C, Z, T', all_features, bytes, toy_codec, s, (VRead d).
  split; [exact HL|]. split; [exact HZ|]. split; [exact toy_codec_laws|]. split; [exact HR|].
  split; [reflexivity|]. cbn [tcall_step scall_step] in *. unfold sl_read.
  destruct (read_bin C Z T' d s) as [s' [l|x|p]]; cbn in H; unfold refused in H; try discriminate H.
  injection H as <-. reflexivity.
Qed.

Lemma toccurs_toy s cs (c : tcall bytes) e : sreachable toy toy_zip T s ->
  tfails (snd (tcall_step toy toy_zip T all_features toy_codec (safter s cs) c)) e -> toccurs (top_of c) e.
Proof.
  intros HR H. exists toy, toy_zip, T, all_features, bytes, toy_codec, (safter s cs), c.
  split; [exact toy_laws|]. split; [exact toy_zip_laws|]. split; [exact toy_codec_laws|].
  split; [apply sreachable_run; exact HR|]. split; [reflexivity|exact H].
Qed.
Ltac twitness HR cs c := eapply (toccurs_toy _ cs c); [exact HR|vm_compute; exact eq_refl].

(** Libraries that refuse every value with a given code. *)
Definition refusing_codec (n : N) : Codec bytes := {|
  bincode_ser := fun _ => inr n; bincode_de := fun _ => inr n;
  cbor_ser := fun _ => inr n; cbor_de := fun _ => inr n;
  json_ser := fun _ => inr n; json_de := fun _ => inr n |}.
Lemma refusing_codec_laws n : CodecLaws (refusing_codec n).
Proof. constructor; discriminate. Qed.
Definition format_config (f : message_format) : config :=
  {| cfg_compression := cfg_compression config_default; cfg_compression_min_size := cfg_compression_min_size config_default;
     cfg_message_format := f; cfg_encrypt_algo := cfg_encrypt_algo config_default |}.
Definition format_of (x : serde_error) : message_format :=
  match x with BincodeError _ => Bincode | CborError _ => Cbor | JsonError _ => Utf8Json | UseSuffixedBinFunctions => RawBinary end.
Definition code_of (x : serde_error) : N :=
  match x with BincodeError n | CborError n | JsonError n => n | UseSuffixedBinFunctions => 0 end.

Lemma serde_occurs x s (c : tcall bytes) : sreachable toy toy_zip T s ->
  tfails (snd (tcall_step toy toy_zip T all_features (refusing_codec (code_of x))
    (safter s [SConfig (format_config (format_of x))]) c)) (SerdeError x) -> toccurs (top_of c) (SerdeError x).
Proof.
  intros HR H. exists toy, toy_zip, T, all_features, bytes, (refusing_codec (code_of x)), (safter s [SConfig (format_config (format_of x))]), c.
  split; [exact toy_laws|]. split; [exact toy_zip_laws|]. split; [apply refusing_codec_laws|].
  split; [apply sreachable_run; exact HR|]. split; [reflexivity|exact H].
Qed.

Lemma typed_occurs o e : tlisted o e -> toccurs o e.
Proof.
  destruct o as [| | | |o]; cbn [tlisted]; intros H.
  - destruct H as [H|[H|[x ->]]].
    + apply toccurs_read, sread_occurs, H.
    + cbn [map In] in H. repeat destruct H as [<-|H]; [| |destruct H].
      * twitness sreachable_SA4 (@nil scall) (VRead (msgA 0 [x00]) : tcall bytes).
      * twitness sreachable_SA4 (@nil scall) (VRead (msgA 0 (x00 :: repeat xff 4)) : tcall bytes).
    + apply (serde_occurs x SA4 (VRead (msgA 0 (x00 :: format_as_ref (format_of x))))); [exact sreachable_SA4|].
      destruct x; vm_compute; exact eq_refl.
  - destruct H as [H|[x ->]].
    + destruct H as [H| ->]; [cbn [listed In] in H; repeat destruct H as [<-|H]; [| |destruct H]|].
      * twitness sreachable_SA0 [SRead junk] (VConnect None vec_writer : tcall bytes).
      * twitness sreachable_SA1 (@nil scall) (VConnect None vec_writer : tcall bytes).
      * twitness sreachable_SA0 (@nil scall) (VConnect None refusing_writer : tcall bytes).
    + apply (serde_occurs x SA0 (VConnect (Some [x01]) vec_writer)); [exact sreachable_SA0|]. destruct x; vm_compute; exact eq_refl.
  - destruct H as [H|[x ->]].
    + destruct H as [H|[-> | ->]]; [cbn [listed In] in H; repeat destruct H as [<-|H]; [| |destruct H]| |].
      * twitness sreachable_SA2 [SRead junk] (VAck None vec_writer : tcall bytes).
      * twitness sreachable_SA1 (@nil scall) (VAck None vec_writer : tcall bytes).
      * twitness sreachable_SC (@nil scall) (VAck None vec_writer : tcall bytes).
      * twitness sreachable_SA2 (@nil scall) (VAck None refusing_writer : tcall bytes).
    + apply (serde_occurs x SA2 (VAck (Some [x01]) vec_writer)); [exact sreachable_SA2|]. destruct x; vm_compute; exact eq_refl.
  - destruct H as [H|[x ->]].
    + destruct H as [H|[io ->]]; [cbn [In] in H; repeat destruct H as [<-|H]; [| |destruct H]|].
      * twitness sreachable_SA4 [SConfig (format_config Bincode); SRead junk] (VWrite [x01] vec_writer : tcall bytes).
      * twitness sreachable_SA3 [SConfig (format_config Bincode)] (VWrite [x01] vec_writer : tcall bytes).
      * twitness sreachable_SA4 [SConfig (format_config Bincode)] (VWrite [x01] (failing_writer io) : tcall bytes).
    + apply (serde_occurs x SA4 (VWrite [x01] vec_writer)); [exact sreachable_SA4|]. destruct x; vm_compute; exact eq_refl.
  - apply toccurs_bin. destruct o; [apply sread_occurs, H|apply sothers_occur; [discriminate|exact H]..].
Qed.

(** ** C79, typed methods *)

(** The same for the typed methods, mixed with the binary ones. *)
Theorem C79_typed : forall (o : top) (e : error),
  tlisted o e <->
  exists C Z T F (M : Type) (K : Codec M) s c, CryptoLaws C /\ ZipLaws Z /\ CodecLaws K /\ sreachable C Z T s /\
    top_of c = o /\ tfails (snd (tcall_step C Z T F K s c)) e.
Proof.
  intros o e. split; [exact (typed_occurs o e)|].
  intros (C & Z & T' & F & M & K & s & c & _ & _ & _ & HR & <- & H). exact (terrors_listed C Z T' F K s c e HR H).
Qed.
Print Assumptions C79_typed.

(** Five variants of the enumeration are returned by no method at all. *)
Theorem C79_unused : forall (C : Crypto) (Z : Zip) (T : target) (F : features) (M : Type) (K : Codec M) s c e,
  sreachable C Z T s -> unused e ->
  ~ tfails (snd (tcall_step C Z T F K s c)) e.
Proof.
  intros C Z T' F M K s c e HR Hu H. exact (unused_unlisted _ e Hu (terrors_listed C Z T' F K s c e HR H)).
Qed.
Print Assumptions C79_unused.

(** The table has errors that are common and errors that are particular. *)
Example C79_case :
  listed OWrite (FailToEncryptData IoInterrupted) /\ ~ listed OTakeAck (RecvInvalidMsg InvalidChallenge) /\
  ~ listed ODrain (RecvInvalidMsg UnexpectedMessage) /\ ~ listed OAck ConnectMsgAlreadyWritten /\
  slisted SOAck ConnectMsgAlreadyWritten /\ ~ slisted SORead (RecvInvalidMsg MessageTooShort) /\
  tlisted TORead (RecvInvalidMsg MessageTooShort) /\ unused (WrittenLenError 1 2).
Proof.
  split; [right; eauto|]. repeat (split; [cbn [listed slisted tlisted In map]; try (intuition discriminate); try tauto|]).
  - intros [H|[io H]]; [|discriminate]. cbn in H. intuition discriminate.
  - exact I.
Qed.

(** C68: what the length of the traffic shows.

    [same_lengths], [same_but_bytes] and their complete-mode forms are in
    Spec/Lengths.v: the same calls but for the contents of user messages, the
    same replies but for the bytes written, which are as many. *)

From Verif.Model Require Import Complete.
From Verif.Spec Require Import Wire Trace ReadSpec Session Writers CompleteTrace Lengths.
From Verif.Proofs Require BaseFacts Lengths.
From Verif.Instances Require Import Toy Scenario CompleteScenario.

(** Minimal mode: whatever the writers do, nothing but the written bytes
    depends on what the user messages say. *)
Theorem C68_only_lengths : forall (C : Crypto) (T : target), CryptoLaws C ->
  forall s cs cs', Forall2 same_lengths cs cs' ->
  fst (run C T s cs) = fst (run C T s cs') /\
  Forall2 (fun e e' => same_but_bytes (snd e) (snd e')) (snd (run C T s cs)) (snd (run C T s cs')).
Proof. exact Lengths.run_lengths. Qed.
Print Assumptions C68_only_lengths.

(** Each message costs its length and 74 bytes. *)
Theorem C68_size : forall (C : Crypto) (T : target), CryptoLaws C ->
  forall data s w s' w', takes_all w -> write_message C T data s w = (s', w', Ok tt) ->
  len (output w') = len (output w) + len data + 74.
Proof. exact Lengths.message_size. Qed.
Print Assumptions C68_size.

(** Complete mode: the length after compression takes the place of the length. *)
Theorem C68_only_packed_lengths : forall (C : Crypto) (T : target), CryptoLaws C -> forall (Z : Zip),
  forall s cs cs', same_packed_run C Z T s cs cs' ->
  fst (srun C Z T s cs) = fst (srun C Z T s cs') /\
  Forall2 (fun e e' => same_but_bytes_complete (snd e) (snd e')) (snd (srun C Z T s cs)) (snd (srun C Z T s cs')).
Proof. exact Lengths.run_lengths_complete. Qed.
Print Assumptions C68_only_packed_lengths.

(** So it is not true of complete mode that only lengths show.  With any
    compressor that shortens some message, another message of the same length
    gives, from the same layer and writer, a datagram of another length. *)
Theorem C68_complete_refuted : forall (C : Crypto) (T : target), CryptoLaws C -> forall (Z : Zip), ZipLaws Z ->
  forall a data w a1 w1, takes_all w -> write_bin C Z T data a w = (a1, w1, Ok tt) ->
  len (packed Z (Some data) a) < len data ->
  exists data' w2, len data' = len data /\ write_bin C Z T data' a w = (a1, w2, Ok tt) /\
    len (output w2) <> len (output w1).
Proof. exact Lengths.compression_shows. Qed.
Print Assumptions C68_complete_refuted.

(** Two chats of A with messages of the same lengths, through writers that are
    slow, interrupted and, the last, broken. *)
Definition slow : bufwriter :=
  {| bw_cap := 30; bw_buf := [x01; x02]; bw_sink := {| sink_data := []; sink_script :=
     [WAccept 7; WFail IoInterrupted; WAccept 3; WAccept 100] |} |}.
Definition broken : bufwriter :=
  {| bw_cap := 30; bw_buf := []; bw_sink := {| sink_data := []; sink_script := [WAccept 5; WFail (IoOther 5)] |} |}.
Definition chat (a b : bytes) : list call :=
  callsA ++ [CWrite a slow; CRead (msgA 0 [x55]); CWrite b vec_writer; CWrite a broken; CWrite b vec_writer].

Definition bytes_of (r : reply) : bytes := match r with RWritten _ w => output w | _ => [] end.

Lemma Forall2_same cs : Forall2 same_lengths cs cs.
Proof. induction cs as [|c cs IH]; constructor; [|exact IH]. destruct c; try reflexivity. repeat split. Qed.

Example C68_case :
  Forall2 same_lengths (chat [x61; x62; x63] [x64]) (chat [x71; x72; x73] [x74]) /\
  bytes_eqb (flat_map bytes_of (replies (log A0 (chat [x61; x62; x63] [x64]))))
            (flat_map bytes_of (replies (log A0 (chat [x71; x72; x73] [x74])))) = false /\
  map (fun r => match r with RWritten o w => Some (o, len (output w)) | _ => None end)
    (replies (log A0 (chat [x61; x62; x63] [x64]))) =
  [None; None; None; None; Some (Ok tt, 79); None; Some (Ok tt, 75);
   Some (Err (FailToEncryptData (IoOther 5)), 5); Some (Err ConnectionHadFail, 0)].
Proof.
  split; [|split].
  - unfold chat. apply Forall2_app; [apply Forall2_same|].
    constructor; [split; [reflexivity|repeat split]|]. constructor; [exact eq_refl|].
    constructor; [split; [reflexivity|repeat split]|]. constructor; [split; [reflexivity|repeat split]|].
    constructor; [split; [reflexivity|repeat split]|]. constructor.
  - vm_compute. reflexivity.
  - vm_compute. reflexivity.
Qed.

(** A compressor that shortens: four zeros become one byte. *)
Definition zeros : bytes := [x00; x00; x00; x00].
Definition short_zip : Zip := {|
  deflate _ b := if bytes_eqb b zeros then [x01] else x00 :: b;
  inflate b := match b with [x01] => inl zeros | x00 :: b => inl b | _ => inr (IoOther 5) end |}.
Lemma short_zip_laws : ZipLaws short_zip.
Proof.
  split; intros l b; cbn [deflate inflate short_zip]; destruct (bytes_eqb b zeros) eqn:E; try discriminate.
  - apply BaseFacts.bytes_eqb_eq in E. subst b. reflexivity.
  - destruct b; reflexivity.
Qed.

Example C68_case_compression :
  len (packed short_zip (Some zeros) SA4) < len zeros /\
  (let '(_, w1, o1) := write_bin toy short_zip T zeros SA4 vec_writer in
   let '(_, w2, o2) := write_bin toy short_zip T [x00; x00; x00; x01] SA4 vec_writer in
   o1 = Ok tt /\ o2 = Ok tt /\ len (output w1) = 75 /\ len (output w2) = 79) /\
  ZipLaws short_zip /\ takes_all vec_writer.
Proof. split; [vm_compute; reflexivity|]. split; [vm_compute; auto|]. split; [exact short_zip_laws|reflexivity]. Qed.

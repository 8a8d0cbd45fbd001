(** C70: what [read_bin] and [read] answer to any sequence of the peer's
    messages. *)

From Verif.Model Require Import Serde.
From Verif.Spec Require Import Wire Datagram Trace ReadSpec Accept Session Writers Receiver CompleteTrace
  CompleteAdversary Typed TypedTrace CompleteReceiver.
From Verif.Proofs Require Import Negotiation Fragile Receiver CompleteReceiver.
From Verif.Instances Require Import Toy Scenario CompleteScenario.

(** ** C70 *)

(** Whatever the order, the losses and the repetitions, [read_bin] answers like
    the receiver of Spec/CompleteReceiver.v, started with the numbers [l] accepted so
    far: those of the user messages returned, unless a payload could not be
    inflated. *)
Theorem C70_receiver : forall (C : Crypto) (Z : Zip) (T : target), CryptoLaws C -> ZipLaws Z ->
  forall r rs cfg given pin s0 cs s sh k x,
  sl_create C r rs cfg given pin = Ok s0 -> srun C Z T s0 cs = (s, sh) -> 2 * len sh < 2 ^ 64 ->
  snever_panics sh -> sreturned sh (IAck x) -> sestablished s -> session_key (minimal s) = Some k ->
  exists l : list (N * bytes),
    NoDup (map fst l) /\
    (forall n z, In (n, z) l -> exists d, sread sh d /\ opens C T k d n z) /\
    ((forall e, In e sh -> zip_error (snd e) = false) ->
       Forall2 (fun m o => deflated Z o (snd m)) l (smessages sh)) /\
    forall ds ms, Forall2 (fun d m => opens C T k d (fst m) (snd m)) ds ms -> 2 * len sh + len ds < 2 ^ 64 ->
    exists os s' R', sanswers C Z T s ds os s' /\
      sreceives Z {| taken := map fst l; dead := false |} ms os R' /\
      (sfailed C s' <-> dead R' = true) /\ (sestablished s' <-> dead R' = false).
Proof. exact sreceiver_refinement. Qed.
Print Assumptions C70_receiver.

(** The receiver has one answer to each sequence. *)
Theorem C70_deterministic : forall Z R ms os R1 os' R1',
  sreceives Z R ms os R1 -> sreceives Z R ms os' R1' -> os = os' /\ R1 = R1'.
Proof. exact sreceives_det. Qed.
Print Assumptions C70_deterministic.

(** When no message overtakes another by more than 10000, or there are at most
    10000 of them, each is returned the first time it comes, each repetition is
    refused, and the connection stays up. *)
Theorem C70_returned_once : forall (C : Crypto) (Z : Zip) (T : target), CryptoLaws C -> ZipLaws Z ->
  forall r rs cfg given pin s0 cs s sh k x,
  sl_create C r rs cfg given pin = Ok s0 -> srun C Z T s0 cs = (s, sh) ->
  snever_panics sh -> sreturned sh (IAck x) -> smessages sh = [] -> (forall e, In e sh -> zip_error (snd e) = false) ->
  sestablished s -> session_key (minimal s) = Some k ->
  forall ds ms,
    Forall2 (fun d m => exists z, opens C T k d (fst m) z /\ deflated Z (Some (snd m)) z) ds ms ->
    2 * len sh + len ds < 2 ^ 64 ->
    in_window_of (map fst ms) \/ len (nodup N.eq_dec (map fst ms)) <= 10000 ->
    exists s', sanswers C Z T s ds (once_each (fun d => IMessage (Some d)) [] ms) s' /\ sestablished s'.
Proof. exact swindow_delivers. Qed.
Print Assumptions C70_returned_once.

(** The same for values read with [read]. *)
Theorem C70_values_once : forall (C : Crypto) (Z : Zip) (T : target), CryptoLaws C -> ZipLaws Z ->
  forall (M : Type) (F : features) (K : Codec M) r rs cfg given pin s0 cs s sh k x,
  sl_create C r rs cfg given pin = Ok s0 -> srun C Z T s0 cs = (s, sh) ->
  snever_panics sh -> sreturned sh (IAck x) -> smessages sh = [] -> (forall e, In e sh -> zip_error (snd e) = false) ->
  sestablished s -> session_key (minimal s) = Some k ->
  forall ds ms,
    Forall2 (fun d m => exists z p, opens C T k d (fst m) z /\ deflated Z (Some p) z /\
                                    payload_result F K p (Ok (snd m))) ds ms ->
    2 * len sh + len ds < 2 ^ 64 ->
    in_window_of (map fst ms) \/ len (nodup N.eq_dec (map fst ms)) <= 10000 ->
    exists s', tanswers C Z T F K s ds (once_each (fun v => TMMessage (Some v)) [] ms) s' /\ sestablished s'.
Proof. intros C Z T HL HZ M. exact (@values_delivered C Z T HL HZ M). Qed.
Print Assumptions C70_values_once.

(** ** The example: the numbers 2, 0, 2, 1, out of order and with a repetition *)
Definition four : list (N * bytes) := [(2, [x43]); (0, [x41]); (2, [x43]); (1, [])].
Lemma window_four : in_window_of (map fst four).
Proof.
  intros a n b E m Hm. exfalso.
  assert (In n (map fst four)) as Hin by (rewrite E; apply in_app_iff; right; left; reflexivity).
  cbn [map fst four In] in Hin. intuition lia.
Qed.
Example C70_case :
  sl_create toy (RngKey skA) None config_default (Some seedA) None = Ok SA0 /\
  srun toy toy_zip T SA0 scallsA = (safter SA0 scallsA, slog SA0 scallsA) /\
  snever_panics (slog SA0 scallsA) /\ sreturned (slog SA0 scallsA) (IAck None) /\
  smessages (slog SA0 scallsA) = [] /\ (forall e, In e (slog SA0 scallsA) -> zip_error (snd e) = false) /\
  sestablished (safter SA0 scallsA) /\ session_key (minimal (safter SA0 scallsA)) = Some kAB /\
  Forall2 (fun d m => exists z, opens toy T kAB d (fst m) z /\ deflated toy_zip (Some (snd m)) z)
    (map (fun m => user_datagram toy kAB (fst m) (x00 :: snd m)) four) four /\
  in_window_of (map fst four) /\ len (nodup N.eq_dec (map fst four)) <= 10000 /\
  once_each (fun d => IMessage (Some d)) [] four =
    [Ok [IMessage (Some [x43])]; Ok [IMessage (Some [x41])];
     Err (RecvInvalidMsg InvalidNonce); Ok [IMessage (Some [])]].
Proof.
  split; [exact created_SA0|]. split; [apply srun_log|].
  split. { intros e.
    assert (forallb (fun e => negb (spanics (snd e))) (slog SA0 scallsA) = true) as H by (vm_compute; reflexivity).
    rewrite forallb_forall in H. intros Hi. apply Bool.negb_true_iff, (H e Hi). }
  split. { exists (ackB []), [IAck None]. split; [|left; reflexivity].
    apply nth_error_In with (n := 3%nat). vm_compute. reflexivity. }
  split; [vm_compute; reflexivity|].
  split. { intros e.
    assert (forallb (fun e => negb (zip_error (snd e))) (slog SA0 scallsA) = true) as H by (vm_compute; reflexivity).
    rewrite forallb_forall in H. intros Hi. apply Bool.negb_true_iff, (H e Hi). }
  split; [eexists; vm_compute; reflexivity|]. split; [vm_compute; reflexivity|].
  split.
  { unfold four. cbn [map fst snd].
    repeat (apply Forall2_cons; [eexists; split; [apply user_opens; [vm_compute; reflexivity|apply toy_keystream_ok|vm_compute; reflexivity]|
      split; [discriminate|vm_compute; reflexivity]]|]).
    apply Forall2_nil. }
  split; [exact window_four|]. split; [vm_compute; discriminate|vm_compute; reflexivity].
Qed.

(** The same numbers with values in CBOR. *)
Example C70_case_values :
  Forall2 (fun d m => exists z p, opens toy T kAB d (fst m) z /\ deflated toy_zip (Some p) z /\
                                  payload_result all_features toy_codec p (Ok (snd m)))
    (map (fun m => user_datagram toy kAB (fst m) (x00 :: header Cbor ++ xa0 :: snd m)) four) four /\
  once_each (fun v => TMMessage (Some v)) [] four =
    [Ok [TMMessage (Some [x43])]; Ok [TMMessage (Some [x41])];
     Err (RecvInvalidMsg InvalidNonce); Ok [TMMessage (Some [])]].
Proof.
  split; [|vm_compute; reflexivity]. unfold four. cbn [map fst snd].
  assert (forall v, payload_result all_features toy_codec (header Cbor ++ xa0 :: v) (Ok v)) as Hp.
  { intros v. eapply pr_value; reflexivity. }
  repeat (apply Forall2_cons; [eexists _, _; split; [apply user_opens; [vm_compute; reflexivity|apply toy_keystream_ok|vm_compute; reflexivity]|
      split; [split; [discriminate|vm_compute; reflexivity]|apply Hp]]|]).
  apply Forall2_nil.
Qed.

(** C66: the typed methods of a [SecureLayer] are its binary methods around a
    serialiser, along whole histories; what they return in a network the
    attacker controls. *)

From Verif.Model Require Import Serde.
From Verif.Spec Require Import Wire Datagram Trace ReadSpec Accept Session Writers Attacks CompleteTrace
  CompleteAdversary Typed TypedTrace.
From Verif.Proofs Require Import BaseFacts CipherFacts Accept TypedTrace.
From Verif.Instances Require Import Toy Scenario CompleteScenario.
From Verif.Properties Require Import Adversary.

(** Typed and binary calls may be mixed.  Every history is, call by call, a
    history of binary calls on a layer created alike ([tprojects] in
    Spec/TypedTrace.v relates the calls and the replies): a value that cannot be
    put in the configured format stands for no call at all. *)
Theorem C66_projection : forall (C : Crypto) (Z : Zip) (T : target) (F : features) (M : Type) (K : Codec M),
  forall r rs cfg given pin s0 cs s th,
  sl_create C r rs cfg given pin = Ok s0 -> trun C Z T F K s0 cs = (s, th) ->
  exists sh, erases F K cfg th sh /\ srun C Z T s0 (map fst sh) = (s, sh).
Proof. exact (fun C Z T F M K => typed_projection C Z T F K). Qed.
Print Assumptions C66_projection.

(** [tunforged C seed B h]: every datagram given to [read] or [read_bin] along [h]
    that bears a good signature of [seed]'s public key was written as a CONNECT or
    an ACK, through either interface, by one of the layers [B].  [arrives_as v v']:
    [v'] is what the value or the bytes [v] may come back as through either
    interface. *)
Theorem C66_connect_authentic : forall (C : Crypto) (Z : Zip) (T : target) (F : features) (M : Type) (K : Codec M),
  CryptoLaws C -> ZipLaws Z -> CodecLaws K ->
  forall a, tgenuine C Z T F K a ->
  forall seed B, towned C Z T F K seed B -> tunforged C seed B (ts_log a) ->
  forall v', treturned (ts_log a) KindConnect v' (ed25519_public C seed) ->
  exists b v cd, B b /\ tput b KindConnect v (signed_connect C seed (tepk C b) cd) /\ arrives_as_opt F K v v' /\
    tkey a = derived_secret C (ts_sk a) (tepk C b).
Proof. exact (fun C Z T F M K => tconnect_authentic C Z T F K). Qed.
Print Assumptions C66_connect_authentic.

Theorem C66_ack_authentic : forall (C : Crypto) (Z : Zip) (T : target) (F : features) (M : Type) (K : Codec M),
  CryptoLaws C -> ZipLaws Z -> CodecLaws K ->
  forall a, tgenuine C Z T F K a ->
  forall seed B, towned C Z T F K seed B -> tunforged C seed B (ts_log a) ->
  forall v' pk, tpeer_is a (ed25519_public C seed) -> treturned (ts_log a) KindAck v' pk ->
  exists b v cd d e, B b /\ tput b KindAck v (signed_ack C seed (tepk C a) cd) /\ arrives_as_opt F K v v' /\
    tread (ts_log b) d /\ carries_epk d e /\ sha256 C e = sha256 C (tepk C a).
Proof. exact (fun C Z T F M K => tack_authentic C Z T F K). Qed.
Print Assumptions C66_ack_authentic.

Theorem C66_established_authentic : forall (C : Crypto) (Z : Zip) (T : target) (F : features) (M : Type) (K : Codec M),
  CryptoLaws C -> ZipLaws Z ->
  forall a, tgenuine C Z T F K a ->
  forall seed B, towned C Z T F K seed B -> tunforged C seed B (ts_log a) ->
  forall k, ts_pin a = Some (ed25519_public C seed) -> tnever_panics (ts_log a) ->
  sestablished (ts_state a) -> tkey a = Some k ->
  (exists b v cd, B b /\ tput b KindConnect v (signed_connect C seed (tepk C b) cd) /\
     derived_secret C (ts_sk a) (tepk C b) = Some k) /\
  (exists b v cd, B b /\ tput b KindAck v (signed_ack C seed (tepk C a) cd)).
Proof. exact (fun C Z T F M K => testablished_authentic C Z T F K). Qed.
Print Assumptions C66_established_authentic.

(** The user messages returned are what those layers wrote, each under its own
    number; what cannot be decoded is left out (and lost: C46). *)
Theorem C66_messages_authentic : forall (C : Crypto) (Z : Zip) (T : target) (F : features) (M : Type) (K : Codec M),
  CryptoLaws C -> ZipLaws Z -> CodecLaws K ->
  forall (a : tsession (M := M)) (W : tsession -> Prop) k,
  tgenuine C Z T F K a -> 2 * len (ts_log a) < 2 ^ 64 -> tkey a = Some k ->
  (forall b, W b -> tgenuine C Z T F K b /\ len (twritten (ts_log b)) < 2 ^ 64) ->
  tunforged_tags C k W (ts_log a) ->
  exists l : list (N * content),
    treceived (ts_log a) = map (fun x => Some (snd x)) l /\
    NoDup (map fst l) /\
    forall n v', In (n, v') l ->
      exists b v, W b /\ tkey b = Some k /\ nth_error (twritten (ts_log b)) (N.to_nat n) = Some (Some v) /\
        arrives_as F K v v'.
Proof. exact (fun C Z T F M K => tmessages_authentic C Z T F K). Qed.
Print Assumptions C66_messages_authentic.

(** ** The example: B first has no format for values, then CBOR; A reads values
    and bytes *)
Definition in_cbor : config :=
  {| cfg_compression := 0; cfg_compression_min_size := 8192;
     cfg_message_format := Cbor; cfg_encrypt_algo := Chacha20Poly1305Aead |}.
Definition cbor (b : bytes) : bytes := [x00] ++ header Cbor ++ [xa0] ++ b.
Definition tcallsB : list (tcall bytes) :=
  [VConnect (Some [x05]) vec_writer; VBin (SConfig in_cbor); VConnect (Some [x05]) vec_writer;
   VRead (connectA []); VAck None vec_writer; VRead (ackA (cbor [x06]));
   VWrite [x31] vec_writer; VBin (SWrite (header Cbor ++ [xa0; x32]) vec_writer); VWrite [x33] vec_writer;
   VBin (SWrite (header Cbor) vec_writer)].
Definition tcallsA : list (tcall bytes) :=
  [VBin (SConfig in_cbor); VConnect None vec_writer; VRead (connectB (cbor [x05]));
   VAck (Some [x06]) vec_writer; VBin (SRead (ackB []));
   VRead (msgA 3 ([x00] ++ header Cbor)); VRead (msgA 1 (cbor [x32])); VRead (msgA 0 (cbor [x31]));
   VBin (SRead (msgA 2 (cbor [x33])))].

Definition tafter s (cs : list (tcall bytes)) := fst (trun toy toy_zip T all_features toy_codec s cs).
Definition tlog s (cs : list (tcall bytes)) := snd (trun toy toy_zip T all_features toy_codec s cs).
Lemma trun_log s cs : trun toy toy_zip T all_features toy_codec s cs = (tafter s cs, tlog s cs).
Proof. unfold tafter, tlog. destruct (trun toy toy_zip T all_features toy_codec s cs); reflexivity. Qed.

Definition TA0 : secure_layer := Eval vm_compute in sfresh skA seedA (Some pkB).
Definition tsA : tsession :=
  {| ts_sk := skA; ts_seed := seedA; ts_conf := config_default; ts_pin := Some pkB;
     ts_state := tafter TA0 tcallsA; ts_log := tlog TA0 tcallsA |}.
Definition tsB : tsession :=
  {| ts_sk := skB; ts_seed := seedB; ts_conf := config_default; ts_pin := None;
     ts_state := tafter SB0 tcallsB; ts_log := tlog SB0 tcallsB |}.

Lemma tgenuine_A : tgenuine toy toy_zip T all_features toy_codec tsA.
Proof.
  exists None, (Some seedA), TA0, tcallsA. split; [left; reflexivity|]. split; [vm_compute; reflexivity|apply trun_log].
Qed.
Lemma tgenuine_B : tgenuine toy toy_zip T all_features toy_codec tsB.
Proof.
  exists None, (Some seedB), SB0, tcallsB. split; [left; reflexivity|]. split; [exact created_SB0|apply trun_log].
Qed.

Definition treads (h : thistory (M := bytes)) : list bytes :=
  flat_map (fun e => match fst e with VRead d | VBin (SRead d) => [d] | _ => [] end) h.
Lemma treads_spec h d : tread h d -> In d (treads h).
Proof. intros (r & [H|H]); apply in_flat_map; eexists; (split; [exact H|left; reflexivity]). Qed.

Lemma tunforged_check C seed B h ts :
  forallb (fun d => forallb (fun p => negb (ed25519_verify C (ed25519_public C seed) (fst p) (snd p)) ||
                                      existsb (bytes_eqb (fst p)) ts) (splits d)) (treads h) = true ->
  (forall t, In t ts -> exists b k v, B b /\ k <> KindMessage /\ tput b k v (t ++ ed25519_sign C seed t)) ->
  tunforged C seed B h.
Proof.
  intros H Ht t sig Hin Hv. apply treads_spec in Hin. rewrite forallb_forall in H. specialize (H _ Hin).
  rewrite forallb_forall in H.
  assert (In (t, sig) (splits (t ++ sig))) as Hs.
  { apply in_map_iff. exists (length t). rewrite firstn_exact, skipn_exact. split; [reflexivity|].
    apply in_seq. rewrite app_length. lia. }
  specialize (H _ Hs). cbn [fst snd] in H. rewrite Hv in H. cbn [negb orb] in H.
  apply existsb_exists in H as (x & Hx & He). apply bytes_eqb_eq in He. subst x. apply Ht. exact Hx.
Qed.

Lemma tunforged_tags_check C k W h ws :
  CryptoLaws C ->
  forallb (fun d => negb (tag_good C k d) || existsb (bytes_eqb d) ws) (treads h) = true ->
  (forall d, In d ws -> exists b v, W b /\ tkey b = Some k /\ tput b KindMessage v d) ->
  tunforged_tags C k W h.
Proof.
  intros HL H Hw text Hin. apply treads_spec in Hin. rewrite forallb_forall in H. specialize (H _ Hin). cbv beta in H.
  rewrite (tag_good_seal C k text HL) in H. cbn [negb orb] in H.
  apply existsb_exists in H as (x & Hx & He). apply bytes_eqb_eq in He. subst x. apply Hw. exact Hx.
Qed.

(** B's first call fails and stands for no binary call; of A's nine calls one
    is a value that does not decode. *)
Example C66_case :
  map (fun e => items (snd e)) (ts_log tsA) =
    [[]; []; [(KindConnect, Some (inl [x05]), pkB)]; []; [(KindAck, None, [])]; [];
     [(KindMessage, Some (inl [x32]), [])]; [(KindMessage, Some (inl [x31]), [])];
     [(KindMessage, Some (inr (header Cbor ++ [xa0; x33])), [])]] /\
  nth_error (map snd (ts_log tsB)) 0 =
    Some (TOther (SWritten (Err (SerdeError UseSuffixedBinFunctions)) vec_writer)) /\
  tgenuine toy toy_zip T all_features toy_codec tsA /\
  towned toy toy_zip T all_features toy_codec seedB (eq tsB) /\
  tunforged toy seedB (eq tsB) (ts_log tsA) /\
  ts_pin tsA = Some (ed25519_public toy seedB) /\ tnever_panics (ts_log tsA) /\
  sestablished (ts_state tsA) /\ tkey tsA = Some kAB.
Proof.
  split; [vm_compute; reflexivity|]. split; [vm_compute; reflexivity|].
  split; [exact tgenuine_A|]. split; [intros b <-; split; [exact tgenuine_B|reflexivity]|].
  split.
  { apply (tunforged_check toy seedB (eq tsB) (ts_log tsA)
             [connect_frame epkB pkB (cbor [x05]); ack_frame (toy_hash epkA) []]); [vm_compute; reflexivity|].
    intros t [<-|[<-|[]]].
    - exists tsB, KindConnect, (Some (inl [x05])). split; [reflexivity|]. split; [discriminate|].
      eexists (VConnect (Some [x05]) vec_writer), vec_writer, _.
      split; [vm_compute; do 2 right; left; reflexivity|]. repeat split; vm_compute; reflexivity.
    - exists tsB, KindAck, None. split; [reflexivity|]. split; [discriminate|].
      eexists (VAck None vec_writer), vec_writer, _.
      split; [vm_compute; do 4 right; left; reflexivity|]. repeat split; vm_compute; reflexivity. }
  split; [reflexivity|].
  split.
  { assert (forallb (fun e => match snd e with TMsgs (Panic _) => false | TOther r => negb (spanics r) | _ => true end)
              (ts_log tsA) = true) as H by (vm_compute; reflexivity).
    rewrite forallb_forall in H. intros e He. apply H in He.
    destruct (snd e) as [[l|e'|p]|r]; [exact I|exact I|discriminate|]. destruct (spanics r); [discriminate|reflexivity]. }
  split; [eexists; vm_compute; reflexivity|vm_compute; reflexivity].
Qed.

Example C66_messages_case :
  tunforged_tags toy kAB (eq tsB) (ts_log tsA) /\
  treceived (ts_log tsA) = [Some (inl [x32]); Some (inl [x31]); Some (inr (header Cbor ++ [xa0; x33]))] /\
  twritten (ts_log tsB) =
    [Some (inl [x31]); Some (inr (header Cbor ++ [xa0; x32])); Some (inl [x33]); Some (inr (header Cbor))] /\
  2 * len (ts_log tsA) < 2 ^ 64 /\ len (twritten (ts_log tsB)) < 2 ^ 64.
Proof.
  split; [|repeat split; vm_compute; reflexivity].
  apply (tunforged_tags_check toy kAB (eq tsB) (ts_log tsA)
           [msgA 0 (cbor [x31]); msgA 1 (cbor [x32]); msgA 2 (cbor [x33]); msgA 3 ([x00] ++ header Cbor)] toy_laws);
    [vm_compute; reflexivity|].
  intros d [<-|[<-|[<-|[<-|[]]]]].
  - exists tsB, (Some (inl [x31])). split; [reflexivity|]. split; [vm_compute; reflexivity|].
    eexists (VWrite [x31] vec_writer), vec_writer, _.
    split; [vm_compute; do 6 right; left; reflexivity|]. repeat split; vm_compute; reflexivity.
  - exists tsB, (Some (inr (header Cbor ++ [xa0; x32]))). split; [reflexivity|]. split; [vm_compute; reflexivity|].
    eexists (VBin (SWrite (header Cbor ++ [xa0; x32]) vec_writer)), vec_writer, _.
    split; [vm_compute; do 7 right; left; reflexivity|]. repeat split; vm_compute; reflexivity.
  - exists tsB, (Some (inl [x33])). split; [reflexivity|]. split; [vm_compute; reflexivity|].
    eexists (VWrite [x33] vec_writer), vec_writer, _.
    split; [vm_compute; do 8 right; left; reflexivity|]. repeat split; vm_compute; reflexivity.
  - exists tsB, (Some (inr (header Cbor))). split; [reflexivity|]. split; [vm_compute; reflexivity|].
    eexists (VBin (SWrite (header Cbor) vec_writer)), vec_writer, _.
    split; [vm_compute; do 9 right; left; reflexivity|]. repeat split; vm_compute; reflexivity.
Qed.

(** The kind of content is not authenticated: bytes written through the binary
    interface can come back as a value, and a value as bytes. *)
Theorem C66_same_interface_refuted :
  ~ forall (C : Crypto) (Z : Zip) (T : target) (F : features) (M : Type) (K : Codec M),
    CryptoLaws C -> ZipLaws Z -> CodecLaws K ->
    forall (a : tsession (M := M)) (W : tsession -> Prop) k,
    tgenuine C Z T F K a -> tkey a = Some k -> (forall b, W b -> tgenuine C Z T F K b) ->
    tunforged_tags C k W (ts_log a) ->
    forall v, In (Some v) (treceived (ts_log a)) -> exists b, W b /\ In (Some v) (twritten (ts_log b)).
Proof.
  intros H.
  destruct (H toy toy_zip T all_features bytes toy_codec toy_laws toy_zip_laws toy_codec_laws tsA (eq tsB) kAB
              tgenuine_A) with (v := @inl bytes bytes [x32]) as (b & <- & Hin).
  - vm_compute; reflexivity.
  - intros b <-. exact tgenuine_B.
  - exact (proj1 C66_messages_case).
  - destruct C66_messages_case as (_ & -> & _). left; reflexivity.
  - destruct C66_messages_case as (_ & _ & E & _). rewrite E in Hin.
    destruct Hin as [E0|[E0|[E0|[E0|[]]]]]; discriminate E0.
Qed.

(** C63, C64: complete mode is minimal mode plus signing and compression; what
    a [SecureLayer] can rely on in a network the attacker controls. *)

From Verif.Model Require Import Complete.
From Verif.Spec Require Import Wire Datagram Trace ReadSpec Accept Session Writers Attacks CompleteTrace Projection
  CompleteAdversary.
From Verif.Proofs Require Import BaseFacts CipherFacts Negotiation Accept Projection CompleteAdversary.
From Verif.Instances Require Import Toy Scenario CompleteScenario.
From Verif.Properties Require Import Adversary.

(** ** C63 *)

(** Every history of a complete-mode layer is, call by call, a history of the
    minimal-mode layer inside it, created with the same ephemeral key,
    configuration and expected peer key; Spec/Projection.v relates the calls
    and the replies. *)
Theorem C63_projection : forall (C : Crypto) (Z : Zip) (T : target), CryptoLaws C -> ZipLaws Z ->
  forall r rs cfg given pin s0 cs s sh,
  sl_create C r rs cfg given pin = Ok s0 -> srun C Z T s0 cs = (s, sh) ->
  exists seed hs, (given = Some seed \/ given = None /\ rs = Some seed) /\
    Forall2 (projects C Z seed) sh hs /\
    create C r cfg pin = Ok (minimal s0) /\
    run C T (minimal s0) (map fst (concat hs)) = (minimal s, concat hs).
Proof. exact projection. Qed.
Print Assumptions C63_projection.

(** The calls inside, for the example session of A; after the peer's CONNECT the
    early ACK is asked for, after its ACK the early messages. *)
Example C63_case :
  sl_create toy (RngKey skA) None config_default (Some seedA) None = Ok SA0 /\
  srun toy toy_zip T SA0 scallsA = (safter SA0 scallsA, slog SA0 scallsA) /\
  let inside := [CConnect pkA None; CRead (connectB [x00; x05]); CTakeAck; CAck (Some [x00; x06]);
                 CRead (ackB []); CDrain] in
  create toy (RngKey skA) config_default None = Ok (minimal SA0) /\
  fst (run toy T (minimal SA0) inside) = minimal (safter SA0 scallsA) /\
  deliveries (snd (run toy T (minimal SA0) inside)) =
    [MConnect [x00; x00; x00; x00] pkB (Some [x00; x05]); MAck None].
Proof.
  split; [exact created_SA0|]. split; [apply srun_log|].
  cbv zeta. split; [vm_compute; reflexivity|]. split; vm_compute; reflexivity.
Qed.

(** ** C64 *)

(** [sunforged C seed B h] (Spec/CompleteAdversary.v): every datagram given to
    [read_bin] along [h] that bears a good signature of [seed]'s public key was
    written by [write_connect_msg_bin] or [write_ack_msg_bin] of one of the
    layers [B]. *)

(** A CONNECT that [read_bin] returned was written by one of these layers with
    the same custom data, and the session key is the one shared with that
    layer's ephemeral key. *)
Theorem C64_connect_authentic : forall (C : Crypto) (Z : Zip) (T : target), CryptoLaws C -> ZipLaws Z ->
  forall a, sgenuine C Z T a ->
  forall seed B, sowned C Z T seed B -> sunforged C seed B (ss_log a) ->
  forall x, sreturned (ss_log a) (IConnect x (ed25519_public C seed)) ->
  exists b cd, B b /\ put b (SConnect x) (signed_connect C seed (sepk C b) cd) /\
    skey a = derived_secret C (ss_sk a) (sepk C b).
Proof. exact sconnect_authentic. Qed.
Print Assumptions C64_connect_authentic.

(** An ACK that [read_bin] returned was written by one of these layers with the
    same custom data, for [a]'s own ephemeral key. *)
Theorem C64_ack_authentic : forall (C : Crypto) (Z : Zip) (T : target), CryptoLaws C -> ZipLaws Z ->
  forall a, sgenuine C Z T a ->
  forall seed B, sowned C Z T seed B -> sunforged C seed B (ss_log a) ->
  forall x, speer_is a (ed25519_public C seed) -> sreturned (ss_log a) (IAck x) ->
  exists b cd d e, B b /\ put b (SAck x) (signed_ack C seed (sepk C a) cd) /\
    sread (ss_log b) d /\ carries_epk d e /\ sha256 C e = sha256 C (sepk C a).
Proof. exact sack_authentic. Qed.
Print Assumptions C64_ack_authentic.

(** An established layer that expects this key shares its session key with one
    of these layers, and one of them has answered it. *)
Theorem C64_established_authentic : forall (C : Crypto) (Z : Zip) (T : target), CryptoLaws C -> ZipLaws Z ->
  forall a, sgenuine C Z T a ->
  forall seed B, sowned C Z T seed B -> sunforged C seed B (ss_log a) ->
  forall k, ss_pin a = Some (ed25519_public C seed) -> snever_panics (ss_log a) ->
  sestablished (ss_state a) -> skey a = Some k ->
  (exists b x cd, B b /\ put b (SConnect x) (signed_connect C seed (sepk C b) cd) /\
     derived_secret C (ss_sk a) (sepk C b) = Some k) /\
  (exists b x cd, B b /\ put b (SAck x) (signed_ack C seed (sepk C a) cd)).
Proof. exact sestablished_authentic. Qed.
Print Assumptions C64_established_authentic.

(** When every datagram with a good tag was written by one of the layers [W]
    that hold the session key, the user messages [read_bin] returned are
    messages these layers wrote, each under its own number. *)
Theorem C64_messages_authentic : forall (C : Crypto) (Z : Zip) (T : target), CryptoLaws C -> ZipLaws Z ->
  forall a (W : ssession -> Prop) k,
  sgenuine C Z T a -> 2 * len (ss_log a) < 2 ^ 64 -> skey a = Some k ->
  (forall b, W b -> sgenuine C Z T b /\ len (swrites (ss_log b)) < 2 ^ 64) ->
  sunforged_tags C k W (ss_log a) ->
  exists l : list (N * bytes),
    smessages (ss_log a) = map (fun x => Some (snd x)) l /\
    NoDup (map fst l) /\
    forall n data, In (n, data) l ->
      exists b, W b /\ skey b = Some k /\ nth_error (swrites (ss_log b)) (N.to_nat n) = Some data.
Proof. exact smessages_authentic. Qed.
Print Assumptions C64_messages_authentic.

(** ** Checks for the examples *)
Definition sreads (h : shistory) : list bytes :=
  flat_map (fun e => match fst e with SRead d => [d] | _ => [] end) h.
Lemma sreads_spec h d : sread h d -> In d (sreads h).
Proof. intros [r H]. apply in_flat_map. eexists. split; [exact H|left; reflexivity]. Qed.

Lemma sunforged_check C seed B h ts :
  forallb (fun d => forallb (fun p => negb (ed25519_verify C (ed25519_public C seed) (fst p) (snd p)) ||
                                      existsb (bytes_eqb (fst p)) ts) (splits d)) (sreads h) = true ->
  (forall t, In t ts -> exists b x, B b /\ (put b (SConnect x) (t ++ ed25519_sign C seed t) \/
                                            put b (SAck x) (t ++ ed25519_sign C seed t))) ->
  sunforged C seed B h.
Proof.
  intros H Ht t sig Hin Hv. apply sreads_spec in Hin. rewrite forallb_forall in H. specialize (H _ Hin).
  rewrite forallb_forall in H.
  assert (In (t, sig) (splits (t ++ sig))) as Hs.
  { apply in_map_iff. exists (length t). rewrite firstn_exact, skipn_exact. split; [reflexivity|].
    apply in_seq. rewrite app_length. lia. }
  specialize (H _ Hs). cbn [fst snd] in H. rewrite Hv in H. cbn [negb orb] in H.
  apply existsb_exists in H as (x & Hx & He). apply bytes_eqb_eq in He. subst x. apply Ht. exact Hx.
Qed.

Lemma sunforged_tags_check C k W h ws :
  CryptoLaws C ->
  forallb (fun d => negb (tag_good C k d) || existsb (bytes_eqb d) ws) (sreads h) = true ->
  (forall d, In d ws -> exists b data, W b /\ skey b = Some k /\ put b (SWrite data) d) ->
  sunforged_tags C k W h.
Proof.
  intros HL H Hw text Hin. apply sreads_spec in Hin. rewrite forallb_forall in H. specialize (H _ Hin). cbv beta in H.
  rewrite (tag_good_seal C k text HL) in H. cbn [negb orb] in H.
  apply existsb_exists in H as (x & Hx & He). apply bytes_eqb_eq in He. subst x. apply Hw. exact Hx.
Qed.

(** A, which expects B's key; B; and the message B writes. *)
Definition SA0p : secure_layer := Eval vm_compute in sfresh skA seedA (Some pkB).
Definition srunA : list scall := scallsA ++ [SRead (msgA 0 [x00; x31])].
Definition srunB : list scall := scallsB ++ [SWrite [x31] vec_writer].
Definition ssA : ssession :=
  {| ss_sk := skA; ss_seed := seedA; ss_conf := config_default; ss_pin := Some pkB;
     ss_state := safter SA0p srunA; ss_log := slog SA0p srunA |}.
Definition ssB : ssession :=
  {| ss_sk := skB; ss_seed := seedB; ss_conf := config_default; ss_pin := None;
     ss_state := safter SB0 srunB; ss_log := slog SB0 srunB |}.

Lemma sgenuine_A : sgenuine toy toy_zip T ssA.
Proof.
  exists None, (Some seedA), SA0p, srunA. split; [left; reflexivity|]. split; [vm_compute; reflexivity|apply srun_log].
Qed.
Lemma sgenuine_B : sgenuine toy toy_zip T ssB.
Proof.
  exists None, (Some seedB), SB0, srunB. split; [left; reflexivity|]. split; [exact created_SB0|apply srun_log].
Qed.

Example C64_case :
  sgenuine toy toy_zip T ssA /\ sowned toy toy_zip T seedB (eq ssB) /\
  sunforged toy seedB (eq ssB) (ss_log ssA) /\
  ss_pin ssA = Some (ed25519_public toy seedB) /\ sestablished (ss_state ssA) /\ skey ssA = Some kAB /\
  map (fun e => smsgs (snd e)) (ss_log ssA) =
    [Ok []; Ok [IConnect (Some [x05]) (ed25519_public toy seedB)]; Ok []; Ok [IAck None]; Ok [IMessage (Some [x31])]].
Proof.
  split; [exact sgenuine_A|]. split; [intros b <-; split; [exact sgenuine_B|reflexivity]|].
  split.
  { apply (sunforged_check toy seedB (eq ssB) (ss_log ssA)
             [connect_frame epkB pkB [x00; x05]; ack_frame (toy_hash epkA) []]); [vm_compute; reflexivity|].
    intros t [<-|[<-|[]]].
    - exists ssB, (Some [x05]). split; [reflexivity|]. left. eexists vec_writer, _.
      split; [vm_compute; left; reflexivity|]. split; vm_compute; reflexivity.
    - exists ssB, None. split; [reflexivity|]. right. eexists vec_writer, _.
      split; [vm_compute; do 2 right; left; reflexivity|]. split; vm_compute; reflexivity. }
  split; [reflexivity|]. split; [eexists; vm_compute; reflexivity|]. split; vm_compute; reflexivity.
Qed.

Example C64_messages_case :
  sunforged_tags toy kAB (eq ssB) (ss_log ssA) /\
  smessages (ss_log ssA) = [Some [x31]] /\ swrites (ss_log ssB) = [[x31]] /\
  2 * len (ss_log ssA) < 2 ^ 64 /\ len (swrites (ss_log ssB)) < 2 ^ 64.
Proof.
  split; [|repeat split; vm_compute; reflexivity].
  apply (sunforged_tags_check toy kAB (eq ssB) (ss_log ssA) [msgA 0 [x00; x31]] toy_laws); [vm_compute; reflexivity|].
  intros d [<-|[]]. exists ssB, [x31]. split; [reflexivity|]. split; [vm_compute; reflexivity|].
  eexists vec_writer, _. split; [vm_compute; do 4 right; left; reflexivity|]. split; vm_compute; reflexivity.
Qed.

(** C59-C61: what a layer can rely on in a network the attacker controls, when
    signatures and tags are not forged.

    [unforged C pk B h] (Spec/Adversary.v): every datagram given to the layer
    that bears a good signature of [pk] was signed by its owner, whose layers
    are [B].  Nothing else is assumed: datagrams may be invented, changed,
    replayed, reordered or moved between sessions. *)

From Verif.Model Require Import Minimal.
From Verif.Spec Require Import Wire Datagram Trace ReadSpec Accept Session Writers Attacks Adversary.
From Verif.Proofs Require Import BaseFacts CipherFacts Negotiation Accept Adversary.
From Verif.Instances Require Import Toy Scenario.

(** ** Checks for the examples *)
Definition splits (d : bytes) : list (bytes * bytes) :=
  map (fun i => (firstn i d, skipn i d)) (seq 0 (S (length d))).

Lemma unforged_check C pk B h ts :
  forallb (fun d => forallb (fun p => negb (ed25519_verify C pk (fst p) (snd p)) ||
                                      existsb (bytes_eqb (fst p)) ts) (splits d)) (submitted h) = true ->
  (forall t, In t ts -> exists b, B b /\ to_sign (ses_log b) t) -> unforged C pk B h.
Proof.
  intros H Ht t sig Hin Hv. rewrite forallb_forall in H. specialize (H _ Hin).
  rewrite forallb_forall in H.
  assert (In (t, sig) (splits (t ++ sig))) as Hs.
  { apply in_map_iff. exists (length t). rewrite firstn_exact, skipn_exact. split; [reflexivity|].
    apply in_seq. rewrite app_length. lia. }
  specialize (H _ Hs). cbn [fst snd] in H. rewrite Hv in H. cbn [negb orb] in H.
  apply existsb_exists in H as (x & Hx & He). apply bytes_eqb_eq in He. subst x. apply Ht. exact Hx.
Qed.

Definition tag_good (C : Crypto) (k : secret_key) (d : bytes) : bool :=
  bytes_eqb (skipn (length d - 16) d)
    (poly1305_mac C (sk_key k) (sk_nonce k) (sk_aad k) (firstn (length d - 16) d)).

Lemma tag_good_seal C k text : CryptoLaws C -> tag_good C k (seal C k text) = true.
Proof.
  intros HL. unfold tag_good, seal.
  set (c := ciphertext C k text). set (m := poly1305_mac C _ _ _ c).
  assert (length (c ++ m) - 16 = length c)%nat as ->.
  { rewrite app_length. unfold m. rewrite (law_mac_len C HL). lia. }
  rewrite firstn_exact, skipn_exact. apply bytes_eqb_refl.
Qed.

Lemma unforged_tags_check C k W h ws :
  CryptoLaws C ->
  forallb (fun d => negb (tag_good C k d) || existsb (bytes_eqb d) ws) (submitted h) = true ->
  (forall d, In d ws -> exists b, W b /\ session_key (ses_state b) = Some k /\ wrote b d) ->
  unforged_tags C k W h.
Proof.
  intros HL H Hw text Hin. rewrite forallb_forall in H. specialize (H _ Hin). cbv beta in H.
  rewrite (tag_good_seal C k text HL) in H. cbn [negb orb] in H.
  apply existsb_exists in H as (x & Hx & He). apply bytes_eqb_eq in He. subst x. apply Hw. exact Hx.
Qed.

Lemma keys_check pk (h : history) :
  forallb (fun e => match fst e with CConnect k _ => bytes_eqb k pk | _ => true end) h = true ->
  forall k cd r, In (CConnect k cd, r) h -> k = pk.
Proof.
  intros H k cd r Hin. rewrite forallb_forall in H. specialize (H _ Hin). apply bytes_eqb_eq. exact H.
Qed.

(** A pinned to B's key; B; and the message B writes. *)
Definition runA : list call := callsA ++ [CRead (msgA 0 [x31])].
Definition runB : list call := callsB ++ [CWrite [x31] vec_writer].
Definition sesA : session :=
  {| ses_sk := skA; ses_conf := config_default; ses_pin := Some pkB;
     ses_state := after A0p runA; ses_log := log A0p runA |}.
Definition sesB : session :=
  {| ses_sk := skB; ses_conf := config_default; ses_pin := None;
     ses_state := after B0 runB; ses_log := log B0 runB |}.

Lemma genuine_A : genuine toy T sesA.
Proof. exists A0p, runA. split; [exact created_A0p|apply run_log]. Qed.
Lemma genuine_B : genuine toy T sesB.
Proof. exists B0, runB. split; [exact created_B0|apply run_log]. Qed.
Lemma owned_B : owned toy T pkB (eq sesB).
Proof.
  intros b <-. split; [exact genuine_B|]. apply keys_check. vm_compute. reflexivity.
Qed.
Lemma unforged_AB : unforged toy pkB (eq sesB) (ses_log sesA).
Proof.
  apply (unforged_check toy pkB (eq sesB) (ses_log sesA)
           [connect_frame epkB pkB [x05]; ack_frame (toy_hash epkA) []]); [vm_compute; reflexivity|].
  intros t [<-|[<-|[]]]; exists sesB; (split; [reflexivity|]).
  - exists (CConnect pkB (Some [x05])). vm_compute. left. reflexivity.
  - exists (CAck None). vm_compute. right. right. left. reflexivity.
Qed.

(** ** C59 *)

(** A delivered CONNECT of [pk] was created by one of its owner's layers, with
    these data, and the session key is the one shared with that layer's
    ephemeral key. *)
Theorem C59_connect_authentic : forall (C : Crypto) (T : target), CryptoLaws C ->
  forall a, genuine C T a ->
  forall pk B, owned C T pk B -> unforged C pk B (ses_log a) ->
  forall e al o, In e (ses_log a) -> In (MConnect al pk o) (delivered (snd e)) ->
  exists b cd t, B b /\ In (CConnect pk cd, RBytes (Ok t)) (ses_log b) /\ o = nonempty (custom cd) /\
    session_key (ses_state a) = derived_secret C (ses_sk a) (epk C b).
Proof. exact connect_authentic. Qed.
Print Assumptions C59_connect_authentic.

(** A delivered ACK was created by one of the owner's layers, with these data,
    for [a]'s own ephemeral key: that layer had read a CONNECT carrying a key
    of the same hash. *)
Theorem C59_ack_authentic : forall (C : Crypto) (T : target), CryptoLaws C ->
  forall a, genuine C T a ->
  forall pk B, owned C T pk B -> unforged C pk B (ses_log a) ->
  forall e o, peer_is a pk -> In e (ses_log a) -> In (MAck o) (delivered (snd e)) ->
  exists b cd d r x, B b /\
    In (CAck cd, RBytes (Ok (ack_frame (sha256 C (epk C a)) (custom cd)))) (ses_log b) /\
    o = nonempty (custom cd) /\
    In (CRead d, r) (ses_log b) /\ (connect_accepted (CRead d, r) = true \/ panics r = true) /\
    carries_epk d x /\ sha256 C x = sha256 C (epk C a).
Proof. exact ack_authentic. Qed.
Print Assumptions C59_ack_authentic.

(** An established layer that expects [pk]: its key is the one shared with a
    layer of the owner of [pk], and a layer of that owner has answered it. *)
Theorem C59_established_authentic : forall (C : Crypto) (T : target), CryptoLaws C ->
  forall a, genuine C T a ->
  forall pk B, owned C T pk B -> unforged C pk B (ses_log a) ->
  forall k, ses_pin a = Some pk -> panic_free (ses_log a) -> established (ses_state a) ->
  session_key (ses_state a) = Some k ->
  (exists b cd t, B b /\ In (CConnect pk cd, RBytes (Ok t)) (ses_log b) /\
     derived_secret C (ses_sk a) (epk C b) = Some k) /\
  (exists b cd, B b /\ In (CAck cd, RBytes (Ok (ack_frame (sha256 C (epk C a)) (custom cd)))) (ses_log b)).
Proof. exact established_authentic. Qed.
Print Assumptions C59_established_authentic.

Example C59_case :
  genuine toy T sesA /\ owned toy T pkB (eq sesB) /\ unforged toy pkB (eq sesB) (ses_log sesA) /\
  ses_pin sesA = Some pkB /\ established (ses_state sesA) /\ session_key (ses_state sesA) = Some kAB /\
  flat_map (fun e => delivered (snd e)) (ses_log sesA) =
    [MConnect [x00; x00; x00; x00] pkB (Some [x05]); MAck None; MMessage (Some [x31])].
Proof.
  split; [exact genuine_A|]. split; [exact owned_B|]. split; [exact unforged_AB|]. split; [reflexivity|].
  split; [eexists; vm_compute; reflexivity|]. split; vm_compute; reflexivity.
Qed.

(** ** C60 *)

(** The layer that sent the CONNECT and the layer that sent the ACK need not be
    the same: with two layers of one owner, [b] which only created its CONNECT
    and [c] which answered [a]'s CONNECT, the layer [a] becomes established
    with a key that neither has. *)
Theorem C60_session_mixing : forall (C : Crypto) (T : target), CryptoLaws C ->
  forall skA skB skC cfgA cfgB cfgC a0 b0 c0 pinB pinC sa sb cdA cdB cdC acA acC z z',
  create C (RngKey skA) cfgA (Some (ed25519_public C sb)) = Ok a0 ->
  create C (RngKey skB) cfgB pinB = Ok b0 ->
  create C (RngKey skC) cfgC pinC = Ok c0 ->
  pinC = None \/ pinC = Some (ed25519_public C sa) ->
  x25519_agree C skA (x25519_public C skB) = Some z ->
  x25519_agree C skA (x25519_public C skC) = Some z' ->
  86 + len (custom cdA) < 2 ^ usize_bits T -> 86 + len (custom cdB) < 2 ^ usize_bits T ->
  50 + len (custom acC) < 2 ^ usize_bits T ->
  let pkA := ed25519_public C sa in
  let pkB := ed25519_public C sb in
  let signed seed t := t ++ ed25519_sign C seed t in
  exists a b c tA tB tC uA uC hA,
    run C T b0 [CConnect pkB cdB] = (b, [(CConnect pkB cdB, RBytes (Ok tB))]) /\
    run C T c0 [CConnect pkB cdC; CRead (signed sa tA); CAck acC] =
      (c, [(CConnect pkB cdC, RBytes (Ok tC));
           (CRead (signed sa tA), RMsg (Ok (Some (MConnect [x00; x00; x00; x00] pkA (nonempty (custom cdA))))));
           (CAck acC, RBytes (Ok uC))]) /\
    run C T a0 [CConnect pkA cdA; CRead (signed sb tB); CAck acA; CRead (signed sb uC)] = (a, hA) /\
    hA = [(CConnect pkA cdA, RBytes (Ok tA));
          (CRead (signed sb tB), RMsg (Ok (Some (MConnect [x00; x00; x00; x00] pkB (nonempty (custom cdB))))));
          (CAck acA, RBytes (Ok uA));
          (CRead (signed sb uC), RMsg (Ok (Some (MAck (nonempty (custom acC))))))] /\
    established a /\ session_key a = derived_secret C skA (x25519_public C skB) /\
    session_key b = None /\ session_key c = derived_secret C skA (x25519_public C skC).
Proof. exact session_mixing. Qed.
Print Assumptions C60_session_mixing.

(** So "an established layer shares its key with a layer of its peer that
    answered it" is false. *)
Definition skB2 : bytes := [xc1; xc2; xc3; xc4].
Definition sesB1 : session :=
  {| ses_sk := skB; ses_conf := config_default; ses_pin := None;
     ses_state := B1; ses_log := log B0 [CConnect pkB (Some [x05])] |}.
Definition callsB2 : list call := [CConnect pkB None; CRead (connectA []); CAck None].
Definition sesB2 : session :=
  {| ses_sk := skB2; ses_conf := config_default; ses_pin := None;
     ses_state := after (fresh skB2 None) callsB2; ses_log := log (fresh skB2 None) callsB2 |}.
Definition sesA' : session :=
  {| ses_sk := skA; ses_conf := config_default; ses_pin := Some pkB;
     ses_state := after A0p callsA; ses_log := log A0p callsA |}.
Definition two_B (b : session) : Prop := b = sesB1 \/ b = sesB2.

Theorem C60_matching_session_refuted :
  genuine toy T sesA' /\ owned toy T pkB two_B /\ unforged toy pkB two_B (ses_log sesA') /\
  established (ses_state sesA') /\
  exists k, session_key (ses_state sesA') = Some k /\
    forall b, two_B b -> session_key (ses_state b) <> Some k.
Proof.
  split; [exists A0p, callsA; split; [exact created_A0p|apply run_log]|].
  split.
  { intros b [->| ->].
    - split; [exists B0, [CConnect pkB (Some [x05])]; split; [exact created_B0|apply run_log]|].
      apply keys_check. vm_compute. reflexivity.
    - split; [exists (fresh skB2 None), callsB2; split; [vm_compute; reflexivity|apply run_log]|].
      apply keys_check. vm_compute. reflexivity. }
  split.
  { apply (unforged_check toy pkB two_B (ses_log sesA')
             [connect_frame epkB pkB [x05]; ack_frame (toy_hash epkA) []]); [vm_compute; reflexivity|].
    intros t [<-|[<-|[]]].
    - exists sesB1. split; [left; reflexivity|]. exists (CConnect pkB (Some [x05])). vm_compute. left. reflexivity.
    - exists sesB2. split; [right; reflexivity|]. exists (CAck None). vm_compute. right. right. left. reflexivity. }
  split; [eexists; vm_compute; reflexivity|].
  exists kAB. split; [vm_compute; reflexivity|].
  intros b [->| ->] H; vm_compute in H; discriminate.
Qed.
Print Assumptions C60_matching_session_refuted.

(** ** C61 *)

(** [unforged_tags C k W h]: every datagram given to the layer that bears a good
    tag under the session key was written by one of the layers [W].  Then what
    it delivers, each under its own number, are the messages those layers
    wrote under that number. *)
Theorem C61_messages_authentic : forall (C : Crypto) (T : target), CryptoLaws C ->
  forall a (W : session -> Prop) k,
  genuine C T a -> len (ses_log a) < 2 ^ 64 -> session_key (ses_state a) = Some k ->
  (forall b, W b -> genuine C T b /\ len (writes (ses_log b)) < 2 ^ 64) ->
  unforged_tags C k W (ses_log a) ->
  exists l : list (N * bytes),
    user_deliveries (ses_log a) = map (fun x => nonempty (snd x)) l /\
    NoDup (map fst l) /\
    forall n data, In (n, data) l ->
      exists b, W b /\ session_key (ses_state b) = Some k /\
        nth_error (writes (ses_log b)) (N.to_nat n) = Some data.
Proof. exact messages_authentic. Qed.
Print Assumptions C61_messages_authentic.

Example C61_case :
  genuine toy T sesA /\ session_key (ses_state sesA) = Some kAB /\
  (forall b, sesB = b -> genuine toy T b /\ len (writes (ses_log b)) < 2 ^ 64) /\
  unforged_tags toy kAB (eq sesB) (ses_log sesA) /\
  user_deliveries (ses_log sesA) = [Some [x31]] /\ writes (ses_log sesB) = [[x31]].
Proof.
  split; [exact genuine_A|]. split; [vm_compute; reflexivity|].
  split; [intros b <-; split; [exact genuine_B|vm_compute; reflexivity]|].
  split; [|split; vm_compute; reflexivity].
  apply (unforged_tags_check toy kAB (eq sesB) (ses_log sesA) [msgA 0 [x31]] toy_laws); [vm_compute; reflexivity|].
  intros d [<-|[]]. exists sesB. split; [reflexivity|]. split; [vm_compute; reflexivity|].
  eexists [x31], vec_writer, _. split; [vm_compute; do 4 right; left; reflexivity|].
  split; [left; reflexivity|]. vm_compute. reflexivity.
Qed.

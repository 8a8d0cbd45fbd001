(** C77: what [{:?}] shows. *)

From Coq Require Import Permutation.
From Verif.Model Require Import Minimal Complete Debug.
From Verif.Spec Require Import Wire Datagram Trace ReadSpec Accept Session Writers Debug.
From Verif.Proofs Require Import Invariant Sending Debug.
From Verif.Instances Require Import Toy Scenario CompleteScenario.
From Verif.Properties Require Import Nonces.
Local Open Scope string_scope.

(** Two layers print the same text exactly when they look alike
    (Spec/Debug.v): everything but the private key of the negotiation is in the
    text. *)
Theorem C77_exactly : forall R, RingDebugLaws R -> forall ser s1 s2,
  dbg_msl R ser s1 = dbg_msl R ser s2 <-> look_alike ser s1 s2.
Proof. intros R HR ser s1 s2. exact (debug_exactly R ser s1 s2 HR). Qed.
Print Assumptions C77_exactly.

(** In complete mode the text shows the signature key pair by its public key. *)
Theorem C77_complete_exactly : forall (C : Crypto) R, RingDebugLaws R -> forall ser s1 s2,
  dbg_secure_layer R ser C s1 = dbg_secure_layer R ser C s2 <->
  look_alike ser (minimal s1) (minimal s2) /\
  option_map (ed25519_public C) (sig_key_pair s1) = option_map (ed25519_public C) (sig_key_pair s2).
Proof. intros C R HR ser s1 s2. exact (debug_complete_exactly C R ser s1 s2 HR). Qed.
Print Assumptions C77_complete_exactly.

(** Whoever reads the text has the session key, *)
Theorem C77_session_key : exists spy : string -> option secret_key,
  forall R ser s, spy (dbg_msl R ser s) = session_key s.
Proof. exact debug_spy. Qed.
Print Assumptions C77_session_key.

Theorem C77_complete_session_key : exists spy : string -> option secret_key,
  forall (C : Crypto) R ser s, spy (dbg_secure_layer R ser C s) = session_key (minimal s).
Proof. exact debug_complete_spy. Qed.
Print Assumptions C77_complete_session_key.

(** and with it the user data of every datagram of the session, in either
    direction, earlier or later, *)
Theorem C77_eavesdrop : forall (C : Crypto), CryptoLaws C -> forall (T : target),
  exists ear : string -> bytes -> option bytes,
  forall R ser s k d n data, session_key s = Some k -> opens C T k d n data ->
  ear (dbg_msl R ser s) d = Some data.
Proof. exact debug_eavesdrop. Qed.
Print Assumptions C77_eavesdrop.

(** and can make datagrams of its own that a layer of the session delivers. *)
Theorem C77_forge : forall (C : Crypto), CryptoLaws C -> forall (T : target),
  exists forge : string -> N -> bytes -> bytes,
  forall R ser s q k n data,
  session_key s = Some k ->
  reachable C T q -> established q -> session_key q = Some k -> keystream_ok C k ->
  n < 2 ^ 64 -> window_room q n -> ~ last_nonce T q n -> 26 + len data < 2 ^ usize_bits T ->
  snd (read C T (forge (dbg_msl R ser s) n data) q) = Ok (Some (MMessage (nonempty data))).
Proof. exact debug_forge. Qed.
Print Assumptions C77_forge.

(** Before the peer's ACK, the text holds the user data of the messages that
    wait for it. *)
Theorem C77_waiting : forall (C : Crypto), CryptoLaws C -> forall (T : target) R ser, RingDebugLaws R ->
  exists peek : string -> list bytes,
  forall r cfg pin s0 cs s h k xs,
  create C r cfg pin = Ok s0 -> run C T s0 cs = (s, h) -> len h < 2 ^ 64 ->
  lossless h -> user_deliveries h = [] -> session_key s = Some k ->
  Forall2 (fun d x => opens C T k d (fst x) (snd x)) (early_messages h) xs ->
  peek (dbg_msl R ser s) = map snd xs.
Proof. exact debug_waiting. Qed.
Print Assumptions C77_waiting.

(** A seed prints itself. *)
Theorem C77_seed : exists spy : string -> option bytes, forall seed, spy (dbg_seed32 seed) = Some seed.
Proof. exact debug_seed. Qed.
Print Assumptions C77_seed.

(** A ring that prints public keys as [PublicKey([..])]. *)
Definition ring_toy : RingDebug := {|
  dbg_private := "EphemeralPrivateKey { algorithm: X25519 }";
  dbg_public := fun b => "PublicKey(" ++ dbg_bytes b ++ ")";
  dbg_keypair := fun b => "Ed25519KeyPair { public_key: PublicKey(" ++ dbg_bytes b ++ ") }"
|}.

Lemma ring_toy_laws : RingDebugLaws ring_toy.
Proof.
  split.
  - exists (fun s => match eat "PublicKey(" s with
                     | None => None
                     | Some s1 => match p_bytes s1 with
                                  | Some (b, s2) => match eat ")" s2 with Some s3 => Some (b, s3) | None => None end
                                  | None => None
                                  end
                     end).
    intros b x Hx. cbn [dbg_public ring_toy]. rewrite !string_app_assoc, eat_app, reads_bytes by apply stop_paren.
    now rewrite eat_app.
  - exists (fun s => match eat "Ed25519KeyPair { public_key: PublicKey(" s with
                     | None => None
                     | Some s1 => match p_bytes s1 with
                                  | Some (b, s2) => match eat ") }" s2 with Some s3 => Some (b, s3) | None => None end
                                  | None => None
                                  end
                     end).
    intros b x Hx. cbn [dbg_keypair ring_toy]. rewrite !string_app_assoc, eat_app, reads_bytes by apply stop_paren.
    now rewrite eat_app.
Qed.

(** The text of a small layer, letter by letter. *)
Example C77_text :
  let s := {| ack_msg_recv_too_early := Some [x07]; cloned := true;
              conf := {| cfg_compression := 1; cfg_compression_min_size := 8192;
                         cfg_message_format := Utf8Json; cfg_encrypt_algo := Chacha20Poly1305Aead |};
              encrypt_algo_with_secret :=
                Some (WithChacha {| sk_key := [x01; xff]; sk_nonce := [x0a]; sk_aad := [] |});
              ephemeral := Some {| ekp_priv := [x55]; ekp_pub := [x02] |};
              ephemeral_pubkey := [x02]; next_nonce_expected := 3; next_nonce_sent := 120;
              orphan_nonce_list := [9; 5; 7]; peer_epk := None; peer_sig_pubkey := Some [x10];
              msl_status := OngoingNegotiation ConnectMsgSent AckMsgSent;
              tmp_stack_user_msgs := [[x01; x02]; []] |} in
  dbg_msl ring_toy true s =
  "MinimalSecureLayer { ack_msg_recv_too_early: Some([7]), cloned: true, config: SecureLayerConfig { compression: Compression(1), compression_min_size: 8192, message_format: Utf8Json, encrypt_algo: Chacha20Poly1305Aead }, encrypt_algo_with_secret: Some(Chacha20Poly1305Aead(SecretKey { key: [1, 255], nonce: [10], aad: [] })), ephemeral_kp: Some(EphemeralKeyPair { privkey: EphemeralPrivateKey { algorithm: X25519 }, pubkey: EphemeralPublicKey(PublicKey([2])) }), ephemeral_pubkey: EphemeralPublicKey(PublicKey([2])), next_nonce_expected: 3, next_nonce_sent: 120, orphan_nonce_list: {5, 7, 9}, peer_epk: None, peer_sig_pubkey: Some([16]), status: OngoingNegotiation { local: ConnectMsgSent, remote: AckMsgSent }, tmp_stack_user_msgs: [[1, 2], []] }".
Proof. vm_compute. exact eq_refl. Qed.

(** The hypotheses are met by the layers of the scenario: [A4] and [B4] share
    the key [kAB], [B4] has not received nonce 5, and a message that came before
    the ACK waits in the queue. *)
Example C77_case :
  RingDebugLaws ring_toy /\ CryptoLaws toy /\
  session_key A4 = Some kAB /\ opens toy T kAB (msgA 0 [x40]) 0 [x40] /\
  reachable toy T B4 /\ established B4 /\ session_key B4 = Some kAB /\ keystream_ok toy kAB /\
  window_room B4 5 /\ ~ last_nonce T B4 5 /\
  (let cs := [CConnect pkA None; CRead (connectB [x05]); CAck (Some [x06]); CRead (msgA 0 [x40]); CRead (msgA 1 [x41])] in
   run toy T A0 cs = (after A0 cs, log A0 cs) /\ lossless (log A0 cs) /\ user_deliveries (log A0 cs) = [] /\
   session_key (after A0 cs) = Some kAB /\
   early_messages (log A0 cs) = [msgA 0 [x40]; msgA 1 [x41]]).
Proof.
  split; [exact ring_toy_laws|]. split; [exact toy_laws|].
  split; [vm_compute; exact eq_refl|]. split; [apply opens_msgA; vm_compute; reflexivity|].
  split; [exact reachable_B4|]. split; [eexists; vm_compute; exact eq_refl|]. split; [vm_compute; exact eq_refl|].
  split; [apply toy_keystream_ok|].
  split.
  { split; [|right; vm_compute; reflexivity]. intros [H|H]; vm_compute in H; [discriminate H|exact H]. }
  split; [intros (H & _); vm_compute in H; discriminate H|].
  split; [apply run_log|]. split; [apply lossless_check; vm_compute; reflexivity|].
  split; [vm_compute; exact eq_refl|]. split; vm_compute; exact eq_refl.
Qed.

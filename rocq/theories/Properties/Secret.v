(** C37, C38, C40-C42: the session secret and what the protocol does not give. *)

From Verif.Model Require Import Minimal.
From Verif.Spec Require Import Wire Datagram Trace ReadSpec Accept Session Writers Attacks.
From Verif.Proofs Require Import Keys Histories Corollaries.
From Verif.Instances Require Import Toy Scenario.

Lemma carries_epkA : carries_epk (connectA []) epkA.
Proof.
  split; [vm_compute; reflexivity|].
  exists 70, pkA, (toy_sign seedA (connect_frame epkA pkA [])). split; vm_compute; reflexivity.
Qed.
Lemma carries_epkB : carries_epk (connectB [x05]) epkB.
Proof.
  split; [vm_compute; reflexivity|].
  exists 71, pkB, ([x05] ++ toy_sign seedB (connect_frame epkB pkB [x05])). split; vm_compute; reflexivity.
Qed.

(** ** C37 *)
Theorem C37_same_secret : forall (C : Crypto) (T : target), CryptoLaws C ->
  forall skA cfgA pinA a0 csA a hA dA rA skB cfgB pinB b0 csB b hB dB rB,
  create C (RngKey skA) cfgA pinA = Ok a0 -> run C T a0 csA = (a, hA) ->
  create C (RngKey skB) cfgB pinB = Ok b0 -> run C T b0 csB = (b, hB) ->
  In (CRead dB, rA) hA -> connect_accepted (CRead dB, rA) = true -> carries_epk dB (x25519_public C skB) ->
  In (CRead dA, rB) hB -> connect_accepted (CRead dA, rB) = true -> carries_epk dA (x25519_public C skA) ->
  session_key a = session_key b.
Proof. exact same_secret. Qed.
Print Assumptions C37_same_secret.

Example C37_case :
  run toy T A0 callsA = (after A0 callsA, log A0 callsA) /\
  run toy T B0 callsB = (after B0 callsB, log B0 callsB) /\
  connect_accepted (nth 1 (log A0 callsA) (CDrain, RMsgs (Ok []))) = true /\
  fst (nth 1 (log A0 callsA) (CDrain, RMsgs (Ok []))) = CRead (connectB [x05]) /\
  carries_epk (connectB [x05]) epkB /\
  connect_accepted (nth 1 (log B0 callsB) (CDrain, RMsgs (Ok []))) = true /\
  fst (nth 1 (log B0 callsB) (CDrain, RMsgs (Ok []))) = CRead (connectA []) /\
  carries_epk (connectA []) epkA /\
  session_key (after B0 callsB) = Some kAB /\ epkA <> epkB.
Proof.
  split; [apply run_log|]. split; [apply run_log|].
  split; [vm_compute; reflexivity|]. split; [vm_compute; reflexivity|]. split; [exact carries_epkB|].
  split; [vm_compute; reflexivity|]. split; [vm_compute; reflexivity|]. split; [exact carries_epkA|].
  split; [vm_compute; reflexivity|]. intros H. vm_compute in H. discriminate.
Qed.

(** ** C38 *)
Theorem C38_derivation : forall (C : Crypto) (T : target), CryptoLaws C ->
  forall sk cfg pin s0 cs s h k,
  create C (RngKey sk) cfg pin = Ok s0 -> run C T s0 cs = (s, h) -> session_key s = Some k ->
  exists d epk r z salt,
    In (CRead d, r) h /\ carries_epk d epk /\
    x25519_agree C sk epk = Some z /\
    (salt = x25519_public C sk \/ salt = epk) /\
    be_decode (x25519_public C sk) <= be_decode salt /\ be_decode epk <= be_decode salt /\
    sk_key k ++ sk_nonce k ++ sk_aad k = pbkdf2 C PBKDF2_HMAC_SHA384 3 salt z 48 /\
    length (sk_key k) = 32%nat /\ length (sk_nonce k) = 12%nat /\ length (sk_aad k) = 4%nat.
Proof. exact derivation. Qed.
Print Assumptions C38_derivation.

(** Here the peer's key is the larger one; from B's side it is its own. *)
Example C38_case :
  session_key (after A0 callsA) = Some kAB /\
  be_decode epkA < be_decode epkB /\
  sk_key kAB ++ sk_nonce kAB ++ sk_aad kAB =
    toy_pbkdf2 PBKDF2_HMAC_SHA384 3 epkB (xor_bytes epkA epkB) 48.
Proof. repeat split; vm_compute; reflexivity. Qed.

(** ** C40 *)
Theorem C40_reflection : forall (C : Crypto) (T : target), CryptoLaws C ->
  forall s data w w' s' k,
  reachable C T s -> takes_all w -> write_message C T data s w = (s', w', Ok tt) ->
  session_key s = Some k -> keystream_ok C k -> 26 + len data < 2 ^ usize_bits T ->
  window_room s (next_nonce_sent s) -> ~ last_nonce T s (next_nonce_sent s) ->
  exists d, output w' = output w ++ d /\
    snd (read C T d s') = Ok (Some (MMessage (nonempty data))).
Proof. exact reflection. Qed.
Print Assumptions C40_reflection.

Theorem C40_self_negotiation : forall (C : Crypto) (T : target), CryptoLaws C ->
  forall sk cfg s0 seed cd1 cd2 z,
  create C (RngKey sk) cfg None = Ok s0 -> x25519_agree C sk (x25519_public C sk) = Some z ->
  86 + len (custom cd1) < 2 ^ usize_bits T -> 50 + len (custom cd2) < 2 ^ usize_bits T ->
  exists s1 s2 s3 s4 b1 b2 k,
    create_connect_message C (ed25519_public C seed) cd1 s0 = (s1, Ok b1) /\
    read C T (b1 ++ ed25519_sign C seed b1) s1 =
      (s2, Ok (Some (MConnect [x00; x00; x00; x00] (ed25519_public C seed) (nonempty (custom cd1))))) /\
    create_ack_message C cd2 s2 = (s3, Ok b2) /\
    read C T (b2 ++ ed25519_sign C seed b2) s3 = (s4, Ok (Some (MAck (nonempty (custom cd2))))) /\
    established s4 /\ session_key s4 = Some k.
Proof. exact self_negotiation. Qed.
Print Assumptions C40_self_negotiation.

Example C40_case :
  reachable toy T A4 /\ takes_all vec_writer /\ keystream_ok toy kAB /\ session_key A4 = Some kAB /\
  window_room A4 (next_nonce_sent A4) /\ ~ last_nonce T A4 (next_nonce_sent A4) /\
  snd (write_message toy T [x2a] A4 vec_writer) = Ok tt /\
  x25519_agree toy skA (x25519_public toy skA) <> None.
Proof.
  split; [exact reachable_A4|]. split; [reflexivity|]. split; [apply toy_keystream_ok|].
  split; [vm_compute; reflexivity|].
  split; [split; [vm_compute; intros [H|[]]; discriminate|left; vm_compute; reflexivity]|].
  split; [intros [H _]; vm_compute in H; discriminate|].
  split; [vm_compute; reflexivity|]. vm_compute. discriminate.
Qed.

(** ** C41 *)

(** A is pinned to B's key and B to M's; only [sb], [sa] sign for B and A, and M
    re-signs A's ephemeral key with its own seed [sm].  Both layers complete and
    hold one key; B's messages are for M, A reads them as B's. *)
Theorem C41_misbinding : forall (C : Crypto) (T : target), CryptoLaws C ->
  forall skA skB cfgA cfgB a0 b0 sa sb sm cdA cdB ackA ackB z,
  create C (RngKey skA) cfgA (Some (ed25519_public C sb)) = Ok a0 ->
  create C (RngKey skB) cfgB (Some (ed25519_public C sm)) = Ok b0 ->
  x25519_agree C skA (x25519_public C skB) = Some z ->
  86 + len (custom cdA) < 2 ^ usize_bits T -> 86 + len (custom cdB) < 2 ^ usize_bits T ->
  50 + len (custom ackA) < 2 ^ usize_bits T -> 50 + len (custom ackB) < 2 ^ usize_bits T ->
  exists a b k,
    run C T a0
      [CConnect (ed25519_public C sa) cdA; CRead (signed_connect C sb (x25519_public C skB) (custom cdB));
       CAck ackA; CRead (signed_ack C sb (x25519_public C skA) (custom ackB))] =
    (a, [(CConnect (ed25519_public C sa) cdA,
           RBytes (Ok (connect_frame (x25519_public C skA) (ed25519_public C sa) (custom cdA))));
         (CRead (signed_connect C sb (x25519_public C skB) (custom cdB)),
           RMsg (Ok (Some (MConnect [x00; x00; x00; x00] (ed25519_public C sb) (nonempty (custom cdB))))));
         (CAck ackA, RBytes (Ok (ack_frame (sha256 C (x25519_public C skB)) (custom ackA))));
         (CRead (signed_ack C sb (x25519_public C skA) (custom ackB)),
           RMsg (Ok (Some (MAck (nonempty (custom ackB))))))]) /\
    run C T b0
      [CConnect (ed25519_public C sb) cdB; CRead (signed_connect C sm (x25519_public C skA) (custom cdA));
       CAck ackB; CRead (signed_ack C sm (x25519_public C skB) (custom ackA))] =
    (b, [(CConnect (ed25519_public C sb) cdB,
           RBytes (Ok (connect_frame (x25519_public C skB) (ed25519_public C sb) (custom cdB))));
         (CRead (signed_connect C sm (x25519_public C skA) (custom cdA)),
           RMsg (Ok (Some (MConnect [x00; x00; x00; x00] (ed25519_public C sm) (nonempty (custom cdA))))));
         (CAck ackB, RBytes (Ok (ack_frame (sha256 C (x25519_public C skA)) (custom ackB))));
         (CRead (signed_ack C sm (x25519_public C skB) (custom ackA)),
           RMsg (Ok (Some (MAck (nonempty (custom ackA))))))]) /\
    established a /\ established b /\ session_key a = Some k /\ session_key b = Some k.
Proof. exact misbinding. Qed.
Print Assumptions C41_misbinding.

Example C41_case :
  x25519_agree toy skA (x25519_public toy skB) <> None /\
  (exists a0, create toy (RngKey skA) config_default (Some (ed25519_public toy seedB)) = Ok a0) /\
  (exists b0, create toy (RngKey skB) config_default (Some (ed25519_public toy [x66])) = Ok b0).
Proof.
  split; [vm_compute; discriminate|]. split; eexists; reflexivity.
Qed.

(** ** C42 *)
Theorem C42_keystream_reuse : forall (C : Crypto), CryptoLaws C ->
  forall k n1 d1 n2 d2,
  xor2 (without_tag (user_datagram C k n1 d1)) (without_tag (user_datagram C k n2 d2)) =
  xor2 (hashed C (user_frame n1 d1)) (hashed C (user_frame n2 d2)).
Proof. exact keystream_reuse. Qed.
Print Assumptions C42_keystream_reuse.

Theorem C42_written : forall (C : Crypto) (T : target), CryptoLaws C ->
  forall a a' wa wa' da b b' wb wb' db k,
  takes_all wa -> takes_all wb ->
  write_message C T da a wa = (a', wa', Ok tt) -> write_message C T db b wb = (b', wb', Ok tt) ->
  session_key a = Some k -> session_key b = Some k ->
  exists x y,
    output wa' = output wa ++ x /\ output wb' = output wb ++ y /\
    let ta := hashed C (user_frame (next_nonce_sent a) da) in
    let tb := hashed C (user_frame (next_nonce_sent b) db) in
    xor2 (without_tag x) (without_tag y) = xor2 ta tb /\
    xor2 (xor2 (without_tag x) (without_tag y)) ta = firstn (length ta) tb.
Proof. exact keystream_reuse_written. Qed.
Print Assumptions C42_written.

Example C42_case :
  takes_all vec_writer /\ session_key A4 = Some kAB /\ session_key B4 = Some kAB /\
  snd (write_message toy T [x2a] A4 vec_writer) = Ok tt /\
  snd (write_message toy T [x2b; x2c] B4 vec_writer) = Ok tt.
Proof. repeat split; vm_compute; reflexivity. Qed.

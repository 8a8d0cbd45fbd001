(** C78: one nonce for all messages of a session also gives up authenticity. *)

From Verif.Model Require Import Minimal.
From Verif.Spec Require Import Wire Datagram Trace ReadSpec Accept Session Writers Attacks Poly1305.
From Verif.Proofs Require Import Poly1305.
From Verif.Instances Require Import Toy Scenario.

(** ** C78 *)

(** One function makes datagrams from two datagrams of a session, of which it
    knows the nonce and the data of the first.  It is given nothing else: not
    the key, not the cipher, only SHA-256; it is chosen before the rest. *)
Theorem C78_forge :
  exists attack : (bytes -> bytes) -> N -> bytes -> bytes -> bytes -> N -> bytes -> list bytes,
  forall (C : Crypto), CryptoLaws C -> tags_are_poly1305 C ->
  forall k n1 data1 n2 data2 n data,
  len data2 = len data1 -> len data = len data1 ->
  user_datagram C k n1 data1 <> user_datagram C k n2 data2 ->
  let forged := attack (sha256 C) n1 data1 (user_datagram C k n1 data1) (user_datagram C k n2 data2) n data in
  In (user_datagram C k n data) forged /\ len forged <= 18 * ((73 + len data) / 16 + 1).
Proof. exists forge1305. exact forge1305_spec. Qed.
Print Assumptions C78_forge.

(** The same for what layers write and read: a layer of the session delivers
    the chosen data for one of the few datagrams. *)
Theorem C78_delivered :
  exists attack : (bytes -> bytes) -> N -> bytes -> bytes -> bytes -> N -> bytes -> list bytes,
  forall (C : Crypto), CryptoLaws C -> tags_are_poly1305 C -> forall (T : target),
  forall a a' wa wa' da b b' wb wb' db k q n data,
  takes_all wa -> takes_all wb -> reachable C T a -> reachable C T b ->
  write_message C T da a wa = (a', wa', Ok tt) -> write_message C T db b wb = (b', wb', Ok tt) ->
  session_key a = Some k -> session_key b = Some k ->
  (next_nonce_sent a, da) <> (next_nonce_sent b, db) -> len db = len da -> len data = len da ->
  reachable C T q -> established q -> session_key q = Some k -> keystream_ok C k ->
  n < 2 ^ 64 -> window_room q n -> ~ last_nonce T q n -> 26 + len data < 2 ^ usize_bits T ->
  exists x y, output wa' = output wa ++ x /\ output wb' = output wb ++ y /\
    let forged := attack (sha256 C) (next_nonce_sent a) da x y n data in
    len forged <= 18 * ((73 + len data) / 16 + 1) /\
    Exists (fun d => snd (read C T d q) = Ok (Some (MMessage (nonempty data)))) forged.
Proof. exists forge1305. exact forge1305_delivered. Qed.
Print Assumptions C78_delivered.

(** The test vector of RFC 8439, 2.8.2: [r] and [s] are the halves of the
    Poly1305 key there, the first one clamped. *)
Definition rfc_ct : bytes := be_encode 114
  0xd31a8d34648e60db7b86afbc53ef7ec2a4aded51296e08fea9e2b5a736ee62d63dbea45e8ca9671282fafb69da92728b1a71de0a9e060b2905d6a5b67ecd3b3692ddbd7f2d778b8c9803aee328091b58fab324e4fad675945585808b4831d7bc3ff4def08e4b7a9de576d26586cec64b6116.
Example C78_rfc :
  rfc_tag 5762996012667200637075057182979632251 339388424667083932452915359307506573578
    (be_encode 12 0x50515253c0c1c2c3c4c5c6c7) rfc_ct =
  be_encode 16 0x1ae10b594f09e26a7e902ecbd0600691.
Proof. vm_compute. exact eq_refl. Qed.

(** A library with these tags. *)
Definition toy1305 : Crypto := {|
  sha256 := sha256 toy;
  x25519_public := x25519_public toy;
  x25519_agree := x25519_agree toy;
  pbkdf2 := pbkdf2 toy;
  chacha20_keystream := chacha20_keystream toy;
  poly1305_mac := fun key nonce => rfc_tag (le_number (firstn 16 key)) (le_number nonce);
  ed25519_public := ed25519_public toy;
  ed25519_sign := ed25519_sign toy;
  ed25519_verify := ed25519_verify toy
|}.
Lemma toy1305_laws : CryptoLaws toy1305.
Proof. destruct toy_laws. constructor; assumption. Qed.
Lemma toy1305_tags : tags_are_poly1305 toy1305.
Proof.
  intros key nonce. exists (le_number (firstn 16 key)), (le_number nonce). intros aad ct. reflexivity.
Qed.

Lemma reachable_life s cs : reachable toy1305 T s -> reachable toy1305 T (fst (run toy1305 T s cs)).
Proof.
  revert s. induction cs as [|c cs IH]; intros s H; cbn [run]; [exact H|].
  pose proof (reach_step toy1305 T s c H) as H1. destruct (call_step toy1305 T s c) as [s1 r].
  specialize (IH s1 H1). destruct (run toy1305 T s1 cs). exact IH.
Qed.

(** Both sides of the session of Scenario.v, with the other tags. *)
Definition P0 (sk : bytes) : msl :=
  match create toy1305 (RngKey sk) config_default None with Ok s => s | _ => dummy end.
Definition PA : msl := fst (run toy1305 T (P0 skA)
  [CConnect pkA None; CRead (connectB [x05]); CAck (Some [x06]); CRead (ackB [])]).
Definition PB : msl := fst (run toy1305 T (P0 skB)
  [CConnect pkB (Some [x05]); CRead (connectA []); CAck None; CRead (ackA [x06])]).

Example C78_case :
  CryptoLaws toy1305 /\ tags_are_poly1305 toy1305 /\ takes_all vec_writer /\
  reachable toy1305 T PA /\ reachable toy1305 T PB /\
  snd (write_message toy1305 T [x2a; x2b] PA vec_writer) = Ok tt /\
  snd (write_message toy1305 T [x2c; x2d] PB vec_writer) = Ok tt /\
  session_key PA = Some kAB /\ session_key PB = Some kAB /\
  (next_nonce_sent PA, [x2a; x2b]) <> (next_nonce_sent PB, [x2c; x2d]) /\
  established PB /\ keystream_ok toy1305 kAB /\ window_room PB 7 /\ ~ last_nonce T PB 7 /\
  user_datagram toy1305 kAB 0 [x2a; x2b] <> user_datagram toy1305 kAB 0 [x2c; x2d].
Proof.
  split; [exact toy1305_laws|]. split; [exact toy1305_tags|]. split; [vm_compute; exact eq_refl|].
  split; [apply reachable_life, (reach_create toy1305 T (RngKey skA) config_default None); exact eq_refl|].
  split; [apply reachable_life, (reach_create toy1305 T (RngKey skB) config_default None); exact eq_refl|].
  do 4 (split; [vm_compute; exact eq_refl|]).
  split; [vm_compute; discriminate|].
  split; [eexists; vm_compute; exact eq_refl|].
  split; [exact (toy_keystream_ok kAB)|].
  split.
  { split; [|right; vm_compute; reflexivity]. intros [H|H]; vm_compute in H; [discriminate H|exact H]. }
  split; [intros (H & _); vm_compute in H; discriminate H|].
  vm_compute. discriminate.
Qed.

(** C01-C08: the wire format and round trips.

    Theorems are [exact] a lemma of Proofs/; the Example after each shows a
    concrete case of its hypotheses (library instance of Instances/Toy.v). *)

From Verif.Model Require Import Minimal.
From Verif.Spec Require Import Wire Datagram Trace ReadSpec Accept Session Writers Attacks.
From Verif.Proofs Require Import Sending Histories Corollaries Vocabulary.
From Verif.Instances Require Import Toy Scenario.

(** ** C01 *)
Theorem C01_connect_layout : forall (C : Crypto) (T : target), CryptoLaws C ->
  forall sk cfg pin s0 cs s h pk cd b,
  create C (RngKey sk) cfg pin = Ok s0 -> run C T s0 cs = (s, h) ->
  In (CConnect pk cd, RBytes (Ok b)) h ->
  b = connect_frame (x25519_public C sk) pk (custom cd).
Proof. exact connect_layout. Qed.
Print Assumptions C01_connect_layout.

Example C01_case :
  run toy T A0 [CConnect pkA (Some [x07; x08])] =
    (after A0 [CConnect pkA (Some [x07; x08])], log A0 [CConnect pkA (Some [x07; x08])]) /\
  log A0 [CConnect pkA (Some [x07; x08])] =
    [(CConnect pkA (Some [x07; x08]), RBytes (Ok (connect_frame epkA pkA [x07; x08])))].
Proof. split; [apply run_log|]. vm_compute. reflexivity. Qed.

(** ** C02 *)
Theorem C02_ack_layout : forall (C : Crypto) (T : target), CryptoLaws C ->
  forall sk cfg pin s0 cs s h1 cd b h2,
  create C (RngKey sk) cfg pin = Ok s0 ->
  run C T s0 cs = (s, h1 ++ (CAck cd, RBytes (Ok b)) :: h2) -> panic_free h1 ->
  exists d epk r, In (CRead d, r) h1 /\ connect_accepted (CRead d, r) = true /\ carries_epk d epk /\
    b = ack_frame (sha256 C epk) (custom cd).
Proof. exact ack_layout. Qed.
Print Assumptions C02_ack_layout.

Example C02_case :
  exists h1 h2, log A0 callsA =
    h1 ++ (CAck (Some [x06]), RBytes (Ok (ack_frame (toy_hash epkB) [x06]))) :: h2 /\
    panic_free h1 /\ length h1 = 2%nat.
Proof.
  exists (firstn 2 (log A0 callsA)), (skipn 3 (log A0 callsA)). split; [vm_compute; reflexivity|].
  split; [|vm_compute; reflexivity]. intros e He. vm_compute in He.
  repeat (destruct He as [<- |He]; [reflexivity|]). destruct He.
Qed.

(** ** C03 *)
Theorem C03_user_message_format : forall (C : Crypto) (T : target), CryptoLaws C ->
  forall data s w s' w',
  takes_all w \/ 16 < bw_cap w ->
  write_message C T data s w = (s', w', Ok tt) ->
  exists k, session_key s = Some k /\ established s /\
    output w' = output w ++ user_datagram C k (next_nonce_sent s) data.
Proof. exact write_ok. Qed.
Print Assumptions C03_user_message_format.

Example C03_case :
  exists s' w', write_message toy T [x31; x32] A4 vec_writer = (s', w', Ok tt) /\
    output w' = user_datagram toy kAB 0 [x31; x32] /\ takes_all vec_writer.
Proof.
  eexists _, _. split; [vm_compute; reflexivity|]. split; vm_compute; reflexivity.
Qed.

(** ** C04 *)
Theorem C04_frames_unambiguous :
  (forall e p c e' p' c', length e = 32%nat -> length e' = 32%nat -> length p = 32%nat -> length p' = 32%nat ->
     connect_frame e p c = connect_frame e' p' c' -> e = e' /\ p = p' /\ c = c') /\
  (forall x c x' c', length x = 32%nat -> length x' = 32%nat ->
     ack_frame x c = ack_frame x' c' -> x = x' /\ c = c') /\
  (forall n d n' d', n < 2 ^ 64 -> n' < 2 ^ 64 -> user_frame n d = user_frame n' d' -> n = n' /\ d = d') /\
  (forall e p c x c', connect_frame e p c <> ack_frame x c') /\
  (forall e p c n d, connect_frame e p c <> user_frame n d) /\
  (forall x c n d, ack_frame x c <> user_frame n d).
Proof. exact frames_unambiguous. Qed.
Print Assumptions C04_frames_unambiguous.

(** The same for whatever the library's encoder produces. *)
Theorem C04_wire_unambiguous : forall (C : Crypto), CryptoLaws C ->
  forall m1 epk1 p1 m2 epk2 p2 b,
  length epk1 = 32%nat -> length epk2 = 32%nat ->
  message_to_bytes C m1 epk1 p1 = Ok b -> message_to_bytes C m2 epk2 p2 = Ok b ->
  match m1, m2 with
  | RConnect a1 k1 c1, RConnect a2 k2 c2 =>
      length a1 = 4%nat -> length a2 = 4%nat -> length k1 = 32%nat -> length k2 = 32%nat ->
      epk1 = epk2 /\ a1 = a2 /\ k1 = k2 /\ custom c1 = custom c2
  | RAck c1, RAck c2 =>
      (exists e1 e2, p1 = Some e1 /\ p2 = Some e2 /\ sha256 C e1 = sha256 C e2) /\ custom c1 = custom c2
  | RMessage d1 n1, RMessage d2 n2 => n1 < 2 ^ 64 -> n2 < 2 ^ 64 -> n1 = n2 /\ custom d1 = custom d2
  | _, _ => False
  end.
Proof. exact wire_unambiguous. Qed.
Print Assumptions C04_wire_unambiguous.

(** And for user messages as they travel, sealed under one key. *)
Theorem C04_datagrams_unambiguous : forall (C : Crypto), CryptoLaws C ->
  forall k n d n' d',
  n < 2 ^ 64 -> n' < 2 ^ 64 -> user_datagram C k n d = user_datagram C k n' d' -> n = n' /\ d = d'.
Proof. exact user_datagram_inj. Qed.
Print Assumptions C04_datagrams_unambiguous.

Example C04_case :
  message_to_bytes toy (RMessage (Some [x01; x02]) 258) epkA None = Ok (user_frame 258 [x01; x02]).
Proof. vm_compute. reflexivity. Qed.

(** ** C05 *)
Theorem C05_connect_canonical : forall (C : Crypto) (T : target), CryptoLaws C ->
  forall s d a pk o,
  reachable C T s -> snd (read C T d s) = Ok (Some (MConnect a pk o)) ->
  a = [x00; x00; x00; x00] /\ length pk = 32%nat /\
  exists L epk cd sig,
    length_field T L (2 + len (connect_content epk pk cd)) /\ length epk = 32%nat /\ length sig = 64%nat /\
    d = frame_len L [x00; x01] (connect_content epk pk cd) ++ sig /\ o = nonempty cd /\
    ed25519_verify C pk (frame_len L [x00; x01] (connect_content epk pk cd)) sig = true /\
    (usize_width T = P64 -> d = connect_frame epk pk cd ++ sig).
Proof. exact connect_canonical. Qed.
Print Assumptions C05_connect_canonical.

Theorem C05_ack_canonical : forall (C : Crypto) (T : target), CryptoLaws C ->
  forall s d o,
  reachable C T s -> snd (read C T d s) = Ok (Some (MAck o)) ->
  exists L pk cd sig,
    peer_sig_pubkey s = Some pk /\
    length_field T L (2 + len (sha256 C (ephemeral_pubkey s) ++ cd)) /\ length sig = 64%nat /\
    d = frame_len L [x00; x02] (sha256 C (ephemeral_pubkey s) ++ cd) ++ sig /\ o = nonempty cd /\
    ed25519_verify C pk (frame_len L [x00; x02] (sha256 C (ephemeral_pubkey s) ++ cd)) sig = true /\
    (usize_width T = P64 -> d = ack_frame (sha256 C (ephemeral_pubkey s)) cd ++ sig).
Proof. exact ack_canonical. Qed.
Print Assumptions C05_ack_canonical.

Example C05_case :
  reachable toy T A1 /\
  snd (read toy T (connectB [x05]) A1) = Ok (Some (MConnect [x00; x00; x00; x00] pkB (Some [x05]))) /\
  reachable toy T A3 /\ snd (read toy T (ackB [x01]) A3) = Ok (Some (MAck (Some [x01]))).
Proof.
  split; [exact reachable_A1|]. split; [vm_compute; reflexivity|].
  split; [exact reachable_A3|]. vm_compute. reflexivity.
Qed.

(** ** C06 *)
Theorem C06_user_canonical : forall (C : Crypto) (T : target), CryptoLaws C ->
  forall s d o,
  reachable C T s -> snd (read C T d s) = Ok (Some (MMessage o)) ->
  exists k n data L,
    session_key s = Some k /\ n < 2 ^ 64 /\ o = nonempty data /\
    length_field T L (2 + len (u64_be n ++ data)) /\
    d = seal C k (hashed C (frame_len L [x00; x00] (u64_be n ++ data))) /\
    (usize_width T = P64 -> d = user_datagram C k n data).
Proof. exact user_canonical. Qed.
Print Assumptions C06_user_canonical.

Example C06_case :
  reachable toy T A4 /\ snd (read toy T (msgA 3 [x61; x62]) A4) = Ok (Some (MMessage (Some [x61; x62]))).
Proof. split; [exact reachable_A4|]. vm_compute. reflexivity. Qed.

(** ** C07 *)
Theorem C07_connect_round_trip : forall (C : Crypto) (T : target), CryptoLaws C ->
  forall a a' b seed cd r,
  reachable C T a -> reachable C T r ->
  create_connect_message C (ed25519_public C seed) cd a = (a', Ok b) ->
  86 + len (custom cd) < 2 ^ usize_bits T ->
  key_acceptable r (ed25519_public C seed) -> wants_connect r ->
  agreement_possible C r (ephemeral_pubkey a) ->
  snd (read C T (b ++ ed25519_sign C seed b) r)
    = Ok (Some (MConnect [x00; x00; x00; x00] (ed25519_public C seed) (nonempty (custom cd)))).
Proof. exact connect_round_trip. Qed.
Print Assumptions C07_connect_round_trip.

Theorem C07_ack_round_trip : forall (C : Crypto) (T : target), CryptoLaws C ->
  forall a a' b seed cd r,
  reachable C T a -> reachable C T r ->
  create_ack_message C cd a = (a', Ok b) ->
  50 + len (custom cd) < 2 ^ usize_bits T ->
  peer_epk a = Some (ephemeral_pubkey r) ->
  peer_sig_pubkey r = Some (ed25519_public C seed) -> wants_ack r ->
  snd (read C T (b ++ ed25519_sign C seed b) r) = Ok (Some (MAck (nonempty (custom cd)))).
Proof. exact ack_round_trip. Qed.
Print Assumptions C07_ack_round_trip.

(** Both together, from creation to success, with any custom data. *)
Theorem C07_handshake : forall (C : Crypto) (T : target), CryptoLaws C ->
  forall sk cfg pin0 s0 mypk cd1 seed epk cd2 cd3 cd4 z,
  create C (RngKey sk) cfg pin0 = Ok s0 ->
  (pin0 = None \/ pin0 = Some (ed25519_public C seed)) ->
  length epk = 32%nat -> x25519_agree C sk epk = Some z ->
  86 + len cd2 < 2 ^ usize_bits T -> 50 + len cd4 < 2 ^ usize_bits T ->
  exists s, run C T s0 [CConnect mypk cd1; CRead (signed_connect C seed epk cd2);
                        CAck cd3; CRead (signed_ack C seed (x25519_public C sk) cd4)] =
    (s, [(CConnect mypk cd1, RBytes (Ok (connect_frame (x25519_public C sk) mypk (custom cd1))));
         (CRead (signed_connect C seed epk cd2),
          RMsg (Ok (Some (MConnect [x00; x00; x00; x00] (ed25519_public C seed) (nonempty cd2)))));
         (CAck cd3, RBytes (Ok (ack_frame (sha256 C epk) (custom cd3))));
         (CRead (signed_ack C seed (x25519_public C sk) cd4),
          RMsg (Ok (Some (MAck (nonempty cd4)))))]) /\
    established s /\ session_key s = derived_secret C sk epk /\
    next_nonce_expected s = 0 /\ orphan_nonce_list s = [] /\ next_nonce_sent s = 0.
Proof. exact handshake. Qed.
Print Assumptions C07_handshake.

Example C07_case :
  key_acceptable A1 pkB /\ wants_connect A1 /\ agreement_possible toy A1 (ephemeral_pubkey B0) /\
  (exists b, snd (create_connect_message toy pkB (Some [x05]) B0) = Ok b) /\
  wants_ack A3 /\ peer_sig_pubkey A3 = Some pkB /\ peer_epk B2 = Some (ephemeral_pubkey A3) /\
  (exists b, snd (create_ack_message toy None B2) = Ok b) /\
  reachable toy T A1 /\ reachable toy T A3 /\ reachable toy T B0 /\ reachable toy T B2.
Proof.
  split; [left; reflexivity|]. split; [eexists; vm_compute; reflexivity|].
  split; [eexists _, _; split; vm_compute; reflexivity|].
  split; [eexists; vm_compute; reflexivity|]. split; [eexists; vm_compute; reflexivity|].
  split; [vm_compute; reflexivity|]. split; [vm_compute; reflexivity|].
  split; [eexists; vm_compute; reflexivity|].
  auto using reachable_A1, reachable_A3, reachable_B0, reachable_B2.
Qed.

(** ** C08 *)
Theorem C08_user_round_trip : forall (C : Crypto) (T : target), CryptoLaws C ->
  forall a a' w w' data k r,
  reachable C T a -> reachable C T r ->
  takes_all w -> write_message C T data a w = (a', w', Ok tt) ->
  session_key a = Some k -> session_key r = Some k -> keystream_ok C k ->
  26 + len data < 2 ^ usize_bits T ->
  established r -> window_room r (next_nonce_sent a) -> ~ last_nonce T r (next_nonce_sent a) ->
  exists d, output w' = output w ++ d /\
    snd (read C T d r) = Ok (Some (MMessage (nonempty data))).
Proof. exact user_round_trip. Qed.
Print Assumptions C08_user_round_trip.

(** The exception: with such a key stream nothing is ever delivered. *)
Theorem C08_bad_keystream : forall (C : Crypto) (T : target), CryptoLaws C ->
  forall k r d o,
  reachable C T r -> session_key r = Some k -> ~ keystream_ok C k ->
  snd (read C T d r) <> Ok (Some (MMessage o)).
Proof. exact bad_keystream_never_delivers. Qed.
Print Assumptions C08_bad_keystream.

Example C08_case :
  reachable toy T A4 /\ reachable toy T B4 /\ session_key A4 = Some kAB /\ session_key B4 = Some kAB /\
  keystream_ok toy kAB /\ established B4 /\ window_room B4 (next_nonce_sent A4) /\
  ~ last_nonce T B4 (next_nonce_sent A4) /\
  exists a' w', write_message toy T [x41] A4 vec_writer = (a', w', Ok tt).
Proof.
  split; [exact reachable_A4|]. split; [exact reachable_B4|].
  split; [vm_compute; reflexivity|]. split; [vm_compute; reflexivity|].
  split; [apply toy_keystream_ok|]. split; [eexists; vm_compute; reflexivity|].
  split; [split; [intros [H|H]; vm_compute in H; [discriminate|exact H]|left; vm_compute; reflexivity]|].
  split; [intros [H _]; discriminate|]. eexists _, _. vm_compute. reflexivity.
Qed.

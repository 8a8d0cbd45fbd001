(** When exactly [read] delivers a message, in terms of the frames of
    Spec/Wire.v. *)

From Verif.Model Require Import Minimal.
From Verif.Spec Require Import Wire Datagram Trace ReadSpec.

Section WithEnv.
Context (C : Crypto) (T : target).

(** The length field [L] announces [n] bytes.  On a 64-bit target this says
    L = n; on a 32-bit target the code only looks at [L] modulo 2^32. *)
Definition length_field (L n : N) : Prop :=
  L < 2 ^ 64 /\ L mod 2 ^ usize_bits T = n /\ 16 + n < 2 ^ usize_bits T.

(** A frame followed by a signature of it. *)
Definition signed_frame (pk ty content d : bytes) : Prop :=
  exists L sig, length_field L (2 + len content) /\
    d = frame_len L ty content ++ sig /\
    ed25519_verify C pk (frame_len L ty content) sig = true.

(** A frame followed by its hash. *)
Definition hashed_frame (ty content text : bytes) : Prop :=
  exists L, length_field L (2 + len content) /\ text = hashed C (frame_len L ty content).

(** [d] is the peer's CONNECT this layer is waiting for. *)
Definition connect_delivery (s : msl) (d epk pk cd : bytes) : Prop :=
  len epk = 32 /\ len pk = 32 /\
  signed_frame pk [x00; x01] (connect_content epk pk cd) d /\
  key_acceptable s pk /\ wants_connect s /\ agreement_possible C s epk.

(** [d] is the peer's ACK this layer is waiting for. *)
Definition ack_delivery (s : msl) (d pk cd : bytes) : Prop :=
  signed_frame pk [x00; x02] (sha256 C (ephemeral_pubkey s) ++ cd) d /\
  peer_sig_pubkey s = Some pk /\ wants_ack s.

(** The nonce is new and the replay memory has room for it. *)
Definition window_room (s : msl) (n : N) : Prop :=
  ~ received s n /\ (n = next_nonce_expected s \/ len (orphan_nonce_list s) < 10000).
(** With overflow checks: this is the last of all 2^64 nonces. *)
Definition last_nonce (s : msl) (n : N) : Prop :=
  overflow_checks T = true /\ n = next_nonce_expected s /\
  forall m, n < m -> m < 2 ^ 64 -> In m (orphan_nonce_list s).

(** [d] is a user message of the session, with a new nonce. *)
Definition user_delivery (s : msl) (d : bytes) (k : secret_key) (n : N) (data : bytes) : Prop :=
  session_key s = Some k /\ keystream_ok C k /\ n < 2 ^ 64 /\
  (exists text, hashed_frame [x00; x00] (u64_be n ++ data) text /\ d = seal C k text) /\
  established s /\ window_room s n /\ ~ last_nonce s n.

End WithEnv.

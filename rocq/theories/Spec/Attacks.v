(** Vocabulary for what an active or passive network attacker can do. *)

From Verif.Model Require Import Minimal.
From Verif.Spec Require Import Wire Trace.

(** Xor of two texts, up to the end of the shorter one. *)
Fixpoint xor2 (a b : bytes) : bytes :=
  match a, b with
  | x :: a, y :: b => byte_xor x y :: xor2 a b
  | _, _ => []
  end.

(** The datagram without its 16-byte tag. *)
Definition without_tag (d : bytes) : bytes := firstn (length d - 16) d.

(** CONNECT and ACK datagrams signed with the key of [seed]. *)
Definition signed_connect (C : Crypto) (seed epk cd : bytes) : bytes :=
  let f := connect_frame epk (ed25519_public C seed) cd in f ++ ed25519_sign C seed f.
Definition signed_ack (C : Crypto) (seed epk cd : bytes) : bytes :=
  let f := ack_frame (sha256 C epk) cd in f ++ ed25519_sign C seed f.

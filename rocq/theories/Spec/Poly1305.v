(** The tag of ChaCha20-Poly1305 (RFC 8439, sections 2.5 and 2.8), which the
    crate takes from chacha20-poly1305-aead.  Not /repo code: the property that
    uses it is about the way the crate uses the library, with one key and one
    nonce for all messages of a session. *)

From Verif.Model Require Import Minimal.
From Verif.Spec Require Import Wire.

(** Numbers, little endian. *)
Definition le_number (b : bytes) : N := fold_right (fun x n => Byte.to_N x + 256 * n) 0 b.
Definition le_bytes (k : nat) (n : N) : bytes := map (fun i => byte_at n (N.of_nat i)) (seq 0 k).

(** Blocks of 16 bytes; zeros up to a whole number of blocks. *)
Fixpoint cut (m : nat) (b : bytes) : list bytes :=
  match m with O => [] | S m' => firstn 16 b :: cut m' (skipn 16 b) end.
Definition blocks (b : bytes) : list bytes := cut (Nat.div (length b) 16) b.
Definition pad16 (b : bytes) : bytes := b ++ repeat x00 (Nat.modulo (16 - Nat.modulo (length b) 16) 16).

(** 2.8: what is authenticated. *)
Definition mac_data (aad ct : bytes) : bytes :=
  pad16 aad ++ pad16 ct ++ le_bytes 8 (len aad) ++ le_bytes 8 (len ct).

(** 2.5: the polynomial whose coefficients are the blocks, at [r]. *)
Definition P1305 : N := 2 ^ 130 - 5.
Definition poly1305 (r : N) (bs : list bytes) : N :=
  fold_left (fun acc b => (acc + (le_number b + 2 ^ 128)) * r mod P1305) bs 0.
Definition rfc_tag (r s : N) (aad ct : bytes) : bytes :=
  le_bytes 16 ((poly1305 r (blocks (mac_data aad ct)) + s) mod 2 ^ 128).

(** The library computes tags this way, with numbers that depend on key and
    nonce only. *)
Definition tags_are_poly1305 (C : Crypto) : Prop :=
  forall key nonce, exists r s, forall aad ct, poly1305_mac C key nonce aad ct = rfc_tag r s aad ct.

(** Signature keys in the wrong hands. *)

From Verif.Model Require Import Complete.
From Verif.Spec Require Import Wire Datagram Trace ReadSpec Session CompleteTrace.

(** A world in which some more signatures are good: whatever [v] says, about a
    public key, a text and a signature.  All other functions are the same. *)
Definition forging (C : Crypto) (v : bytes -> bytes -> bytes -> bool) : Crypto := {|
  sha256 := sha256 C; x25519_public := x25519_public C; x25519_agree := x25519_agree C;
  pbkdf2 := pbkdf2 C; chacha20_keystream := chacha20_keystream C; poly1305_mac := poly1305_mac C;
  ed25519_public := ed25519_public C; ed25519_sign := ed25519_sign C;
  ed25519_verify := fun pk t sig => ed25519_verify C pk t sig || v pk t sig
|}.

(** The call reads a datagram that bears a signature good in the second world
    only.  (The ACK that was kept aside is read by [CTakeAck].) *)
Definition reads_forgery (C : Crypto) (v : bytes -> bytes -> bytes -> bool) (c : call) : Prop :=
  match c with
  | CRead d => exists pk t sig, d = t ++ sig /\ ed25519_verify C pk t sig = false /\ v pk t sig = true
  | CTakeAck => True
  | _ => False
  end.

(** The three answers to a forgery that comes too late. *)
Definition too_late (e : error) : Prop :=
  e = RecvInvalidMsg UnexpectedConnectMsg \/ e = RecvInvalidMsg UnexpectedAckMsg \/ e = ConnectionHadFail.

(** The same in complete mode, where the kept ACK is read with the CONNECT. *)
Definition sreads_forgery (C : Crypto) (v : bytes -> bytes -> bytes -> bool) (c : scall) : Prop :=
  match c with SRead d => reads_forgery C v (CRead d) | _ => False end.

(** A call that gives nothing to the application nor to the network. *)
Definition sinert (e : scall * sreply) : Prop :=
  match e with
  | (SRead _, r) => forall l, r = SMsgs (Ok l) -> l = []
  | (SConnect _ w, r) | (SAck _ w, r) | (SWrite _ w, r) => exists er, r = SWritten (Err er) w
  | (SClone, r) => forall c, r <> SCloned (Ok c)
  | (SConfig _, _) => True
  end.

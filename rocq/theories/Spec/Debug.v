(** What the [Debug] text of a layer shows. *)

From Coq Require Import Permutation.
From Verif.Model Require Import Minimal Complete Debug.
From Verif.Spec Require Import Wire Datagram Trace ReadSpec Accept Session.
Local Open Scope string_scope.

(** ring's text for a public key can be read back, whatever comes after it.
    [stop]: what derived text puts after a value. *)
Definition stop (x : string) : Prop :=
  exists y, x = "," ++ y \/ x = "]" ++ y \/ x = "}" ++ y \/ x = ")" ++ y \/ x = " " ++ y.
Definition legible (f : bytes -> string) : Prop :=
  exists rd, forall b x, stop x -> rd (f b ++ x) = Some (b, x).
Record RingDebugLaws (R : RingDebug) : Prop := {
  law_public : legible (dbg_public R);
  law_keypair : legible (dbg_keypair R)
}.

(** Two layers that differ at most in the private half of their ephemeral key
    pair, in the order of their replay memory (which is a set), and, in a build
    without serialiser, in the message format (which does not exist there). *)
Record look_alike (ser : bool) (s1 s2 : msl) : Prop := {
  la_ack : ack_msg_recv_too_early s1 = ack_msg_recv_too_early s2;
  la_cloned : cloned s1 = cloned s2;
  la_compression : cfg_compression (conf s1) = cfg_compression (conf s2);
  la_min_size : cfg_compression_min_size (conf s1) = cfg_compression_min_size (conf s2);
  la_format : ser = true -> cfg_message_format (conf s1) = cfg_message_format (conf s2);
  la_algo : cfg_encrypt_algo (conf s1) = cfg_encrypt_algo (conf s2);
  la_secret : session_key s1 = session_key s2;
  la_ephemeral : option_map ekp_pub (ephemeral s1) = option_map ekp_pub (ephemeral s2);
  la_pubkey : ephemeral_pubkey s1 = ephemeral_pubkey s2;
  la_expected : next_nonce_expected s1 = next_nonce_expected s2;
  la_sent : next_nonce_sent s1 = next_nonce_sent s2;
  la_orphans : Permutation (orphan_nonce_list s1) (orphan_nonce_list s2);
  la_peer_epk : peer_epk s1 = peer_epk s2;
  la_peer_key : peer_sig_pubkey s1 = peer_sig_pubkey s2;
  la_status : msl_status s1 = msl_status s2;
  la_queue : tmp_stack_user_msgs s1 = tmp_stack_user_msgs s2
}.

(** How many bytes a layer holds. *)

From Verif.Model Require Import Minimal Complete.
From Verif.Spec Require Import Wire Datagram Trace ReadSpec CompleteTrace.

Definition opt_len (o : option bytes) : N := match o with Some b => len b | None => 0 end.
Definition sum (l : list N) : N := fold_right N.add 0 l.

(** The fields of the struct at minimal.rs:34-48 whose size is not fixed by
    their type.  First all but the replay memory: the ACK kept for later, the
    queue of user messages and the keys. *)
Definition held (s : msl) : N :=
  opt_len (ack_msg_recv_too_early s)
  + sum (map len (tmp_stack_user_msgs s))
  + opt_len (peer_epk s) + opt_len (peer_sig_pubkey s) + len (ephemeral_pubkey s)
  + match ephemeral s with Some kp => len (ekp_priv kp) + len (ekp_pub kp) | None => 0 end
  + match encrypt_algo_with_secret s with
    | Some (WithChacha k) => len (sk_key k) + len (sk_nonce k) + len (sk_aad k)
    | None => 0
    end.
(** The replay memory, at eight bytes for each nonce. *)
Definition replay_bytes (s : msl) : N := 8 * len (orphan_nonce_list s).

(** The datagrams a history put aside: reads answered "no message yet". *)
Definition put_aside (h : history) : list bytes :=
  flat_map (fun e => match e with (CRead d, RMsg (Ok None)) => [d] | _ => [] end) h.
Definition sput_aside (h : shistory) : list bytes :=
  flat_map (fun e => match e with (SRead d, SMsgs (Ok [])) => [d] | _ => [] end) h.

Definition total (ds : list bytes) : N := sum (map len ds).

(** Two peer keys of 32 bytes and a session secret of 48. *)
Definition new_keys : N := 32 + 32 + 48.

(** Complete mode is minimal mode plus signing and compression: what one
    complete-mode call does to the layer inside it, with the replies. *)

From Verif.Model Require Import Complete.
From Verif.Spec Require Import Wire Datagram Trace ReadSpec Accept Session Writers CompleteTrace.

(** The error or panic a call on the layer inside ended with. *)
Definition error_of (r : reply) : option error :=
  match r with
  | RMsg (Err e) | RMsgs (Err e) | RBytes (Err e) | RWritten (Err e) _ | RClone (Err e) | RUnit (Err e) => Some e
  | _ => None
  end.

Definition deliveries (h : history) : list message := flat_map (fun e => delivered (snd e)) h.

(** One read, perhaps followed by taking the early ACK after a CONNECT, or the
    early messages after an ACK. *)
Inductive reads (d : bytes) : history -> Prop :=
| reads_only o : reads d [(CRead d, RMsg o)]
| reads_take_ack a pk cd o : reads d [(CRead d, RMsg (Ok (Some (MConnect a pk cd)))); (CTakeAck, RMsg o)]
| reads_drain cd o : reads d [(CRead d, RMsg (Ok (Some (MAck cd)))); (CDrain, RMsgs o)].

(** A CONNECT or an ACK was not left without that second call. *)
Definition followed_up (h : history) : Prop :=
  forall c a pk cd, h <> [(c, RMsg (Ok (Some (MConnect a pk cd))))] /\ h <> [(c, RMsg (Ok (Some (MAck cd))))].

Section WithEnv.
Context (C : Crypto) (Z : Zip) (seed : bytes).
Notation pk := (ed25519_public C seed).

(** [projects ev h]: the call and reply [ev] of a layer with signing key
    [seed] are the calls and replies [h] of the layer inside. *)
Inductive projects : scall * sreply -> history -> Prop :=
(* what is read is returned, inflated *)
| pj_read d h l : reads d h -> followed_up h -> panic_free h -> (forall e, In e h -> error_of (snd e) = None) ->
    Forall2 (decodes Z) (deliveries h) l -> projects (SRead d, SMsgs (Ok l)) h
(* an error of the layer inside, at the last call *)
| pj_read_error d h c r e : reads d (h ++ [(c, r)]) -> panic_free (h ++ [(c, r)]) -> error_of r = Some e ->
    projects (SRead d, SMsgs (Err e)) (h ++ [(c, r)])
(* a payload that cannot be inflated, the first one *)
| pj_read_zip d h a m b p z : reads d h -> panic_free h -> (forall e, In e h -> error_of (snd e) = None) ->
    deliveries h = a ++ m :: b -> Forall (fun m => exists i, decodes Z m i) a ->
    match m with MConnect _ _ o | MAck o | MMessage o => o = Some p end -> inflate Z p = inr z ->
    projects (SRead d, SMsgs (Err (ZipError z))) h
| pj_read_panic d h c r p : reads d (h ++ [(c, r)]) -> panic_of r = Some p ->
    projects (SRead d, SMsgs (Panic p)) (h ++ [(c, r)])
(* CONNECT and ACK are created inside, then signed, and both written *)
| pj_connect cd w x t o w' : deflated Z cd (custom x) -> o = Ok tt \/ o = Err BufferFlushError ->
    (takes_all w -> o = Ok tt /\ output w' = output w ++ t ++ ed25519_sign C seed t) ->
    projects (SConnect cd w, SWritten o w') [(CConnect pk x, RBytes (Ok t))]
| pj_connect_error cd w x e : projects (SConnect cd w, SWritten (Err e) w) [(CConnect pk x, RBytes (Err e))]
| pj_connect_panic cd w x p : projects (SConnect cd w, SWritten (Panic p) w) [(CConnect pk x, RBytes (Panic p))]
| pj_ack cd w x t o w' : deflated Z cd (custom x) -> o = Ok tt \/ o = Err BufferFlushError ->
    (takes_all w -> o = Ok tt /\ output w' = output w ++ t ++ ed25519_sign C seed t) ->
    projects (SAck cd w, SWritten o w') [(CAck x, RBytes (Ok t))]
| pj_ack_error cd w x e : projects (SAck cd w, SWritten (Err e) w) [(CAck x, RBytes (Err e))]
| pj_ack_panic cd w x p : projects (SAck cd w, SWritten (Panic p) w) [(CAck x, RBytes (Panic p))]
(* user messages are compressed, then written inside *)
| pj_write data w x o w' : deflated Z (Some data) x ->
    projects (SWrite data w, SWritten o w') [(CWrite x w, RWritten o w')]
| pj_clone c : sig_key_pair c = None ->
    projects (SClone, SCloned (Ok c)) [(CClone, RClone (Ok (minimal c)))]
| pj_clone_error e : projects (SClone, SCloned (Err e)) [(CClone, RClone (Err e))]
| pj_clone_panic p : projects (SClone, SCloned (Panic p)) [(CClone, RClone (Panic p))]
| pj_config cfg o : projects (SConfig cfg, SUnit o) [(CConfig cfg, RUnit o)].

End WithEnv.

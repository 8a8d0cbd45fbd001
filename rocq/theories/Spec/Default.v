(** The default configuration ([SecureLayerConfig::default], /repo/src/config.rs:44). *)

From Verif.Model Require Import Serde.
From Verif.Spec Require Import Wire Datagram Trace ReadSpec Accept Session Writers CompleteTrace Typed TypedTrace.

Section WithEnv.
Context (C : Crypto) (Z : Zip) (T : target) (F : features) {M : Type} (K : Codec M).

(** A layer created with the default configuration, used in any way but a call
    of [change_config], and the clones of such layers. *)
Inductive default_life : secure_layer -> Prop :=
| dl_create r rs given pin s : sl_create C r rs config_default given pin = Ok s -> default_life s
| dl_call s c : default_life s -> (forall cfg, c <> VBin (SConfig cfg)) ->
    default_life (fst (tcall_step C Z T F K s c))
| dl_clone s c : default_life s -> snd (sl_try_clone s) = Ok c -> default_life c.

(** What becomes of the bytes given to a binary method: stored as they are (level
    0) below 8192 bytes, compressed at level 1 from there on.  Without custom data
    there is no payload. *)
Definition default_payload (data : option bytes) : bytes :=
  match data with
  | None => []
  | Some d => deflate Z (if len d <? 8192 then 0 else 1) d
  end.

End WithEnv.

(** What tells the builds of the library apart: 32 or 64 bits, overflow checks
    on or off.  They count the length field of a frame differently, but only
    when it announces some 4 gigabytes. *)

From Verif.Model Require Import Serde.
From Verif.Spec Require Import Wire Datagram Trace ReadSpec Accept Session Writers CompleteTrace Typed TypedTrace.

(** A clear text whose length field, if it has one, fits in 32 bits together
    with the 16 bytes before it. *)
Definition modest_text (text : bytes) : Prop :=
  forall L th, L < 2 ^ 64 -> text = magic ++ version ++ u64_be L ++ th -> 16 + L < 2 ^ 32.

(** A datagram that is such a text, or that seals such a text under the session
    key [key]. *)
Definition modest (C : Crypto) (key : option secret_key) (d : bytes) : Prop :=
  modest_text d /\
  ((forall r, d <> magic ++ r) -> forall k text, key = Some k -> d = seal C k text -> modest_text text).

(** ** Minimal mode *)
Section Minimal.
Context (C : Crypto) (T : target).

(** Every datagram read on the way is modest. *)
Definition modest_reads (s : msl) (cs : list call) : Prop :=
  forall cs1 d cs2, cs = cs1 ++ CRead d :: cs2 -> modest C (session_key (fst (run C T s cs1))) d.

(** Created, used on modest datagrams and cloned, [k] calls in all. *)
Inductive modest_life : msl -> N -> Prop :=
| ml_create r cfg pin s : create C r cfg pin = Ok s -> modest_life s 0
| ml_run s k cs : modest_life s k -> modest_reads s cs -> modest_life (fst (run C T s cs)) (k + len cs)
| ml_clone s k c : modest_life s k -> snd (try_clone s) = Ok c -> modest_life c k.

End Minimal.

(** The same answer, or a read that panics in both builds, maybe with another
    message. *)
Inductive agree : reply -> reply -> Prop :=
| ag_same r : agree r r
| ag_panic p p' : agree (RMsg (Panic p)) (RMsg (Panic p')).

(** ** Complete mode *)
Section Complete.
Context (C : Crypto) (Z : Zip) (T : target) (F : features) {M : Type} (K : Codec M).

(** Every datagram read on the way is modest and shorter than 429 megabytes.  The
    second condition is there for [read_bin_hint] (Model/Hint.v, C75): it asks
    for a buffer of five times the size of a payload, and 32-bit builds have no
    more than 2^31 bytes to give. *)
Definition modest_treads (s : secure_layer) (cs : list (tcall M)) : Prop :=
  forall cs1 c d cs2, cs = cs1 ++ c :: cs2 -> c = VRead d \/ c = VBin (SRead d) ->
    modest C (session_key (minimal (fst (trun C Z T F K s cs1)))) d /\ 5 * len d < 2 ^ 31.

Inductive modest_slife : secure_layer -> N -> Prop :=
| msl_create r rs cfg given pin s : sl_create C r rs cfg given pin = Ok s -> modest_slife s 0
| msl_run s k cs : modest_slife s k -> modest_treads s cs ->
    modest_slife (fst (trun C Z T F K s cs)) (k + len cs)
| msl_clone s k c : modest_slife s k -> snd (sl_try_clone s) = Ok c -> modest_slife c k.

End Complete.

Inductive tagree {M} : treply M -> treply M -> Prop :=
| ta_same r : tagree r r
| ta_panic p p' : tagree (TMsgs (Panic p)) (TMsgs (Panic p'))
| ta_bin_panic p p' : tagree (TOther (SMsgs (Panic p))) (TOther (SMsgs (Panic p'))).

(** The receiver of Spec/Receiver.v, as seen through [read_bin] and [read]. *)

From Verif.Model Require Import Serde.
From Verif.Spec Require Import Wire Datagram Trace ReadSpec Accept Session Writers Receiver CompleteTrace Typed TypedTrace.

Section WithEnv.
Context (C : Crypto) (Z : Zip) (T : target).

(** [sreceive R n z a R']: given the payload [z] numbered [n], the receiver [R]
    answers [a] and becomes [R'].  A payload that cannot be inflated uses up its
    number. *)
Inductive sreceive (R : receiver) (n : N) (z : bytes) : outcome (list incoming_binary_message) -> receiver -> Prop :=
| src_repeated : In n (taken R) ->
    sreceive R n z (Err (RecvInvalidMsg InvalidNonce)) R
| src_dead : ~ In n (taken R) -> dead R = true ->
    sreceive R n z (Err ConnectionHadFail) R
| src_delivered x : dead R = false -> nonce_acceptable (taken R) n -> deflated Z x z ->
    sreceive R n z (Ok [IMessage x]) {| taken := n :: taken R; dead := false |}
| src_unreadable e : dead R = false -> nonce_acceptable (taken R) n -> z <> [] -> inflate Z z = inr e ->
    sreceive R n z (Err (ZipError e)) {| taken := n :: taken R; dead := false |}
| src_too_many : dead R = false -> ~ In n (taken R) -> ~ nonce_acceptable (taken R) n ->
    sreceive R n z (Err TooManyUnorderedMsgs) {| taken := taken R; dead := true |}.

Inductive sreceives : receiver -> list (N * bytes) -> list (outcome (list incoming_binary_message)) -> receiver -> Prop :=
| srcs_nil R : sreceives R [] [] R
| srcs_cons R n z a R1 ms os R2 :
    sreceive R n z a R1 -> sreceives R1 ms os R2 ->
    sreceives R ((n, z) :: ms) (a :: os) R2.

(** The answers of [read_bin] to a sequence of datagrams. *)
Definition sanswers (s : secure_layer) (ds : list bytes) (os : list (outcome (list incoming_binary_message)))
  (s' : secure_layer) : Prop :=
  srun C Z T s (map SRead ds) = (s', combine (map SRead ds) (map SMsgs os)) /\ length os = length ds.

(** Likewise of [read]. *)
Definition tanswers {M} (F : features) (K : Codec M) (s : secure_layer) (ds : list bytes)
  (os : list (outcome (list (incoming_message M)))) (s' : secure_layer) : Prop :=
  trun C Z T F K s (map VRead ds) = (s', combine (map VRead ds) (map TMsgs os)) /\ length os = length ds.

End WithEnv.

(** Each number delivered the first time it comes, refused afterwards. *)
Fixpoint once_each {V W} (deliver : V -> W) (seen : list N) (ms : list (N * V)) : list (outcome (list W)) :=
  match ms with
  | [] => []
  | (n, v) :: ms =>
      (if existsb (N.eqb n) seen then Err (RecvInvalidMsg InvalidNonce) else Ok [deliver v])
        :: once_each deliver (n :: seen) ms
  end.

(** No number comes before one more than 10000 below it. *)
Definition in_window_of (ns : list N) : Prop :=
  forall a n b, ns = a ++ n :: b -> forall m, m + 10000 < n -> In m a.

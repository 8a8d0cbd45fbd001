(** A receiver of numbered messages, as a user would describe it: it remembers
    the numbers it delivered, refuses a number it has seen, and gives up when
    10000 numbers above the least missing one are waiting for it. *)

From Verif.Model Require Import Minimal.
From Verif.Spec Require Import Wire Datagram Trace ReadSpec Accept Session Writers.

Record receiver := { taken : list N; dead : bool }.

(** [receive R n data o R']: given message [data] numbered [n], the receiver [R]
    answers [o] and becomes [R']. *)
Inductive receive (R : receiver) (n : N) (data : bytes) : outcome (option message) -> receiver -> Prop :=
| rc_repeated : In n (taken R) ->
    receive R n data (Err (RecvInvalidMsg InvalidNonce)) R
| rc_dead : ~ In n (taken R) -> dead R = true ->
    receive R n data (Err ConnectionHadFail) R
| rc_delivered : dead R = false -> nonce_acceptable (taken R) n ->
    receive R n data (Ok (Some (MMessage (nonempty data)))) {| taken := n :: taken R; dead := false |}
| rc_too_many : dead R = false -> ~ In n (taken R) -> ~ nonce_acceptable (taken R) n ->
    receive R n data (Err TooManyUnorderedMsgs) {| taken := taken R; dead := true |}.

Inductive receives : receiver -> list (N * bytes) -> list (outcome (option message)) -> receiver -> Prop :=
| rcs_nil R : receives R [] [] R
| rcs_cons R n data o R1 ms os R2 :
    receive R n data o R1 -> receives R1 ms os R2 ->
    receives R ((n, data) :: ms) (o :: os) R2.

(** The answers of a layer to a sequence of reads. *)
Definition answers (C : Crypto) (T : target) (s : msl) (ds : list bytes) (os : list (outcome (option message)))
  (s' : msl) : Prop :=
  run C T s (map CRead ds) = (s', combine (map CRead ds) (map RMsg os)) /\ length os = length ds.

(** Each number delivered the first time it comes, refused afterwards. *)
Fixpoint once (seen : list N) (ms : list (N * bytes)) : list (outcome (option message)) :=
  match ms with
  | [] => []
  | (n, data) :: ms =>
      (if existsb (N.eqb n) seen then Err (RecvInvalidMsg InvalidNonce)
       else Ok (Some (MMessage (nonempty data)))) :: once (n :: seen) ms
  end.

(** No message comes before one more than 10000 numbers below it. *)
Definition in_window (ms : list (N * bytes)) : Prop :=
  forall a n data b, ms = a ++ (n, data) :: b -> forall m, m + 10000 < n -> In m (map fst a).

(** The protocol of [MinimalSecureLayer] as a machine: what one layer
    remembers, as a user would put it, and how it answers every call.  The
    machine knows nothing of the fields of the real layer: it keeps the list of
    the numbers it took in instead of a counter and a set, four marks instead
    of a status, and works on what a datagram is (Spec/Datagram.v). *)

From Coq Require Import Permutation.
From Verif.Model Require Import Minimal.
From Verif.Spec Require Import Wire Datagram Trace ReadSpec Accept Session Writers.

Record machine := {
  m_private : bytes;          (* ephemeral private key *)
  m_key : option bytes;       (* signature key of the peer: expected, or seen in a CONNECT *)
  m_peer : option bytes;      (* ephemeral key of the CONNECT taken in, if any *)
  m_connect_sent : bool;
  m_ack_sent : bool;
  m_ack_taken : bool;
  m_failed : bool;
  m_kept : option bytes;      (* an ACK that came before the peer's key was known *)
  m_early : list bytes;       (* clear texts of user messages that came before the ACK *)
  m_numbers : list N;         (* numbers of the user messages taken in *)
  m_written : N;              (* user messages written *)
  m_shared : bool             (* was cloned, or is a clone *)
}.

(** A layer just created. *)
Definition new_machine (private : bytes) (expected : option bytes) : machine := {|
  m_private := private; m_key := expected; m_peer := None; m_connect_sent := false;
  m_ack_sent := false; m_ack_taken := false; m_failed := false; m_kept := None;
  m_early := []; m_numbers := []; m_written := 0; m_shared := false |}.

(** The clone of a layer: it forgets the peer's signature key and the ACK
    kept, if any. *)
Definition clone_of (m : machine) : machine := {|
  m_private := m_private m; m_key := None; m_peer := m_peer m; m_connect_sent := m_connect_sent m;
  m_ack_sent := m_ack_sent m; m_ack_taken := m_ack_taken m; m_failed := m_failed m; m_kept := None;
  m_early := m_early m; m_numbers := m_numbers m; m_written := m_written m; m_shared := true |}.

(** ** Changes of one thing *)
Definition learn_key (pk : bytes) (m : machine) : machine := {|
  m_private := m_private m; m_key := Some pk; m_peer := m_peer m; m_connect_sent := m_connect_sent m;
  m_ack_sent := m_ack_sent m; m_ack_taken := m_ack_taken m; m_failed := m_failed m; m_kept := m_kept m;
  m_early := m_early m; m_numbers := m_numbers m; m_written := m_written m; m_shared := m_shared m |}.
Definition take_connect (epk : bytes) (m : machine) : machine := {|
  m_private := m_private m; m_key := m_key m; m_peer := Some epk; m_connect_sent := m_connect_sent m;
  m_ack_sent := m_ack_sent m; m_ack_taken := m_ack_taken m; m_failed := m_failed m; m_kept := m_kept m;
  m_early := m_early m; m_numbers := m_numbers m; m_written := m_written m; m_shared := m_shared m |}.
Definition send_connect (m : machine) : machine := {|
  m_private := m_private m; m_key := m_key m; m_peer := m_peer m; m_connect_sent := true;
  m_ack_sent := m_ack_sent m; m_ack_taken := m_ack_taken m; m_failed := m_failed m; m_kept := m_kept m;
  m_early := m_early m; m_numbers := m_numbers m; m_written := m_written m; m_shared := m_shared m |}.
Definition send_ack (m : machine) : machine := {|
  m_private := m_private m; m_key := m_key m; m_peer := m_peer m; m_connect_sent := m_connect_sent m;
  m_ack_sent := true; m_ack_taken := m_ack_taken m; m_failed := m_failed m; m_kept := m_kept m;
  m_early := m_early m; m_numbers := m_numbers m; m_written := m_written m; m_shared := m_shared m |}.
Definition take_ack (m : machine) : machine := {|
  m_private := m_private m; m_key := m_key m; m_peer := m_peer m; m_connect_sent := m_connect_sent m;
  m_ack_sent := m_ack_sent m; m_ack_taken := true; m_failed := m_failed m; m_kept := m_kept m;
  m_early := m_early m; m_numbers := m_numbers m; m_written := m_written m; m_shared := m_shared m |}.
Definition fail (m : machine) : machine := {|
  m_private := m_private m; m_key := m_key m; m_peer := m_peer m; m_connect_sent := m_connect_sent m;
  m_ack_sent := m_ack_sent m; m_ack_taken := m_ack_taken m; m_failed := true; m_kept := m_kept m;
  m_early := m_early m; m_numbers := m_numbers m; m_written := m_written m; m_shared := m_shared m |}.
Definition keep (d : option bytes) (m : machine) : machine := {|
  m_private := m_private m; m_key := m_key m; m_peer := m_peer m; m_connect_sent := m_connect_sent m;
  m_ack_sent := m_ack_sent m; m_ack_taken := m_ack_taken m; m_failed := m_failed m; m_kept := d;
  m_early := m_early m; m_numbers := m_numbers m; m_written := m_written m; m_shared := m_shared m |}.
Definition hold (l : list bytes) (m : machine) : machine := {|
  m_private := m_private m; m_key := m_key m; m_peer := m_peer m; m_connect_sent := m_connect_sent m;
  m_ack_sent := m_ack_sent m; m_ack_taken := m_ack_taken m; m_failed := m_failed m; m_kept := m_kept m;
  m_early := l; m_numbers := m_numbers m; m_written := m_written m; m_shared := m_shared m |}.
Definition take_number (n : N) (m : machine) : machine := {|
  m_private := m_private m; m_key := m_key m; m_peer := m_peer m; m_connect_sent := m_connect_sent m;
  m_ack_sent := m_ack_sent m; m_ack_taken := m_ack_taken m; m_failed := m_failed m; m_kept := m_kept m;
  m_early := m_early m; m_numbers := n :: m_numbers m; m_written := m_written m; m_shared := m_shared m |}.
Definition count_written (m : machine) : machine := {|
  m_private := m_private m; m_key := m_key m; m_peer := m_peer m; m_connect_sent := m_connect_sent m;
  m_ack_sent := m_ack_sent m; m_ack_taken := m_ack_taken m; m_failed := m_failed m; m_kept := m_kept m;
  m_early := m_early m; m_numbers := m_numbers m; m_written := m_written m + 1; m_shared := m_shared m |}.
Definition share (m : machine) : machine := {|
  m_private := m_private m; m_key := m_key m; m_peer := m_peer m; m_connect_sent := m_connect_sent m;
  m_ack_sent := m_ack_sent m; m_ack_taken := m_ack_taken m; m_failed := m_failed m; m_kept := m_kept m;
  m_early := m_early m; m_numbers := m_numbers m; m_written := m_written m; m_shared := true |}.

(** The machine that took in the same messages in another order. *)
Definition reordered (ns : list N) (m : machine) : machine := {|
  m_private := m_private m; m_key := m_key m; m_peer := m_peer m; m_connect_sent := m_connect_sent m;
  m_ack_sent := m_ack_sent m; m_ack_taken := m_ack_taken m; m_failed := m_failed m; m_kept := m_kept m;
  m_early := m_early m; m_numbers := ns; m_written := m_written m; m_shared := m_shared m |}.
Definition alike (m m' : machine) : Prop :=
  exists ns, Permutation (m_numbers m) ns /\ m' = reordered ns m.

(** Everything was exchanged: our CONNECT, our ACK, the peer's CONNECT and the
    peer's ACK. *)
Definition complete (m : machine) : Prop :=
  m_connect_sent m = true /\ m_ack_sent m = true /\ m_ack_taken m = true /\ m_peer m <> None.

(** Everything but the peer's ACK. *)
Definition lacks_only_ack (m : machine) : Prop :=
  m_connect_sent m = true /\ m_ack_sent m = true /\ m_ack_taken m = false /\ m_peer m <> None.

Section WithEnv.
Context (C : Crypto) (T : target).

Definition secret (m : machine) : option secret_key :=
  match m_peer m with Some epk => derived_secret C (m_private m) epk | None => None end.

(** What the application gets of a message taken in. *)
Definition as_message (k : content) (cd : bytes) : message :=
  match k with
  | KConnect _ pk => MConnect [x00; x00; x00; x00] pk (nonempty cd)
  | KAck _ => MAck (nonempty cd)
  | KUser _ => MMessage (nonempty cd)
  end.

(** The message is handed over, unless the announced end of the message lies
    inside its headers: then the call panics. *)
Inductive handed (text : bytes) (L : N) (k : content) : outcome (option message) -> Prop :=
| hd_message hs cd tail : text = hs ++ cd ++ tail -> len hs = 16 + headers_size k ->
    len (hs ++ cd) = text_end T L -> handed text L k (Ok (Some (as_message k cd)))
| hd_inside p : text_end T L < 16 + headers_size k -> handed text L k (Panic p).

(** ** A well-formed frame [text] with length field [L], which came as the
    datagram [d] *)
Inductive judged (m : machine) (d text : bytes) (L : N) :
  content -> outcome (option message) -> machine -> Prop :=
(* CONNECT *)
| ju_other_key epk pk key :
    m_key m = Some key -> key <> pk ->
    judged m d text L (KConnect epk pk) (Err UnexpectedRemoteSigPubKey) m
| ju_connect_cut epk pk p :
    m_key m = None \/ m_key m = Some pk -> len text < text_end T L ->
    judged m d text L (KConnect epk pk) (Panic p) (learn_key pk m)
| ju_connect_forged epk pk :
    m_key m = None \/ m_key m = Some pk -> text_end T L <= len text -> ~ signed_by C T pk text L ->
    judged m d text L (KConnect epk pk) (Err (RecvInvalidMsg InvalidHashOrSig)) (learn_key pk m)
| ju_connect_failed epk pk :
    m_key m = None \/ m_key m = Some pk -> signed_by C T pk text L -> m_failed m = true ->
    judged m d text L (KConnect epk pk) (Err ConnectionHadFail) (learn_key pk m)
| ju_connect_again epk pk :
    m_key m = None \/ m_key m = Some pk -> signed_by C T pk text L -> m_failed m = false ->
    m_peer m <> None ->
    judged m d text L (KConnect epk pk) (Err (RecvInvalidMsg UnexpectedConnectMsg)) (fail (learn_key pk m))
| ju_connect_useless epk pk :
    m_key m = None \/ m_key m = Some pk -> signed_by C T pk text L -> m_failed m = false ->
    m_peer m = None -> derived_secret C (m_private m) epk = None ->
    judged m d text L (KConnect epk pk) (Err FailToComputeAgreement) (take_connect epk (learn_key pk m))
| ju_connect epk pk key o :
    m_key m = None \/ m_key m = Some pk -> signed_by C T pk text L -> m_failed m = false ->
    m_peer m = None -> derived_secret C (m_private m) epk = Some key -> handed text L (KConnect epk pk) o ->
    judged m d text L (KConnect epk pk) o (take_connect epk (learn_key pk m))
(* ACK *)
| ju_other_challenge ch :
    ch <> sha256 C (x25519_public C (m_private m)) ->
    judged m d text L (KAck ch) (Err (RecvInvalidMsg InvalidChallenge)) m
| ju_ack_kept ch :
    ch = sha256 C (x25519_public C (m_private m)) -> m_key m = None -> m_kept m = None ->
    judged m d text L (KAck ch) (Ok None) (keep (Some d) m)
| ju_ack_kept_twice ch d0 :
    ch = sha256 C (x25519_public C (m_private m)) -> m_key m = None -> m_kept m = Some d0 ->
    judged m d text L (KAck ch) (Err (RecvInvalidMsg UnexpectedAckMsg)) (fail m)
| ju_ack_cut ch pk p :
    ch = sha256 C (x25519_public C (m_private m)) -> m_key m = Some pk -> len text < text_end T L ->
    judged m d text L (KAck ch) (Panic p) m
| ju_ack_forged ch pk :
    ch = sha256 C (x25519_public C (m_private m)) -> m_key m = Some pk ->
    text_end T L <= len text -> ~ signed_by C T pk text L ->
    judged m d text L (KAck ch) (Err (RecvInvalidMsg InvalidHashOrSig)) m
| ju_ack_failed ch pk :
    ch = sha256 C (x25519_public C (m_private m)) -> m_key m = Some pk -> signed_by C T pk text L ->
    m_failed m = true ->
    judged m d text L (KAck ch) (Err ConnectionHadFail) m
| ju_ack_again ch pk :
    ch = sha256 C (x25519_public C (m_private m)) -> m_key m = Some pk -> signed_by C T pk text L ->
    m_failed m = false -> m_connect_sent m = false \/ m_ack_taken m = true ->
    judged m d text L (KAck ch) (Err (RecvInvalidMsg UnexpectedAckMsg)) (fail m)
| ju_ack ch pk o :
    ch = sha256 C (x25519_public C (m_private m)) -> m_key m = Some pk -> signed_by C T pk text L ->
    m_failed m = false -> m_connect_sent m = true -> m_ack_taken m = false -> handed text L (KAck ch) o ->
    judged m d text L (KAck ch) o (take_ack m)
(* user message *)
| ju_repeated n :
    In n (m_numbers m) ->
    judged m d text L (KUser n) (Err (RecvInvalidMsg InvalidNonce)) m
| ju_user_failed n :
    ~ In n (m_numbers m) -> m_failed m = true ->
    judged m d text L (KUser n) (Err ConnectionHadFail) m
| ju_user_early n :
    ~ In n (m_numbers m) -> m_failed m = false -> lacks_only_ack m ->
    judged m d text L (KUser n) (Ok None) (hold (m_early m ++ [text]) m)
| ju_user_too_early n :
    ~ In n (m_numbers m) -> m_failed m = false -> ~ lacks_only_ack m -> ~ complete m ->
    judged m d text L (KUser n) (Err (RecvInvalidMsg UnexpectedMessage)) (fail m)
| ju_user_cut n p :
    ~ In n (m_numbers m) -> m_failed m = false -> complete m -> len text < text_end T L ->
    judged m d text L (KUser n) (Panic p) m
| ju_user_forged n :
    ~ In n (m_numbers m) -> m_failed m = false -> complete m ->
    text_end T L <= len text -> ~ hash_ok C T text L ->
    judged m d text L (KUser n) (Err (RecvInvalidMsg InvalidHashOrSig)) m
| ju_user_too_many n :
    ~ In n (m_numbers m) -> m_failed m = false -> complete m -> hash_ok C T text L ->
    ~ nonce_acceptable (m_numbers m) n ->
    judged m d text L (KUser n) (Err TooManyUnorderedMsgs) (fail m)
| ju_user n o :
    m_failed m = false -> complete m -> hash_ok C T text L ->
    nonce_acceptable (m_numbers m) n -> handed text L (KUser n) o ->
    judged m d text L (KUser n) o (take_number n m).

(** A datagram. *)
Inductive reads (m : machine) (d : bytes) : outcome (option message) -> machine -> Prop :=
| re_cut p : datagram T C (secret m) d DPanic -> reads m d (Panic p) m
| re_reject e : datagram T C (secret m) d (DReject e) -> reads m d (Err (RecvInvalidMsg e)) (fail m)
| re_undecryptable : datagram T C (secret m) d DUndecryptable ->
    reads m d (Err (FailToDecryptData DecTagMismatch)) (fail m)
| re_frame text L k o m' : datagram T C (secret m) d (DFrame text L k) -> judged m d text L k o m' ->
    reads m d o m'.

(** The early messages, one after the other, until one is refused; the rest is
    lost with it. *)
Inductive drains : machine -> list bytes -> outcome (list message) -> machine -> Prop :=
| dr_end m : drains m [] (Ok []) m
| dr_message m text L n x m1 rest l m2 :
    text_class T text (DFrame text L (KUser n)) -> judged m text text L (KUser n) (Ok (Some x)) m1 ->
    drains m1 rest (Ok l) m2 -> drains m (text :: rest) (Ok (x :: l)) m2
| dr_nothing m text L n m1 rest l m2 :
    text_class T text (DFrame text L (KUser n)) -> judged m text text L (KUser n) (Ok None) m1 ->
    drains m1 rest (Ok l) m2 -> drains m (text :: rest) (Ok l) m2
| dr_err m text L n e m1 rest :
    text_class T text (DFrame text L (KUser n)) -> judged m text text L (KUser n) (Err e) m1 ->
    drains m (text :: rest) (Err e) m1
| dr_panic m text L n p p' m1 rest :
    text_class T text (DFrame text L (KUser n)) -> judged m text text L (KUser n) (Panic p) m1 ->
    drains m (text :: rest) (Panic p') m1
| dr_later_err m text L n o m1 rest e m2 :
    text_class T text (DFrame text L (KUser n)) -> judged m text text L (KUser n) (Ok o) m1 ->
    drains m1 rest (Err e) m2 -> drains m (text :: rest) (Err e) m2
| dr_later_panic m text L n o m1 rest p m2 :
    text_class T text (DFrame text L (KUser n)) -> judged m text text L (KUser n) (Ok o) m1 ->
    drains m1 rest (Panic p) m2 -> drains m (text :: rest) (Panic p) m2.

(** ** The answers to every call *)
Inductive step (m : machine) : call -> reply -> machine -> Prop :=
| st_read d o m' : reads m d o m' -> step m (CRead d) (RMsg o) m'
| st_take_nothing : m_kept m = None -> step m CTakeAck (RMsg (Ok None)) m
| st_take d o m' : m_kept m = Some d -> reads (keep None m) d o m' -> step m CTakeAck (RMsg o) m'
| st_drain o m' : drains (hold [] m) (m_early m) o m' -> step m CDrain (RMsgs o) m'
(* CONNECT and ACK, each once, the ACK after the peer's CONNECT *)
| st_connect pk cd : m_failed m = false -> m_connect_sent m = false ->
    step m (CConnect pk cd)
      (RBytes (Ok (connect_frame (x25519_public C (m_private m)) pk (custom cd)))) (send_connect m)
| st_connect_again pk cd : m_failed m = false -> m_connect_sent m = true ->
    step m (CConnect pk cd) (RBytes (Err ConnectMsgAlreadyWritten)) m
| st_connect_failed pk cd : m_failed m = true ->
    step m (CConnect pk cd) (RBytes (Err ConnectionHadFail)) m
| st_ack epk cd : m_failed m = false -> m_peer m = Some epk -> m_ack_sent m = false ->
    step m (CAck cd) (RBytes (Ok (ack_frame (sha256 C epk) (custom cd)))) (send_ack m)
| st_ack_not_now cd : m_failed m = false -> m_peer m = None \/ m_ack_sent m = true ->
    step m (CAck cd) (RBytes (Err ForbidWriteAckMsgNow)) m
| st_ack_failed cd : m_failed m = true ->
    step m (CAck cd) (RBytes (Err ConnectionHadFail)) m
(* user messages *)
| st_write data w key w' : m_failed m = false -> complete m -> secret m = Some key ->
    (exists i, output w' = output w ++ firstn i (user_datagram C key (m_written m) data)) ->
    (takes_all w \/ 16 < bw_cap w -> output w' = output w ++ user_datagram C key (m_written m) data) ->
    step m (CWrite data w) (RWritten (Ok tt) w') (count_written m)
| st_write_io data w key io w' : m_failed m = false -> complete m -> secret m = Some key ->
    ~ takes_all w -> writer_error w io ->
    (exists i, output w' = output w ++ firstn i (user_datagram C key (m_written m) data)) ->
    step m (CWrite data w) (RWritten (Err (FailToEncryptData io)) w') (fail m)
| st_write_no_key data w p : m_failed m = false -> complete m -> secret m = None ->
    step m (CWrite data w) (RWritten (Panic p) w) m
| st_write_too_early data w : m_failed m = false -> ~ complete m ->
    step m (CWrite data w) (RWritten (Err NegoMustHaveBeenSuccessful) w) (fail m)
| st_write_failed data w : m_failed m = true ->
    step m (CWrite data w) (RWritten (Err ConnectionHadFail) w) m
(* clones *)
| st_clone c : m_failed m = false -> complete m -> step m CClone (RClone (Ok c)) (share m)
| st_clone_refused : m_failed m = true \/ ~ complete m ->
    step m CClone (RClone (Err NegoMustHaveBeenSuccessful)) m
| st_config cfg : m_shared m = false -> step m (CConfig cfg) (RUnit (Ok tt)) m
| st_config_refused cfg : m_shared m = true ->
    step m (CConfig cfg) (RUnit (Err ForbidChangeConfAfterClone)) m.

(** A history the machine can show. *)
Inductive shows : machine -> history -> machine -> Prop :=
| sh_nil m : shows m [] m
| sh_cons m c r m1 h m2 : step m c r m1 -> shows m1 h m2 -> shows m ((c, r) :: h) m2.

(** [embodies s m k]: the layer [s] was created, used and cloned as the machine
    [m] was, with [k] calls on the way. *)
Inductive embodies : msl -> machine -> N -> Prop :=
| em_create private cfg expected s :
    create C (RngKey private) cfg expected = Ok s -> embodies s (new_machine private expected) 0
| em_run s m k cs s' h m' :
    embodies s m k -> run C T s cs = (s', h) -> shows m h m' -> embodies s' m' (k + len h)
| em_clone s m k c :
    embodies s m k -> snd (try_clone s) = Ok c -> embodies c (clone_of m) k.

End WithEnv.

(** ** The same answer, up to the text of panics, what a clone is made of and
    how a writer splits what it was given *)
Definition same_outcome {A} (o o' : outcome A) : Prop :=
  match o, o' with
  | Ok x, Ok x' => x = x'
  | Err e, Err e' => e = e'
  | Panic _, Panic _ => True
  | _, _ => False
  end.
Definition same_reply (r r' : reply) : Prop :=
  match r, r' with
  | RMsg o, RMsg o' => same_outcome o o'
  | RMsgs o, RMsgs o' => same_outcome o o'
  | RBytes o, RBytes o' => same_outcome o o'
  | RWritten o w, RWritten o' w' => same_outcome o o' /\ output w = output w'
  | RClone (Ok _), RClone (Ok _) => True
  | RClone (Ok _), RClone _ | RClone _, RClone (Ok _) => False
  | RClone o, RClone o' => same_outcome o o'
  | RUnit o, RUnit o' => same_outcome o o'
  | _, _ => False
  end.

(** Every writer of the history takes all it is given. *)
Definition good_writers (cs : list call) : Prop :=
  forall data w, In (CWrite data w) cs -> takes_all w.

(** The answer to a call is a user message. *)
Definition user_answer (e : event) : Prop := exists o, snd e = RMsg (Ok (Some (MMessage o))).

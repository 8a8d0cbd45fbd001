(** [SecureLayer] as a machine: the machine of Spec/Machine.v, with the signing
    key and the configuration; its binary and its typed methods. *)

From Verif.Model Require Import Serde.
From Verif.Spec Require Import Wire Datagram Trace ReadSpec Accept Session Writers CompleteTrace Typed TypedTrace Machine.

Record smachine := {
  sm_layer : machine;
  sm_seed : option bytes;     (* signing key; a clone has none *)
  sm_config : config
}.

Definition with_layer (x : smachine) (m : machine) : smachine :=
  {| sm_layer := m; sm_seed := sm_seed x; sm_config := sm_config x |}.
Definition new_smachine (private seed : bytes) (expected : option bytes) (cfg : config) : smachine :=
  {| sm_layer := new_machine private expected; sm_seed := Some seed; sm_config := cfg |}.
Definition sclone_of (x : smachine) : smachine :=
  {| sm_layer := clone_of (sm_layer x); sm_seed := None; sm_config := sm_config x |}.

Definition salike (x x' : smachine) : Prop :=
  alike (sm_layer x) (sm_layer x') /\ sm_seed x = sm_seed x' /\ sm_config x = sm_config x'.

Section WithEnv.
Context (C : Crypto) (Z : Zip) (T : target).

(** A payload as it is sent. *)
Definition packed_as (cfg : config) (d : bytes) : bytes :=
  deflate Z (if len d <? cfg_compression_min_size cfg then 0 else cfg_compression cfg) d.

(** A message whose payload cannot be inflated. *)
Definition spoilt (x : message) (z : io_error) : Prop :=
  exists p, match x with MConnect _ _ o | MAck o | MMessage o => o end = Some p /\ inflate Z p = inr z.

(** Messages inflated one after the other, until one cannot be. *)
Inductive unpacked : list message -> outcome (list incoming_binary_message) -> Prop :=
| up_nil : unpacked [] (Ok [])
| up_cons x i l l' : decodes Z x i -> unpacked l (Ok l') -> unpacked (x :: l) (Ok (i :: l'))
| up_spoilt x l z : spoilt x z -> unpacked (x :: l) (Err (ZipError z))
| up_later x i l e : decodes Z x i -> unpacked l (Err e) -> unpacked (x :: l) (Err e).

(** The CONNECT or the ACK read, and what a second call on the layer gave. *)
Inductive together (i : incoming_binary_message) :
  outcome (list message) -> outcome (list incoming_binary_message) -> Prop :=
| to_all l l' : unpacked l (Ok l') -> together i (Ok l) (Ok (i :: l'))
| to_spoilt l e : unpacked l (Err e) -> together i (Ok l) (Err e)
| to_err e : together i (Err e) (Err e)
| to_panic p : together i (Panic p) (Panic p).
Definition at_most_one (o : outcome (option message)) : outcome (list message) :=
  match o with
  | Ok None => Ok []
  | Ok (Some x) => Ok [x]
  | Err e => Err e
  | Panic p => Panic p
  end.

(** [read_bin] *)
Inductive sreads (m : machine) (d : bytes) : outcome (list incoming_binary_message) -> machine -> Prop :=
| sr_err e m1 : reads C T m d (Err e) m1 -> sreads m d (Err e) m1
| sr_panic p m1 : reads C T m d (Panic p) m1 -> sreads m d (Panic p) m1
| sr_nothing m1 : reads C T m d (Ok None) m1 -> sreads m d (Ok []) m1
| sr_spoilt x z m1 : reads C T m d (Ok (Some x)) m1 -> spoilt x z -> sreads m d (Err (ZipError z)) m1
| sr_message c i m1 : reads C T m d (Ok (Some (MMessage c))) m1 -> decodes Z (MMessage c) i ->
    sreads m d (Ok [i]) m1
| sr_connect a pk c i m1 o m2 r :
    reads C T m d (Ok (Some (MConnect a pk c))) m1 -> decodes Z (MConnect a pk c) i ->
    step C T m1 CTakeAck (RMsg o) m2 -> together i (at_most_one o) r ->
    sreads m d r m2
| sr_ack c i m1 o m2 r :
    reads C T m d (Ok (Some (MAck c))) m1 -> decodes Z (MAck c) i ->
    step C T m1 CDrain (RMsgs o) m2 -> together i o r ->
    sreads m d r m2.

(** A CONNECT or ACK [t] with its signature [sg], each given to the writer in
    one call. *)
Definition posted (w : bufwriter) (t sg : bytes) (o : outcome unit) (w' : bufwriter) : Prop :=
  (o = Ok tt \/ o = Err BufferFlushError) /\
  (exists i j, output w' = output w ++ firstn i t ++ firstn j sg) /\
  (takes_all w -> o = Ok tt /\ output w' = output w ++ t ++ sg).

(** ** The answers to every call *)
Inductive sstep (x : smachine) : scall -> sreply -> smachine -> Prop :=
| ss_read d o m' : sreads (sm_layer x) d o m' -> sstep x (SRead d) (SMsgs o) (with_layer x m')
| ss_connect seed cd w t m' o w' : sm_seed x = Some seed ->
    step C T (sm_layer x) (CConnect (ed25519_public C seed) (option_map (packed_as (sm_config x)) cd)) (RBytes (Ok t)) m' ->
    posted w t (ed25519_sign C seed t) o w' ->
    sstep x (SConnect cd w) (SWritten o w') (with_layer x m')
| ss_connect_err seed cd w e m' : sm_seed x = Some seed ->
    step C T (sm_layer x) (CConnect (ed25519_public C seed) (option_map (packed_as (sm_config x)) cd)) (RBytes (Err e)) m' ->
    sstep x (SConnect cd w) (SWritten (Err e) w) (with_layer x m')
| ss_connect_clone cd w : sm_seed x = None ->
    sstep x (SConnect cd w) (SWritten (Err ConnectMsgAlreadyWritten) w) x
| ss_ack seed cd w t m' o w' : sm_seed x = Some seed ->
    step C T (sm_layer x) (CAck (option_map (packed_as (sm_config x)) cd)) (RBytes (Ok t)) m' ->
    posted w t (ed25519_sign C seed t) o w' ->
    sstep x (SAck cd w) (SWritten o w') (with_layer x m')
| ss_ack_err seed cd w e m' : sm_seed x = Some seed ->
    step C T (sm_layer x) (CAck (option_map (packed_as (sm_config x)) cd)) (RBytes (Err e)) m' ->
    sstep x (SAck cd w) (SWritten (Err e) w) (with_layer x m')
| ss_ack_clone cd w : sm_seed x = None ->
    sstep x (SAck cd w) (SWritten (Err ConnectMsgAlreadyWritten) w) x
| ss_write data w o w' m' :
    step C T (sm_layer x) (CWrite (packed_as (sm_config x) data) w) (RWritten o w') m' ->
    sstep x (SWrite data w) (SWritten o w') (with_layer x m')
| ss_clone c m' : step C T (sm_layer x) CClone (RClone (Ok (minimal c))) m' ->
    sstep x SClone (SCloned (Ok c)) (with_layer x m')
| ss_clone_err e m' : step C T (sm_layer x) CClone (RClone (Err e)) m' ->
    sstep x SClone (SCloned (Err e)) (with_layer x m')
| ss_config cfg : step C T (sm_layer x) (CConfig cfg) (RUnit (Ok tt)) (sm_layer x) ->
    sstep x (SConfig cfg) (SUnit (Ok tt)) {| sm_layer := sm_layer x; sm_seed := sm_seed x; sm_config := cfg |}
| ss_config_err cfg e : step C T (sm_layer x) (CConfig cfg) (RUnit (Err e)) (sm_layer x) ->
    sstep x (SConfig cfg) (SUnit (Err e)) x.

Inductive sshows : smachine -> shistory -> smachine -> Prop :=
| ssh_nil x : sshows x [] x
| ssh_cons x c r x1 h x2 : sstep x c r x1 -> sshows x1 h x2 -> sshows x ((c, r) :: h) x2.

(** [sembodies s x k]: the layer [s] was created, used and cloned as the machine
    [x] was, with [k] calls on the way. *)
Inductive sembodies : secure_layer -> smachine -> N -> Prop :=
| se_create private rs cfg given expected seed s :
    sl_create C (RngKey private) rs cfg given expected = Ok s ->
    given = Some seed \/ given = None /\ rs = Some seed ->
    sembodies s (new_smachine private seed expected cfg) 0
| se_run s x k cs s' h x' :
    sembodies s x k -> srun C Z T s cs = (s', h) -> sshows x h x' -> sembodies s' x' (k + len h)
| se_clone s x k c :
    sembodies s x k -> snd (sl_try_clone s) = Ok c -> sembodies c (sclone_of x) k.

(** ** Typed calls: the binary calls they stand for (Spec/TypedTrace.v) *)
Inductive tstep (F : features) {M : Type} (K : Codec M) (x : smachine) : tcall M -> treply M -> smachine -> Prop :=
| ts_calls c r h x' :
    tprojects F K (cfg_message_format (sm_config x)) (c, r) h -> sshows x h x' -> tstep F K x c r x'.
Inductive tshows (F : features) {M : Type} (K : Codec M) : smachine -> thistory -> smachine -> Prop :=
| tsh_nil x : tshows F K x [] x
| tsh_cons x c r x1 h x2 : tstep F K x c r x1 -> tshows F K x1 h x2 -> tshows F K x ((c, r) :: h) x2.

End WithEnv.

Definition same_sreply (r r' : sreply) : Prop :=
  match r, r' with
  | SMsgs o, SMsgs o' => same_outcome o o'
  | SWritten o w, SWritten o' w' => same_outcome o o' /\ output w = output w'
  | SCloned (Ok _), SCloned (Ok _) => True
  | SCloned (Ok _), SCloned _ | SCloned _, SCloned (Ok _) => False
  | SCloned o, SCloned o' => same_outcome o o'
  | SUnit o, SUnit o' => same_outcome o o'
  | _, _ => False
  end.

Definition sgood_writers (cs : list scall) : Prop :=
  forall w, (forall x, In (SConnect x w) cs \/ In (SAck x w) cs -> takes_all w) /\
            (forall x, In (SWrite x w) cs -> takes_all w).

Definition same_treply {M} (r r' : treply M) : Prop :=
  match r, r' with
  | TMsgs o, TMsgs o' => same_outcome o o'
  | TOther r, TOther r' => same_sreply r r'
  | _, _ => False
  end.
Definition tgood_writers {M} (cs : list (tcall M)) : Prop :=
  forall c k v w, In c cs -> writing c = Some (k, v, w) -> takes_all w.

(** The answer to a call, typed or binary, is one user message. *)
Definition tuser_answer {M} (e : tcall M * treply M) : Prop := exists v, items (snd e) = [(KindMessage, v, [])].

(** Histories of one [SecureLayer] used through its typed methods, its binary
    methods, or both. *)

From Verif.Model Require Import Serde.
From Verif.Spec Require Import Wire Datagram Trace ReadSpec Accept Session Writers CompleteTrace Typed.

Inductive tcall (M : Type) :=
| VRead (incoming : bytes)                       (* read, complete.rs:181 *)
| VConnect (cd : option M) (w : bufwriter)       (* write_connect_msg, :247 *)
| VAck (cd : option M) (w : bufwriter)           (* write_ack_msg, :215 *)
| VWrite (m : M) (w : bufwriter)                 (* write, :265 *)
| VBin (c : scall).                              (* a binary method *)
Arguments VRead {M}. Arguments VConnect {M}. Arguments VAck {M}. Arguments VWrite {M}. Arguments VBin {M}.

Inductive treply (M : Type) :=
| TMsgs (o : outcome (list (incoming_message M)))
| TOther (r : sreply).
Arguments TMsgs {M}. Arguments TOther {M}.

Section WithEnv.
Context (C : Crypto) (Z : Zip) (T : target) (F : features).
Context {M : Type} (K : Codec M).

Definition thistory := list (tcall M * treply M).

Definition tcall_step (s : secure_layer) (c : tcall M) : secure_layer * treply M :=
  match c with
  | VRead d => let '(s, o) := sl_read C Z T F K d s in (s, TMsgs o)
  | VConnect cd w => let '(s, w, o) := sl_write_connect_msg C Z K cd s w in (s, TOther (SWritten o w))
  | VAck cd w => let '(s, w, o) := sl_write_ack_msg C Z K cd s w in (s, TOther (SWritten o w))
  | VWrite m w => let '(s, w, o) := sl_write C Z T K m s w in (s, TOther (SWritten o w))
  | VBin c => let '(s, r) := scall_step C Z T s c in (s, TOther r)
  end.

Fixpoint trun (s : secure_layer) (cs : list (tcall M)) : secure_layer * thistory :=
  match cs with
  | [] => (s, [])
  | c :: cs =>
      let '(s, r) := tcall_step s c in
      let '(s, h) := trun s cs in
      (s, (c, r) :: h)
  end.

(** ** Typed histories in terms of binary ones *)

(** [p] is the value [m] in format [f]: header, then what the back end makes of it. *)
Definition encoded (f : message_format) (m : M) (p : bytes) : Prop :=
  exists en b, encoder K f = Some en /\ en m = inl b /\ p = header f ++ b.
Definition encoded_opt (f : message_format) (x : option M) (o : option bytes) : Prop :=
  match x, o with
  | None, None => True
  | Some m, Some p => encoded f m p
  | _, _ => False
  end.

(** [m] cannot be put in format [f]: what the call answers instead. *)
Definition unencodable (f : message_format) (m : M) (o : outcome unit) : Prop :=
  (exists e, unserialisable K m f e /\ o = Err e) \/
  (f = Utf8PlainText /\ o = Panic PUnimplemented).

(** One typed call with its reply, and the binary calls it stands for; [f] is the
    configured format. *)
Inductive tprojects (f : message_format) : tcall M * treply M -> shistory -> Prop :=
| tp_bin c r : tprojects f (VBin c, TOther r) [(c, r)]
| tp_read d l o : typed_result F K l o -> tprojects f (VRead d, TMsgs o) [(SRead d, SMsgs (Ok l))]
| tp_read_error d e : tprojects f (VRead d, TMsgs (Err e)) [(SRead d, SMsgs (Err e))]
| tp_read_panic d p : tprojects f (VRead d, TMsgs (Panic p)) [(SRead d, SMsgs (Panic p))]
| tp_connect x w o r : encoded_opt f x o -> tprojects f (VConnect x w, TOther r) [(SConnect o w, r)]
| tp_ack x w o r : encoded_opt f x o -> tprojects f (VAck x w, TOther r) [(SAck o w, r)]
| tp_write m w p r : encoded f m p -> tprojects f (VWrite m w, TOther r) [(SWrite p w, r)]
| tp_connect_not m w o : unencodable f m o -> tprojects f (VConnect (Some m) w, TOther (SWritten o w)) []
| tp_ack_not m w o : unencodable f m o -> tprojects f (VAck (Some m) w, TOther (SWritten o w)) []
| tp_write_not m w o : unencodable f m o -> tprojects f (VWrite m w, TOther (SWritten o w)) [].

(** The configuration after some binary calls. *)
Definition config_after (cfg : config) (h : shistory) : config :=
  fold_left (fun cfg e => match e with (SConfig c, SUnit (Ok _)) => c | _ => cfg end) h cfg.

(** A typed history and the binary history it stands for, from configuration [cfg]. *)
Inductive erases : config -> thistory -> shistory -> Prop :=
| er_nil cfg : erases cfg [] []
| er_cons cfg e th h sh :
    tprojects (cfg_message_format cfg) e h -> erases (config_after cfg h) th sh ->
    erases cfg (e :: th) (h ++ sh).

(** ** What is written and returned, through either interface *)

(** A value given to a typed method, or the bytes given to a binary one. *)
Definition content : Type := (M + bytes)%type.

Inductive kind := KindConnect | KindAck | KindMessage.

(** The kind, content and writer of a writing call. *)
Definition typed_content (x : option M) : option content := match x with Some m => Some (inl m) | None => None end.
Definition raw_content (x : option bytes) : option content := match x with Some p => Some (inr p) | None => None end.
Definition writing (c : tcall M) : option (kind * option content * bufwriter) :=
  match c with
  | VConnect x w => Some (KindConnect, typed_content x, w)
  | VAck x w => Some (KindAck, typed_content x, w)
  | VWrite m w => Some (KindMessage, typed_content (Some m), w)
  | VBin (SConnect x w) => Some (KindConnect, raw_content x, w)
  | VBin (SAck x w) => Some (KindAck, raw_content x, w)
  | VBin (SWrite p w) => Some (KindMessage, raw_content (Some p), w)
  | _ => None
  end.

(** The messages a reply returns: kind, content, and the key of a CONNECT. *)
Definition typed_item (t : incoming_message M) : kind * option content * bytes :=
  match t with
  | TMConnect x pk => (KindConnect, typed_content x, pk)
  | TMAck x => (KindAck, typed_content x, [])
  | TMMessage x => (KindMessage, typed_content x, [])
  end.
Definition raw_item (i : incoming_binary_message) : kind * option content * bytes :=
  match i with
  | IConnect x pk => (KindConnect, raw_content x, pk)
  | IAck x => (KindAck, raw_content x, [])
  | IMessage x => (KindMessage, raw_content x, [])
  end.
Definition items (r : treply M) : list (kind * option content * bytes) :=
  match r with
  | TMsgs (Ok l) => map typed_item l
  | TOther (SMsgs (Ok l)) => map raw_item l
  | _ => []
  end.

(** What may be returned for what was written: the same value; the same bytes;
    the bytes of the value in some format; the value the bytes decode to. *)
Definition arrives_as (v v' : content) : Prop :=
  match v, v' with
  | inl m, inl m' => m' = m
  | inr p, inr p' => p' = p
  | inl m, inr p => exists f, encoded f m p
  | inr p, inl m => payload_result F K p (Ok m)
  end.
Definition arrives_as_opt (v v' : option content) : Prop :=
  match v, v' with
  | None, None => True
  | Some v, Some v' => arrives_as v v'
  | _, _ => False
  end.

(** The contents of the user messages returned and written along a history. *)
Definition treceived (h : thistory) : list (option content) :=
  flat_map (fun e => flat_map (fun i => match i with (KindMessage, v, _) => [v] | _ => [] end) (items (snd e))) h.
Definition twritten (h : thistory) : list (option content) :=
  flat_map (fun e => match writing (fst e), snd e with
                     | Some (KindMessage, v, _), TOther (SWritten (Ok _) _) => [v]
                     | _, _ => []
                     end) h.

(** The datagrams given to either [read]. *)
Definition tread (h : thistory) (d : bytes) : Prop :=
  exists r, In (VRead d, r) h \/ In (VBin (SRead d), r) h.
Definition treturned (h : thistory) (k : kind) (v : option content) (pk : bytes) : Prop :=
  exists e, In e h /\ In (k, v, pk) (items (snd e)).

Definition tnever_panics (h : thistory) : Prop :=
  forall e, In e h -> match snd e with TMsgs (Panic _) => False | TOther r => spanics r = false | _ => True end.

(** ** Layers of several owners (as in Spec/CompleteAdversary.v) *)
Record tsession := {
  ts_sk : bytes;
  ts_seed : bytes;
  ts_conf : config;
  ts_pin : option bytes;
  ts_state : secure_layer;
  ts_log : thistory
}.

Definition tgenuine (x : tsession) : Prop :=
  exists rs given s0 cs,
    (given = Some (ts_seed x) \/ given = None /\ rs = Some (ts_seed x)) /\
    sl_create C (RngKey (ts_sk x)) rs (ts_conf x) given (ts_pin x) = Ok s0 /\
    trun s0 cs = (ts_state x, ts_log x).

Definition tepk (x : tsession) : bytes := x25519_public C (ts_sk x).
Definition tkey (x : tsession) : option secret_key := session_key (minimal (ts_state x)).

(** A call of [x] that writes a message of kind [k] and content [v] put the
    bytes [d] at the end of a writer. *)
Definition tput (x : tsession) (k : kind) (v : option content) (d : bytes) : Prop :=
  exists c w w', In (c, TOther (SWritten (Ok tt) w')) (ts_log x) /\ writing c = Some (k, v, w) /\
    takes_all w /\ output w' = output w ++ d.

Definition towned (seed : bytes) (B : tsession -> Prop) : Prop :=
  forall b, B b -> tgenuine b /\ ts_seed b = seed.

Definition tunforged (seed : bytes) (B : tsession -> Prop) (h : thistory) : Prop :=
  forall t sig, tread h (t ++ sig) -> ed25519_verify C (ed25519_public C seed) t sig = true ->
    exists b k v, B b /\ k <> KindMessage /\ tput b k v (t ++ ed25519_sign C seed t).

Definition tunforged_tags (k : secret_key) (W : tsession -> Prop) (h : thistory) : Prop :=
  forall text, tread h (seal C k text) ->
    exists b v, W b /\ tkey b = Some k /\ tput b KindMessage v (seal C k text).

Definition tpeer_is (a : tsession) (pk : bytes) : Prop :=
  ts_pin a = Some pk \/ exists v, treturned (ts_log a) KindConnect v pk.

End WithEnv.

(** src/complete.rs, src/complete/message.rs, src/complete/writer.rs:
    [SecureLayer]. *)

From Verif.Model Require Export Minimal.

(** flate2, called from src/complete.rs:62-92 and 187-193: DEFLATE at a level,
    and inflation, which can fail.  Not /repo code. *)
Record Zip := {
  deflate : compression -> bytes -> bytes;
  inflate : bytes -> bytes + io_error
}.

(** Functional correctness of flate2. *)
Record ZipLaws (Z : Zip) : Prop := {
  law_inflate_deflate : forall l b, inflate Z (deflate Z l b) = inl b;
  (** a DEFLATE stream holds at least one block header *)
  law_deflate_nonempty : forall l b, deflate Z l b <> []
}.

(** src/complete.rs:41-44.  The key pair is the 32-byte seed it comes from. *)
Record secure_layer := {
  minimal : msl;
  sig_key_pair : option bytes
}.

(** src/complete/message.rs:21-39 *)
Inductive incoming_binary_message :=
| IConnect (custom_data : option bytes) (peer_sig_public_key : bytes)
| IAck (custom_data : option bytes)
| IMessage (data : option bytes).

Section WithEnv.
Context (C : Crypto) (Z : Zip) (T : target).

(** [self.minimal_secure_layer] after a [&mut] call on it, the key pair kept:
    every method of src/complete.rs:46-281. *)
Definition set_minimal (m : msl) (s : secure_layer) : secure_layer :=
  {| minimal := m; sig_key_pair := sig_key_pair s |}.

(** src/complete.rs:48-55 *)
Definition sl_try_clone (s : secure_layer) : secure_layer * outcome secure_layer :=
  match try_clone (minimal s) with
  | (m, Ok c) => (set_minimal m s, Ok {| minimal := c; sig_key_pair := None |})
  | (m, Err e) => (set_minimal m s, Err e)
  | (m, Panic p) => (set_minimal m s, Panic p)
  end.

(** src/complete.rs:58-61 *)
Definition sl_change_config (cfg : config) (s : secure_layer) : secure_layer * outcome unit :=
  let '(m, r) := change_config cfg (minimal s) in (set_minimal m s, r).

(** src/complete.rs:62-92.  Simplified: the in-memory BufWriter and the encoder
    over it take everything, so the ZipError and BufferFlushError arms cannot
    be reached and the result is the DEFLATE stream. *)
Definition compress (b : bytes) (s : secure_layer) : bytes :=
  let level :=
    if len b <? cfg_compression_min_size (conf (minimal s)) then compression_none
    else cfg_compression (conf (minimal s)) in
  deflate Z level b.

(** src/complete.rs:187-193.  Simplified: the capacity hint [bytes.len() * 5] of
    the result is left out.  Model/Hint.v puts it back, and C75 says that it
    makes no difference for datagrams shorter than a tenth of the address
    space. *)
Definition uncompress (b : bytes) : outcome bytes :=
  match inflate Z b with inl d => Ok d | inr e => Err (ZipError e) end.

(** src/complete.rs:95-111, src/seeds.rs:45-52.  [rand_seed] is the seed
    [Seed32::random] would draw, [None] when the system generator fails. *)
Definition sl_create (r : rng_result) (rand_seed : option bytes) (cfg : config)
    (sig_key_pair_seed expected_remote_sig_pubkey : option bytes) : outcome secure_layer :=
  do seed <- match sig_key_pair_seed with
             | Some s => Ok s
             | None => match rand_seed with Some s => Ok s | None => Panic PRandom end
             end;
  do m <- create C r cfg expected_remote_sig_pubkey;
  Ok {| minimal := m; sig_key_pair := Some seed |}.

(** [if let Some(d) = custom_data { Some(Self::uncompress(&d)?) } else { None }],
    used throughout src/complete.rs:113-177. *)
Definition uncompress_opt (o : option bytes) : outcome (option bytes) :=
  match o with
  | None => Ok None
  | Some d => do x <- uncompress d; Ok (Some x)
  end.

(** src/complete.rs:153-163: the loop over the drained messages. *)
Fixpoint uncompress_msgs (l : list message) (acc : list incoming_binary_message)
  : outcome (list incoming_binary_message) :=
  match l with
  | [] => Ok acc
  | MMessage cd :: l' =>
      do x <- uncompress_opt cd;
      uncompress_msgs l' (acc ++ [IMessage x])
  | _ :: l' => uncompress_msgs l' acc
  end.

(** src/complete.rs:113-177 ([read_bin]) *)
Definition read_bin (incoming : bytes) (s : secure_layer)
  : secure_layer * outcome (list incoming_binary_message) :=
  match read C T incoming (minimal s) with
  | (m, Panic p) => (set_minimal m s, Panic p)
  | (m, Err e) => (set_minimal m s, Err e)
  | (m, Ok None) => (set_minimal m s, Ok [])
  | (m, Ok (Some (MConnect _ sig_pubkey cd))) =>
      let s := set_minimal m s in
      match uncompress_opt cd with
      | Panic p => (s, Panic p)
      | Err e => (s, Err e)
      | Ok x =>
          let msgs := [IConnect x sig_pubkey] in
          match take_ack_msg_recv_too_early C T m with
          | (m, Panic p) => (set_minimal m s, Panic p)
          | (m, Err e) => (set_minimal m s, Err e)
          | (m, Ok (Some (MAck cd))) =>
              (set_minimal m s,
               do y <- uncompress_opt cd; Ok (msgs ++ [IAck y]))
          | (m, Ok _) => (set_minimal m s, Ok msgs)
          end
      end
  | (m, Ok (Some (MAck cd))) =>
      let s := set_minimal m s in
      match uncompress_opt cd with
      | Panic p => (s, Panic p)
      | Err e => (s, Err e)
      | Ok x =>
          match drain_tmp_stack_user_msgs C T m with
          | (m, Panic p) => (set_minimal m s, Panic p)
          | (m, Err e) => (set_minimal m s, Err e)
          | (m, Ok l) => (set_minimal m s, uncompress_msgs l [IAck x])
          end
      end
  | (m, Ok (Some (MMessage cd))) =>
      (set_minimal m s, do x <- uncompress_opt cd; Ok [IMessage x])
  end.

(** src/complete/writer.rs:86-98 *)
Definition sign_and_write_sig (seed bin_msg : bytes) (w : bufwriter) : bufwriter * outcome unit :=
  match bw_write w (ed25519_sign C seed bin_msg) with
  | (w, inl _) => (w, Ok tt)
  | (w, inr _) => (w, Err BufferFlushError)
  end.

(** src/complete/writer.rs:43-49 and 73-79: one [write] of the message (its
    count is ignored), then the signature. *)
Definition write_signed (seed bin_msg : bytes) (w : bufwriter) : bufwriter * outcome unit :=
  match bw_write w bin_msg with
  | (w, inl _) => sign_and_write_sig seed bin_msg w
  | (w, inr _) => (w, Err BufferFlushError)
  end.

(** src/complete/writer.rs:25-53 *)
Definition writer_write_connect_msg (custom_data : option bytes) (s : secure_layer) (w : bufwriter)
  : secure_layer * bufwriter * outcome unit :=
  match sig_key_pair s with
  | Some seed =>
      match create_connect_message C (ed25519_public C seed) custom_data (minimal s) with
      | (m, Ok b) => let '(w, r) := write_signed seed b w in (set_minimal m s, w, r)
      | (m, Err e) => (set_minimal m s, w, Err e)
      | (m, Panic p) => (set_minimal m s, w, Panic p)
      end
  | None => (s, w, Err ConnectMsgAlreadyWritten)
  end.

(** src/complete/writer.rs:56-83 *)
Definition writer_write_ack_msg (custom_data : option bytes) (s : secure_layer) (w : bufwriter)
  : secure_layer * bufwriter * outcome unit :=
  match sig_key_pair s with
  | Some seed =>
      match create_ack_message C custom_data (minimal s) with
      | (m, Ok b) => let '(w, r) := write_signed seed b w in (set_minimal m s, w, r)
      | (m, Err e) => (set_minimal m s, w, Err e)
      | (m, Panic p) => (set_minimal m s, w, Panic p)
      end
  | None => (s, w, Err ConnectMsgAlreadyWritten)
  end.

(** src/complete/writer.rs:101-110 *)
Definition writer_write_bin_message (msg : bytes) (s : secure_layer) (w : bufwriter)
  : secure_layer * bufwriter * outcome unit :=
  let '(m, w, r) := write_message C T msg (minimal s) w in (set_minimal m s, w, r).

(** src/complete.rs:195-211 *)
Definition write_ack_msg_bin (custom_data : option bytes) (s : secure_layer) (w : bufwriter) :=
  writer_write_ack_msg
    (match custom_data with Some d => Some (compress d s) | None => None end) s w.

(** src/complete.rs:227-243 *)
Definition write_connect_msg_bin (custom_data : option bytes) (s : secure_layer) (w : bufwriter) :=
  writer_write_connect_msg
    (match custom_data with Some d => Some (compress d s) | None => None end) s w.

(** src/complete.rs:273-281 *)
Definition write_bin (binary_message : bytes) (s : secure_layer) (w : bufwriter) :=
  writer_write_bin_message (compress binary_message s) s w.

End WithEnv.

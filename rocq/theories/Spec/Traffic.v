(** What a layer sends, as an observer of the network sees it, and what the
    application asked it to send.  README.md: "The negotiation stage is
    perfectly symmetrical, so that an observer cannot distinguish the client
    from the server." *)

From Verif.Model Require Import Complete.
From Verif.Spec Require Import Wire Datagram Trace ReadSpec Accept Session Writers CompleteTrace Machine CompleteMachine.

(** What a call added to its writer, if anything. *)
Definition added (w w' : bufwriter) : list bytes :=
  match skipn (length (output w)) (output w') with [] => [] | b => [b] end.

(** ** Minimal mode *)
Inductive request :=
| PutConnect (pk : bytes) (cd : option bytes)
| PutAck (cd : option bytes)
| PutUser (data : bytes).

(** What was asked, of the calls that succeeded. *)
Definition requested (e : event) : list request :=
  match e with
  | (CConnect pk cd, RBytes (Ok _)) => [PutConnect pk cd]
  | (CAck cd, RBytes (Ok _)) => [PutAck cd]
  | (CWrite data _, RWritten (Ok _) _) => [PutUser data]
  | _ => []
  end.

(** What came out, of any call. *)
Definition emitted (e : event) : list bytes :=
  match e with
  | (_, RBytes (Ok b)) => [b]
  | (CWrite _ w, RWritten _ w') => added w w'
  | _ => []
  end.

(** ** Complete mode *)
Inductive srequest :=
| SPutConnect (cd : option bytes)
| SPutAck (cd : option bytes)
| SPutUser (data : bytes)
| SPutConfig (cfg : config).

Definition srequested (e : scall * sreply) : list srequest :=
  match e with
  | (SConnect cd _, SWritten (Ok _) _) => [SPutConnect cd]
  | (SAck cd _, SWritten (Ok _) _) => [SPutAck cd]
  | (SWrite data _, SWritten (Ok _) _) => [SPutUser data]
  | (SConfig cfg, SUnit (Ok _)) => [SPutConfig cfg]
  | _ => []
  end.

Definition semitted (e : scall * sreply) : list bytes :=
  match e with
  | (SConnect _ w, SWritten _ w') | (SAck _ w, SWritten _ w') | (SWrite _ w, SWritten _ w') => added w w'
  | _ => []
  end.

(** The datagrams given to [read], or to [read_bin]. *)
Definition given (e : event) : list bytes := match fst e with CRead d => [d] | _ => [] end.
Definition sgiven (e : scall * sreply) : list bytes := match fst e with SRead d => [d] | _ => [] end.

Section WithEnv.
Context (C : Crypto) (Z : Zip) (T : target).

(** The traffic these requests make, for a layer with this ephemeral private
    key whose peer has this ephemeral public key; [n] user messages were sent
    before.  Nothing else is an argument. *)
Fixpoint traffic (private peer : bytes) (n : N) (l : list request) : list bytes :=
  match l with
  | [] => []
  | PutConnect pk cd :: l =>
      connect_frame (x25519_public C private) pk (custom cd) :: traffic private peer n l
  | PutAck cd :: l => ack_frame (sha256 C peer) (custom cd) :: traffic private peer n l
  | PutUser data :: l =>
      match derived_secret C private peer with
      | Some k => [user_datagram C k n data]
      | None => []
      end ++ traffic private peer (n + 1) l
  end.

(** A frame with its signature. *)
Definition with_signature (seed f : bytes) : bytes := f ++ ed25519_sign C seed f.

(** In complete mode also the signing key and the configuration (how payloads
    are compressed) are arguments. *)
Fixpoint straffic (private seed peer : bytes) (cfg : config) (n : N) (l : list srequest) : list bytes :=
  match l with
  | [] => []
  | SPutConnect cd :: l =>
      with_signature seed (connect_frame (x25519_public C private) (ed25519_public C seed)
        (custom (option_map (packed_as Z cfg) cd))) :: straffic private seed peer cfg n l
  | SPutAck cd :: l =>
      with_signature seed (ack_frame (sha256 C peer) (custom (option_map (packed_as Z cfg) cd)))
        :: straffic private seed peer cfg n l
  | SPutUser data :: l =>
      match derived_secret C private peer with
      | Some k => [user_datagram C k n (packed_as Z cfg data)]
      | None => []
      end ++ straffic private seed peer cfg (n + 1) l
  | SPutConfig cfg :: l => straffic private seed peer cfg n l
  end.

(** A CONNECT with the ephemeral key [epk] that a layer which expects [pin], if
    anything, may take in: signed with the key it shows, the expected one. *)
Definition offers (pin : option bytes) (d epk : bytes) : Prop :=
  len epk = 32 /\
  exists L pk rest, L < 2 ^ 64 /\ len pk = 32 /\
    d = magic ++ version ++ u64_be L ++ [x00; x01] ++ epk ++ [x00; x00; x00; x00] ++ pk ++ rest /\
    signed_by C T pk d L /\ (pin = None \/ pin = Some pk).

(** Requests that need the peer's ephemeral key. *)
Definition needs_peer (r : request) : Prop := match r with PutConnect _ _ => False | _ => True end.
Definition sneeds_peer (r : srequest) : Prop := match r with SPutAck _ | SPutUser _ => True | _ => False end.

End WithEnv.

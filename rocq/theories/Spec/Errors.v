(** Which errors each method can return: a table. *)

From Verif.Model Require Import Serde.
From Verif.Spec Require Import Trace CompleteTrace TypedTrace.

(** ** Minimal mode *)
Inductive op := ORead | OTakeAck | ODrain | OConnect | OAck | OWrite | OClone | OConfig.
Definition op_of (c : call) : op :=
  match c with
  | CRead _ => ORead | CTakeAck => OTakeAck | CDrain => ODrain | CConnect _ _ => OConnect
  | CAck _ => OAck | CWrite _ _ => OWrite | CClone => OClone | CConfig _ => OConfig
  end.

(** The call returned this error. *)
Definition refused {A} (o : outcome A) (e : error) : Prop := o = Err e.
Definition fails (r : reply) (e : error) : Prop :=
  match r with
  | RMsg o => refused o e | RMsgs o => refused o e | RBytes o => refused o e
  | RWritten o _ => refused o e | RClone o => refused o e | RUnit o => refused o e
  end.

(** Errors of [create], and of every call. *)
Definition create_errors : list error := [FailToGenEphemerKeyPair; FailToGenEphemerPubKey].
Definition read_errors : list error :=
  [ ConnectionHadFail; FailToDecryptData DecTagMismatch; FailToComputeAgreement;
    UnexpectedRemoteSigPubKey; TooManyUnorderedMsgs ] ++
  map RecvInvalidMsg
    [ InvalidChallenge; InvalidHashOrSig; InvalidMagicValue; InvalidNonce; UnexpectedAckMsg;
      UnexpectedConnectMsg; UnexpectedMessage; UnexpectedEncryptionState; UnknownMessageType;
      UnsupportedSigAlgo; UnsupportedVersion ].
Definition listed (o : op) (e : error) : Prop :=
  match o with
  | ORead => In e read_errors
  | OTakeAck => In e [ConnectionHadFail; RecvInvalidMsg InvalidHashOrSig; RecvInvalidMsg UnexpectedAckMsg]
  | ODrain => In e [ConnectionHadFail; TooManyUnorderedMsgs; RecvInvalidMsg InvalidNonce;
                    RecvInvalidMsg InvalidHashOrSig]
  | OConnect => In e [ConnectionHadFail; ConnectMsgAlreadyWritten]
  | OAck => In e [ConnectionHadFail; ForbidWriteAckMsgNow]
  | OWrite => In e [ConnectionHadFail; NegoMustHaveBeenSuccessful] \/ exists io, e = FailToEncryptData io
  | OClone => In e [NegoMustHaveBeenSuccessful]
  | OConfig => In e [ForbidChangeConfAfterClone]
  end.

(** ** Complete mode, binary methods *)
Inductive sop := SORead | SOConnect | SOAck | SOWrite | SOClone | SOConfig.
Definition sop_of (c : scall) : sop :=
  match c with
  | SRead _ => SORead | SConnect _ _ => SOConnect | SAck _ _ => SOAck | SWrite _ _ => SOWrite
  | SClone => SOClone | SConfig _ => SOConfig
  end.
Definition sfails (r : sreply) (e : error) : Prop :=
  match r with
  | SMsgs o => refused o e | SWritten o _ => refused o e | SCloned o => refused o e | SUnit o => refused o e
  end.
(** The second error of [write_ack_msg_bin] is that of a clone. *)
Definition slisted (o : sop) (e : error) : Prop :=
  match o with
  | SORead => listed ORead e \/ exists io, e = ZipError io
  | SOConnect => listed OConnect e \/ e = BufferFlushError
  | SOAck => listed OAck e \/ e = ConnectMsgAlreadyWritten \/ e = BufferFlushError
  | SOWrite => listed OWrite e
  | SOClone => listed OClone e
  | SOConfig => listed OConfig e
  end.

(** ** Complete mode, typed methods *)
Inductive top := TORead | TOConnect | TOAck | TOWrite | TOBin (o : sop).
Definition top_of {M} (c : tcall M) : top :=
  match c with
  | VRead _ => TORead | VConnect _ _ => TOConnect | VAck _ _ => TOAck | VWrite _ _ => TOWrite
  | VBin c => TOBin (sop_of c)
  end.
Definition tfails {M} (r : treply M) (e : error) : Prop :=
  match r with TMsgs o => refused o e | TOther r => sfails r e end.
Definition tlisted (o : top) (e : error) : Prop :=
  match o with
  | TORead => slisted SORead e \/
      In e (map RecvInvalidMsg [MessageTooShort; UnknownMessageFormat]) \/ exists x, e = SerdeError x
  | TOConnect => slisted SOConnect e \/ exists x, e = SerdeError x
  | TOAck => slisted SOAck e \/ exists x, e = SerdeError x
  | TOWrite => slisted SOWrite e \/ exists x, e = SerdeError x
  | TOBin o => slisted o e
  end.

(** Variants of the public enumeration that no line of /repo constructs. *)
Definition unused (e : error) : Prop :=
  match e with
  | MessageMustBeSigned | TryToGenConnectMsgTooLate | TryToWriteMsgWhenNegoNotSuccessful
  | SerializationError _ | WrittenLenError _ _ => True
  | _ => False
  end.

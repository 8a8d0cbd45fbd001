(** src/status.rs and the negotiation enums of src/lib.rs. *)

From Verif.Model Require Export Base.

(** src/lib.rs:71-75 *)
Inductive local_thread := Created | ConnectMsgSent | ValidAckMsgReceived.
(** src/lib.rs:78-82 *)
Inductive remote_thread := WaitConnectMsg | ValidConnectMsgReceived | AckMsgSent.
(** src/lib.rs:85-89 *)
Inductive msg_type := TConnect | TAck | TUserMsg.
(** src/lib.rs:92-95 *)
Inductive action := Create (t : msg_type) | Receive (t : msg_type).
(** src/lib.rs:98-100 *)
Inductive side_effect := PushUserMsgIntoTmpStack.

(** src/status.rs:23-33 *)
Inductive status :=
| Fail
| OngoingNegotiation (local : local_thread) (remote : remote_thread)
| NegotiationSuccessful.

(** src/status.rs:36-41 *)
Definition status_init : status := OngoingNegotiation Created WaitConnectMsg.

(** src/status.rs:42-126 ([apply_action]) *)
Definition apply_action (s : status) (a : action) : status * outcome (option side_effect) :=
  match s with
  | Fail => (Fail, Err ConnectionHadFail)
  | OngoingNegotiation local remote =>
      match a with
      | Create TConnect =>
          match local with
          | Created => (OngoingNegotiation ConnectMsgSent remote, Ok None)
          | _ => (s, Err ConnectMsgAlreadyWritten)
          end
      | Create TAck =>
          match remote with
          | ValidConnectMsgReceived =>
              match local with
              | ValidAckMsgReceived => (NegotiationSuccessful, Ok None)
              | _ => (OngoingNegotiation local AckMsgSent, Ok None)
              end
          | _ => (s, Err ForbidWriteAckMsgNow)
          end
      | Create TUserMsg => (Fail, Err NegoMustHaveBeenSuccessful)
      | Receive TConnect =>
          match remote with
          | WaitConnectMsg => (OngoingNegotiation local ValidConnectMsgReceived, Ok None)
          | _ => (Fail, Err (RecvInvalidMsg UnexpectedConnectMsg))
          end
      | Receive TAck =>
          match local with
          | ConnectMsgSent =>
              match remote with
              | AckMsgSent => (NegotiationSuccessful, Ok None)
              | _ => (OngoingNegotiation ValidAckMsgReceived remote, Ok None)
              end
          | _ => (Fail, Err (RecvInvalidMsg UnexpectedAckMsg))
          end
      | Receive TUserMsg =>
          match remote, local with
          | AckMsgSent, ConnectMsgSent => (s, Ok (Some PushUserMsgIntoTmpStack))
          | _, _ => (Fail, Err (RecvInvalidMsg UnexpectedMessage))
          end
      end
  | NegotiationSuccessful =>
      match a with
      | Create TConnect => (s, Err ConnectMsgAlreadyWritten)
      | Create TAck => (s, Err ForbidWriteAckMsgNow)
      | Create TUserMsg => (s, Ok None)
      | Receive TConnect => (Fail, Err (RecvInvalidMsg UnexpectedConnectMsg))
      | Receive TAck => (Fail, Err (RecvInvalidMsg UnexpectedAckMsg))
      | Receive TUserMsg => (s, Ok None)
      end
  end.

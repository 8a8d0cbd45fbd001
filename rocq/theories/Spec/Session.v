(** Secrets, origins of messages and nonces along a history. *)

From Verif.Model Require Import Minimal.
From Verif.Spec Require Import Wire Datagram Trace ReadSpec Accept.

(** Lexicographic order on byte strings of the same length, as numbers. *)
Definition larger (a b : bytes) : bytes := if be_decode b <? be_decode a then a else b.

Section WithEnv.
Context (C : Crypto) (T : target).

(** README.md "Ephemeral ... Diffie-Hellman exchange": the secret a layer with
    ephemeral private key [sk] shares with the holder of [epk].
    48 bytes of PBKDF2-HMAC-SHA384, 3 iterations, salted by the larger of the
    two ephemeral public keys: 32 bytes of cipher key, 12 of nonce, 4 of aad. *)
Definition derived_secret (sk epk : bytes) : option secret_key :=
  match x25519_agree C sk epk with
  | None => None
  | Some z =>
      let out := pbkdf2 C PBKDF2_HMAC_SHA384 3 (larger (x25519_public C sk) epk) z 48 in
      Some {| sk_key := firstn 32 out;
              sk_nonce := firstn 12 (skipn 32 out);
              sk_aad := firstn 4 (skipn 44 out) |}
  end.

(** A clear CONNECT datagram carrying this ephemeral key. *)
Definition carries_epk (d epk : bytes) : Prop :=
  len epk = 32 /\
  exists L pk rest, len pk = 32 /\
    d = magic ++ version ++ u64_be L ++ [x00; x01] ++ epk ++ [x00; x00; x00; x00] ++ pk ++ rest.

(** The datagram behind a CONNECT or ACK delivered by event [e] after the
    events [h1]: the one just read, or an ACK read too early and kept. *)
Definition source (h1 : history) (e : event) (d : bytes) : Prop :=
  match fst e with
  | CRead d' => d = d'
  | CTakeAck => In (CRead d, RMsg (Ok None)) h1
  | _ => False
  end.

(** A delivered CONNECT or ACK is what it should be: signed with [pk], and
    for an ACK, answering the ephemeral key [epk]. *)
Definition negotiation_ok (pk epk : bytes) (h1 : history) (e : event) (m : message) : Prop :=
  match m with
  | MConnect _ k o =>
      k = pk /\ exists d e' cd, source h1 e d /\ o = nonempty cd /\ len e' = 32 /\
        signed_frame C T pk [x00; x01] (connect_content e' pk cd) d
  | MAck o =>
      exists d cd, source h1 e d /\ o = nonempty cd /\
        signed_frame C T pk [x00; x02] (sha256 C epk ++ cd) d
  | MMessage _ => True
  end.

(** ** User messages *)

(** A datagram that opens under [k] to nonce [n] and [data]. *)
Definition opens (k : secret_key) (d : bytes) (n : N) (data : bytes) : Prop :=
  n < 2 ^ 64 /\ keystream_ok C k /\
  exists text, hashed_frame C T [x00; x00] (u64_be n ++ data) text /\ d = seal C k text.

(** User messages handed to the application along a history. *)
Definition user_data (m : message) : list (option bytes) :=
  match m with MMessage o => [o] | _ => [] end.
Definition user_deliveries (h : history) : list (option bytes) :=
  flat_map (fun e => flat_map user_data (delivered (snd e))) h.

(** The datagrams given to [read], oldest first. *)
Definition submitted (h : history) : list bytes :=
  flat_map (fun e => match fst e with CRead d => [d] | _ => [] end) h.

(** [l] accounts for the user messages delivered along [h]: its entries
    (position, nonce, data) are in the order of delivery; each stands for one
    of the submitted datagrams [ds], which opens under the session key to that
    nonce and data; no datagram and no nonce is used twice. *)
Definition accounts (s : msl) (ds : list bytes) (h : history) (l : list (nat * N * bytes)) : Prop :=
  user_deliveries h = map (fun e => nonempty (snd e)) l /\
  NoDup (map (fun e => fst (fst e)) l) /\
  NoDup (map (fun e => snd (fst e)) l) /\
  forall i n data, In (i, n, data) l ->
    exists k d, session_key s = Some k /\ nth_error ds i = Some d /\ opens k d n data.

(** Nothing was accepted without being delivered: no call panicked and no
    drain of the early queue failed. *)
Definition lossless (h : history) : Prop :=
  panic_free h /\ forall e er, In e h -> snd e <> RMsgs (Err er).

End WithEnv.

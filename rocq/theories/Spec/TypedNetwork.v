(** Two honest peers that use the typed methods, and the network of
    Spec/Network.v between them.

    [F x] are the features the build of [x] has.  The applications write values
    of a type M that the configured format can express and that exists in the
    other's build. *)

From Verif.Model Require Import Serde.
From Verif.Spec Require Import Wire Trace ReadSpec Session Writers CompleteTrace Network Typed TypedTrace.

(** What was written, as the application sees it. *)
Inductive tpacket (M : Type) :=
| QConnect (cd : option M)
| QAck (cd : option M)
| QData (i : N) (m : M).
Arguments QConnect {M}. Arguments QAck {M}. Arguments QData {M}.

Record tendpoint (M : Type) := {
  tlayer : secure_layer;
  tsent : list (tpacket M);                    (* what it wrote *)
  ttravelling : list (tpacket M * bytes);      (* datagrams on their way to it *)
  tarrived : list (tpacket M);                 (* what was handed to its [read] *)
  tinbox : list (incoming_message M)           (* what its [read] returned *)
}.
Arguments tlayer {M}. Arguments tsent {M}. Arguments ttravelling {M}. Arguments tarrived {M}. Arguments tinbox {M}.

Inductive tmove (M : Type) :=
| QMConnect (x : side) (cd : option M) (cap : N)
| QMAck (x : side) (cd : option M) (cap : N)
| QMSend (x : side) (m : M) (cap : N)
| QMConfig (x : side) (cfg : config)
| QMDeliver (x : side) (i : nat).
Arguments QMConnect {M}. Arguments QMAck {M}. Arguments QMSend {M}. Arguments QMConfig {M}. Arguments QMDeliver {M}.

Section WithEnv.
Context (C : Crypto) (Z : Zip) (T : target) (F : side -> features).
Context {M : Type} (K : Codec M).

Definition tnet := side -> tendpoint M.
Definition tupd (n : tnet) (x : side) (e : tendpoint M) : tnet :=
  fun y => match x, y with Alice, Alice | Bob, Bob => e | _, _ => n y end.

Definition tconns (l : list (tpacket M)) : list (option M) :=
  flat_map (fun p => match p with QConnect cd => [cd] | _ => [] end) l.
Definition tacks (l : list (tpacket M)) : list (option M) :=
  flat_map (fun p => match p with QAck cd => [cd] | _ => [] end) l.
Definition tusers (l : list (tpacket M)) : list (N * M) :=
  flat_map (fun p => match p with QData i m => [(i, m)] | _ => [] end) l.

Definition tgot_conns (l : list (incoming_message M)) : list (option M * bytes) :=
  flat_map (fun m => match m with TMConnect cd pk => [(cd, pk)] | _ => [] end) l.
Definition tgot_acks (l : list (incoming_message M)) : list (option M) :=
  flat_map (fun m => match m with TMAck cd => [cd] | _ => [] end) l.
Definition tgot_users (l : list (incoming_message M)) : list (option M) :=
  flat_map (fun m => match m with TMMessage d => [d] | _ => [] end) l.

Definition tpost (n : tnet) (x : side) (p : tpacket M) (r : secure_layer * bufwriter * outcome unit) : tnet * bool :=
  let '(s, w, o) := r in
  let me := n x in
  let you := n (other x) in
  match o with
  | Ok _ =>
      (tupd (tupd n x {| tlayer := s; tsent := tsent me ++ [p]; ttravelling := ttravelling me;
                         tarrived := tarrived me; tinbox := tinbox me |})
         (other x) {| tlayer := tlayer you; tsent := tsent you;
                      ttravelling := ttravelling you ++ [(p, output w)];
                      tarrived := tarrived you; tinbox := tinbox you |}, true)
  | _ =>
      (tupd n x {| tlayer := s; tsent := tsent me; ttravelling := ttravelling me;
                   tarrived := tarrived me; tinbox := tinbox me |}, false)
  end.

Definition tdeliver (n : tnet) (x : side) (i : nat) : tnet * bool :=
  let me := n x in
  match nth_error (ttravelling me) i with
  | None => (n, false)
  | Some (p, d) =>
      let '(s, o) := sl_read C Z T (F x) K d (tlayer me) in
      (tupd n x {| tlayer := s; tsent := tsent me; ttravelling := without_nth i (ttravelling me);
                   tarrived := tarrived me ++ [p];
                   tinbox := tinbox me ++ match o with Ok l => l | _ => [] end |},
       match o with Ok _ => true | _ => false end)
  end.

(** One move; the boolean tells whether the call returned Ok. *)
Definition tnet_step (n : tnet) (m : tmove M) : tnet * bool :=
  match m with
  | QMConnect x cd cap =>
      tpost n x (QConnect cd) (sl_write_connect_msg C Z K cd (tlayer (n x)) (fresh_writer cap))
  | QMAck x cd cap =>
      tpost n x (QAck cd) (sl_write_ack_msg C Z K cd (tlayer (n x)) (fresh_writer cap))
  | QMSend x v cap =>
      tpost n x (QData (len (tusers (tsent (n x)))) v)
        (sl_write C Z T K v (tlayer (n x)) (fresh_writer cap))
  | QMConfig x cfg =>
      let '(s, o) := sl_change_config cfg (tlayer (n x)) in
      (tupd n x {| tlayer := s; tsent := tsent (n x); ttravelling := ttravelling (n x);
                   tarrived := tarrived (n x); tinbox := tinbox (n x) |},
       match o with Ok _ => true | _ => false end)
  | QMDeliver x i => tdeliver n x i
  end.

(** The value can be put in the format [x] is configured for, the format exists
    in the other's build, and the datagram fits the address space. *)
Definition expressible (n : tnet) (x : side) (m : M) : Prop :=
  let f := cfg_message_format (conf (minimal (tlayer (n x)))) in
  format_enabled (F (other x)) f = true /\
  exists p, encoded K f m p /\ fits T (packed Z (Some p) (tlayer (n x))).
Definition expressible_opt (n : tnet) (x : side) (cd : option M) : Prop :=
  match cd with None => True | Some m => expressible n x m end.

Definition tallowed (W : list N -> N -> Prop) (n : tnet) (m : tmove M) : Prop :=
  match m with
  | QMConnect x cd _ => tconns (tsent (n x)) = [] /\ expressible_opt n x cd
  | QMAck x cd _ =>
      tgot_conns (tinbox (n x)) <> [] /\ tacks (tsent (n x)) = [] /\ expressible_opt n x cd
  | QMSend x v _ =>
      tacks (tsent (n x)) <> [] /\ tgot_acks (tinbox (n x)) <> [] /\
      len (tusers (tsent (n x))) + 1 < 2 ^ 64 /\ expressible n x v
  | QMConfig _ _ => True
  | QMDeliver x i =>
      exists p d, nth_error (ttravelling (n x)) i = Some (p, d) /\
        match p with QData j _ => W (map fst (tusers (tarrived (n x)))) j | _ => True end
  end.

Inductive texec (W : list N -> N -> Prop) (n0 : tnet) : tnet -> Prop :=
| texec_start : texec W n0 n0
| texec_step n m : texec W n0 n -> tallowed W n m -> texec W n0 (fst (tnet_step n m)).

(** Both layers just created, nothing written. *)
Definition tstart (P : side -> party) (n : tnet) : Prop :=
  forall x,
    sl_create C (RngKey (p_sk (P x))) None (p_conf (P x)) (Some (p_seed (P x)))
      (if p_pins (P x) then Some (public_key C P (other x)) else None) = Ok (tlayer (n x)) /\
    tsent (n x) = [] /\ ttravelling (n x) = [] /\ tarrived (n x) = [] /\ tinbox (n x) = [].

End WithEnv.

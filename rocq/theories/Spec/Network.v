(** Two honest complete-mode peers and the network between them.

    Every datagram a peer writes travels to the other one.  The network hands
    over the travelling datagrams in any order and at any time, each once.  The
    applications call the write functions when README.md "Negotiation stage"
    allows it.  Not /repo code: the environment of two [SecureLayer]s. *)

From Verif.Model Require Import Complete.
From Verif.Spec Require Import Wire Trace ReadSpec Session Writers CompleteTrace.

Inductive side := Alice | Bob.
Definition other (x : side) : side := match x with Alice => Bob | Bob => Alice end.

(** What was written, as the application sees it; user messages are numbered
    by their sender. *)
Inductive packet :=
| PConnect (cd : option bytes)
| PAck (cd : option bytes)
| PData (i : N) (data : bytes).

Definition conns (l : list packet) : list (option bytes) :=
  flat_map (fun p => match p with PConnect cd => [cd] | _ => [] end) l.
Definition acks (l : list packet) : list (option bytes) :=
  flat_map (fun p => match p with PAck cd => [cd] | _ => [] end) l.
Definition users (l : list packet) : list (N * bytes) :=
  flat_map (fun p => match p with PData i data => [(i, data)] | _ => [] end) l.

(** What was read, the same way. *)
Definition got_conns (l : list incoming_binary_message) : list (option bytes * bytes) :=
  flat_map (fun m => match m with IConnect cd pk => [(cd, pk)] | _ => [] end) l.
Definition got_acks (l : list incoming_binary_message) : list (option bytes) :=
  flat_map (fun m => match m with IAck cd => [cd] | _ => [] end) l.
Definition got_users (l : list incoming_binary_message) : list (option bytes) :=
  flat_map (fun m => match m with IMessage d => [d] | _ => [] end) l.

Record endpoint := {
  layer : secure_layer;
  sent : list packet;                    (* what it wrote *)
  travelling : list (packet * bytes);    (* datagrams on their way to it *)
  arrived : list packet;                 (* what was handed to its [read_bin] *)
  inbox : list incoming_binary_message   (* what its [read_bin] returned *)
}.
Definition net := side -> endpoint.
Definition upd (n : net) (x : side) (e : endpoint) : net :=
  fun y => match x, y with Alice, Alice | Bob, Bob => e | _, _ => n y end.

Inductive move :=
| Connect (x : side) (cd : option bytes) (cap : N)
| Ack (x : side) (cd : option bytes) (cap : N)
| Send (x : side) (data : bytes) (cap : N)
| Config (x : side) (cfg : config)
| Deliver (x : side) (i : nat).

(** Each message is written to a fresh in-memory [BufWriter] of any capacity. *)
Definition fresh_writer (cap : N) : bufwriter :=
  {| bw_cap := cap; bw_buf := []; bw_sink := {| sink_data := []; sink_script := [] |} |}.

Section WithEnv.
Context (C : Crypto) (Z : Zip) (T : target).

(** [x] wrote [p]: on success the bytes travel to the other side. *)
Definition post (n : net) (x : side) (p : packet) (r : secure_layer * bufwriter * outcome unit) : net * bool :=
  let '(s, w, o) := r in
  let me := n x in
  let you := n (other x) in
  match o with
  | Ok _ =>
      (upd (upd n x {| layer := s; sent := sent me ++ [p]; travelling := travelling me;
                       arrived := arrived me; inbox := inbox me |})
         (other x) {| layer := layer you; sent := sent you;
                      travelling := travelling you ++ [(p, output w)];
                      arrived := arrived you; inbox := inbox you |}, true)
  | _ =>
      (upd n x {| layer := s; sent := sent me; travelling := travelling me;
                  arrived := arrived me; inbox := inbox me |}, false)
  end.

Definition without_nth {A} (i : nat) (l : list A) : list A := firstn i l ++ skipn (S i) l.

Definition deliver (n : net) (x : side) (i : nat) : net * bool :=
  let me := n x in
  match nth_error (travelling me) i with
  | None => (n, false)
  | Some (p, d) =>
      let '(s, o) := read_bin C Z T d (layer me) in
      (upd n x {| layer := s; sent := sent me; travelling := without_nth i (travelling me);
                  arrived := arrived me ++ [p];
                  inbox := inbox me ++ match o with Ok l => l | _ => [] end |},
       match o with Ok _ => true | _ => false end)
  end.

(** One move; the boolean tells whether the call returned Ok. *)
Definition net_step (n : net) (m : move) : net * bool :=
  match m with
  | Connect x cd cap =>
      post n x (PConnect cd) (write_connect_msg_bin C Z cd (layer (n x)) (fresh_writer cap))
  | Ack x cd cap =>
      post n x (PAck cd) (write_ack_msg_bin C Z cd (layer (n x)) (fresh_writer cap))
  | Send x data cap =>
      post n x (PData (len (users (sent (n x)))) data)
        (write_bin C Z T data (layer (n x)) (fresh_writer cap))
  | Config x cfg =>
      let '(s, o) := sl_change_config cfg (layer (n x)) in
      (upd n x {| layer := s; sent := sent (n x); travelling := travelling (n x);
                  arrived := arrived (n x); inbox := inbox (n x) |},
       match o with Ok _ => true | _ => false end)
  | Deliver x i => deliver n x i
  end.

(** The datagram with this payload fits the address space. *)
Definition fits (payload : bytes) : Prop := 150 + len payload < 2 ^ usize_bits T.

(** What applications and network do.  [W] says which user message (by number)
    may be handed over, given those handed over before. *)
Definition allowed (W : list N -> N -> Prop) (n : net) (m : move) : Prop :=
  match m with
  | Connect x cd _ => conns (sent (n x)) = [] /\ fits (packed Z cd (layer (n x)))
  | Ack x cd _ =>
      got_conns (inbox (n x)) <> [] /\ acks (sent (n x)) = [] /\ fits (packed Z cd (layer (n x)))
  | Send x data _ =>
      acks (sent (n x)) <> [] /\ got_acks (inbox (n x)) <> [] /\
      len (users (sent (n x))) + 1 < 2 ^ 64 /\ fits (packed Z (Some data) (layer (n x)))
  | Config _ _ => True
  | Deliver x i =>
      exists p d, nth_error (travelling (n x)) i = Some (p, d) /\
        match p with PData j _ => W (map fst (users (arrived (n x)))) j | _ => True end
  end.

(** No message is handed over while one sent more than 10000 messages before
    it is missing. *)
Definition gap_bounded (ns : list N) (i : N) : Prop := forall j, j + 10000 < i -> In j ns.

Inductive exec (W : list N -> N -> Prop) (n0 : net) : net -> Prop :=
| exec_start : exec W n0 n0
| exec_step n m : exec W n0 n -> allowed W n m -> exec W n0 (fst (net_step n m)).

End WithEnv.

(** The two parties: keys, configuration, and whether they know the other's
    signature key beforehand. *)
Record party := { p_sk : bytes; p_seed : bytes; p_conf : config; p_pins : bool }.

Section WithParties.
Context (C : Crypto) (P : side -> party).

Definition public_key (x : side) : bytes := ed25519_public C (p_seed (P x)).
Definition session_secret : option secret_key :=
  derived_secret C (p_sk (P Alice)) (x25519_public C (p_sk (P Bob))).

(** Both layers just created, nothing written. *)
Definition start (n : net) : Prop :=
  forall x,
    sl_create C (RngKey (p_sk (P x))) None (p_conf (P x)) (Some (p_seed (P x)))
      (if p_pins (P x) then Some (public_key (other x)) else None) = Ok (layer (n x)) /\
    sent (n x) = [] /\ travelling (n x) = [] /\ arrived (n x) = [] /\ inbox (n x) = [].

End WithParties.

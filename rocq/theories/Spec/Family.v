(** One connection used through any number of handles.

    [try_clone] (/repo/src/minimal.rs:55) gives a second handle on an
    established connection, which can be cloned in turn.  A family is the list
    of the handles of one connection, in order of birth: handle 0 is the
    layer that [create] returned.  The calls on the handles are interleaved in
    any way; the trace lists them with their replies, oldest first.  The same
    for [SecureLayer] (/repo/src/complete.rs:48). *)

From Verif.Model Require Import Complete.
From Verif.Spec Require Import Wire Datagram Trace ReadSpec Accept Session Writers CompleteTrace.

(** What happened: on which handle, which call with which reply.  [E] is the
    type of the calls with their replies. *)
Definition trace (E : Type) := list (nat * E).

Definition replace {A} (i : nat) (x : A) (l : list A) : list A := firstn i l ++ x :: skipn (S i) l.

(** ** The life of a handle

    A call is identified by its position in the trace.  The life of a handle
    is made of the calls on it and, for a clone, of the life of the handle it
    was cloned from until then, the cloning included.  [clones] tells the calls
    that gave a new handle. *)
Section Lives.
Context {E : Type} (clones : E -> bool).

Definition live (ls : list (list nat)) (x : nat * (nat * E)) : list (list nat) :=
  let '(t, (i, e)) := x in
  let l := nth i ls [] ++ [t] in
  replace i l ls ++ (if clones e then [l] else []).
Definition lives (tr : trace E) : list (list nat) :=
  fold_left live (combine (seq 0 (length tr)) tr) [[]].
Definition life (tr : trace E) (i : nat) : list nat := nth i (lives tr) [].

(** The past of a call: the life, before the call, of the handle it is made on. *)
Definition past (tr : trace E) (t : nat) : list nat :=
  match nth_error tr t with
  | Some (i, _) => life (firstn t tr) i
  | None => []
  end.

(** The calls at some positions, with their replies. *)
Definition events (tr : trace E) (ts : list nat) : list E :=
  flat_map (fun t => match nth_error tr t with Some (_, e) => [e] | None => [] end) ts.
End Lives.

(** ** Minimal mode *)

(** The handle a call gives to the application, if any. *)
Definition born (e : event) : list msl := match snd e with RClone (Ok c) => [c] | _ => [] end.
Definition clones (e : event) : bool := match snd e with RClone (Ok _) => true | _ => false end.

Inductive family (C : Crypto) (T : target) : list msl -> trace event -> Prop :=
| family_create r cfg pin s : create C r cfg pin = Ok s -> family C T [s] []
| family_call f tr i s c s' r (e : event) :
    family C T f tr -> nth_error f i = Some s -> call_step C T s c = (s', r) -> e = (c, r) ->
    family C T (replace i s' f ++ born e) (tr ++ [(i, e)]).

(** The call at position [t] wrote a user message. *)
Definition is_write (tr : trace event) (t : nat) : Prop :=
  exists i data w w', nth_error tr t = Some (i, (CWrite data w, RWritten (Ok tt) w')).

(** The call at position [t] wrote user message number [n] under [k]. *)
Definition wrote (C : Crypto) (k : secret_key) (tr : trace event) (t : nat) (n : N) : Prop :=
  exists i data w w', nth_error tr t = Some (i, (CWrite data w, RWritten (Ok tt) w')) /\
    output w' = output w ++ user_datagram C k n data.

(** The call at position [t] delivered, on arrival, a user message number [n]. *)
Definition received_at (C : Crypto) (T : target) (k : secret_key) (tr : trace event) (t : nat) (n : N) : Prop :=
  exists i d o data, nth_error tr t = Some (i, (CRead d, RMsg (Ok (Some (MMessage o))))) /\
    opens C T k d n data.

(** Every write was given a writer that takes all it is given, or whose
    buffer is larger than an authentication tag. *)
Definition good_writers (tr : trace event) : Prop :=
  forall i data w r, In (i, (CWrite data w, r)) tr -> takes_all w \/ 16 < bw_cap w.

(** ** Complete mode *)
Definition sborn (e : scall * sreply) : list secure_layer := match snd e with SCloned (Ok c) => [c] | _ => [] end.
Definition sclones (e : scall * sreply) : bool := match snd e with SCloned (Ok _) => true | _ => false end.

Inductive sfamily (C : Crypto) (Z : Zip) (T : target) : list secure_layer -> trace (scall * sreply) -> Prop :=
| sfamily_create r rs cfg seed pin s : sl_create C r rs cfg seed pin = Ok s -> sfamily C Z T [s] []
| sfamily_call f tr i s c s' r (e : scall * sreply) :
    sfamily C Z T f tr -> nth_error f i = Some s -> scall_step C Z T s c = (s', r) -> e = (c, r) ->
    sfamily C Z T (replace i s' f ++ sborn e) (tr ++ [(i, e)]).

Definition swritten (e : scall * sreply) : bool :=
  match e with (SWrite _ _, SWritten (Ok _) _) => true | _ => false end.
Definition is_swrite (tr : trace (scall * sreply)) (t : nat) : Prop :=
  exists i data w w', nth_error tr t = Some (i, (SWrite data w, SWritten (Ok tt) w')).
(** ... whose payload inflates to what was given to [write_bin]. *)
Definition swrote (C : Crypto) (Z : Zip) (k : secret_key) (tr : trace (scall * sreply)) (t : nat) (n : N) : Prop :=
  exists i data w w' zipped, nth_error tr t = Some (i, (SWrite data w, SWritten (Ok tt) w')) /\
    inflate Z zipped = inl data /\
    output w' = output w ++ user_datagram C k n zipped.
Definition sgood_writers (tr : trace (scall * sreply)) : Prop :=
  forall i data w r, In (i, (SWrite data w, r)) tr -> takes_all w \/ 16 < bw_cap w.
(** [read_bin] delivered, on arrival, a user message number [n]. *)
Definition sreceived_at (C : Crypto) (T : target) (k : secret_key) (tr : trace (scall * sreply)) (t : nat) (n : N) : Prop :=
  exists i d x data, nth_error tr t = Some (i, (SRead d, SMsgs (Ok [IMessage x]))) /\
    opens C T k d n data.

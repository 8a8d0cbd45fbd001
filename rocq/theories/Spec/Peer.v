(** Which signature key a layer takes for its peer's, from its history. *)

From Verif.Model Require Import Minimal.
From Verif.Spec Require Import Wire Datagram Trace.

(** A clear datagram with complete CONNECT headers that carry [pk]; nothing is
    said about its signature. *)
Definition connect_shaped (C : Crypto) (T : target) (d pk : bytes) : Prop :=
  exists L epk, datagram T C None d (DFrame d L (KConnect epk pk)).

(** The expected key given at creation or, failing that, the key of the first
    datagram read that is shaped as a CONNECT. *)
Definition known_key (C : Crypto) (T : target) (pin : option bytes) (h : history) (pk : bytes) : Prop :=
  pin = Some pk \/
  (pin = None /\ exists h1 d r h2, h = h1 ++ (CRead d, r) :: h2 /\ connect_shaped C T d pk /\
     forall d' r' pk', In (CRead d', r') h1 -> ~ connect_shaped C T d' pk').

(** CONNECT and ACK messages handed to the application along a history. *)
Definition deliveries (p : message -> bool) (h : history) : list message :=
  flat_map (fun e => filter p (delivered (snd e))) h.

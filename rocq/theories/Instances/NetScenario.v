(** Two honest toy peers over a reordering network: a session in which the ACK
    overtakes the CONNECT, and the user messages overtake the ACK. *)

From Verif.Model Require Import Complete.
From Verif.Spec Require Import Wire Trace ReadSpec Session Writers CompleteTrace Network.
From Verif.Instances Require Import Toy Scenario CompleteScenario.

(** Bob knows Alice's key beforehand, Alice does not know Bob's. *)
Definition parties (x : side) : party :=
  match x with
  | Alice => {| p_sk := skA; p_seed := seedA; p_conf := config_default; p_pins := false |}
  | Bob => {| p_sk := skB; p_seed := seedB; p_conf := config_default; p_pins := true |}
  end.
Definition net0 : net := fun x =>
  {| layer := match x with Alice => SA0 | Bob => sfresh skB seedB (Some pkA) end;
     sent := []; travelling := []; arrived := []; inbox := [] |}.
Lemma start_net0 : start toy parties net0.
Proof. intros []; vm_compute; repeat split. Qed.
Lemma secret_net0 : session_secret toy parties = Some kAB.
Proof. vm_compute. reflexivity. Qed.

Definition moves : list move :=
  [Connect Bob None 8192; Connect Alice (Some [x05]) 8192; Deliver Bob 0; Ack Bob (Some []) 8192;
   Deliver Alice 1 (* the ACK *); Deliver Alice 0 (* the CONNECT *);
   Config Alice config_default; Ack Alice None 10; Send Alice [x41] 100; Send Alice [] 100;
   Deliver Bob 2; Deliver Bob 1 (* user messages, last first *); Deliver Bob 0 (* the ACK *);
   Send Bob [x61; x62] 8192].
Definition net_after (ms : list move) : net := fold_left (fun n m => fst (net_step toy toy_zip T n m)) ms net0.

(** A check of [allowed gap_bounded], for message numbers up to 10000. *)
Definition is_nil {A} (l : list A) : bool := match l with [] => true | _ => false end.
Definition fitsb (b : bytes) : bool := 150 + len b <? 2 ^ usize_bits T.
Definition allowedb (n : net) (m : move) : bool :=
  match m with
  | Connect x cd _ => is_nil (conns (sent (n x))) && fitsb (packed toy_zip cd (layer (n x)))
  | Ack x cd _ =>
      negb (is_nil (got_conns (inbox (n x)))) && is_nil (acks (sent (n x))) &&
      fitsb (packed toy_zip cd (layer (n x)))
  | Send x data _ =>
      negb (is_nil (acks (sent (n x)))) && negb (is_nil (got_acks (inbox (n x)))) &&
      (len (users (sent (n x))) + 1 <? 2 ^ 64) && fitsb (packed toy_zip (Some data) (layer (n x)))
  | Config _ _ => true
  | Deliver x i =>
      match nth_error (travelling (n x)) i with
      | Some (PData j _, _) => j <? 10000
      | Some _ => true
      | None => false
      end
  end.
Lemma is_nil_true {A} (l : list A) : is_nil l = true -> l = [].
Proof. destruct l; [reflexivity|discriminate]. Qed.
Lemma is_nil_false {A} (l : list A) : negb (is_nil l) = true -> l <> [].
Proof. destruct l; [discriminate|congruence]. Qed.
Lemma fitsb_true b : fitsb b = true -> fits T b.
Proof. unfold fitsb, fits. intros H. apply N.ltb_lt in H. exact H. Qed.
Lemma allowedb_true n m : allowedb n m = true -> allowed toy_zip T gap_bounded n m.
Proof.
  destruct m as [x cd cap|x cd cap|x data cap|x cfg|x i]; cbn [allowedb allowed]; intros H.
  - apply andb_prop in H as [H1 H2]. apply is_nil_true in H1. apply fitsb_true in H2. exact (conj H1 H2).
  - apply andb_prop in H as [H H3]. apply andb_prop in H as [H1 H2].
    apply is_nil_false in H1. apply is_nil_true in H2. apply fitsb_true in H3. exact (conj H1 (conj H2 H3)).
  - apply andb_prop in H as [H H4]. apply andb_prop in H as [H H3]. apply andb_prop in H as [H1 H2].
    apply is_nil_false in H1. apply is_nil_false in H2. apply N.ltb_lt in H3. apply fitsb_true in H4.
    split; [exact H1|]. split; [exact H2|]. split; [exact H3|exact H4].
  - exact I.
  - destruct (nth_error (travelling (n x)) i) as [[p d]|]; [|discriminate]. exists p, d. split; [reflexivity|].
    destruct p as [| |j data]; auto. apply N.ltb_lt in H. intros m Hm. lia.
Qed.

Fixpoint all_allowed (n : net) (ms : list move) : bool :=
  match ms with
  | [] => true
  | m :: ms => allowedb n m && all_allowed (fst (net_step toy toy_zip T n m)) ms
  end.
Lemma exec_moves n0 n ms : exec toy toy_zip T gap_bounded n0 n -> all_allowed n ms = true ->
  exec toy toy_zip T gap_bounded n0 (fold_left (fun n m => fst (net_step toy toy_zip T n m)) ms n).
Proof.
  revert n. induction ms as [|m ms IH]; intros n E H; cbn [all_allowed fold_left] in *; [exact E|].
  apply andb_prop in H as [H1 H2]. apply IH; [|exact H2]. constructor; [exact E|]. apply allowedb_true, H1.
Qed.
Lemma exec_net : exec toy toy_zip T gap_bounded net0 (net_after moves).
Proof. apply exec_moves; [constructor|vm_compute; reflexivity]. Qed.

Example net_log :
  inbox (net_after moves Alice) = [IConnect None pkB; IAck (Some [])] /\
  inbox (net_after moves Bob) = [IConnect (Some [x05]) pkA; IAck None; IMessage (Some []); IMessage (Some [x41])].
Proof. vm_compute. repeat split. Qed.

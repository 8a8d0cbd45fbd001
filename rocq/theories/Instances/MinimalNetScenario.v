(** Two honest toy applications in minimal mode: the ACK overtakes the CONNECT,
    the user messages overtake the ACK, and both applications ask for early
    messages once too soon. *)

From Verif.Model Require Import Minimal.
From Verif.Spec Require Import Wire Trace ReadSpec Session Writers Network MinimalNetwork.
From Verif.Instances Require Import Toy Scenario CompleteScenario NetScenario.

Definition mlayer (sk : bytes) (pin : option bytes) : msl :=
  match create toy (RngKey sk) config_default pin with Ok s => s | _ => A0 end.
Definition mnet0 : mnet := fun x =>
  {| a_layer := match x with Alice => mlayer skA None | Bob => mlayer skB (Some pkA) end;
     a_sent := []; a_travelling := []; a_arrived := []; a_inbox := []; a_kept := []; a_got := [] |}.
Lemma mstart_mnet0 : mstart toy parties mnet0.
Proof. intros []; vm_compute; repeat split. Qed.

Definition mmoves : list mmove :=
  [DoConnect Bob None; DoConnect Alice (Some [x05]); DoDeliver Bob 0; DoAck Bob (Some []);
   DoDeliver Alice 1 (* the ACK *); DoTakeAck Alice (* too soon *); DoDeliver Alice 0 (* the CONNECT *);
   DoConfig Alice config_default; DoTakeAck Alice; DoAck Alice None; DoSend Alice [x41] 100; DoSend Alice [] 100;
   DoDeliver Bob 2; DoDeliver Bob 1 (* user messages, last first *); DoDrain Bob (* too soon *);
   DoDeliver Bob 0 (* the ACK *); DoSend Alice [x42] 100; DoDeliver Bob 0 (* before the early ones *);
   DoDrain Bob; DoSend Bob [x61; x62] 8192].
Definition mnet_after (ms : list mmove) : mnet := fold_left (fun n m => fst (mnet_step toy T parties n m)) ms mnet0.

(** A check of [mallowed], for message numbers up to 10000. *)
Definition mallowedb (n : mnet) (m : mmove) : bool :=
  match m with
  | DoConnect x cd => is_nil (conns (a_sent (n x))) && fitsb (custom cd)
  | DoAck x cd =>
      negb (is_nil (read_conns (a_inbox (n x)))) && is_nil (acks (a_sent (n x))) && fitsb (custom cd)
  | DoSend x data _ =>
      negb (is_nil (acks (a_sent (n x)))) && negb (is_nil (read_acks (a_inbox (n x)))) &&
      (len (users (a_sent (n x))) + 1 <? 2 ^ 64) && fitsb data
  | DoConfig _ _ | DoTakeAck _ | DoDrain _ => true
  | DoDeliver x i =>
      match nth_error (a_travelling (n x)) i with
      | Some (PData j _, _) => j <? 10000
      | Some _ => true
      | None => false
      end
  end.
Lemma mallowedb_true n m : mallowedb n m = true -> mallowed T n m.
Proof.
  destruct m as [x cd|x cd|x data cap|x cfg|x|x|x i]; cbn [mallowedb mallowed]; intros H; try exact I.
  - apply andb_prop in H as [H1 H2]. apply is_nil_true in H1. apply fitsb_true in H2. exact (conj H1 H2).
  - apply andb_prop in H as [H H3]. apply andb_prop in H as [H1 H2].
    apply is_nil_false in H1. apply is_nil_true in H2. apply fitsb_true in H3. exact (conj H1 (conj H2 H3)).
  - apply andb_prop in H as [H H4]. apply andb_prop in H as [H H3]. apply andb_prop in H as [H1 H2].
    apply is_nil_false in H1. apply is_nil_false in H2. apply N.ltb_lt in H3. apply fitsb_true in H4.
    split; [exact H1|]. split; [exact H2|]. split; [exact H3|exact H4].
  - destruct (nth_error (a_travelling (n x)) i) as [[p d]|]; [|discriminate]. exists p, d. split; [reflexivity|].
    destruct p as [| |j data]; auto. apply N.ltb_lt in H. intros m Hm. lia.
Qed.

Fixpoint mall_allowed (n : mnet) (ms : list mmove) : bool :=
  match ms with
  | [] => true
  | m :: ms => mallowedb n m && mall_allowed (fst (mnet_step toy T parties n m)) ms
  end.
Lemma mexec_moves n0 n ms : mexec toy T parties n0 n -> mall_allowed n ms = true ->
  mexec toy T parties n0 (fold_left (fun n m => fst (mnet_step toy T parties n m)) ms n).
Proof.
  revert n. induction ms as [|m ms IH]; intros n E H; cbn [mall_allowed fold_left] in *; [exact E|].
  apply andb_prop in H as [H1 H2]. apply IH; [|exact H2]. constructor; [exact E|]. apply mallowedb_true, H1.
Qed.
Lemma mexec_mnet : mexec toy T parties mnet0 (mnet_after mmoves).
Proof. apply mexec_moves; [constructor|vm_compute; reflexivity]. Qed.

(** The replay window: [next_nonce_expected] and [orphan_nonce_list]. *)

From Coq Require Import Arith ZifyBool ZifyNat ZifyN.
From Verif.Model Require Import Minimal.
From Verif.Proofs Require Import BaseFacts ReadCases.

Lemma set_remove_In n m l : In m (set_remove n l) <-> In m l /\ m <> n.
Proof.
  unfold set_remove. rewrite filter_In, negb_true_iff, N.eqb_neq. intuition congruence.
Qed.

Lemma set_remove_NoDup n l : NoDup l -> NoDup (set_remove n l).
Proof. apply NoDup_filter. Qed.

Lemma set_remove_notin n l : ~ In n l -> set_remove n l = l.
Proof.
  induction l as [|a l IH]; intros H; [reflexivity|].
  unfold set_remove in *. cbn [filter].
  destruct (N.eqb_spec n a) as [->|Hne]; [exfalso; apply H; left; reflexivity|].
  cbn [negb]. f_equal. apply IH. intros Hi; apply H; right; exact Hi.
Qed.

Lemma set_remove_len n l : NoDup l -> In n l -> len l = len (set_remove n l) + 1.
Proof.
  intros Hd Hi. induction l as [|a l IH]; [destruct Hi|].
  apply NoDup_cons_iff in Hd as [Ha Hd].
  rewrite len_cons. unfold set_remove. cbn [filter]. fold (set_remove n l).
  destruct (N.eqb_spec n a) as [->|Hne]; cbn [negb].
  - rewrite set_remove_notin by exact Ha. lia.
  - rewrite len_cons. destruct Hi as [->|Hi]; [congruence|].
    rewrite (IH Hd Hi) at 1. lia.
Qed.

Lemma set_remove_len_le n l : len (set_remove n l) <= len l.
Proof.
  unfold set_remove. induction l as [|a l IH]; cbn [filter]; [lia|].
  rewrite len_cons. destruct (negb _); [rewrite len_cons|]; lia.
Qed.

(** A window: the remembered nonces are above the next expected one. *)
Definition window_ok (next : N) (orphans : list N) : Prop :=
  NoDup orphans /\ Forall (fun m => next < m < 2 ^ 64) orphans /\
  len orphans <= MAX_ORPHAN_NONCES /\ next < 2 ^ 64.

(** [m] counts as received. *)
Definition seen (next : N) (orphans : list N) (m : N) : Prop := m < next \/ In m orphans.

Section WithEnv.
Context (T : target).

Lemma absorb_orphans_ok fuel next orphans next' orphans' p :
  absorb_orphans T fuel next orphans = (next', orphans', p) ->
  (length orphans <= fuel)%nat ->
  NoDup orphans -> Forall (fun m => next <= m < 2 ^ 64) orphans -> next < 2 ^ 64 ->
  NoDup orphans' /\ Forall (fun m => next' < m < 2 ^ 64) orphans' /\
  len orphans' <= len orphans /\ next' < 2 ^ 64.
Proof.
  revert next orphans. induction fuel as [|fuel IH]; intros next orphans E Hf Hd Ha Hn;
    cbn [absorb_orphans] in E.
  - destruct orphans; [|cbn in Hf; lia]. injection E as <- <- <-.
    repeat split; auto; lia.
  - destruct (set_contains next orphans) eqn:Ec.
    + apply set_contains_In in Ec.
      assert (Forall (fun m => next < m < 2 ^ 64) (set_remove next orphans)) as Hr.
      { apply Forall_forall. intros m Hm. apply set_remove_In in Hm as [Hm Hne].
        rewrite Forall_forall in Ha. specialize (Ha m Hm). lia. }
      pose proof (set_remove_len next orphans Hd Ec) as Hlen.
      assert (length (set_remove next orphans) <= fuel)%nat as Hf'.
      { unfold len in Hlen. lia. }
      destruct (u64_incr T next) as [next1|e|q] eqn:Ei.
      * unfold u64_incr in Ei.
        destruct (N.ltb_spec (next + 1) (2 ^ 64)) as [Hlt|Hge].
        -- injection Ei as <-.
           specialize (IH _ _ E Hf' (set_remove_NoDup _ _ Hd)).
           destruct IH as (A & B & D & F); [|exact Hlt|].
           { eapply Forall_impl; [|exact Hr]. cbn beta. intros; lia. }
           repeat split; auto. lia.
        -- destruct (overflow_checks T); [discriminate|]. injection Ei as <-.
           assert (set_remove next orphans = []) as Hnil.
           { destruct (set_remove next orphans) as [|m l]; [reflexivity|].
             apply Forall_inv in Hr. lia. }
           rewrite Hnil in E.
           assert (forall v, absorb_orphans T fuel v [] = (v, [], None)) as E'
             by (intros v; destruct fuel; reflexivity).
           rewrite E' in E. injection E as <- <- <-.
           split; [constructor|]. split; [constructor|].
           split; [change (len (@nil N)) with 0; lia|apply N.mod_lt; lia].
      * exfalso; eapply u64_incr_not_err; eassumption.
      * injection E as <- <- <-. repeat split; auto using set_remove_NoDup.
        apply set_remove_len_le.
    + injection E as <- <- <-. apply set_contains_nIn in Ec.
      repeat split; auto; try lia. apply Forall_forall. intros m Hm.
      rewrite Forall_forall in Ha. specialize (Ha m Hm).
      assert (m <> next) by (intros ->; contradiction). lia.
Qed.

Lemma absorb_orphans_seen fuel next orphans next' orphans' p :
  absorb_orphans T fuel next orphans = (next', orphans', p) ->
  NoDup orphans -> next + len orphans < 2 ^ 64 ->
  p = None /\ next' + len orphans' = next + len orphans /\
  (forall m, seen next' orphans' m <-> seen next orphans m).
Proof.
  revert next orphans. induction fuel as [|fuel IH]; intros next orphans E Hd Hs;
    cbn [absorb_orphans] in E.
  - injection E as <- <- <-. repeat split; auto.
  - destruct (set_contains next orphans) eqn:Ec.
    + apply set_contains_In in Ec.
      pose proof (set_remove_len next orphans Hd Ec) as Hlen.
      rewrite u64_incr_small in E by lia.
      specialize (IH _ _ E (set_remove_NoDup _ _ Hd)).
      destruct IH as (A & B & D); [lia|].
      split; [exact A|]. split; [lia|].
      intros m. rewrite D. unfold seen. rewrite set_remove_In.
      destruct (N.eq_dec m next) as [->|Hne]; [intuition lia|].
      split; [intros [H|[H _]]|intros [H|H]]; auto; left; lia.
    + injection E as <- <- <-. repeat split; auto.
Qed.

(** What [update_window] leaves untouched, and the window invariant. *)
Lemma update_window_shape n s s' o :
  update_window T n s = (s', o) ->
  (exists v l, s' = set_window v l s /\ (forall e, o <> Err e)) \/
  (s' = set_status Fail s /\ o = Err TooManyUnorderedMsgs).
Proof.
  unfold update_window. destruct (N.eqb_spec n (next_nonce_expected s)).
  - destruct (u64_incr T (next_nonce_expected s)) as [v|e'|p] eqn:Ei.
    + destruct (absorb_orphans T _ v _) as [[v1 l1] [p|]] eqn:Ea; intros E; injection E as <- <-;
        left; exists v1, l1; split; [reflexivity|discriminate|reflexivity|discriminate].
    + exfalso; eapply u64_incr_not_err; eassumption.
    + intros E; injection E as <- <-. left.
      exists (next_nonce_expected s), (orphan_nonce_list s). split; [destruct s; reflexivity|discriminate].
  - destruct (MAX_ORPHAN_NONCES <=? _); intros E; injection E as <- <-.
    + right; auto.
    + left. do 2 eexists; split; [reflexivity|discriminate].
Qed.

Lemma update_window_ok n s s' o :
  update_window T n s = (s', o) ->
  n < 2 ^ 64 -> next_nonce_expected s <= n -> ~ In n (orphan_nonce_list s) ->
  window_ok (next_nonce_expected s) (orphan_nonce_list s) ->
  window_ok (next_nonce_expected s') (orphan_nonce_list s').
Proof.
  intros E Hn Hle Hni (Hd & Ha & Hl & Hx). unfold update_window in E.
  destruct (N.eqb_spec n (next_nonce_expected s)) as [->|Hne].
  - destruct (u64_incr T (next_nonce_expected s)) as [v|e'|p] eqn:Ei.
    + destruct (absorb_orphans T _ v _) as [[v1 l1] p] eqn:Ea.
      assert (s' = set_window v1 l1 s) as -> by (destruct p; injection E as <- <-; reflexivity).
      cbn [next_nonce_expected orphan_nonce_list set_window].
      assert (v < 2 ^ 64 /\ (Forall (fun m => v <= m < 2 ^ 64) (orphan_nonce_list s))) as [Hv Hva].
      { unfold u64_incr in Ei.
        destruct (N.ltb_spec (next_nonce_expected s + 1) (2 ^ 64)) as [Hlt|Hge].
        - injection Ei as <-. split; [exact Hlt|].
          eapply Forall_impl; [|exact Ha]. cbn beta; intros; lia.
        - destruct (overflow_checks T); [discriminate|]. injection Ei as <-.
          split; [apply N.mod_lt; lia|].
          destruct (orphan_nonce_list s) as [|m l]; [constructor|].
          apply Forall_inv in Ha. lia. }
      pose proof (absorb_orphans_ok _ _ _ _ _ _ Ea (Nat.le_refl _) Hd Hva Hv) as (A & B & D & F).
      repeat split; auto. lia.
    + exfalso; eapply u64_incr_not_err; eassumption.
    + injection E as <- <-. repeat split; auto.
  - destruct (N.leb_spec MAX_ORPHAN_NONCES (len (orphan_nonce_list s))) as [Hm|Hm];
      injection E as <- <-.
    + repeat split; auto.
    + cbn [next_nonce_expected orphan_nonce_list set_window]. unfold set_insert.
      apply set_contains_nIn in Hni as Hc. rewrite Hc.
      repeat split; auto.
      * constructor; auto.
      * constructor; auto. lia.
      * rewrite len_cons. lia.
Qed.

(** One delivery adds exactly its nonce, as long as nothing overflows. *)
Lemma update_window_seen n s s' o :
  update_window T n s = (s', o) ->
  NoDup (orphan_nonce_list s) ->
  next_nonce_expected s <= n -> ~ In n (orphan_nonce_list s) ->
  next_nonce_expected s + len (orphan_nonce_list s) + 1 < 2 ^ 64 ->
  (o = Ok tt /\
   next_nonce_expected s' + len (orphan_nonce_list s')
     = next_nonce_expected s + len (orphan_nonce_list s) + 1 /\
   (forall m, seen (next_nonce_expected s') (orphan_nonce_list s') m <->
              seen (next_nonce_expected s) (orphan_nonce_list s) m \/ m = n)) \/
  (o = Err TooManyUnorderedMsgs /\ s' = set_status Fail s /\
   n <> next_nonce_expected s /\ MAX_ORPHAN_NONCES <= len (orphan_nonce_list s)).
Proof.
  intros E Hd Hle Hni Hg. unfold update_window in E.
  destruct (N.eqb_spec n (next_nonce_expected s)) as [->|Hne].
  - left. rewrite u64_incr_small in E by lia.
    destruct (absorb_orphans T _ _ _) as [[v1 l1] p] eqn:Ea.
    pose proof (absorb_orphans_seen _ _ _ _ _ _ Ea Hd ltac:(lia)) as (-> & B & D).
    injection E as <- <-. cbn [next_nonce_expected orphan_nonce_list set_window].
    split; [reflexivity|]. split; [lia|].
    intros m. rewrite D. unfold seen. split.
    + intros [H|H]; [|auto]. destruct (N.eq_dec m (next_nonce_expected s)); [auto|left; left; lia].
    + intros [[H|H]| ->]; [left; lia|auto|left; lia].
  - destruct (N.leb_spec MAX_ORPHAN_NONCES (len (orphan_nonce_list s))) as [Hm|Hm];
      injection E as <- <-.
    + right; auto.
    + left. cbn [next_nonce_expected orphan_nonce_list set_window]. unfold set_insert.
      apply set_contains_nIn in Hni as Hc. rewrite Hc.
      split; [reflexivity|]. split; [rewrite len_cons; lia|].
      intros m. unfold seen. cbn [In]. intuition congruence.
Qed.

End WithEnv.

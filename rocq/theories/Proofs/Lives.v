(** Lives of handles: the part of the family proofs that is about lists. *)

From Coq Require Import Arith ZifyBool ZifyNat ZifyN.
From Verif.Model Require Import Base.
From Verif.Spec Require Import Family.
From Verif.Proofs Require Import Ledger.

Local Open Scope nat_scope.

(** ** Lists *)
Lemma replace_length {A} i (x : A) l : i < length l -> length (replace i x l) = length l.
Proof. intros H. unfold replace. rewrite app_length, firstn_length. cbn [length]. rewrite skipn_length. lia. Qed.

Lemma nth_error_replace_same {A} i (x : A) l : i < length l -> nth_error (replace i x l) i = Some x.
Proof.
  intros H. unfold replace. rewrite nth_error_app2 by (rewrite firstn_length; lia).
  rewrite firstn_length, Nat.min_l by lia. rewrite Nat.sub_diag. reflexivity.
Qed.

Lemma nth_error_replace_other {A} i j (x : A) l : i < length l -> j <> i -> nth_error (replace i x l) j = nth_error l j.
Proof.
  intros H Hne. unfold replace. destruct (lt_dec j i) as [Hlt|Hge].
  - rewrite nth_error_app1 by (rewrite firstn_length; lia). revert l j Hlt Hne H.
    induction i as [|i IH]; intros [|y l] [|j] Hlt Hne H; cbn [length] in H; try lia; cbn [firstn nth_error]; [reflexivity|].
    apply IH; lia.
  - rewrite nth_error_app2 by (rewrite firstn_length; lia). rewrite firstn_length, Nat.min_l by lia.
    destruct (j - i) as [|k] eqn:Ek; [lia|]. cbn [nth_error].
    replace j with (S i + k) by lia. clear. revert l. induction (S i) as [|n IH]; intros [|y l]; cbn [skipn plus nth_error]; try reflexivity.
    + destruct k; reflexivity.
    + apply IH.
Qed.

Lemma nth_error_snoc {A} (l : list A) x y j :
  nth_error (l ++ [x]) j = Some y -> nth_error l j = Some y \/ j = length l /\ y = x.
Proof.
  intros H. destruct (lt_dec j (length l)).
  - left. rewrite nth_error_app1 in H by assumption. exact H.
  - right. assert (j < length (l ++ [x])) as Hl by (apply nth_error_Some; congruence).
    rewrite app_length in Hl. cbn [length] in Hl. assert (j = length l) as -> by lia.
    rewrite nth_error_app2, Nat.sub_diag in H by lia. cbn in H. split; congruence.
Qed.

Lemma nth_of_error {A} (l : list A) i d x : nth_error l i = Some x -> nth i l d = x.
Proof. revert i. induction l as [|y l IH]; intros [|i] H; cbn in *; try discriminate; [congruence|auto]. Qed.

Lemma combine_snoc {A B} (l1 : list A) (l2 : list B) a b :
  length l1 = length l2 -> combine (l1 ++ [a]) (l2 ++ [b]) = combine l1 l2 ++ [(a, b)].
Proof. revert l2. induction l1 as [|x l1 IH]; intros [|y l2] H; try discriminate; cbn in *; [reflexivity|]. rewrite IH by lia. reflexivity. Qed.

Lemma firstn_snoc_le {A} t (l : list A) x : t <= length l -> firstn t (l ++ [x]) = firstn t l.
Proof. intros H. rewrite firstn_app. replace (t - length l) with 0 by lia. cbn [firstn]. apply app_nil_r. Qed.

Lemma firstn_snoc_all {A} (l : list A) x : firstn (length l) (l ++ [x]) = l.
Proof. rewrite firstn_app, Nat.sub_diag, firstn_all. cbn [firstn]. apply app_nil_r. Qed.

Lemma nth_error_firstn {A} (l : list A) t u : u < t -> nth_error (firstn t l) u = nth_error l u.
Proof. revert l u. induction t as [|t IH]; intros [|x l] [|u] H; try lia; cbn; try reflexivity. apply IH. lia. Qed.

Lemma in_replace {A} i (x y : A) l : In y (replace i x l) -> y = x \/ In y l.
Proof.
  unfold replace. rewrite in_app_iff. intros [H|[H|H]]; [|auto|]; right.
  - rewrite <- (firstn_skipn i l). apply in_app_iff. auto.
  - rewrite <- (firstn_skipn (S i) l). apply in_app_iff. auto.
Qed.

Lemma split_unique (a b c d : list nat) v : a ++ v :: b = c ++ v :: d -> ~ In v a -> ~ In v c -> a = c.
Proof.
  revert c. induction a as [|x a IH]; intros [|y c] E Ha Hc; cbn in E.
  - reflexivity.
  - injection E as -> _. exfalso. apply Hc. left. reflexivity.
  - injection E as -> _. exfalso. apply Ha. left. reflexivity.
  - injection E as -> E. f_equal. eapply IH; [exact E| |]; intros H; [apply Ha|apply Hc]; right; exact H.
Qed.

Section Lives.
Context {E : Type} (clones : E -> bool).
Implicit Types (tr : trace E) (e : E).
Local Notation lives := (lives clones).
Local Notation life := (life clones).
Local Notation past := (past clones).

Lemma lives_snoc tr x : lives (tr ++ [x]) = live clones (lives tr) (length tr, x).
Proof.
  unfold Family.lives. rewrite app_length, Nat.add_1_r, seq_S, combine_snoc by (apply seq_length).
  rewrite fold_left_app. reflexivity.
Qed.

Lemma past_snoc_old tr x t : t < length tr -> past (tr ++ [x]) t = past tr t.
Proof. intros H. unfold Family.past. rewrite nth_error_app1, firstn_snoc_le by lia. reflexivity. Qed.

Lemma past_snoc_new tr i e : past (tr ++ [(i, e)]) (length tr) = life tr i.
Proof. unfold Family.past. rewrite nth_error_app2, Nat.sub_diag by lia. cbn [nth_error]. rewrite firstn_snoc_all. reflexivity. Qed.

Lemma past_firstn tr t u : u < t -> past (firstn t tr) u = past tr u.
Proof. intros H. unfold Family.past. rewrite nth_error_firstn, firstn_firstn, Nat.min_l by lia. reflexivity. Qed.

Lemma events_app tr a b : events tr (a ++ b) = events tr a ++ events tr b.
Proof. unfold events. apply flat_map_app. Qed.

Lemma events_snoc_old tr x ts : Forall (fun t => t < length tr) ts -> events (tr ++ [x]) ts = events tr ts.
Proof.
  intros H. unfold events. induction H as [|t ts Ht H IH]; cbn [flat_map]; [reflexivity|].
  rewrite IH, nth_error_app1 by exact Ht. reflexivity.
Qed.

Lemma events_firstn tr t ts : Forall (fun u => u < t) ts -> events (firstn t tr) ts = events tr ts.
Proof.
  intros H. unfold events. induction H as [|u ts Hu H IH]; cbn [flat_map]; [reflexivity|].
  rewrite IH, nth_error_firstn by exact Hu. reflexivity.
Qed.

Lemma events_snoc_new tr i e : events (tr ++ [(i, e)]) [length tr] = [e].
Proof. unfold events. cbn [flat_map]. rewrite nth_error_app2, Nat.sub_diag by lia. reflexivity. Qed.

Lemma events_le tr ts : length (events tr ts) <= length ts.
Proof.
  unfold events. induction ts as [|t ts IH]; cbn [flat_map length]; [lia|]. rewrite app_length.
  destruct (nth_error tr t) as [[i e]|]; cbn [length]; lia.
Qed.

(** Traces that only use handles that exist, with the number of handles. *)
Definition more (e : E) : nat := if clones e then 1 else 0.
Inductive wf : trace E -> nat -> Prop :=
| wf_nil : wf [] 1
| wf_snoc tr n i e : wf tr n -> i < n -> wf (tr ++ [(i, e)]) (n + more e).

(** A life is closed under going back. *)
Record LivesOk (tr : trace E) (n : nat) : Prop := {
  lv_len : length (lives tr) = n;
  lv_length : forall i, i < n -> length (life tr i) <= length tr;
  lv_nodup : forall i, i < n -> NoDup (life tr i);
  lv_lt : forall i, i < n -> Forall (fun t => t < length tr) (life tr i);
  lv_back : forall i t, i < n -> In t (life tr i) -> exists l, life tr i = past tr t ++ t :: l
}.

Lemma life_snoc_cases tr i e n :
  length (lives tr) = n -> i < n ->
  length (lives (tr ++ [(i, e)])) = n + more e /\
  forall j, j < n + more e ->
    (j < n /\ j <> i /\ life (tr ++ [(i, e)]) j = life tr j) \/
    ((j = i \/ j = n) /\ life (tr ++ [(i, e)]) j = life tr i ++ [length tr]).
Proof.
  intros Hn Hi. rewrite lives_snoc. cbn [live]. fold (life tr i). unfold more.
  split. { rewrite app_length, replace_length by lia. destruct (clones e); cbn [length]; lia. }
  intros j Hj. unfold Family.life at 1 3. rewrite lives_snoc. cbn [live]. fold (life tr i).
  destruct (lt_dec j n) as [Hlt|Hge].
  - destruct (Nat.eq_dec j i) as [-> |Hne].
    + right. split; [auto|]. apply nth_of_error. rewrite nth_error_app1 by (rewrite replace_length; lia).
      apply nth_error_replace_same. lia.
    + left. split; [exact Hlt|]. split; [exact Hne|].
      destruct (nth_error (lives tr) j) as [x|] eqn:Ex; [|apply nth_error_None in Ex; lia].
      unfold Family.life. rewrite (nth_of_error _ _ [] _ Ex). apply nth_of_error.
      rewrite nth_error_app1 by (rewrite replace_length; lia). rewrite nth_error_replace_other by lia. exact Ex.
  - right. destruct (clones e); [|lia]. assert (j = n) as -> by lia.
    split; [auto|]. apply nth_of_error. rewrite nth_error_app2 by (rewrite replace_length; lia).
    rewrite replace_length, Hn, Nat.sub_diag by lia. reflexivity.
Qed.

Lemma lives_ok tr n : wf tr n -> LivesOk tr n.
Proof.
  induction 1 as [|tr n i e HW [L1 L0 Ln L2 L3] Hi].
  { constructor; [reflexivity| | | |]; intros [|[|i]] **; cbn in *; try lia; try contradiction; try constructor. }
  destruct (life_snoc_cases tr i e n L1 Hi) as [A B]. constructor.
  - exact A.
  - intros j Hj. rewrite app_length. cbn [length].
    destruct (B j Hj) as [(H1 & _ & ->)|[_ ->]]; [specialize (L0 j H1); lia|].
    rewrite app_length. cbn [length]. specialize (L0 i Hi). lia.
  - intros j Hj. destruct (B j Hj) as [(H1 & _ & ->)|[_ ->]]; [auto|].
    apply NoDup_app_intro_snoc; [auto|]. intros Hin. pose proof (L2 i Hi) as H. rewrite Forall_forall in H.
    apply H in Hin. lia.
  - intros j Hj. rewrite app_length. cbn [length].
    destruct (B j Hj) as [(H1 & _ & ->)|[_ ->]].
    + eapply Forall_impl; [|exact (L2 j H1)]. cbv beta. intros; lia.
    + apply Forall_app. split; [|constructor; [lia|constructor]].
      eapply Forall_impl; [|exact (L2 i Hi)]. cbv beta. intros; lia.
  - intros j t Hj Ht.
    destruct (B j Hj) as [(H1 & _ & H2)|[_ H2]]; rewrite H2 in Ht |- *.
    + pose proof (L2 j H1) as Hlt. rewrite Forall_forall in Hlt. rewrite past_snoc_old by (apply Hlt, Ht). auto.
    + apply in_app_iff in Ht as [Ht|[<-|[]]].
      * pose proof (L2 i Hi) as Hlt. rewrite Forall_forall in Hlt. rewrite past_snoc_old by (apply Hlt, Ht).
        destruct (L3 i t Hi Ht) as [l ->]. exists (l ++ [length tr]). rewrite <- app_assoc. reflexivity.
      * rewrite past_snoc_new. exists []. reflexivity.
Qed.

Lemma wf_firstn tr n t : wf tr n -> exists m, wf (firstn t tr) m.
Proof.
  induction 1 as [|tr n i e HW [m IH] Hi]; [exists 1; destruct t; constructor|].
  destruct (le_dec t (length tr)) as [Hle|Hgt].
  - rewrite firstn_snoc_le by exact Hle. eauto.
  - rewrite firstn_all2 by (rewrite app_length; cbn [length]; lia). eexists. constructor; eassumption.
Qed.

Lemma wf_handle tr n t i e : wf tr n -> nth_error tr t = Some (i, e) ->
  exists m, wf (firstn t tr) m /\ i < m.
Proof.
  induction 1 as [|tr n j e' HW IH Hj]; intros Ht; [destruct t; discriminate|].
  apply nth_error_snoc in Ht as [Ht|[-> Ht]].
  - assert (t < length tr) by (apply nth_error_Some; congruence). rewrite firstn_snoc_le by lia. auto.
  - injection Ht as -> ->. rewrite firstn_snoc_all. eauto.
Qed.

Lemma past_lt tr n t : wf tr n -> Forall (fun u => u < t) (past tr t).
Proof.
  intros HW. unfold Family.past. destruct (nth_error tr t) as [[i e]|] eqn:Et; [|constructor].
  destruct (wf_handle tr n t i e HW Et) as (m & Hm & Hi).
  eapply Forall_impl; [|exact (lv_lt _ _ (lives_ok _ _ Hm) i Hi)]. cbv beta. intros u Hu.
  rewrite firstn_length in Hu. lia.
Qed.

Lemma past_length tr n t : wf tr n -> length (past tr t) <= t.
Proof.
  intros HW. unfold Family.past. destruct (nth_error tr t) as [[i e]|] eqn:Et; [|cbn; lia].
  destruct (wf_handle tr n t i e HW Et) as (m & Hm & Hi).
  pose proof (lv_length _ _ (lives_ok _ _ Hm) i Hi) as H. rewrite firstn_length in H. lia.
Qed.

Lemma past_back tr n t u : wf tr n -> In u (past tr t) ->
  NoDup (past tr t) /\ exists l, past tr t = past tr u ++ u :: l.
Proof.
  intros HW Hu. pose proof (past_lt tr n t HW) as Hall. rewrite Forall_forall in Hall. specialize (Hall u Hu).
  destruct (nth_error tr t) as [[i e]|] eqn:Et.
  2: { unfold Family.past in Hu. rewrite Et in Hu. destruct Hu. }
  destruct (wf_handle tr n t i e HW Et) as (m & Hm & Hi). pose proof (lives_ok _ _ Hm) as [_ _ L2 _ L3].
  assert (past tr t = life (firstn t tr) i) as Hp by (unfold Family.past; rewrite Et; reflexivity).
  rewrite Hp in Hu |- *. split; [apply L2, Hi|]. destruct (L3 i u Hi Hu) as [l Hl]. exists l.
  rewrite Hl, past_firstn by exact Hall. reflexivity.
Qed.

Lemma life_events_new tr i e n :
  LivesOk tr n -> i < n ->
  events (tr ++ [(i, e)]) (life tr i ++ [length tr]) = events tr (life tr i) ++ [e].
Proof.
  intros [L1 L0 Ln L2 L3] Hi. rewrite events_app, events_snoc_new, events_snoc_old by (apply L2, Hi). reflexivity.
Qed.

Lemma past_events tr n t i e : wf tr n -> nth_error tr t = Some (i, e) ->
  past tr t = life (firstn t tr) i /\ events (firstn t tr) (life (firstn t tr) i) = events tr (past tr t).
Proof.
  intros HW Ht. assert (past tr t = life (firstn t tr) i) as Hp by (unfold Family.past; rewrite Ht; reflexivity).
  split; [exact Hp|]. rewrite <- Hp. apply events_firstn. eapply past_lt, HW.
Qed.

(** The calls on a handle are in its life. *)
Lemma own_life tr n t i e : wf tr n -> nth_error tr t = Some (i, e) -> In t (life tr i).
Proof.
  induction 1 as [|tr n j e' HW IH Hj]; intros Ht; [destruct t; discriminate|].
  pose proof (lives_ok tr n HW) as L. pose proof (life_snoc_cases tr j e' n (lv_len _ _ L) Hj) as [_ HB].
  apply nth_error_snoc in Ht as [Ht|[-> Ht]].
  - specialize (IH Ht).
    assert (i < n) as Hin.
    { destruct (le_lt_dec n i) as [Hle|]; [|assumption]. exfalso. unfold Family.life in IH.
      rewrite nth_overflow in IH by (rewrite (lv_len _ _ L); exact Hle). exact IH. }
    destruct (HB i ltac:(lia)) as [(_ & _ & ->)|[[-> | ->] ->]]; [exact IH| |lia]. apply in_app_iff. left. exact IH.
  - injection Ht as -> ->. destruct (HB j ltac:(lia)) as [(_ & H & _)|[_ ->]]; [congruence|].
    apply in_app_iff. right. left. reflexivity.
Qed.

Lemma own_past tr n t1 t2 i e1 e2 : wf tr n -> t1 < t2 ->
  nth_error tr t1 = Some (i, e1) -> nth_error tr t2 = Some (i, e2) -> In t1 (past tr t2).
Proof.
  intros HW Hlt H1 H2. destruct (past_events tr n t2 i e2 HW H2) as [-> _].
  destruct (wf_firstn tr n t2 HW) as [m HW2]. eapply own_life; [exact HW2|]. rewrite nth_error_firstn by exact Hlt. exact H1.
Qed.

(** ** Counting the calls of a kind *)
Section Counting.
Context (w : E -> bool).
Definition number tr t : nat := length (filter w (events tr (past tr t))).

Lemma filter_app_length (a b : list E) : length (filter w (a ++ b)) = length (filter w a) + length (filter w b).
Proof. rewrite filter_app, app_length. reflexivity. Qed.

Lemma count_events_at tr ts j : j < length (filter w (events tr ts)) ->
  exists l1 v l2 i e, ts = l1 ++ v :: l2 /\ nth_error tr v = Some (i, e) /\ w e = true /\
    length (filter w (events tr l1)) = j.
Proof.
  revert j. induction ts as [|t ts IH] using rev_ind; intros j Hj; [cbn in Hj; lia|].
  rewrite events_app, filter_app_length in Hj.
  destruct (lt_dec j (length (filter w (events tr ts)))) as [Hlt|Hge].
  - destruct (IH j Hlt) as (l1 & v & l2 & i & e & -> & H). exists l1, v, (l2 ++ [t]), i, e.
    rewrite <- app_assoc. auto.
  - unfold events at 2 in Hj. cbn [flat_map] in Hj. destruct (nth_error tr t) as [[i e]|] eqn:Et; [|cbn in Hj; lia].
    cbn [app filter] in Hj. destruct (w e) eqn:Ew; cbn [length] in Hj; [|lia].
    exists ts, t, [], i, e. repeat (split; [assumption||reflexivity|]). lia.
Qed.

Definition counted tr t : Prop := exists i e, nth_error tr t = Some (i, e) /\ w e = true.

(** Every smaller number was reached before, in the same past. *)
Lemma number_all tr n t j :
  wf tr n -> counted tr t -> j <= number tr t ->
  exists v, (v = t \/ In v (past tr t)) /\ counted tr v /\ number tr v = j.
Proof.
  intros HW Hw Hj. destruct (Nat.eq_dec j (number tr t)) as [-> |Hne]; [eauto|].
  destruct (count_events_at tr (past tr t) j) as (l1 & v & l2 & i & e & Hl & Hv & He & Hc).
  { unfold number in *. lia. }
  exists v. assert (In v (past tr t)) as Hin by (rewrite Hl; apply in_app_iff; right; left; reflexivity).
  split; [auto|]. split; [exists i, e; auto|].
  destruct (past_back tr n t v HW Hin) as (Hnd & l & Hback).
  rewrite Hl in Hback, Hnd. apply NoDup_remove_2 in Hnd. rewrite in_app_iff in Hnd.
  apply split_unique in Hback; [|tauto|].
  - unfold number. rewrite <- Hback. exact Hc.
  - intros Hin'. pose proof (past_lt tr n v HW) as Hall. rewrite Forall_forall in Hall. apply Hall in Hin'. lia.
Qed.

Lemma number_grows tr n t u : wf tr n -> counted tr u -> In u (past tr t) -> number tr u < number tr t.
Proof.
  intros HW (i & e & Hu & Hw) Hin. destruct (past_back tr n t u HW Hin) as (_ & l & Hl).
  unfold number at 2. rewrite Hl, events_app.
  change (u :: l) with ([u] ++ l). rewrite events_app. unfold events at 2. cbn [flat_map]. rewrite Hu. cbn [app].
  rewrite filter_app_length. cbn [filter]. rewrite Hw. cbn [length]. unfold number. lia.
Qed.

Lemma number_le tr n t : wf tr n -> number tr t <= t.
Proof.
  intros HW. unfold number. pose proof (past_length tr n t HW). pose proof (events_le tr (past tr t)).
  assert (forall l : list E, length (filter w l) <= length l) as Hf
    by (induction l as [|x l IH]; cbn; [lia|destruct (w x); cbn; lia]).
  specialize (Hf (events tr (past tr t))). lia.
Qed.

(** Two calls of the kind have the same number when, and only when, there are
    two of which the earlier is not in the past of the later. *)
Lemma number_clash tr n : wf tr n ->
  ((exists t1 t2, t1 <> t2 /\ counted tr t1 /\ counted tr t2 /\ number tr t1 = number tr t2) <->
   (exists t1 t2, t1 < t2 /\ counted tr t1 /\ counted tr t2 /\ ~ In t1 (past tr t2))).
Proof.
  intros HW. split.
  - intros (t1 & t2 & Hne & W1 & W2 & Hn). destruct (lt_dec t1 t2) as [Hl|Hl].
    + exists t1, t2. repeat (split; [assumption|]). intros Hin. pose proof (number_grows tr n t2 t1 HW W1 Hin). lia.
    + exists t2, t1. split; [lia|]. repeat (split; [assumption|]). intros Hin.
      pose proof (number_grows tr n t1 t2 HW W2 Hin). lia.
  - intros (t1 & t2 & Hl & W1 & W2 & Hnin).
    destruct (le_dec (number tr t1) (number tr t2)) as [Hle|Hgt].
    + destruct (number_all tr n t2 (number tr t1) HW W2 Hle) as (v & Hv & Wv & Nv).
      exists t1, v. split; [intros <-; destruct Hv as [-> |Hv]; [lia|contradiction]|]. auto.
    + destruct (number_all tr n t1 (number tr t2) HW W1) as (v & Hv & Wv & Nv); [lia|].
      exists v, t2. split; [|auto].
      intros ->. destruct Hv as [-> |Hv]; [lia|]. pose proof (past_lt tr n t1 HW) as Hall.
      rewrite Forall_forall in Hall. apply Hall in Hv. lia.
Qed.
End Counting.
End Lives.

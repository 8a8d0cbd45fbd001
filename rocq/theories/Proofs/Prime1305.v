(** 2^130 - 5 is prime, by Pocklington's criterion. *)

From Coq Require Import ZArith Znumtheory Zpow_facts List Lia.
Import ListNotations.
Local Open Scope Z_scope.

Lemma prime_divisor n : 1 < n -> exists l, prime l /\ (l | n).
Proof.
  intros H. assert (H0 : 0 <= n) by lia. revert n H0 H.
  refine (Z_lt_induction _ _). intros n IH Hn.
  destruct (prime_dec n) as [Hp|Hp]; [exists n; split; [exact Hp|apply Z.divide_refl]|].
  destruct (not_prime_divide n Hn Hp) as (m & Hm & Hd).
  destruct (IH m ltac:(lia) ltac:(lia)) as (l & Hl & Hlm). exists l. split; [exact Hl|].
  exact (Z.divide_trans _ _ _ Hlm Hd).
Qed.

Lemma small_prime_divisor n : 1 < n -> ~ prime n -> exists l, prime l /\ (l | n) /\ l * l <= n.
Proof.
  intros Hn Hp. destruct (not_prime_divide n Hn Hp) as (m & Hm & c & Hc).
  assert (Hc1 : 1 < c).
  { destruct (Z_lt_le_dec 1 c) as [|Hle]; [assumption|exfalso].
    pose proof (Z.mul_le_mono_nonneg_r c 1 m ltac:(lia) Hle). lia. }
  destruct (Z_le_gt_dec m c) as [H|H].
  - destruct (prime_divisor m ltac:(lia)) as (l & Hl & Hd). exists l. split; [exact Hl|].
    split; [apply (Z.divide_trans _ m); [exact Hd|exists c; exact Hc]|].
    pose proof (Z.divide_pos_le l m ltac:(lia) Hd). pose proof (prime_ge_2 _ Hl). nia.
  - destruct (prime_divisor c Hc1) as (l & Hl & Hd). exists l. split; [exact Hl|].
    split; [apply (Z.divide_trans _ c); [exact Hd|exists m; lia]|].
    pose proof (Z.divide_pos_le l c ltac:(lia) Hd). pose proof (prime_ge_2 _ Hl). nia.
Qed.

(** ** Powers modulo a prime *)

Section Powers.
Variables (l b F : Z).
Hypothesis Hl : prime l.
Hypothesis HF : 0 < F.
Hypothesis HbF : (l | b ^ F - 1).
Hypothesis Hq : forall q, prime q -> (q | F) -> ~ (l | b ^ (F / q) - 1).

Definition one (i : Z) : Prop := (l | b ^ i - 1).

Lemma one_mult i k : 0 <= i -> 0 <= k -> one i -> one (i * k).
Proof.
  unfold one. intros Hi Hk H. rewrite Z.pow_mul_r by lia.
  revert k Hk. apply natlike_ind; [cbn; exists 0; lia|].
  intros k Hk IH. rewrite Z.pow_succ_r by lia.
  replace (b ^ i * (b ^ i) ^ k - 1) with ((b ^ i - 1) * (b ^ i) ^ k + ((b ^ i) ^ k - 1)) by ring.
  apply Z.divide_add_r; [apply Z.divide_mul_l, H|exact IH].
Qed.

Lemma unit_b i : 0 <= i -> ~ (l | b ^ i).
Proof.
  intros Hi H. assert (Hb : (l | b)).
  { revert i Hi H. apply (natlike_ind (fun i => (l | b ^ i) -> (l | b))).
    - cbn. intros H. exfalso. pose proof (Z.divide_pos_le _ _ Z.lt_0_1 H). pose proof (prime_ge_2 _ Hl). lia.
    - intros i Hi IH H. rewrite Z.pow_succ_r in H by lia.
      destruct (prime_mult l Hl _ _ H); auto. }
  assert ((l | b ^ F)).
  { replace F with (Z.succ (F - 1)) by lia. rewrite Z.pow_succ_r by lia. apply Z.divide_mul_l, Hb. }
  assert (H1 : (l | 1)) by (replace 1 with (b ^ F - (b ^ F - 1)) by ring; apply Z.divide_sub_r; assumption).
  pose proof (Z.divide_pos_le _ _ Z.lt_0_1 H1). pose proof (prime_ge_2 _ Hl). lia.
Qed.

Lemma one_sub i j : 0 <= i <= j -> (l | b ^ j - b ^ i) -> one (j - i).
Proof.
  intros H Hd. unfold one.
  replace (b ^ j - b ^ i) with (b ^ i * (b ^ (j - i) - 1)) in Hd
    by (rewrite Z.mul_sub_distr_l, <- Z.pow_add_r by lia; replace (i + (j - i)) with j by lia; ring).
  destruct (prime_mult l Hl _ _ Hd) as [H1|H1]; [|exact H1]. exfalso. exact (unit_b i ltac:(lia) H1).
Qed.

Lemma one_gcd (n : nat) : forall i j, 0 <= i -> 0 <= j -> (Z.to_nat i < n)%nat -> one i -> one j -> one (Z.gcd i j).
Proof.
  induction n as [|n IH]; intros i j Hi Hj Hn H1 H2; [lia|].
  destruct (Z.eq_dec i 0) as [->|Hne].
  { rewrite Z.gcd_0_l, Z.abs_eq by lia. exact H2. }
  assert (Hm : one (j mod i)).
  { pose proof (Z.div_mod j i Hne) as E. pose proof (Z.mod_pos_bound j i ltac:(lia)) as Hb0.
    assert (0 <= j / i) by (apply Z.div_pos; lia).
    replace (j mod i) with (j - i * (j / i)) by lia. apply one_sub; [lia|].
    replace (b ^ j - b ^ (i * (j / i))) with ((b ^ j - 1) - (b ^ (i * (j / i)) - 1)) by ring.
    apply Z.divide_sub_r; [exact H2|]. apply one_mult; auto. }
  rewrite <- (Z.gcd_mod j i) by exact Hne.
  pose proof (Z.mod_pos_bound j i ltac:(lia)).
  apply IH; auto; lia.
Qed.

Lemma order i : 0 < i < F -> ~ one i.
Proof.
  intros Hi H. pose proof (one_gcd (S (Z.to_nat i)) i F ltac:(lia) ltac:(lia) ltac:(lia) H HbF) as Hg.
  set (g := Z.gcd i F) in *.
  assert (Hgi : (g | i)) by apply Z.gcd_divide_l. assert (HgF : (g | F)) by apply Z.gcd_divide_r.
  assert (Hg0 : 0 < g) by (pose proof (Z.gcd_nonneg i F); assert (g <> 0) by (intros E; apply Z.gcd_eq_0 in E; lia); lia).
  pose proof (Z.divide_pos_le g i ltac:(lia) Hgi) as Hle.
  destruct HgF as [c Hc]. assert (Hc1 : 1 < c) by nia.
  destruct (prime_divisor c Hc1) as (q & Hqp & [e He]).
  pose proof (prime_ge_2 _ Hqp).
  apply (Hq q Hqp); [exists (e * g); rewrite Hc, He; ring|].
  replace (F / q) with (g * e).
  - apply one_mult; [lia|nia|exact Hg].
  - rewrite Hc, He. replace (e * q * g) with (g * e * q) by ring. rewrite Z.div_mul by lia. reflexivity.
Qed.

Lemma order_bound : F < l.
Proof.
  pose proof (prime_ge_2 _ Hl) as Hl2.
  set (pw := fun i : nat => (b ^ Z.of_nat i) mod l).
  set (L1 := map pw (seq 0 (Z.to_nat F))).
  set (L2 := map Z.of_nat (seq 1 (Z.to_nat (l - 1)))).
  assert (Hdiv : forall i j : nat, (i <= j)%nat -> pw i = pw j -> one (Z.of_nat j - Z.of_nat i)).
  { intros i j Hij E. apply one_sub; [lia|]. unfold pw in E.
    apply Z.mod_divide; [lia|]. rewrite Zminus_mod, E, Z.sub_diag. reflexivity. }
  assert (Hnd : NoDup L1).
  { apply NoDup_nth with (d := 0). unfold L1. rewrite map_length, seq_length. intros i j Hi Hj E.
    assert (Hnth : forall n, (n < Z.to_nat F)%nat -> nth n (map pw (seq 0 (Z.to_nat F))) 0 = pw n).
    { intros n Hn. rewrite (nth_indep _ 0 (pw 0%nat)) by (rewrite map_length, seq_length; exact Hn).
      rewrite map_nth, seq_nth by exact Hn. reflexivity. }
    rewrite !Hnth in E by assumption.
    destruct (Nat.lt_trichotomy i j) as [H|[H|H]]; [|exact H|]; exfalso.
    - apply (order (Z.of_nat j - Z.of_nat i)); [lia|]. apply Hdiv; [lia|exact E].
    - apply (order (Z.of_nat i - Z.of_nat j)); [lia|]. apply Hdiv; [lia|congruence]. }
  assert (Hinc : incl L1 L2).
  { intros x Hx. unfold L1 in Hx. apply in_map_iff in Hx as (i & <- & Hi).
    unfold pw. pose proof (Z.mod_pos_bound (b ^ Z.of_nat i) l ltac:(lia)) as Hb0.
    assert ((b ^ Z.of_nat i) mod l <> 0).
    { intros E. apply (unit_b (Z.of_nat i) ltac:(lia)). apply Z.mod_divide; [lia|exact E]. }
    unfold L2. apply in_map_iff. exists (Z.to_nat ((b ^ Z.of_nat i) mod l)). split; [lia|].
    apply in_seq. lia. }
  pose proof (NoDup_incl_length Hnd Hinc) as Hlen. unfold L1, L2 in Hlen.
  rewrite !map_length, !seq_length in Hlen. lia.
Qed.
End Powers.

Theorem pocklington N b F :
  1 < N -> 0 < F -> N < F * F -> (N | b ^ F - 1) ->
  (forall q, prime q -> (q | F) -> rel_prime (b ^ (F / q) - 1) N) -> prime N.
Proof.
  intros HN HF HFF Hb Hq. destruct (prime_dec N) as [|Hp]; [assumption|exfalso].
  destruct (small_prime_divisor N HN Hp) as (l & Hl & Hd & Hll).
  assert (F < l); [|nia].
  apply (order_bound l b F Hl HF (Z.divide_trans _ _ _ Hd Hb)).
  intros q Hqp HqF H. specialize (Hq q Hqp HqF).
  destruct Hq as [_ _ Hg]. specialize (Hg l H Hd).
  pose proof (Z.divide_pos_le _ _ Z.lt_0_1 Hg). pose proof (prime_ge_2 _ Hl). lia.
Qed.

(** ** Computation *)

Lemma pow_one N b F : 1 < N -> 0 <= F -> Zpow_mod b F N = 1 -> (N | b ^ F - 1).
Proof.
  intros HN HF H. rewrite Zpow_mod_correct in H by lia.
  apply Z.mod_divide; [lia|]. rewrite Zminus_mod, H. rewrite (Z.mod_small 1) by lia. reflexivity.
Qed.

Lemma pow_rel N b e : 1 < N -> Z.gcd (Zpow_mod b e N - 1) N = 1 -> rel_prime (b ^ e - 1) N.
Proof.
  intros HN H. rewrite Zpow_mod_correct in H by lia.
  apply Zgcd_1_rel_prime. etransitivity; [|exact H].
  rewrite (Z.gcd_comm (b ^ e - 1)), <- (Z.gcd_mod (b ^ e - 1) N) by lia.
  rewrite (Z.gcd_comm (b ^ e mod N - 1)), <- (Z.gcd_mod (b ^ e mod N - 1) N) by lia.
  now rewrite Zminus_mod_idemp_l.
Qed.

(** Trial division. *)
Lemma trial n k : 1 < n -> n < Z.of_nat k * Z.of_nat k ->
  forallb (fun d => negb (n mod Z.of_nat d =? 0)) (seq 2 (k - 2)) = true -> prime n.
Proof.
  intros Hn Hk H. destruct (prime_dec n) as [|Hp]; [assumption|exfalso].
  destruct (small_prime_divisor n Hn Hp) as (l & Hl & Hd & Hll). pose proof (prime_ge_2 _ Hl).
  rewrite forallb_forall in H. specialize (H (Z.to_nat l)). rewrite Z2Nat.id in H by lia.
  assert (l < Z.of_nat k) by nia.
  apply Z.mod_divide in Hd; [|lia]. rewrite Hd in H. specialize (H ltac:(apply in_seq; lia)). discriminate H.
Qed.

Lemma prime_37003 : prime 37003.
Proof. apply (trial 37003 193); [lia|lia|vm_compute; reflexivity]. Qed.
Lemma prime_221101 : prime 221101.
Proof. apply (trial 221101 471); [lia|lia|vm_compute; reflexivity]. Qed.

Lemma prime_factor_of a c q : prime a -> prime c -> prime q -> (q | a * c) -> q = a \/ q = c.
Proof.
  intros Ha Hc Hq H. destruct (prime_mult q Hq _ _ H) as [H1|H1]; [left|right]; now apply prime_div_prime.
Qed.

Lemma pocklington_check N b F :
  (1 <? N) = true -> (0 <? F) = true -> (N <? F * F) = true -> (Zpow_mod b F N =? 1) = true ->
  (forall q, prime q -> (q | F) -> (Z.gcd (Zpow_mod b (F / q) N - 1) N =? 1) = true) -> prime N.
Proof.
  intros H1 H2 H3 H4 H5.
  apply Z.ltb_lt in H1. apply Z.ltb_lt in H2. apply Z.ltb_lt in H3. apply Z.eqb_eq in H4.
  apply (pocklington N b F H1 H2 H3).
  - apply pow_one; [exact H1|lia|exact H4].
  - intros q Hq Hd. apply pow_rel; [exact H1|]. apply Z.eqb_eq, H5; assumption.
Qed.

Lemma prime_4024685905107147541 : prime 4024685905107147541.
Proof.
  apply (pocklington_check _ 57753362597242690 (37003 * 221101));
    [vm_compute; reflexivity|vm_compute; reflexivity|vm_compute; reflexivity|vm_compute; reflexivity|].
  intros q Hq Hd. destruct (prime_factor_of _ _ q prime_37003 prime_221101 Hq Hd) as [->| ->]; vm_compute; reflexivity.
Qed.

Lemma prime_897064739519922787230182993783 : prime 897064739519922787230182993783.
Proof.
  apply (pocklington_check _ 126414936993793177392508618240 (4024685905107147541));
    [vm_compute; reflexivity|vm_compute; reflexivity|vm_compute; reflexivity|vm_compute; reflexivity|].
  intros q Hq Hd. rewrite (prime_div_prime q _ Hq prime_4024685905107147541 Hd). vm_compute; reflexivity.
Qed.

Theorem prime_1305 : prime (2 ^ 130 - 5).
Proof.
  apply (pocklington_check _ 1319879086664424325515259710359424050403 (897064739519922787230182993783));
    [vm_compute; reflexivity|vm_compute; reflexivity|vm_compute; reflexivity|vm_compute; reflexivity|].
  intros q Hq Hd. rewrite (prime_div_prime q _ Hq prime_897064739519922787230182993783 Hd). vm_compute; reflexivity.
Qed.

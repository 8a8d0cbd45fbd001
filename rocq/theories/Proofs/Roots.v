(** A polynomial modulo a prime has at most as many roots as its degree. *)

From Coq Require Import ZArith Znumtheory List Lia.
Import ListNotations.
Local Open Scope Z_scope.

(** The polynomial with first coefficient [a] and further ones [cs], highest
    degree first, at [x]. *)
Definition horner (x a : Z) (cs : list Z) : Z := fold_left (fun v c => v * x + c) cs a.

Lemma horner_linear x a b cs : horner x (a + b) cs = a * x ^ Z.of_nat (length cs) + horner x b cs.
Proof.
  revert a b. induction cs as [|c cs IH]; intros a b.
  - cbn. ring.
  - unfold horner in *. cbn [fold_left length].
    replace ((a + b) * x + c) with (a * x + (b * x + c)) by ring. rewrite IH.
    rewrite Nat2Z.inj_succ, Z.pow_succ_r by lia. ring.
Qed.

(** Division by X - y. *)
Fixpoint quot (y a : Z) (cs : list Z) : list Z :=
  match cs with [] => [] | c :: cs' => a :: quot y (a * y + c) cs' end.

Lemma quot_length y a cs : length (quot y a cs) = length cs.
Proof. revert a. induction cs as [|c cs IH]; intros a; cbn; [reflexivity|]. now rewrite IH. Qed.

Lemma horner_quot x y a cs : horner x a cs = (x - y) * horner x 0 (quot y a cs) + horner y a cs.
Proof.
  revert a. induction cs as [|c cs IH]; intros a.
  - cbn. ring.
  - change (horner x a (c :: cs)) with (horner x (a * x + c) cs).
    change (horner y a (c :: cs)) with (horner y (a * y + c) cs).
    cbn [quot]. change (horner x 0 (a :: quot y (a * y + c) cs)) with (horner x (0 * x + a) (quot y (a * y + c) cs)).
    replace (0 * x + a) with (a + 0) by ring. rewrite (horner_linear x a 0), quot_length.
    replace (a * x + c) with (a * (x - y) + (a * y + c)) by ring.
    rewrite (horner_linear x (a * (x - y)) (a * y + c)), IH. ring.
Qed.

Section Prime.
Context (p : Z) (Hp : prime p).

Lemma quot_zero y a cs : Forall (Z.divide p) (quot y a cs) -> (p | horner y a cs) -> Forall (Z.divide p) (a :: cs).
Proof.
  revert a. induction cs as [|c cs IH]; intros a HF Hh.
  - constructor; [exact Hh|constructor].
  - cbn [quot] in HF. inversion HF as [|? ? Ha HF']; subst.
    specialize (IH _ HF' Hh). inversion IH as [|? ? Hc Hcs]; subst.
    constructor; [exact Ha|]. constructor; [|exact Hcs].
    replace c with (a * y + c - a * y) by ring. apply Z.divide_sub_r; [exact Hc|apply Z.divide_mul_l, Ha].
Qed.

Lemma roots_bound a cs L :
  ~ Forall (Z.divide p) (a :: cs) -> NoDup L ->
  (forall x, In x L -> 0 <= x < p /\ (p | horner x a cs)) -> (length L <= length cs)%nat.
Proof.
  remember (length cs) as n eqn:En. revert a cs En L.
  induction n as [|n IH]; intros a cs En L Hnz Hnd HL.
  - destruct cs; [|discriminate En]. destruct L as [|y L]; [lia|]. exfalso. apply Hnz.
    destruct (HL y (or_introl eq_refl)) as [_ H]. constructor; [exact H|constructor].
  - destruct L as [|y L]; [cbn; lia|]. cbn [length]. apply le_n_S.
    destruct cs as [|c cs]; [discriminate En|].
    inversion Hnd as [|? ? Hy Hnd']; subst.
    destruct (HL y (or_introl eq_refl)) as [Hyr Hyd].
    apply (IH a (quot y (a * y + c) cs)); [rewrite quot_length; cbn in En; congruence| |exact Hnd'|].
    + intros HF. apply Hnz. apply (quot_zero y a (c :: cs)); [exact HF|exact Hyd].
    + intros x Hx. destruct (HL x (or_intror Hx)) as [Hxr Hxd]. split; [exact Hxr|].
      pose proof (horner_quot x y a (c :: cs)) as E.
      assert (Hm : (p | (x - y) * horner x 0 (quot y a (c :: cs)))).
      { replace ((x - y) * horner x 0 (quot y a (c :: cs))) with (horner x a (c :: cs) - horner y a (c :: cs)) by (rewrite E; ring).
        apply Z.divide_sub_r; assumption. }
      destruct (prime_mult p Hp _ _ Hm) as [H|H].
      * exfalso. assert (x = y); [|subst; contradiction].
        destruct (Z.eq_dec x y) as [|Hne]; [assumption|exfalso].
        destruct H as [k Hk]. assert (k = 0 \/ 1 <= k \/ k <= -1) as [H0|[H0|H0]] by lia; nia.
      * cbn [quot] in H. change (horner x 0 (a :: quot y (a * y + c) cs)) with (horner x (0 * x + a) (quot y (a * y + c) cs)) in H.
        now replace (0 * x + a) with a in H by ring.
Qed.
End Prime.

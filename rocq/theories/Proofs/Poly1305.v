(** Two datagrams of a session and the content of one of them are enough to
    make further ones. *)

From Coq Require Import ZArith Znumtheory Arith Lia ZifyNat ZifyN.
From Verif.Model Require Import Minimal.
From Verif.Spec Require Import Wire Datagram Trace ReadSpec Accept Session Writers Attacks Poly1305.
From Verif.Proofs Require Import BaseFacts CipherFacts Invariant Accept Sending Corollaries Roots Prime1305.

(** * Numbers and blocks *)

Lemma le_number_bound b : le_number b < 256 ^ len b.
Proof.
  induction b as [|x b IH]; [reflexivity|]. cbn [le_number fold_right]. fold (le_number b).
  rewrite len_cons. replace (256 ^ (1 + len b)) with (256 * 256 ^ len b) by (rewrite N.pow_add_r; reflexivity).
  pose proof (Byte.to_N_bounded x). lia.
Qed.

Lemma le_number_inj a b : length a = length b -> le_number a = le_number b -> a = b.
Proof.
  revert b. induction a as [|x a IH]; intros [|y b] Hl E; try discriminate Hl; [reflexivity|].
  cbn [le_number fold_right] in E. fold (le_number a) (le_number b) in E.
  pose proof (Byte.to_N_bounded x). pose proof (Byte.to_N_bounded y).
  assert (Hx : Byte.to_N x = Byte.to_N y) by lia. assert (Hn : le_number a = le_number b) by lia.
  f_equal; [|apply IH; [cbn in Hl; congruence|exact Hn]].
  apply (f_equal Byte.of_N) in Hx. rewrite !Byte.of_to_N in Hx. congruence.
Qed.

Lemma byte_at_0 n : Byte.to_N (byte_at n 0) = n mod 256.
Proof.
  unfold byte_at. rewrite N.pow_0_r, N.div_1_r.
  destruct (Byte.of_N (n mod 256)) as [b|] eqn:E; [now apply Byte.to_of_N in E|].
  apply Byte.of_N_None_iff in E. pose proof (N.mod_lt n 256 ltac:(lia)). lia.
Qed.

Lemma le_bytes_S k n : le_bytes (S k) n = byte_at n 0 :: le_bytes k (n / 256).
Proof.
  unfold le_bytes. cbn [seq map]. f_equal. rewrite <- seq_shift, map_map. apply map_ext. intros i.
  unfold byte_at. rewrite N.div_div by (try (apply N.pow_nonzero); lia).
  replace (256 ^ N.of_nat (S i)) with (256 * 256 ^ N.of_nat i); [reflexivity|].
  rewrite Nat2N.inj_succ, N.pow_succ_r'. reflexivity.
Qed.

Lemma le_number_bytes k n : le_number (le_bytes k n) = n mod 256 ^ N.of_nat k.
Proof.
  revert n. induction k as [|k IH]; intros n.
  - cbn. now rewrite N.mod_1_r.
  - rewrite le_bytes_S. cbn [le_number fold_right]. fold (le_number (le_bytes k (n / 256))).
    rewrite IH, byte_at_0, Nat2N.inj_succ, N.pow_succ_r'.
    rewrite N.mod_mul_r by (try (apply N.pow_nonzero); lia). reflexivity.
Qed.

Lemma length_le_bytes k n : length (le_bytes k n) = k.
Proof. unfold le_bytes. now rewrite map_length, seq_length. Qed.

Lemma length_cut m b : length (cut m b) = m.
Proof. revert b. induction m as [|m IH]; intros b; cbn; [reflexivity|]. now rewrite IH. Qed.

Lemma cut_app m n a b : length a = (16 * m)%nat -> cut (m + n) (a ++ b) = cut m a ++ cut n b.
Proof.
  revert a. induction m as [|m IH]; intros a Ha.
  - destruct a; [reflexivity|discriminate Ha].
  - cbn [Nat.add cut app]. f_equal.
    + rewrite firstn_app, (proj2 (Nat.sub_0_le 16 (length a))) by lia. change (firstn 0 b) with (@nil byte). apply app_nil_r.
    + rewrite skipn_app, (proj2 (Nat.sub_0_le 16 (length a))) by lia. change (skipn 0 b) with b.
      apply IH. rewrite skipn_length. lia.
Qed.

Lemma concat_cut m b : length b = (16 * m)%nat -> concat (cut m b) = b.
Proof.
  revert b. induction m as [|m IH]; intros b Hb.
  - destruct b; [reflexivity|discriminate Hb].
  - cbn [cut concat]. rewrite IH by (rewrite skipn_length; lia). apply firstn_skipn.
Qed.

Lemma cut_blocks m b : length b = (16 * m)%nat -> Forall (fun x => length x = 16%nat) (cut m b).
Proof.
  revert b. induction m as [|m IH]; intros b Hb; constructor.
  - rewrite firstn_length. lia.
  - apply IH. rewrite skipn_length. lia.
Qed.

Definition nblocks (n : nat) : nat := Nat.div (n + 15) 16.

Lemma pad16_length b : length (pad16 b) = (16 * nblocks (length b))%nat.
Proof.
  unfold pad16, nblocks. rewrite app_length, repeat_length.
  pose proof (Nat.div_mod (length b) 16 ltac:(lia)) as E.
  pose proof (Nat.mod_upper_bound (length b) 16 ltac:(lia)) as Hm.
  set (q := Nat.div (length b) 16) in *. set (t := Nat.modulo (length b) 16) in *.
  destruct (Nat.eq_dec t 0) as [Et|Et].
  - rewrite Et. change (Nat.modulo (16 - 0) 16) with 0%nat.
    replace (length b + 15)%nat with (15 + q * 16)%nat by lia. rewrite Nat.div_add by lia.
    change (Nat.div 15 16) with 0%nat. lia.
  - rewrite (Nat.mod_small (16 - t)) by lia.
    replace (length b + 15)%nat with ((t - 1) + (q + 1) * 16)%nat by lia. rewrite Nat.div_add by lia.
    rewrite (Nat.div_small (t - 1)) by lia. lia.
Qed.

Lemma blocks_whole m b : length b = (16 * m)%nat -> blocks b = cut m b.
Proof.
  intros H. unfold blocks. rewrite H. replace (16 * m)%nat with (m * 16)%nat by lia. now rewrite Nat.div_mul by lia.
Qed.

Lemma blocks_mac aad ct : blocks (mac_data aad ct) =
  blocks (pad16 aad) ++ blocks (pad16 ct) ++ [le_bytes 8 (len aad) ++ le_bytes 8 (len ct)].
Proof.
  pose proof (pad16_length aad) as Ha. pose proof (pad16_length ct) as Hc.
  set (l := le_bytes 8 (len aad) ++ le_bytes 8 (len ct)).
  assert (Hl : length l = 16%nat) by (unfold l; rewrite app_length, !length_le_bytes; reflexivity).
  rewrite (blocks_whole _ _ Ha), (blocks_whole _ _ Hc).
  rewrite (blocks_whole (nblocks (length aad) + (nblocks (length ct) + 1))%nat).
  - unfold mac_data. fold l. rewrite (cut_app _ _ _ _ Ha), (cut_app _ _ _ _ Hc). do 2 f_equal.
  - unfold mac_data. fold l. rewrite !app_length, Ha, Hc, Hl. lia.
Qed.

(** * The polynomial *)

Local Open Scope Z_scope.

Definition pZ : Z := 2 ^ 130 - 5.
Definition nums (b : bytes) : list Z := map (fun x => Z.of_N (le_number x)) (blocks b).
Definition coef (b : bytes) : Z := Z.of_N (le_number b) + 2 ^ 128.

Lemma horner_app x a l1 l2 : horner x a (l1 ++ l2) = horner x (horner x a l1) l2.
Proof. unfold horner. apply fold_left_app. Qed.

Lemma poly1305_horner r bs :
  Z.of_N (poly1305 r bs) = horner (Z.of_N r) 0 (map coef bs ++ [0]) mod pZ.
Proof.
  induction bs as [|b bs IH] using rev_ind.
  - reflexivity.
  - unfold poly1305 in *. rewrite fold_left_app. cbn [fold_left].
    rewrite N2Z.inj_mod, N2Z.inj_mul, N2Z.inj_add, N2Z.inj_add.
    change (Z.of_N P1305) with pZ. rewrite IH, map_app, !horner_app. cbn [map horner fold_left].
    rewrite !Z.add_0_r. fold (horner (Z.of_N r) 0 (map coef bs)).
    replace (Z.of_N (le_number b) + Z.of_N (2 ^ 128)) with (coef b) by reflexivity.
    rewrite Z.mul_mod, Z.add_mod_idemp_l, <- Z.mul_mod by discriminate. reflexivity.
Qed.

Fixpoint sub (a b : list Z) : list Z :=
  match a, b with x :: a', y :: b' => (x - y) :: sub a' b' | _, _ => [] end.

Lemma sub_length a b : length a = length b -> length (sub a b) = length a.
Proof. revert b. induction a as [|x a IH]; intros [|y b] H; try discriminate H; cbn; [reflexivity|]. now rewrite IH by (cbn in H; congruence). Qed.

Lemma horner_sub x u v a b : length a = length b ->
  horner x u a - horner x v b = horner x (u - v) (sub a b).
Proof.
  revert u v b. induction a as [|c a IH]; intros u v [|d b] H; try discriminate H; [reflexivity|].
  cbn [sub]. unfold horner in *. cbn [fold_left]. rewrite IH by (cbn in H; congruence).
  f_equal. ring.
Qed.

Lemma sub_coef l1 l2 :
  sub (map coef l1) (map coef l2) =
  sub (map (fun x => Z.of_N (le_number x)) l1) (map (fun x => Z.of_N (le_number x)) l2).
Proof.
  revert l2. induction l1 as [|x l1 IH]; intros [|y l2]; cbn [map sub]; try reflexivity.
  rewrite IH. f_equal. unfold coef. ring.
Qed.

(** The difference of two ciphertexts, as coefficients. *)
Definition dif (c1 c2 : bytes) : list Z := sub (nums (pad16 c1)) (nums (pad16 c2)).

Lemma nums_length c : length (nums (pad16 c)) = nblocks (length c).
Proof. unfold nums. rewrite map_length, (blocks_whole _ _ (pad16_length c)). apply length_cut. Qed.

Lemma poly_dif r aad c1 c2 : length c1 = length c2 ->
  exists e, Z.of_N (poly1305 r (blocks (mac_data aad c1))) - Z.of_N (poly1305 r (blocks (mac_data aad c2)))
            = horner (Z.of_N r) 0 (dif c1 c2 ++ [0; 0]) + e * pZ.
Proof.
  intros Hl. rewrite !poly1305_horner.
  assert (E : horner (Z.of_N r) 0 (map coef (blocks (mac_data aad c1)) ++ [0]) -
              horner (Z.of_N r) 0 (map coef (blocks (mac_data aad c2)) ++ [0]) =
              horner (Z.of_N r) 0 (dif c1 c2 ++ [0; 0])).
  { rewrite !blocks_mac, !map_app, <- !app_assoc. unfold len. rewrite Hl.
    rewrite !(horner_app _ _ (map coef (blocks (pad16 aad)))).
    set (u := horner _ 0 (map coef (blocks (pad16 aad)))).
    cbn [map app]. set (k := coef _).
    rewrite horner_sub.
    - rewrite Z.sub_diag. f_equal. unfold dif, nums. rewrite <- sub_coef.
      assert (Hm : length (map coef (blocks (pad16 c1))) = length (map coef (blocks (pad16 c2)))).
      { rewrite !map_length, (blocks_whole _ _ (pad16_length c1)), (blocks_whole _ _ (pad16_length c2)), !length_cut.
        now rewrite Hl. }
      revert Hm. generalize (map coef (blocks (pad16 c1))) (map coef (blocks (pad16 c2))).
      induction l as [|x l IH]; intros [|y l2] Hm; try discriminate Hm; cbn [app sub].
      + now rewrite Z.sub_diag.
      + rewrite IH by (cbn in Hm; congruence). reflexivity.
    - rewrite !app_length, !map_length, (blocks_whole _ _ (pad16_length c1)), (blocks_whole _ _ (pad16_length c2)), !length_cut.
      now rewrite Hl. }
  rewrite <- E.
  set (h1 := horner _ 0 (map coef (blocks (mac_data aad c1)) ++ [0])).
  set (h2 := horner _ 0 (map coef (blocks (mac_data aad c2)) ++ [0])).
  exists (h2 / pZ - h1 / pZ).
  pose proof (Z.div_mod h1 pZ ltac:(discriminate)). pose proof (Z.div_mod h2 pZ ltac:(discriminate)). lia.
Qed.

(** ** Different ciphertexts give a polynomial that is not zero *)

Lemma sub_zero a b : length a = length b ->
  Forall (fun x => 0 <= x < 2 ^ 128) a -> Forall (fun x => 0 <= x < 2 ^ 128) b ->
  Forall (Z.divide pZ) (sub a b) -> a = b.
Proof.
  revert b. induction a as [|x a IH]; intros [|y b] Hl Ha Hb H; try discriminate Hl; [reflexivity|].
  inversion Ha; inversion Hb; inversion H as [|? ? Hd H']; subst.
  f_equal; [|apply IH; auto; cbn in Hl; congruence].
  destruct Hd as [k Hk]. unfold pZ in Hk.
  assert (k = 0 \/ 1 <= k \/ k <= -1) as [H0|[H0|H0]] by lia; [subst k; lia|exfalso|exfalso]; lia.
Qed.

Lemma nums_range c : Forall (fun x => 0 <= x < 2 ^ 128) (nums (pad16 c)).
Proof.
  unfold nums. rewrite (blocks_whole _ _ (pad16_length c)).
  pose proof (cut_blocks _ _ (pad16_length c)) as HF. apply Forall_map.
  eapply Forall_impl; [|exact HF]. cbv beta. intros x Hx.
  pose proof (le_number_bound x) as Hb. unfold len in Hb. rewrite Hx in Hb. split; [lia|].
  change (2 ^ 128) with (Z.of_N (256 ^ N.of_nat 16)). lia.
Qed.

Lemma nums_inj c1 c2 : length c1 = length c2 -> nums (pad16 c1) = nums (pad16 c2) -> c1 = c2.
Proof.
  intros Hl H. unfold nums in H.
  rewrite (blocks_whole _ _ (pad16_length c1)), (blocks_whole _ _ (pad16_length c2)), Hl in H.
  pose proof (cut_blocks _ _ (pad16_length c1)) as F1. pose proof (cut_blocks _ _ (pad16_length c2)) as F2.
  rewrite Hl in F1.
  assert (E : cut (nblocks (length c2)) (pad16 c1) = cut (nblocks (length c2)) (pad16 c2)).
  { revert H F1 F2. generalize (cut (nblocks (length c2)) (pad16 c1)) (cut (nblocks (length c2)) (pad16 c2)).
    induction l as [|x l IH]; intros [|y l2] H F1 F2; try discriminate H; [reflexivity|].
    cbn [map] in H. inversion F1; inversion F2; subst. injection H as Hx Hr.
    f_equal; [|apply IH; assumption]. apply le_number_inj; [congruence|lia]. }
  apply (f_equal (@concat byte)) in E.
  rewrite (concat_cut _ (pad16 c2) (pad16_length c2)) in E.
  rewrite concat_cut in E by (rewrite pad16_length, Hl; reflexivity).
  unfold pad16 in E. rewrite Hl in E. apply app_inv_tail in E. exact E.
Qed.

(** * The attack *)

(** All numbers below p with this value of the polynomial. *)
Definition solutions (l : list Z) (v : Z) : list Z :=
  filter (fun x => horner x 0 (l ++ [0; - v]) mod pZ =? 0) (map Z.of_nat (seq 0 (Z.to_nat pZ))).

Lemma solutions_in l v r : horner r 0 (l ++ [0; 0]) mod pZ = v mod pZ -> In (r mod pZ) (solutions l v).
Proof.
  intros H. unfold solutions. apply filter_In. pose proof (Z.mod_pos_bound r pZ ltac:(reflexivity)) as Hb. split.
  - apply in_map_iff. exists (Z.to_nat (r mod pZ)). split; [lia|]. apply in_seq.
    pose proof (Z2Nat.inj_lt (r mod pZ) pZ ltac:(lia) ltac:(discriminate)). lia.
  - apply Z.eqb_eq. revert H. rewrite !horner_app. cbn [horner fold_left].
    fold (horner r 0 l) (horner (r mod pZ) 0 l).
    assert (E : horner (r mod pZ) 0 l mod pZ = horner r 0 l mod pZ).
    { unfold horner.
      assert (G : forall a b, a mod pZ = b mod pZ ->
        fold_left (fun v c => v * (r mod pZ) + c) l a mod pZ = fold_left (fun v c => v * r + c) l b mod pZ); [|now apply G].
      clear. induction l as [|c l IH]; intros a b E; cbn [fold_left]; [exact E|]. apply IH.
      rewrite Z.add_mod, (Z.mul_mod a), E, Z.mod_mod, <- Z.mul_mod, <- Z.add_mod by discriminate. reflexivity. }
    set (h := horner r 0 l) in *. set (h' := horner (r mod pZ) 0 l) in *. intros H.
    replace ((h' * (r mod pZ) + 0) * (r mod pZ) + - v) with (h' * (r mod pZ) * (r mod pZ) - v) by ring.
    rewrite Zminus_mod, (Z.mul_mod (h' * (r mod pZ))), (Z.mul_mod h'), E, !Z.mod_mod, <- (Z.mul_mod h), <- Z.mul_mod by discriminate.
    replace (h * r * r) with ((h * r + 0) * r + 0) by ring. rewrite H, Z.sub_diag. reflexivity.
Qed.

Lemma solutions_few l v : ~ Forall (Z.divide pZ) l -> (length (solutions l v) <= length l + 1)%nat.
Proof.
  intros Hnz. destruct l as [|d l]; [exfalso; apply Hnz; constructor|].
  replace (length (d :: l) + 1)%nat with (length (l ++ [0; - v])) by (rewrite app_length; cbn; lia).
  apply (roots_bound pZ prime_1305 d).
  - intros HF. apply Hnz. inversion HF as [|? ? H1 H2]; subst. constructor; [exact H1|].
    apply Forall_app in H2 as [H2 _]. exact H2.
  - apply NoDup_filter. apply FinFun.Injective_map_NoDup; [intros a b; apply Nat2Z.inj|apply seq_NoDup].
  - intros x Hx. apply filter_In in Hx as [Hx H]. apply in_map_iff in Hx as (i & <- & Hi). apply in_seq in Hi.
    split; [|apply Z.mod_divide; [discriminate|]; apply Z.eqb_eq in H; etransitivity; [|exact H]; reflexivity].
    pose proof (Z2Nat.id pZ ltac:(discriminate)). lia.
Qed.

Lemma horner_mod r l : horner (r mod pZ) 0 l mod pZ = horner r 0 l mod pZ.
Proof.
  unfold horner.
  assert (G : forall a b, a mod pZ = b mod pZ ->
    fold_left (fun v c => v * (r mod pZ) + c) l a mod pZ = fold_left (fun v c => v * r + c) l b mod pZ); [|now apply G].
  induction l as [|c l IH]; intros a b E; cbn [fold_left]; [exact E|]. apply IH.
  rewrite Z.add_mod, (Z.mul_mod a), E, Z.mod_mod, <- Z.mul_mod, <- Z.add_mod by discriminate. reflexivity.
Qed.

(** What r can be, from two ciphertexts and their tags. *)
Definition carries : list Z := [-4; -3; -2; -1; 0; 1; 2; 3; 4].
Definition candidates (c1 : bytes) (t1 : Z) (c2 : bytes) (t2 : Z) : list Z :=
  flat_map (fun j => solutions (dif c1 c2) (t1 - t2 + j * 2 ^ 128)) carries.
(** What the tag of [c3] can be then. *)
Definition tags (r : Z) (c1 : bytes) (t1 : Z) (c3 : bytes) : list Z :=
  let d := horner r 0 (dif c3 c1 ++ [0; 0]) mod pZ in
  [(t1 + d) mod 2 ^ 128; (t1 + d - pZ) mod 2 ^ 128].

Definition tag_number (r s : N) (aad ct : bytes) : Z :=
  Z.of_N ((poly1305 r (blocks (mac_data aad ct)) + s) mod 2 ^ 128)%N.

Lemma poly_range r aad ct : 0 <= Z.of_N (poly1305 r (blocks (mac_data aad ct))) < pZ.
Proof. rewrite poly1305_horner. apply Z.mod_pos_bound. reflexivity. Qed.

Lemma candidates_in r s aad c1 c2 : length c1 = length c2 ->
  In (Z.of_N r mod pZ) (candidates c1 (tag_number r s aad c1) c2 (tag_number r s aad c2)).
Proof.
  intros Hl. destruct (poly_dif r aad c1 c2 Hl) as [e He].
  pose proof (poly_range r aad c1) as R1. pose proof (poly_range r aad c2) as R2.
  unfold tag_number. rewrite !N2Z.inj_mod, !N2Z.inj_add.
  set (h1 := Z.of_N (poly1305 r (blocks (mac_data aad c1)))) in *.
  set (h2 := Z.of_N (poly1305 r (blocks (mac_data aad c2)))) in *.
  change (Z.of_N (2 ^ 128)) with (2 ^ 128). set (z := Z.of_N s).
  pose proof (Z.div_mod (h1 + z) (2 ^ 128) ltac:(discriminate)) as E1.
  pose proof (Z.div_mod (h2 + z) (2 ^ 128) ltac:(discriminate)) as E2.
  pose proof (Z.mod_pos_bound (h1 + z) (2 ^ 128) ltac:(reflexivity)) as B1.
  pose proof (Z.mod_pos_bound (h2 + z) (2 ^ 128) ltac:(reflexivity)) as B2.
  set (q1 := (h1 + z) / 2 ^ 128) in *. set (q2 := (h2 + z) / 2 ^ 128) in *.
  set (t1 := (h1 + z) mod 2 ^ 128) in *. set (t2 := (h2 + z) mod 2 ^ 128) in *.
  unfold candidates. apply in_flat_map. exists (q1 - q2). split.
  - unfold pZ in R1, R2. change (2 ^ 130 - 5) with (4 * 2 ^ 128 - 5) in R1, R2.
    assert (-5 < q1 - q2 < 5) by (clearbody q1 q2 t1 t2; nia).
    unfold carries. cbn [In]. lia.
  - apply solutions_in. replace (t1 - t2 + (q1 - q2) * 2 ^ 128) with (h1 - h2) by lia.
    rewrite He. symmetry. apply Z.mod_add. discriminate.
Qed.

Lemma tags_in r s aad c1 c3 : length c3 = length c1 ->
  In (tag_number r s aad c3) (tags (Z.of_N r mod pZ) c1 (tag_number r s aad c1) c3).
Proof.
  intros Hl. destruct (poly_dif r aad c3 c1 Hl) as [e He].
  pose proof (poly_range r aad c1) as R1. pose proof (poly_range r aad c3) as R3.
  unfold tag_number. rewrite !N2Z.inj_mod, !N2Z.inj_add.
  set (h1 := Z.of_N (poly1305 r (blocks (mac_data aad c1)))) in *.
  set (h3 := Z.of_N (poly1305 r (blocks (mac_data aad c3)))) in *.
  change (Z.of_N (2 ^ 128)) with (2 ^ 128). set (z := Z.of_N s).
  unfold tags. rewrite horner_mod. set (d := horner (Z.of_N r) 0 (dif c3 c1 ++ [0; 0])) in *.
  pose proof (Z.div_mod d pZ ltac:(discriminate)) as Ed.
  pose proof (Z.mod_pos_bound d pZ ltac:(reflexivity)) as Bd.
  set (m := d mod pZ) in *. set (q := d / pZ) in *.
  assert (Hc : h3 - h1 = m + (e + q) * pZ) by lia.
  assert (Hq : e + q = 0 \/ e + q = -1) by (clearbody m q; unfold pZ in *; nia).
  destruct Hq as [Hq|Hq]; rewrite Hq in Hc; [left|right; left].
  - rewrite Z.add_mod_idemp_l by discriminate. f_equal. lia.
  - rewrite <- Z.add_sub_assoc, Z.add_mod_idemp_l by discriminate. f_equal. lia.
Qed.

Lemma length_flat_map {A B} (f : A -> list B) l k :
  (forall x, In x l -> (length (f x) <= k)%nat) -> (length (flat_map f l) <= length l * k)%nat.
Proof.
  induction l as [|x l IH]; intros H; cbn [flat_map length]; [lia|]. rewrite app_length.
  pose proof (H x (or_introl eq_refl)). pose proof (IH (fun y Hy => H y (or_intror Hy))). lia.
Qed.

Lemma of_nat_le a b : (a <= b)%nat -> (N.of_nat a <= N.of_nat b)%N.
Proof. lia. Qed.

Lemma candidates_few c1 t1 c2 t2 : length c1 = length c2 -> c1 <> c2 ->
  (length (candidates c1 t1 c2 t2) <= 9 * (nblocks (length c1) + 1))%nat.
Proof.
  intros Hl Hd. unfold candidates. apply (length_flat_map _ carries). intros j _.
  assert (Hs : length (dif c1 c2) = nblocks (length c1)).
  { unfold dif. rewrite sub_length; rewrite !nums_length; [reflexivity|now rewrite Hl]. }
  rewrite <- Hs. apply solutions_few. intros HF. apply Hd. apply nums_inj; [exact Hl|].
  apply (sub_zero _ _ ltac:(rewrite !nums_length, Hl; reflexivity) (nums_range c1) (nums_range c2) HF).
Qed.

Local Close Scope Z_scope.

(** The last 16 bytes. *)
Definition tag_part (x : bytes) : Z := Z.of_N (le_number (skipn (length x - 16) x)).

Definition forge1305 (sha : bytes -> bytes) (n1 : N) (data1 x1 x2 : bytes) (n : N) (data : bytes) : list bytes :=
  let text m d := user_frame m d ++ sha (user_frame m d) in
  let c1 := without_tag x1 in
  let c3 := xor2 (xor2 c1 (text n1 data1)) (text n data) in
  flat_map (fun r => map (fun t => c3 ++ le_bytes 16 (Z.to_N t)) (tags r c1 (tag_part x1) c3))
           (candidates c1 (tag_part x1) (without_tag x2) (tag_part x2)).

Section WithLaws.
Context (C : Crypto) (HL : CryptoLaws C).

Lemma xor2_known key nonce i a b : length a = length b ->
  xor2 (xor2 (xor_stream C key nonce i a) a) b = xor_stream C key nonce i b.
Proof.
  revert i b. induction a as [|x a IH]; intros i [|y b] H; try discriminate H; cbn [xor_stream xor2]; [reflexivity|].
  rewrite IH by (cbn in H; congruence). f_equal.
  rewrite (byte_xor_comm x), byte_xor_invol. apply byte_xor_comm.
Qed.

Lemma length_hashed n data : length (hashed C (user_frame n data)) = (58 + length data)%nat.
Proof.
  unfold hashed. rewrite app_length, (law_sha256_len C HL). unfold user_frame, frame.
  cbn. lia.
Qed.

Context (HT : tags_are_poly1305 C).

Lemma forge1305_spec k n1 data1 n2 data2 n data :
  len data2 = len data1 -> len data = len data1 ->
  user_datagram C k n1 data1 <> user_datagram C k n2 data2 ->
  let forged := forge1305 (sha256 C) n1 data1 (user_datagram C k n1 data1) (user_datagram C k n2 data2) n data in
  In (user_datagram C k n data) forged /\ len forged <= 18 * ((73 + len data) / 16 + 1).
Proof.
  intros H2 H3 Hne. cbv zeta.
  assert (L2 : length data2 = length data1) by (unfold len in H2; lia).
  assert (L3 : length data = length data1) by (unfold len in H3; lia). clear H2 H3.
  destruct (HT (sk_key k) (sk_nonce k)) as (r & s & Hrs).
  pose proof (fun n d => length_hashed n d) as Hh.
  unfold user_datagram in *.
  set (x1 := hashed C (user_frame n1 data1)) in *. set (x2 := hashed C (user_frame n2 data2)) in *.
  set (x3 := hashed C (user_frame n data)) in *.
  assert (Lx2 : length x2 = length x1) by (unfold x1, x2; rewrite !Hh; lia).
  assert (Lx3 : length x3 = length x1) by (unfold x1, x3; rewrite !Hh; lia).
  assert (Hx1 : length x1 = (58 + length data)%nat) by (unfold x1; rewrite Hh; lia).
  assert (Ht : forall t, tag_part (seal C k t) = tag_number r s (sk_aad k) (ciphertext C k t)).
  { intros t. unfold tag_part. rewrite seal_length by exact HL. replace (length t + 16 - 16)%nat with (length (ciphertext C k t)) by (rewrite ciphertext_length; lia).
    unfold seal. rewrite skipn_app, skipn_all, Nat.sub_diag. cbn [app skipn]. rewrite Hrs. unfold rfc_tag, tag_number.
    rewrite le_number_bytes. change (256 ^ N.of_nat 16) with (2 ^ 128). rewrite N.mod_mod by discriminate. reflexivity. }
  assert (Hd : ciphertext C k x1 <> ciphertext C k x2).
  { intros E. apply Hne. unfold seal. now rewrite E. }
  unfold forge1305. fold (hashed C (user_frame n1 data1)) (hashed C (user_frame n data)). fold x1 x3.
  rewrite !(without_tag_seal C HL), !Ht.
  assert (E3 : xor2 (xor2 (ciphertext C k x1) x1) x3 = ciphertext C k x3).
  { rewrite <- !xor_stream_spec. apply xor2_known. congruence. }
  rewrite E3. split.
  - apply in_flat_map. exists (Z.of_N r mod pZ)%Z. split.
    + apply candidates_in. rewrite !ciphertext_length. congruence.
    + apply in_map_iff. exists (tag_number r s (sk_aad k) (ciphertext C k x3)). split.
      * unfold seal. f_equal. rewrite Hrs. unfold rfc_tag, tag_number. now rewrite N2Z.id.
      * apply tags_in. rewrite !ciphertext_length. exact Lx3.
  - pose proof (candidates_few (ciphertext C k x1) (tag_number r s (sk_aad k) (ciphertext C k x1)) (ciphertext C k x2) (tag_number r s (sk_aad k) (ciphertext C k x2))
      ltac:(rewrite !ciphertext_length; congruence) Hd) as Hf.
    rewrite ciphertext_length, Hx1 in Hf.
    match goal with |- len (flat_map ?f ?l) <= _ =>
      assert (Hm : (length (flat_map f l) <= length l * 2)%nat) by (apply length_flat_map; intros; apply le_n) end.
    unfold nblocks in Hf. unfold len. replace (58 + length data + 15)%nat with (73 + length data)%nat in Hf by lia.
    replace ((73 + N.of_nat (length data)) / 16) with (N.of_nat (Nat.div (73 + length data) 16))
      by (rewrite Nat2N.inj_div, Nat2N.inj_add; reflexivity).
    revert Hf Hm. generalize (Nat.div (73 + length data) 16).
    match goal with |- context [length (candidates ?a ?b ?c ?d)] => generalize (length (candidates a b c d)) end.
    intros u v Hf Hm. etransitivity; [apply of_nat_le; exact Hm|lia].
Qed.

Context (T : target).

(** Two messages of a session, one of them known, and a layer that has the
    session's key. *)
Theorem forge1305_delivered a a' wa wa' da b b' wb wb' db k q n data :
  takes_all wa -> takes_all wb -> reachable C T a -> reachable C T b ->
  write_message C T da a wa = (a', wa', Ok tt) -> write_message C T db b wb = (b', wb', Ok tt) ->
  session_key a = Some k -> session_key b = Some k ->
  (next_nonce_sent a, da) <> (next_nonce_sent b, db) -> len db = len da -> len data = len da ->
  reachable C T q -> established q -> session_key q = Some k -> keystream_ok C k ->
  n < 2 ^ 64 -> window_room q n -> ~ last_nonce T q n -> 26 + len data < 2 ^ usize_bits T ->
  exists x y, output wa' = output wa ++ x /\ output wb' = output wb ++ y /\
    let forged := forge1305 (sha256 C) (next_nonce_sent a) da x y n data in
    len forged <= 18 * ((73 + len data) / 16 + 1) /\
    Exists (fun d => snd (read C T d q) = Ok (Some (MMessage (nonempty data)))) forged.
Proof.
  intros Ha Hb HRa HRb Ea Eb Ka Kb Hne L2 L3 Hq He Hkq Hks Hn Hroom Hlast Hbig.
  destruct (write_ok C T HL _ _ _ _ _ (or_introl Ha) Ea) as (k1 & K1 & _ & O1).
  destruct (write_ok C T HL _ _ _ _ _ (or_introl Hb) Eb) as (k2 & K2 & _ & O2).
  assert (k1 = k) by congruence. assert (k2 = k) by congruence. subst k1 k2.
  do 2 eexists. split; [exact O1|]. split; [exact O2|]. cbv zeta.
  destruct (forge1305_spec k (next_nonce_sent a) da (next_nonce_sent b) db n data L2 L3) as [Hin Hfew].
  { intros E. apply Hne. apply (user_datagram_inj C HL) in E as [-> ->]; [reflexivity| |];
      apply (inv_sent C T), (inv_reachable C T); assumption. }
  split; [exact Hfew|]. apply Exists_exists. eexists. split; [exact Hin|].
  apply (user_delivered_iff C T HL q (inv_reachable C T q Hq)).
  exists k, n, data. split; [|reflexivity].
  destruct (opens_user_datagram C T k n data Hn Hks Hbig) as (_ & _ & Ht).
  unfold user_delivery. auto 10.
Qed.

End WithLaws.

(** Lemmas about bytes, integers and slices. *)

From Coq Require Import Arith ZifyBool ZifyNat ZifyN.
From Verif.Model Require Import Base.

(** ** Lengths *)

Lemma len_nil {A} : len (@nil A) = 0.
Proof. reflexivity. Qed.

Lemma len_cons {A} (x : A) l : len (x :: l) = 1 + len l.
Proof. unfold len; cbn [length]; lia. Qed.

Lemma len_app {A} (a b : list A) : len (a ++ b) = len a + len b.
Proof. unfold len; rewrite app_length; lia. Qed.

Lemma len_length {A} (a : list A) k : length a = k -> len a = N.of_nat k.
Proof. unfold len; intros H; rewrite H; reflexivity. Qed.

Lemma length_len {A} (a : list A) k : len a = k -> length a = N.to_nat k.
Proof. unfold len; lia. Qed.

(** ** Single bytes *)

Lemma to_N_lt (b : byte) : Byte.to_N b < 256.
Proof. pose proof (Byte.to_N_bounded b); lia. Qed.

Lemma to_N_byte_of_N n : Byte.to_N (byte_of_N n) = n mod 256.
Proof.
  unfold byte_of_N.
  pose proof (N.mod_lt n 256 ltac:(lia)) as Hlt.
  destruct (Byte.of_N (n mod 256)) as [b|] eqn:E.
  - apply Byte.to_of_N; exact E.
  - exfalso. apply Byte.of_N_None_iff in E. lia.
Qed.

Lemma to_N_inj a b : Byte.to_N a = Byte.to_N b -> a = b.
Proof.
  intros H. assert (Some a = Some b) as E.
  { rewrite <- (Byte.of_to_N a), <- (Byte.of_to_N b), H; reflexivity. }
  congruence.
Qed.

Lemma byte_of_N_to_N b : byte_of_N (Byte.to_N b) = b.
Proof.
  apply to_N_inj. rewrite to_N_byte_of_N. apply N.mod_small, to_N_lt.
Qed.

Lemma lxor_lt_256 a b : a < 256 -> b < 256 -> N.lxor a b < 256.
Proof.
  intros Ha Hb.
  destruct (N.eq_dec (N.lxor a b) 0) as [E|E]; [lia|].
  change 256 with (2 ^ 8). apply N.log2_lt_pow2; [lia|].
  pose proof (N.log2_lxor a b) as L.
  assert (N.log2 a < 8) by (destruct (N.eq_dec a 0); [subst; cbn; lia | apply N.log2_lt_pow2; cbn; lia]).
  assert (N.log2 b < 8) by (destruct (N.eq_dec b 0); [subst; cbn; lia | apply N.log2_lt_pow2; cbn; lia]).
  lia.
Qed.

Lemma to_N_byte_xor a b : Byte.to_N (byte_xor a b) = N.lxor (Byte.to_N a) (Byte.to_N b).
Proof.
  unfold byte_xor. rewrite to_N_byte_of_N. apply N.mod_small.
  apply lxor_lt_256; apply to_N_lt.
Qed.

Lemma byte_xor_comm a b : byte_xor a b = byte_xor b a.
Proof. apply to_N_inj. rewrite !to_N_byte_xor. apply N.lxor_comm. Qed.

Lemma byte_xor_assoc a b c : byte_xor (byte_xor a b) c = byte_xor a (byte_xor b c).
Proof. apply to_N_inj. rewrite !to_N_byte_xor. apply N.lxor_assoc. Qed.

Lemma byte_xor_nilpotent a : byte_xor a a = x00.
Proof. apply to_N_inj. rewrite to_N_byte_xor, N.lxor_nilpotent. reflexivity. Qed.

Lemma byte_xor_0_r a : byte_xor a x00 = a.
Proof. apply to_N_inj. rewrite to_N_byte_xor. apply N.lxor_0_r. Qed.

Lemma byte_xor_invol a k : byte_xor (byte_xor a k) k = a.
Proof. rewrite byte_xor_assoc, byte_xor_nilpotent; apply byte_xor_0_r. Qed.

Lemma byte_xor_inj a b k : byte_xor a k = byte_xor b k -> a = b.
Proof. intros H. rewrite <- (byte_xor_invol a k), H. apply byte_xor_invol. Qed.

Lemma byte_xor_eq_0 a k : byte_xor a k = a -> k = x00.
Proof.
  intros H. rewrite <- (byte_xor_nilpotent a). rewrite <- H at 2.
  rewrite <- byte_xor_assoc, byte_xor_nilpotent, byte_xor_comm, byte_xor_0_r. reflexivity.
Qed.

(** ** Equality of byte strings *)

Lemma byte_eqb_spec a b : Byte.eqb a b = true <-> a = b.
Proof.
  split; intros H.
  - apply Byte.byte_dec_bl; exact H.
  - apply Byte.byte_dec_lb; exact H.
Qed.

Lemma bytes_eqb_eq a b : bytes_eqb a b = true <-> a = b.
Proof.
  revert b; induction a as [|x a IH]; intros [|y b]; cbn [bytes_eqb]; split; intros H;
    try reflexivity; try discriminate.
  - apply andb_true_iff in H as [H1 H2]. apply byte_eqb_spec in H1. apply IH in H2. congruence.
  - injection H as -> ->. apply andb_true_iff; split.
    + apply byte_eqb_spec; reflexivity.
    + apply IH; reflexivity.
Qed.

Lemma bytes_eqb_neq a b : bytes_eqb a b = false <-> a <> b.
Proof.
  rewrite <- (not_true_iff_false (bytes_eqb a b)), bytes_eqb_eq. reflexivity.
Qed.

Lemma bytes_eqb_refl a : bytes_eqb a a = true.
Proof. apply bytes_eqb_eq; reflexivity. Qed.

Lemma bytes_eq_dec (a b : bytes) : {a = b} + {a <> b}.
Proof.
  destruct (bytes_eqb a b) eqn:E.
  - left; apply bytes_eqb_eq; exact E.
  - right; apply bytes_eqb_neq; exact E.
Defined.

(** ** Lexicographic comparison *)

Lemma bytes_gtb_asym a b : bytes_gtb a b = true -> bytes_gtb b a = false.
Proof.
  revert b; induction a as [|x a IH]; intros [|y b]; cbn [bytes_gtb]; intros H;
    try reflexivity; try discriminate.
  rewrite N.eqb_sym. destruct (N.eqb_spec (Byte.to_N x) (Byte.to_N y)) as [E|E].
  - apply IH; exact H.
  - apply N.ltb_ge. apply N.ltb_lt in H. lia.
Qed.

Lemma bytes_gtb_antisym a b : bytes_gtb a b = false -> bytes_gtb b a = false -> a = b.
Proof.
  revert b; induction a as [|x a IH]; intros [|y b]; cbn [bytes_gtb]; intros H1 H2;
    try reflexivity; try discriminate.
  rewrite N.eqb_sym in H2.
  destruct (N.eqb_spec (Byte.to_N x) (Byte.to_N y)) as [E|E].
  - f_equal; [apply to_N_inj; exact E | apply IH; assumption].
  - apply N.ltb_ge in H1, H2. lia.
Qed.

Lemma max_sym a b :
  (if bytes_gtb a b then a else b) = (if bytes_gtb b a then b else a).
Proof.
  destruct (bytes_gtb a b) eqn:E1, (bytes_gtb b a) eqn:E2; try reflexivity.
  - apply bytes_gtb_asym in E1; congruence.
  - symmetry; apply bytes_gtb_antisym; assumption.
Qed.

(** ** Big endian numbers *)

Lemma length_be_encode k n : length (be_encode k n) = k.
Proof.
  revert n; induction k as [|k IH]; intros n; cbn [be_encode]; [reflexivity|].
  rewrite app_length, IH. cbn. lia.
Qed.

Lemma len_be_encode k n : len (be_encode k n) = N.of_nat k.
Proof. unfold len; rewrite length_be_encode; reflexivity. Qed.

Lemma be_decode_app a b :
  be_decode (a ++ b) = be_decode a * 256 ^ len b + be_decode b.
Proof.
  unfold be_decode. rewrite fold_left_app.
  generalize (fold_left (fun acc b0 => acc * 256 + Byte.to_N b0) a 0) as acc.
  induction b as [|x b IH]; intros acc; cbn [fold_left].
  - rewrite len_nil. cbn [N.pow]. lia.
  - rewrite IH, (IH (0 * 256 + Byte.to_N x)), len_cons, N.add_1_l, N.pow_succ_r'. lia.
Qed.

Lemma be_decode_single b : be_decode [b] = Byte.to_N b.
Proof. reflexivity. Qed.

Lemma be_decode_encode_mod k n : be_decode (be_encode k n) = n mod 256 ^ N.of_nat k.
Proof.
  revert n; induction k as [|k IH]; intros n; cbn [be_encode].
  - cbn [N.of_nat]. rewrite N.pow_0_r, N.mod_1_r. reflexivity.
  - rewrite be_decode_app, IH, be_decode_single, to_N_byte_of_N.
    change (len [byte_of_N n]) with 1. rewrite N.pow_1_r.
    rewrite Nat2N.inj_succ, N.pow_succ_r'.
    rewrite (N.mod_mul_r n 256 (256 ^ N.of_nat k)).
    + lia.
    + lia.
    + apply N.pow_nonzero; lia.
Qed.

Lemma be_decode_encode8 n : n < 2 ^ 64 -> be_decode (be_encode 8 n) = n.
Proof.
  intros H. rewrite be_decode_encode_mod. apply N.mod_small.
  change (256 ^ N.of_nat 8) with (2 ^ 64). exact H.
Qed.

Lemma be_decode_lt l : be_decode l < 256 ^ len l.
Proof.
  induction l as [|b l IH] using rev_ind.
  - cbn. lia.
  - rewrite be_decode_app, be_decode_single, len_app.
    change (len [b]) with 1. rewrite N.pow_add_r, N.pow_1_r.
    pose proof (to_N_lt b). nia.
Qed.

Lemma be_encode_decode l : be_encode (length l) (be_decode l) = l.
Proof.
  induction l as [|b l IH] using rev_ind; [reflexivity|].
  rewrite app_length, Nat.add_comm. cbn [length Nat.add be_encode].
  rewrite be_decode_app, be_decode_single.
  change (len [b]) with 1. rewrite N.pow_1_r.
  pose proof (to_N_lt b) as Hb.
  f_equal.
  - rewrite N.add_comm, N.div_add by lia. rewrite N.div_small by exact Hb.
    rewrite N.add_0_l. exact IH.
  - f_equal. apply to_N_inj. rewrite to_N_byte_of_N.
    rewrite N.add_comm, N.mod_add by lia. apply N.mod_small; exact Hb.
Qed.

Lemma be_encode8_inj a b : a < 2 ^ 64 -> b < 2 ^ 64 -> be_encode 8 a = be_encode 8 b -> a = b.
Proof.
  intros Ha Hb H. rewrite <- (be_decode_encode8 a Ha), H. apply be_decode_encode8; exact Hb.
Qed.

(** ** Slices *)

Lemma slice_to_Ok d n x :
  slice_to d n = Ok x -> n <= len d /\ x = firstn (N.to_nat n) d.
Proof.
  unfold slice_to. destruct (N.leb_spec n (len d)) as [H|H]; intros E; [|discriminate].
  injection E as <-. auto.
Qed.

Lemma slice_from_Ok d n x :
  slice_from d n = Ok x -> n <= len d /\ x = skipn (N.to_nat n) d.
Proof.
  unfold slice_from. destruct (N.leb_spec n (len d)) as [H|H]; intros E; [|discriminate].
  injection E as <-. auto.
Qed.

Lemma slice_Ok d a b x :
  slice d a b = Ok x ->
  a <= b /\ b <= len d /\ x = firstn (N.to_nat (b - a)) (skipn (N.to_nat a) d).
Proof.
  unfold slice. destruct (N.leb_spec a b) as [H|H], (N.leb_spec b (len d)) as [H'|H'];
    cbn [andb]; intros E; try discriminate.
  injection E as <-. auto.
Qed.

Lemma slice_to_le d n : n <= len d -> slice_to d n = Ok (firstn (N.to_nat n) d).
Proof. intros H. unfold slice_to. rewrite (proj2 (N.leb_le _ _) H). reflexivity. Qed.

Lemma slice_from_le d n : n <= len d -> slice_from d n = Ok (skipn (N.to_nat n) d).
Proof. intros H. unfold slice_from. rewrite (proj2 (N.leb_le _ _) H). reflexivity. Qed.

Lemma slice_le d a b :
  a <= b -> b <= len d ->
  slice d a b = Ok (firstn (N.to_nat (b - a)) (skipn (N.to_nat a) d)).
Proof.
  intros H1 H2. unfold slice.
  rewrite (proj2 (N.leb_le _ _) H1), (proj2 (N.leb_le _ _) H2). reflexivity.
Qed.

Lemma firstn_app_exact {A} (a b : list A) n : length a = n -> firstn n (a ++ b) = a.
Proof.
  intros <-. rewrite firstn_app, Nat.sub_diag, firstn_all, firstn_O, app_nil_r. reflexivity.
Qed.

Lemma skipn_app_exact {A} (a b : list A) n : length a = n -> skipn n (a ++ b) = b.
Proof.
  intros <-. rewrite skipn_app, Nat.sub_diag, skipn_all. reflexivity.
Qed.

Lemma slice_to_app a b n : len a = n -> slice_to (a ++ b) n = Ok a.
Proof.
  intros H. rewrite slice_to_le by (rewrite len_app; lia).
  rewrite firstn_app_exact; [reflexivity|]. unfold len in H. lia.
Qed.

Lemma slice_from_app a b n : len a = n -> slice_from (a ++ b) n = Ok b.
Proof.
  intros H. rewrite slice_from_le by (rewrite len_app; lia).
  rewrite skipn_app_exact; [reflexivity|]. unfold len in H. lia.
Qed.

Lemma slice_app a b c i j :
  len a = i -> i + len b = j -> slice (a ++ b ++ c) i j = Ok b.
Proof.
  intros Hi Hj. rewrite slice_le; [| lia | rewrite !len_app; lia].
  rewrite skipn_app_exact by (unfold len in Hi; lia).
  rewrite firstn_app_exact; [reflexivity|]. unfold len in *. lia.
Qed.

Lemma slice_to_no_err d n e : slice_to d n <> Err e.
Proof. unfold slice_to; destruct (_ <=? _); discriminate. Qed.
Lemma slice_from_no_err d n e : slice_from d n <> Err e.
Proof. unfold slice_from; destruct (_ <=? _); discriminate. Qed.
Lemma slice_no_err d a b e : slice d a b <> Err e.
Proof. unfold slice; destruct (_ && _); discriminate. Qed.

Lemma firstn_split {A} (l : list A) a b :
  (a <= b)%nat -> firstn b l = firstn a l ++ firstn (b - a) (skipn a l).
Proof.
  intros H. rewrite <- (firstn_skipn a (firstn b l)) at 1.
  rewrite firstn_firstn, Nat.min_l by exact H.
  rewrite firstn_skipn_comm. do 2 f_equal. f_equal. lia.
Qed.

Lemma len_firstn {A} (l : list A) n : n <= len l -> len (firstn (N.to_nat n) l) = n.
Proof. unfold len. intros H. rewrite firstn_length. lia. Qed.

Lemma firstn_len {A} (l : list A) : firstn (N.to_nat (len l)) l = l.
Proof. unfold len. rewrite Nat2N.id. apply firstn_all. Qed.

Lemma skipn_len {A} (l : list A) : skipn (N.to_nat (len l)) l = [].
Proof. unfold len. rewrite Nat2N.id. apply skipn_all. Qed.

Lemma len_skipn {A} (l : list A) n : len (skipn (N.to_nat n) l) = len l - n.
Proof. unfold len. rewrite skipn_length. lia. Qed.

(** ** Machine integers *)

Lemma u64_incr_small T n : n + 1 < 2 ^ 64 -> u64_incr T n = Ok (n + 1).
Proof. intros H. unfold u64_incr. rewrite (proj2 (N.ltb_lt _ _) H). reflexivity. Qed.

Lemma u64_incr_not_err T n e : u64_incr T n <> Err e.
Proof. unfold u64_incr. destruct (_ <? _), (overflow_checks T); discriminate. Qed.

Lemma pow_usize_pos T : 0 < 2 ^ usize_bits T.
Proof. apply N.neq_0_lt_0, N.pow_nonzero; lia. Qed.

Lemma app_inv_len {A} (a b c d : list A) :
  length a = length c -> a ++ b = c ++ d -> a = c /\ b = d.
Proof.
  revert c; induction a as [|x a IH]; intros [|y c] Hl H; cbn in *; try discriminate; auto.
  injection Hl as Hl. injection H as -> H. destruct (IH _ Hl H) as [-> ->]. auto.
Qed.

Lemma skipn_skipn {A} (a b : nat) (l : list A) : skipn a (skipn b l) = skipn (a + b) l.
Proof.
  revert l; induction b as [|b IH]; intros l.
  - rewrite Nat.add_0_r. reflexivity.
  - rewrite <- plus_n_Sm. destruct l as [|x l]; cbn [skipn].
    + apply skipn_nil.
    + apply IH.
Qed.

(** What a writing call does depends on the user message through its length
    only; compression breaks that. *)

From Verif.Model Require Import Complete.
From Verif.Spec Require Import Wire Datagram Trace ReadSpec Session Writers CompleteTrace Lengths.
From Verif.Proofs Require Import BaseFacts CipherFacts Invariant Accept Writing.

Lemma length_len {A} (a b : list A) : len a = len b -> length a = length b.
Proof. unfold len. lia. Qed.

Lemma same_size_refl w : same_size w w.
Proof. repeat split. Qed.

(** ** Writers *)
Lemma flush_loop_size sc : forall out out' b b',
  len out = len out' -> len b = len b' ->
  let '(s, r, e) := flush_loop sc out b in
  let '(s', r', e') := flush_loop sc out' b' in
  len (sink_data s) = len (sink_data s') /\ sink_script s = sink_script s' /\ len r = len r' /\ e = e'.
Proof.
  induction sc as [|[n|e] sc IH]; intros out out' b b' Ho Hb;
    destruct b as [|x b], b' as [|x' b']; try (unfold len in Hb; cbn in Hb; lia); cbn [flush_loop].
  - auto.
  - cbn. rewrite !len_app, Ho, Hb. auto.
  - auto.
  - rewrite Hb. destruct (N.to_nat (N.min n (len (x' :: b')))) as [|k] eqn:Ek.
    + cbn [sink_data sink_script]. auto.
    + apply IH.
      * rewrite !len_app, Ho. apply length_len in Hb. unfold len. rewrite !firstn_length, Hb. reflexivity.
      * apply length_len in Hb. unfold len. rewrite !skipn_length, Hb. reflexivity.
  - auto.
  - destruct e; try (cbn [sink_data sink_script]; auto; fail). apply IH; assumption.
Qed.

Lemma bw_write_size w w' b b' :
  same_size w w' -> len b = len b' ->
  same_size (fst (bw_write w b)) (fst (bw_write w' b')) /\ snd (bw_write w b) = snd (bw_write w' b').
Proof.
  intros (H1 & H2 & H3 & H4) Hb. unfold bw_write. rewrite <- H1, <- H2, <- Hb.
  assert (forall v v', same_size v v' ->
    same_size (fst (if bw_cap v <=? len b
       then let '(s, r) := sink_write (bw_sink v) b in ({| bw_cap := bw_cap v; bw_buf := bw_buf v; bw_sink := s |}, r)
       else ({| bw_cap := bw_cap v; bw_buf := bw_buf v ++ b; bw_sink := bw_sink v |}, inl (len b))))
     (fst (if bw_cap v' <=? len b
       then let '(s, r) := sink_write (bw_sink v') b' in ({| bw_cap := bw_cap v'; bw_buf := bw_buf v'; bw_sink := s |}, r)
       else ({| bw_cap := bw_cap v'; bw_buf := bw_buf v' ++ b'; bw_sink := bw_sink v' |}, inl (len b)))) /\
    snd (if bw_cap v <=? len b
       then let '(s, r) := sink_write (bw_sink v) b in ({| bw_cap := bw_cap v; bw_buf := bw_buf v; bw_sink := s |}, r)
       else ({| bw_cap := bw_cap v; bw_buf := bw_buf v ++ b; bw_sink := bw_sink v |}, inl (len b))) =
    snd (if bw_cap v' <=? len b
       then let '(s, r) := sink_write (bw_sink v') b' in ({| bw_cap := bw_cap v'; bw_buf := bw_buf v'; bw_sink := s |}, r)
       else ({| bw_cap := bw_cap v'; bw_buf := bw_buf v' ++ b'; bw_sink := bw_sink v' |}, inl (len b)))) as Hpush.
  { intros v v' (G1 & G2 & G3 & G4). rewrite <- G1. destruct (bw_cap v <=? len b).
    - unfold sink_write. rewrite <- G4. destruct (sink_script (bw_sink v)) as [|[n|e] sc]; cbn [fst snd].
      + rewrite Hb. split; [|reflexivity]. repeat split; cbn; try assumption. rewrite !len_app. lia.
      + rewrite <- Hb. split; [|reflexivity]. repeat split; cbn; try assumption.
        rewrite !len_app, G3. apply length_len in Hb. unfold len. rewrite !firstn_length, Hb. reflexivity.
      + split; [|reflexivity]. repeat split; cbn; assumption.
    - cbn [fst snd]. split; [|reflexivity]. repeat split; cbn; try assumption. rewrite !len_app. lia. }
  destruct (bw_cap w <? len (bw_buf w) + len b).
  - unfold bw_flush_buf. rewrite <- H4.
    pose proof (flush_loop_size (sink_script (bw_sink w)) _ _ _ _ H3 H2) as Hf.
    destruct (flush_loop _ _ (bw_buf w)) as [[s r] e]. destruct (flush_loop _ _ (bw_buf w')) as [[s' r'] e'].
    destruct Hf as (F1 & F2 & F3 & <-). destruct e as [e|].
    + cbn [fst snd]. split; [|reflexivity]. repeat split; cbn; assumption.
    + apply Hpush. repeat split; cbn; assumption.
  - apply Hpush. repeat split; assumption.
Qed.

Lemma write_all_size fuel : forall w w' b b',
  same_size w w' -> len b = len b' ->
  same_size (fst (write_all_loop fuel w b)) (fst (write_all_loop fuel w' b')) /\
  snd (write_all_loop fuel w b) = snd (write_all_loop fuel w' b').
Proof.
  induction fuel as [|fuel IH]; intros w w' b b' Hw Hb;
    destruct b as [|x b], b' as [|x' b']; try (unfold len in Hb; cbn in Hb; lia); cbn [write_all_loop];
    try (split; [exact Hw|reflexivity]).
  destruct (bw_write_size w w' _ _ Hw Hb) as [H1 H2].
  destruct (bw_write w (x :: b)) as [v r]. destruct (bw_write w' (x' :: b')) as [v' r'].
  cbn [fst snd] in H1, H2. subst r'. destruct r as [n|e].
  - destruct (n =? 0); [split; [exact H1|reflexivity]|]. apply IH; [exact H1|].
    apply length_len in Hb. unfold len. rewrite !skipn_length, Hb. reflexivity.
  - destruct e; try (split; [exact H1|reflexivity]). apply IH; assumption.
Qed.

Lemma bw_write_all_size w w' b b' :
  same_size w w' -> len b = len b' ->
  same_size (fst (bw_write_all w b)) (fst (bw_write_all w' b')) /\ snd (bw_write_all w b) = snd (bw_write_all w' b').
Proof.
  intros Hw Hb. unfold bw_write_all. pose proof Hw as (_ & _ & _ & <-).
  rewrite <- (length_len _ _ Hb). apply write_all_size; assumption.
Qed.

Lemma chunks64_size fuel : forall t t', len t = len t' ->
  Forall2 (fun c c' => len c = len c') (chunks64 fuel t) (chunks64 fuel t').
Proof.
  induction fuel as [|fuel IH]; intros t t' H;
    destruct t as [|x t], t' as [|x' t']; try (unfold len in H; cbn in H; lia); cbn [chunks64]; constructor.
  - apply length_len in H. unfold len. rewrite !firstn_length, H. reflexivity.
  - apply IH. apply length_len in H. unfold len. rewrite !skipn_length, H. reflexivity.
Qed.

Lemma write_chunks_size l l' : Forall2 (fun c c' : bytes => len c = len c') l l' ->
  forall w w', same_size w w' ->
  same_size (fst (write_chunks w l)) (fst (write_chunks w' l')) /\ snd (write_chunks w l) = snd (write_chunks w' l').
Proof.
  induction 1 as [|c c' l l' Hc _ IH]; intros w w' Hw; cbn [write_chunks]; [split; [exact Hw|reflexivity]|].
  destruct (bw_write_all_size w w' c c' Hw Hc) as [H1 H2].
  destruct (bw_write_all w c) as [v e]. destruct (bw_write_all w' c') as [v' e']. cbn [fst snd] in H1, H2.
  subst e'. destruct e; [split; [exact H1|reflexivity]|]. apply IH, H1.
Qed.

(** ** All messages of a length *)
Definition all_bytes : list byte := map (fun n => byte_of_N (N.of_nat n)) (seq 0 256).
Fixpoint words (n : nat) : list bytes :=
  match n with
  | O => [[]]
  | S n => flat_map (fun b => map (cons b) (words n)) all_bytes
  end.

Lemma all_bytes_In b : In b all_bytes.
Proof.
  unfold all_bytes. apply in_map_iff. exists (N.to_nat (Byte.to_N b)). rewrite Nnat.N2Nat.id. split.
  - destruct b; reflexivity.
  - apply in_seq. pose proof (Byte.to_N_bounded b). lia.
Qed.

Lemma all_bytes_NoDup : NoDup all_bytes.
Proof.
  apply (NoDup_map_inv Byte.to_N). replace (map Byte.to_N all_bytes) with (map N.of_nat (seq 0 256)) by (vm_compute; reflexivity).
  apply FinFun.Injective_map_NoDup; [|apply seq_NoDup]. intros x y. lia.
Qed.

Lemma words_In n w : In w (words n) <-> length w = n.
Proof.
  revert w. induction n as [|n IH]; intros w; cbn [words].
  - cbn. split; [intros [<-|[]]; reflexivity|]. destruct w; [auto|discriminate].
  - rewrite in_flat_map. split.
    + intros (b & _ & Hw). apply in_map_iff in Hw as (v & <- & Hv). cbn. f_equal. apply IH, Hv.
    + destruct w as [|b w]; [discriminate|]. cbn. intros H. injection H as H.
      exists b. split; [apply all_bytes_In|]. apply in_map, IH, H.
Qed.

Lemma words_NoDup n : NoDup (words n).
Proof.
  induction n as [|n IH]; cbn [words]; [repeat constructor; intros []|].
  pose proof all_bytes_NoDup as Hb. revert Hb. generalize all_bytes as l.
  induction l as [|b l IHl]; intros Hb; cbn [flat_map]; [constructor|].
  apply NoDup_cons_iff in Hb as [Hn Hb]. specialize (IHl Hb).
  assert (forall v, In v (flat_map (fun b => map (cons b) (words n)) l) -> exists b' v', v = b' :: v' /\ In b' l) as Hin.
  { intros v Hv. apply in_flat_map in Hv as (b' & Hb' & Hv). apply in_map_iff in Hv as (v' & <- & _). eauto. }
  revert IHl Hin. generalize (flat_map (fun b => map (cons b) (words n)) l) as r. intros r IHl Hin.
  revert IH. generalize (words n) as ws. intros ws Hws.
  induction ws as [|w ws IHw]; cbn [map app]; [exact IHl|].
  apply NoDup_cons_iff in Hws as [Hw Hws]. constructor; [|apply IHw, Hws].
  intros H. apply in_app_iff in H as [H|H].
  - apply in_map_iff in H as (v & E & Hv). injection E as ->. contradiction.
  - apply Hin in H as (b' & v' & E & Hb'). injection E as -> ->. contradiction.
Qed.

Lemma words_length n : length (words n) = Nat.pow 256 n.
Proof.
  induction n as [|n IH]; [reflexivity|]. cbn [words].
  assert (forall l, length (flat_map (fun b : byte => map (cons b) (words n)) l) = length l * length (words n))%nat as H.
  { induction l as [|b l IHl]; [reflexivity|]. cbn [flat_map]. rewrite app_length, map_length, IHl. cbn [length Nat.mul]. reflexivity. }
  rewrite H, IH. unfold all_bytes. rewrite map_length, seq_length. reflexivity.
Qed.

Lemma NoDup_map_on {A B} (f : A -> B) l :
  (forall x y, In x l -> In y l -> f x = f y -> x = y) -> NoDup l -> NoDup (map f l).
Proof.
  intros Hf. induction 1 as [|x l Hx _ IH]; cbn [map]; constructor.
  - intros H. apply in_map_iff in H as (y & E & Hy). apply Hx. rewrite <- (Hf y x); [exact Hy|right; exact Hy|left; reflexivity|exact E].
  - apply IH. intros y z Hy Hz. apply Hf; right; assumption.
Qed.

(** ** Calls *)
Section WithEnv.
Context (C : Crypto) (T : target) (HL : CryptoLaws C).

Lemma encrypt_size t t' a w w' :
  same_size w w' -> len t = len t' ->
  same_size (fst (encrypt C t a w)) (fst (encrypt C t' a w')) /\ snd (encrypt C t a w) = snd (encrypt C t' a w').
Proof.
  intros Hw Ht. destruct a as [k]. unfold encrypt, chacha_encrypt.
  set (c := xor_stream _ _ _ _ t). set (c' := xor_stream _ _ _ _ t').
  assert (len c = len c') as Hc by (unfold c, c'; rewrite !xor_stream_spec, !len_ciphertext; exact Ht).
  rewrite <- (length_len _ _ Hc).
  destruct (write_chunks_size _ _ (chunks64_size (length c) c c' Hc) w w' Hw) as [H1 H2].
  destruct (write_chunks w _) as [v e]. destruct (write_chunks w' _) as [v' e']. cbn [fst snd] in H1, H2.
  subst e'. destruct e; [split; [exact H1|reflexivity]|].
  set (m := poly1305_mac _ _ _ _ c). set (m' := poly1305_mac _ _ _ _ c').
  assert (len m = len m') as Hm by (unfold m, m', len; rewrite !(law_mac_len C HL); reflexivity).
  destruct (bw_write_size v v' m m' H1 Hm) as [H3 H4].
  destruct (bw_write v m) as [u r]. destruct (bw_write v' m') as [u' r']. cbn [fst snd] in H3, H4.
  subst r'. destruct r; (split; [exact H3|reflexivity]).
Qed.

Lemma user_text_size n data data' :
  len data = len data' -> len (hashed C (user_frame n data)) = len (hashed C (user_frame n data')).
Proof.
  intros H. unfold hashed, user_frame. rewrite !len_app, !len_frame, !len_app, !len_u64_be, H by reflexivity.
  f_equal. unfold len. rewrite !(law_sha256_len C HL). reflexivity.
Qed.

Theorem write_message_size data data' s w w' :
  len data = len data' -> same_size w w' ->
  fst (fst (write_message C T data s w)) = fst (fst (write_message C T data' s w')) /\
  same_size (snd (fst (write_message C T data s w))) (snd (fst (write_message C T data' s w'))) /\
  snd (write_message C T data s w) = snd (write_message C T data' s w').
Proof.
  intros Hd Hw.
  destruct (write_message C T data s w) as [[s1 w1] o1] eqn:E1.
  destruct (write_message C T data' s w') as [[s2 w2] o2] eqn:E2. cbn [fst snd].
  apply write_message_cases in E1 as [(A1 & -> & -> & A2)|[(A1 & A2 & -> & -> & ->)|(A1 & k & o & A2 & A3 & A4)]];
  apply write_message_cases in E2 as [(B1 & -> & -> & B2)|[(B1 & B2 & -> & -> & ->)|(B1 & k' & o' & B2 & B3 & B4)]];
    try contradiction; try congruence.
  - split; [reflexivity|]. split; [exact Hw|].
    destruct A2 as [(l & r & A2 & ->)|(A2 & ->)], B2 as [(l' & r' & B2 & ->)|(B2 & ->)]; congruence.
  - auto.
  - rewrite A2 in B2. injection B2 as <-.
    destruct (encrypt_size _ _ (WithChacha k) w w' Hw (user_text_size (next_nonce_sent s) data data' Hd)) as [H1 H2].
    rewrite A3, B3 in H1, H2. cbn [fst snd] in H1, H2. subst o'.
    destruct A4 as [(e & -> & -> & ->)|[(-> & n & Hn & -> & ->)|(-> & p & Hp & -> & ->)]],
             B4 as [(e' & He & -> & ->)|[(He & n' & Hn' & -> & ->)|(He & p' & Hp' & -> & ->)]];
      try discriminate; try congruence.
    + injection He as <-. auto.
    + rewrite Hn in Hn'. injection Hn' as <-. auto.
    + rewrite Hp in Hp'. injection Hp' as <-. auto.
Qed.

Theorem run_lengths s cs cs' :
  Forall2 same_lengths cs cs' ->
  fst (run C T s cs) = fst (run C T s cs') /\
  Forall2 (fun e e' => same_but_bytes (snd e) (snd e')) (snd (run C T s cs)) (snd (run C T s cs')).
Proof.
  intros H. revert s. induction H as [|c c' cs cs' Hc _ IH]; intros s; cbn [run]; [split; [reflexivity|constructor]|].
  assert (fst (call_step C T s c) = fst (call_step C T s c') /\
          same_but_bytes (snd (call_step C T s c)) (snd (call_step C T s c'))) as [H1 H2].
  { assert (c = c' \/ exists data w data0 w0, c = CWrite data w /\ c' = CWrite data0 w0 /\
              len data = len data0 /\ same_size w w0) as [<-|(data & w & data0 & w0 & -> & -> & Hd & Hw)]
      by (destruct c, c'; cbn [same_lengths] in Hc; auto; right; eauto 8).
    { split; [reflexivity|].
      destruct (snd (call_step C T s c)); try reflexivity. split; [reflexivity|apply same_size_refl]. }
    destruct (write_message_size data data0 s w w0 Hd Hw) as (A1 & A2 & A3).
    cbn [call_step]. destruct (write_message C T data s w) as [[s1 w1] o1].
    destruct (write_message C T data0 s w0) as [[s2 w2] o2]. cbn [fst snd] in *. split; [exact A1|]. split; assumption. }
  destruct (call_step C T s c) as [s1 r]. destruct (call_step C T s c') as [s2 r']. cbn [fst snd] in H1, H2. subst s2.
  destruct (IH s1) as [H3 H4]. destruct (run C T s1 cs) as [s3 h]. destruct (run C T s1 cs') as [s4 h'].
  cbn [fst snd] in H3, H4 |- *. split; [exact H3|]. constructor; assumption.
Qed.

Context (Z : Zip) (HZ : ZipLaws Z).

Theorem step_lengths_complete s c c' :
  same_packed_lengths Z s c c' ->
  fst (scall_step C Z T s c) = fst (scall_step C Z T s c') /\
  same_but_bytes_complete (snd (scall_step C Z T s c)) (snd (scall_step C Z T s c')).
Proof.
  intros Hc.
  assert (c = c' \/ exists data w data0 w0, c = SWrite data w /\ c' = SWrite data0 w0 /\
            len (packed Z (Some data) s) = len (packed Z (Some data0) s) /\ same_size w w0)
    as [<-|(data & w & data0 & w0 & -> & -> & Hd & Hw)]
    by (destruct c, c'; cbn [same_packed_lengths] in Hc; auto; right; eauto 8).
  { split; [reflexivity|].
    destruct (snd (scall_step C Z T s c)); try reflexivity. split; [reflexivity|apply same_size_refl]. }
  destruct (write_message_size _ _ (minimal s) w w0 Hd Hw) as (A1 & A2 & A3).
  change (packed Z (Some data) s) with (compress Z data s) in A1, A2, A3.
  change (packed Z (Some data0) s) with (compress Z data0 s) in A1, A2, A3.
  cbn [scall_step]. unfold write_bin, writer_write_bin_message.
  destruct (write_message C T (compress Z data s) (minimal s) w) as [[s1 w1] o1].
  destruct (write_message C T (compress Z data0 s) (minimal s) w0) as [[s2 w2] o2]. cbn [fst snd] in *.
  subst s2. split; [reflexivity|]. split; assumption.
Qed.

Theorem run_lengths_complete s cs cs' :
  same_packed_run C Z T s cs cs' ->
  fst (srun C Z T s cs) = fst (srun C Z T s cs') /\
  Forall2 (fun e e' => same_but_bytes_complete (snd e) (snd e')) (snd (srun C Z T s cs)) (snd (srun C Z T s cs')).
Proof.
  revert s cs'. induction cs as [|c cs IH]; intros s [|c' cs'] H; cbn [same_packed_run] in H; try contradiction;
    cbn [srun]; [split; [reflexivity|constructor]|].
  destruct H as [Hc H]. destruct (step_lengths_complete s c c' Hc) as [H1 H2].
  destruct (scall_step C Z T s c) as [s1 r]. destruct (scall_step C Z T s c') as [s2 r']. cbn [fst snd] in *. subst s2.
  destruct (IH s1 cs' H) as [H3 H4]. destruct (srun C Z T s1 cs) as [s3 h]. destruct (srun C Z T s1 cs') as [s4 h'].
  cbn [fst snd] in H3, H4 |- *. split; [exact H3|]. constructor; assumption.
Qed.

(** ** Compression *)
Lemma compressed_differs s data :
  len (packed Z (Some data) s) < len data ->
  exists data', len data' = len data /\ len (packed Z (Some data') s) <> len (packed Z (Some data) s).
Proof.
  intros H. set (f := fun d => packed Z (Some d) s) in *.
  change (len (f data) < len data) in H.
  destruct (Forall_Exists_dec (fun d => len (f d) = len (f data)) (fun d => N.eq_dec _ _) (words (length data))) as [HF|HE].
  - exfalso.
    assert (length (words (length data)) <= length (words (length (f data))))%nat as Hle.
    { rewrite <- (map_length f (words (length data))). apply NoDup_incl_length.
      - apply NoDup_map_on; [|apply words_NoDup].
        intros d d' Hd Hd' E. apply words_In in Hd, Hd'. unfold f, packed in E.
        assert (len d' = len d) as Hl by (unfold len; lia). rewrite Hl in E.
        apply (f_equal (inflate Z)) in E. rewrite !(law_inflate_deflate Z HZ) in E. congruence.
      - intros x Hx. apply in_map_iff in Hx as (d & <- & Hd). apply words_In. apply length_len.
        rewrite Forall_forall in HF. apply HF, Hd. }
    rewrite !words_length in Hle.
    assert (Nat.pow 256 (length (f data)) < Nat.pow 256 (length data))%nat by (apply PeanoNat.Nat.pow_lt_mono_r; unfold len in H; lia).
    lia.
  - apply Exists_exists in HE as (d & Hd & Hne). exists d. split; [|exact Hne].
    apply words_In in Hd. unfold len. lia.
Qed.

Theorem compression_shows a data w a1 w1 :
  takes_all w -> write_bin C Z T data a w = (a1, w1, Ok tt) ->
  len (packed Z (Some data) a) < len data ->
  exists data' w2, len data' = len data /\ write_bin C Z T data' a w = (a1, w2, Ok tt) /\
    len (output w2) <> len (output w1).
Proof.
  intros Hw E H. destruct (compressed_differs a data H) as (data' & Hl & Hne).
  pose proof (message_appended_complete C Z T data a w a1 w1 Hw E) as (k & Hk & _ & O1).
  assert (exists w2, write_bin C Z T data' a w = (a1, w2, Ok tt)) as [w2 E2].
  { revert E. unfold write_bin, writer_write_bin_message.
    destruct (write_message C T (compress Z data a) (minimal a) w) as [[s1 v1] o1] eqn:Em. intros E.
    injection E as <- -> ->.
    apply write_message_cases in Em as [(_ & _ & _ & [(l & r & _ & D)|(_ & D)])|[(_ & _ & _ & _ & D)|(A1 & k1 & o & A2 & _ &
      [(e & _ & D & _)|[(_ & n & Hn & -> & _)|(_ & p & _ & _ & D)]])]]; try discriminate.
    destruct (encrypt_accepting C (hashed C (user_frame (next_nonce_sent (minimal a)) (compress Z data' a))) k1 w Hw)
      as (v2 & E1 & _). exists v2.
    destruct (write_message C T (compress Z data' a) (minimal a) w) as [[s2 v3] o2] eqn:Em2.
    apply write_message_cases in Em2 as [(B1 & _)|[(_ & B1 & _)|(_ & k2 & o' & B2 & B3 & B4)]]; try congruence.
    rewrite A2 in B2. injection B2 as <-. rewrite E1 in B3. injection B3 as <- <-.
    destruct B4 as [(e & D & _)|[(_ & n' & Hn' & -> & ->)|(_ & p & Hp & _)]]; [discriminate| |congruence].
    rewrite Hn in Hn'. injection Hn' as <-. reflexivity. }
  exists data', w2. split; [exact Hl|]. split; [exact E2|].
  pose proof (message_appended_complete C Z T data' a w a1 w2 Hw E2) as (k' & Hk' & _ & O2).
  rewrite Hk in Hk'. injection Hk' as <-. rewrite O1, O2, !len_app. intros E3. apply Hne.
  unfold user_datagram, user_frame, hashed in E3. rewrite !len_seal, !len_app, !len_frame, !len_app, !len_u64_be in E3 by (reflexivity || exact HL).
  assert (forall m, len (sha256 C m) = 32) as Hh by (intros m; unfold len; rewrite (law_sha256_len C HL); reflexivity).
  rewrite !Hh in E3.
  apply N.add_cancel_l, N.add_cancel_r, N.add_cancel_r, N.add_cancel_l, N.add_cancel_l in E3. exact E3.
Qed.

End WithEnv.

Theorem message_size C T (HL : CryptoLaws C) data s w s' w' :
  takes_all w -> write_message C T data s w = (s', w', Ok tt) -> len (output w') = len (output w) + len data + 74.
Proof.
  intros Hw E. apply (message_appended C T) in E as (k & _ & _ & ->); [|exact Hw].
  unfold user_datagram, user_frame, hashed. rewrite len_app, (len_seal C HL), len_app, len_frame, len_app, len_u64_be by reflexivity.
  assert (forall m, len (sha256 C m) = 32) as Hh by (intros m; unfold len; rewrite (law_sha256_len C HL); reflexivity).
  rewrite Hh. lia.
Qed.

(** The receiver refinement of Proofs/Receiver.v, through [read_bin] and [read]. *)

From Coq Require Import Arith ZifyBool ZifyNat ZifyN.
From Verif.Model Require Import Serde.
From Verif.Spec Require Import Wire Datagram Trace ReadSpec Accept Session Writers Peer Receiver CompleteTrace Projection
  CompleteAdversary Typed TypedTrace CompleteReceiver.
From Verif.Proofs Require Import BaseFacts Negotiation Failure Receiver CompleteFacts CompleteMode CompleteStates Projection
  CompleteAdversary Vocabulary Typed.

Lemma two_counted {H} (c : H -> nat) (sum : list H -> nat) hs h1 h2 :
  (forall h hs, sum (h :: hs) = c h + sum hs)%nat ->
  In h1 hs -> In h2 hs -> h1 <> h2 -> (1 <= c h1)%nat -> (1 <= c h2)%nat -> (2 <= sum hs)%nat.
Proof.
  intros Hsum.
  assert (forall h hs, In h hs -> (1 <= c h)%nat -> (1 <= sum hs)%nat) as one.
  { clear - Hsum. intros h hs Hi Hc. induction hs as [|a hs IH]; [contradiction|]. rewrite Hsum.
    destruct Hi as [->|Hi]; [lia|specialize (IH Hi); lia]. }
  induction hs as [|a hs IH]; intros H1 H2 Hne C1 C2; [contradiction|]. rewrite Hsum.
  destruct H1 as [->|H1], H2 as [->|H2].
  - contradiction.
  - pose proof (one h2 hs H2 C2). lia.
  - pose proof (one h1 hs H1 C1). lia.
  - specialize (IH H1 H2 Hne C1 C2). lia.
Qed.

Section WithEnv.
Context (C : Crypto) (Z : Zip) (T : target) (HL : CryptoLaws C) (HZ : ZipLaws Z).

Notation acks_in h := (length (Peer.deliveries is_ack h)).

Lemma acks_filter h : Peer.deliveries is_ack h = filter is_ack (deliveries h).
Proof.
  unfold Peer.deliveries, deliveries. induction h as [|e h IH]; [reflexivity|]. cbn [flat_map].
  rewrite filter_app, IH. reflexivity.
Qed.

Lemma ack_counted h cd : In (MAck cd) (deliveries h) -> (1 <= acks_in h)%nat.
Proof.
  intros Hi. rewrite acks_filter. assert (In (MAck cd) (filter is_ack (deliveries h))) as Hf by (apply filter_In; auto).
  destruct (filter is_ack (deliveries h)); [contradiction|cbn; lia].
Qed.

Lemma projects_panic_free seed ev h : projects C Z seed ev h -> spanics (snd ev) = false -> panic_free h.
Proof.
  destruct 1; cbn [snd spanics]; intros Hn; try assumption; try discriminate; intros ev' [<-|[]]; cbn; try reflexivity.
  - destruct o; [reflexivity|reflexivity|discriminate].
  - destruct o; [reflexivity|reflexivity|discriminate].
Qed.

Lemma projects_drain_error seed ev h c er : projects C Z seed ev h -> In (c, RMsgs (Err er)) h ->
  snd ev = SMsgs (Err er) /\ exists cd, In (MAck cd) (deliveries h).
Proof.
  assert (forall d h, reads d h -> In (c, RMsgs (Err er)) h ->
    exists cd, h = [(CRead d, RMsg (Ok (Some (MAck cd)))); (CDrain, RMsgs (Err er))]) as Hr.
  { intros d h0 [o|a pk cd o|cd o]; cbn [In]; intros Hi.
    - destruct Hi as [Hi|[]]. discriminate.
    - destruct Hi as [Hi|[Hi|[]]]; discriminate.
    - destruct Hi as [Hi|[Hi|[]]]; [discriminate|]. injection Hi as _ ->. eauto. }
  intros Hp Hi. destruct Hp; try (cbn [In] in Hi; destruct Hi as [Hi|[]]; discriminate).
  - match goal with H : forall e, In e _ -> error_of _ = None |- _ => specialize (H _ Hi); discriminate H end.
  - match goal with H : reads _ _ |- _ => destruct (Hr _ _ H Hi) as (cd & Eh) end.
    assert (r = RMsgs (Err er)) as ->.
    { apply (f_equal (@rev event)) in Eh. rewrite rev_app_distr in Eh. cbn in Eh. congruence. }
    match goal with H : error_of _ = _ |- _ => cbn in H; injection H as -> end.
    split; [reflexivity|]. exists cd. rewrite Eh. left. reflexivity.
  - match goal with H : forall e, In e _ -> error_of _ = None |- _ => specialize (H _ Hi); discriminate H end.
  - match goal with H : reads _ _ |- _ => destruct (Hr _ _ H Hi) as (cd & Eh) end.
    assert (r = RMsgs (Err er)) as ->.
    { apply (f_equal (@rev event)) in Eh. rewrite rev_app_distr in Eh. cbn in Eh. congruence. }
    match goal with H : panic_of _ = _ |- _ => discriminate H end.
Qed.

Lemma projects_ack seed d l x h : projects C Z seed (SRead d, SMsgs (Ok l)) h -> In (IAck x) l ->
  exists cd, In (MAck cd) (deliveries h).
Proof.
  intros Hp Hi. inversion Hp as [d' h' l' _ _ _ _ Hd| | | | | | | | | | | | | |]; subst.
  destruct (forall2_in_r _ _ _ _ Hd Hi) as (m & Hm & Hdec). destruct m; cbn in Hdec; try contradiction. eauto.
Qed.

Lemma inner_len seed sh hs : Forall2 (projects C Z seed) sh hs -> len (concat hs) <= 2 * len sh.
Proof.
  intros Hf. unfold len. enough (length (concat hs) <= 2 * length sh)%nat by lia.
  induction Hf as [|[c r] h sh hs Hp Hf IH]; [cbn; lia|]. cbn [concat length]. rewrite app_length.
  assert (length h <= 2)%nat; [|lia].
  assert (forall d h, reads d h -> (length h <= 2)%nat) as Hr by (clear; intros d h []; cbn; lia).
  inversion Hp; subst; try (cbn; lia); eapply Hr; eassumption.
Qed.

(** When an ACK was returned and nothing panicked, nothing accepted inside was
    lost. *)
Lemma inner_lossless seed r cfg pin m0 m sh hs x :
  create C r cfg pin = Ok m0 -> run C T m0 (map fst (concat hs)) = (m, concat hs) ->
  Forall2 (projects C Z seed) sh hs -> snever_panics sh -> sreturned sh (IAck x) -> lossless (concat hs).
Proof.
  intros Hc E Hf Hp (d & l & Hi & Hx). split.
  - intros e He. apply in_concat in He as (h & Hh & He).
    destruct (forall2_in_r _ _ _ _ Hf Hh) as (ev & Hev & Hpr).
    exact (projects_panic_free _ _ _ Hpr (Hp ev Hev) e He).
  - intros [c rep] er He. cbn [snd]. intros ->. apply in_concat in He as (h & Hh & He).
    destruct (forall2_in_r _ _ _ _ Hf Hh) as (ev & Hev & Hpr).
    destruct (projects_drain_error _ _ _ _ _ Hpr He) as [_ [cd1 Ha1]].
    destruct (forall2_in_l _ _ _ _ Hf Hi) as (h2 & Hh2 & Hpr2).
    destruct (projects_ack _ _ _ _ _ Hpr2 Hx) as [cd2 Ha2].
    destruct (negotiation_at_most_once C T r cfg pin m0 _ m (concat hs) Hc E) as (_ & _ & _ & Hone).
    assert (2 <= acks_in (concat hs))%nat; [|lia].
    apply (two_counted (fun h => acks_in h) (fun hs => acks_in (concat hs)) hs h h2); auto.
    + intros h0 hs0. cbn [concat]. rewrite !acks_filter. unfold deliveries.
      rewrite flat_map_app, filter_app, app_length. reflexivity.
    + intros <-. destruct (projects_drain_error _ _ _ _ _ Hpr2 He) as [Hs _]. discriminate Hs.
    + exact (ack_counted _ _ Ha1).
    + exact (ack_counted _ _ Ha2).
Qed.

(** ** From the answers inside to those of [read_bin] *)
Lemma read_bin_user d s m o : read C T d (minimal s) = (m, o) ->
  match o with
  | Err e => read_bin C Z T d s = (set_minimal m s, Err e)
  | Ok (Some (MMessage p)) => read_bin C Z T d s = (set_minimal m s, do x <- uncompress_opt Z p; Ok [IMessage x])
  | _ => True
  end.
Proof. unfold read_bin. intros ->. destruct o as [[[]|]| |]; try exact I; reflexivity. Qed.

Lemma answers_cons s d ds o os m1 s' : read C T d s = (m1, o) ->
  answers C T s (d :: ds) (o :: os) s' -> answers C T m1 ds os s'.
Proof.
  intros E [H1 H2]. split; [|cbn in H2; lia]. cbn [map run call_step combine] in H1. rewrite E in H1.
  destruct (run C T m1 (map CRead ds)) as [s2 h] eqn:Er. injection H1 as -> ->. reflexivity.
Qed.
Lemma answers_head s d ds o os s' : answers C T s (d :: ds) (o :: os) s' -> snd (read C T d s) = o.
Proof.
  intros [H1 _]. cbn [map run call_step combine] in H1. destruct (read C T d s) as [m1 o1].
  destruct (run C T m1 (map CRead ds)). cbn. injection H1. congruence.
Qed.

Lemma sanswers_cons s d ds o os s1 s' : read_bin C Z T d s = (s1, o) ->
  sanswers C Z T s1 ds os s' -> sanswers C Z T s (d :: ds) (o :: os) s'.
Proof.
  intros E [H1 H2]. split; [|cbn; lia]. cbn [map srun scall_step combine]. rewrite E, H1. reflexivity.
Qed.

Lemma lift_answers ms : forall R os R', receives R ms os R' ->
  forall s ds m', answers C T (minimal s) ds os m' ->
  exists so s', sanswers C Z T s ds so s' /\ minimal s' = m' /\ sreceives Z R ms so R'.
Proof.
  intros R os R' H. induction H as [R|R n z o R1 ms os R2 Hr _ IH]; intros s ds m' Ha.
  - destruct ds; [|destruct Ha; discriminate]. destruct Ha as [Ha _]. cbn in Ha. injection Ha as <-.
    exists [], s. split; [split; reflexivity|]. split; [reflexivity|constructor].
  - destruct ds as [|d ds]; [destruct Ha; discriminate|].
    pose proof (answers_head _ _ _ _ _ _ Ha) as Ho. destruct (read C T d (minimal s)) as [m1 o1] eqn:E. cbn [snd] in Ho. subst o1.
    pose proof (answers_cons _ _ _ _ _ _ _ E Ha) as Ha1. pose proof (read_bin_user d s m1 o E) as Hb.
    change m1 with (minimal (set_minimal m1 s)) in Ha1. destruct (IH _ _ _ Ha1) as (so & s' & Hs & Hm & Hrs).
    assert (exists a, read_bin C Z T d s = (set_minimal m1 s, a) /\ sreceive Z R n z a R1) as (a & Hba & Hra).
    { destruct Hr; try (eexists; split; [exact Hb|constructor; assumption]).
      destruct z as [|b z].
      - eexists. split; [exact Hb|]. cbn. apply src_delivered; auto. reflexivity.
      - cbn [nonempty] in Hb. cbv beta iota in Hb. unfold uncompress_opt, uncompress in Hb.
        destruct (inflate Z (b :: z)) as [x|e] eqn:Ez; cbn [obind] in Hb.
        + eexists. split; [exact Hb|]. apply src_delivered; auto. split; [discriminate|exact Ez].
        + eexists. split; [exact Hb|]. apply src_unreadable; auto. discriminate. }
    exists (a :: so), s'. split; [exact (sanswers_cons _ _ _ _ _ _ _ Hba Hs)|]. split; [exact Hm|].
    econstructor; eassumption.
Qed.

Lemma inner_messages seed sh hs : Forall2 (projects C Z seed) sh hs ->
  (forall e, In e sh -> zip_error (snd e) = false) -> Forall2 (inflates Z) (user_deliveries (concat hs)) (smessages sh).
Proof.
  induction 1 as [|ev h sh hs Hp Hf IH]; intros Hz; [constructor|].
  assert (smessages (ev :: sh) = smessages [ev] ++ smessages sh) as ->.
  { unfold smessages. cbn [flat_map]. rewrite app_nil_r. reflexivity. }
  cbn [concat].
  assert (user_deliveries (h ++ concat hs) = user_deliveries h ++ user_deliveries (concat hs)) as -> by apply flat_map_app.
  apply Forall2_app; [|exact (IH (fun e He => Hz e (or_intror He)))]. specialize (Hz ev (or_introl eq_refl)).
  assert (forall d h c r, reads d (h ++ [(c, r)]) -> delivered r = [] -> user_deliveries (h ++ [(c, r)]) = []) as Hr.
  { clear. intros d h c r Hr Hd. remember (h ++ [(c, r)]) as h' eqn:Eh.
    destruct Hr as [o|a pk cd o|cd o].
    - destruct h as [|? [|]]; try discriminate. injection Eh as _ <-. unfold user_deliveries. cbn [flat_map snd]. rewrite Hd. reflexivity.
    - destruct h as [|? [|? [|]]]; try discriminate. injection Eh as _ _ <-. unfold user_deliveries. cbn [flat_map snd]. rewrite Hd. reflexivity.
    - destruct h as [|? [|? [|]]]; try discriminate. injection Eh as _ _ <-. unfold user_deliveries. cbn [flat_map snd]. rewrite Hd. reflexivity. }
  destruct Hp; cbn [snd zip_error] in Hz; try discriminate; try constructor.
  - rewrite deliveries_messages. match goal with H : Forall2 (decodes Z) _ _ |- _ => apply decoded_messages in H end.
    unfold smessages. cbn [flat_map snd]. rewrite app_nil_r. assumption.
  - erewrite Hr; [constructor|eassumption|]. destruct r as [[]|[]| | | | ]; try reflexivity; discriminate.
  - erewrite Hr; [constructor|eassumption|]. destruct r as [[]|[]| | | | ]; try reflexivity; discriminate.
Qed.

Lemma inner_no_messages seed sh hs : Forall2 (projects C Z seed) sh hs ->
  smessages sh = [] -> (forall e, In e sh -> zip_error (snd e) = false) -> user_deliveries (concat hs) = [].
Proof. intros Hf Hn Hz. pose proof (inner_messages _ _ _ Hf Hz) as H. rewrite Hn in H. inversion H. reflexivity. Qed.

Theorem sreceiver_refinement r rs cfg given pin s0 cs s sh k x :
  sl_create C r rs cfg given pin = Ok s0 -> srun C Z T s0 cs = (s, sh) -> 2 * len sh < 2 ^ 64 ->
  snever_panics sh -> sreturned sh (IAck x) -> sestablished s -> session_key (minimal s) = Some k ->
  exists l : list (N * bytes),
    NoDup (map fst l) /\
    (forall n z, In (n, z) l -> exists d, sread sh d /\ opens C T k d n z) /\
    ((forall e, In e sh -> zip_error (snd e) = false) ->
       Forall2 (fun m o => deflated Z o (snd m)) l (smessages sh)) /\
    forall ds ms, Forall2 (fun d m => opens C T k d (fst m) (snd m)) ds ms -> 2 * len sh + len ds < 2 ^ 64 ->
    exists os s' R', sanswers C Z T s ds os s' /\
      sreceives Z {| taken := map fst l; dead := false |} ms os R' /\
      (sfailed C s' <-> dead R' = true) /\ (sestablished s' <-> dead R' = false).
Proof.
  intros Hc E Hlen Hp Hx He Hk.
  destruct (projection C Z T HL HZ _ _ _ _ _ _ _ _ _ Hc E) as (seed & hs & Hs & Hf & Hm & Hrun).
  pose proof (inner_len _ _ _ Hf) as Hl. pose proof (inner_lossless _ _ _ _ _ _ _ _ _ Hm Hrun Hf Hp Hx) as Hll.
  apply sestablished_iff in He.
  destruct (receiver_refinement C T HL _ _ _ _ _ _ _ k Hm Hrun ltac:(lia) Hll He Hk) as (l & (A1 & A2 & A3 & A4) & H).
  exists (map (fun e => (snd (fst e), snd e)) l). rewrite map_map. cbn [fst]. split; [exact A3|]. split; [|split].
  - intros n z Hi. apply in_map_iff in Hi as ([[i n'] z'] & Heq & Hi). cbn [fst snd] in Heq. injection Heq as -> ->.
    destruct (A4 i n z Hi) as (k' & d & Hk' & Hd & Ho). assert (k' = k) as -> by congruence. exists d. split; [|exact Ho].
    apply nth_error_In in Hd. apply in_flat_map in Hd as (e & He' & Hd). apply in_concat in He' as (h & Hh & He').
    destruct (forall2_in_r _ _ _ _ Hf Hh) as ([c r'] & Hev & Hpr).
    assert (In d (submitted h)) as Hd' by (apply in_flat_map; eauto).
    rewrite (projects_submitted C Z _ _ _ _ _ Hpr Hd') in Hev. exists r'. exact Hev.
  - intros Hz. pose proof (inner_messages _ _ _ Hf Hz) as Hi. rewrite A1 in Hi. clear - Hi.
    revert Hi. generalize (smessages sh). induction l as [|e l IH]; intros m Hi; cbn [map] in *; inversion Hi as [|a o la lo Ho Hr]; subst; constructor.
    + cbn [snd]. destruct (snd e) as [|b z], o as [o|]; cbn in *; try contradiction; auto. split; [discriminate|exact Ho].
    + apply IH, Hr.
  - intros ds ms Hds Hb. destruct (H ds ms Hds ltac:(lia)) as (os & m' & R' & Ha & Hr & H1 & H2).
    destruct (lift_answers _ _ _ _ Hr _ _ _ Ha) as (so & s' & Hsa & Hm' & Hsr).
    exists so, s', R'. split; [exact Hsa|]. split; [exact Hsr|]. unfold sfailed. rewrite sestablished_iff, Hm'. auto.
Qed.

(** ** When every message is delivered once *)
Lemma once_answers ms : forall seen mz s ds m',
  Forall2 (fun (m : N * bytes) z => fst z = fst m /\ deflated Z (Some (snd m)) (snd z)) ms mz ->
  answers C T (minimal s) ds (once seen mz) m' ->
  exists s', sanswers C Z T s ds (once_each (fun d => IMessage (Some d)) seen ms) s' /\ minimal s' = m'.
Proof.
  intros seen mz s ds m' Hf. revert seen s ds m'.
  induction Hf as [|[n data] [n' z] ms mz [Hn Hd] _ IH]; intros seen s ds m' Ha.
  - destruct ds; [|destruct Ha; discriminate]. destruct Ha as [Ha _]. cbn in Ha. injection Ha as <-.
    exists s. split; [split; reflexivity|reflexivity].
  - cbn [fst snd] in Hn, Hd. subst n'. destruct ds as [|d ds]; [destruct Ha; discriminate|]. cbn [once once_each] in *.
    pose proof (answers_head _ _ _ _ _ _ Ha) as Ho. destruct (read C T d (minimal s)) as [m1 o1] eqn:E. cbn [snd] in Ho. subst o1.
    pose proof (answers_cons _ _ _ _ _ _ _ E Ha) as Ha1. pose proof (read_bin_user d s m1 _ E) as Hb.
    change m1 with (minimal (set_minimal m1 s)) in Ha1. destruct (IH _ _ _ _ Ha1) as (s' & Hs & Hm).
    exists s'. split; [|exact Hm]. eapply sanswers_cons; [|exact Hs].
    destruct (existsb (N.eqb n) seen); [exact Hb|]. destruct Hd as [Hz Hi]. destruct z as [|b z]; [contradiction|].
    cbn [nonempty] in Hb. cbv beta iota in Hb. unfold uncompress_opt, uncompress in Hb. rewrite Hi in Hb. exact Hb.
Qed.

Theorem swindow_delivers r rs cfg given pin s0 cs s sh k x :
  sl_create C r rs cfg given pin = Ok s0 -> srun C Z T s0 cs = (s, sh) ->
  snever_panics sh -> sreturned sh (IAck x) -> smessages sh = [] -> (forall e, In e sh -> zip_error (snd e) = false) ->
  sestablished s -> session_key (minimal s) = Some k ->
  forall ds ms,
    Forall2 (fun d m => exists z, opens C T k d (fst m) z /\ deflated Z (Some (snd m)) z) ds ms ->
    2 * len sh + len ds < 2 ^ 64 ->
    in_window_of (map fst ms) \/ len (nodup N.eq_dec (map fst ms)) <= 10000 ->
    exists s', sanswers C Z T s ds (once_each (fun d => IMessage (Some d)) [] ms) s' /\ sestablished s'.
Proof.
  intros Hc E Hp Hx Hn Hz He Hk ds ms Hds Hb Hw.
  destruct (projection C Z T HL HZ _ _ _ _ _ _ _ _ _ Hc E) as (seed & hs & Hs & Hf & Hm & Hrun).
  pose proof (inner_len _ _ _ Hf) as Hl. pose proof (inner_lossless _ _ _ _ _ _ _ _ _ Hm Hrun Hf Hp Hx) as Hll.
  apply sestablished_iff in He.
  assert (exists mz, Forall2 (fun d m => opens C T k d (fst m) (snd m)) ds mz /\
    Forall2 (fun (m : N * bytes) z => fst z = fst m /\ deflated Z (Some (snd m)) (snd z)) ms mz /\
    map fst mz = map fst ms) as (mz & H1 & H2 & H3).
  { clear - Hds. induction Hds as [|d m ds ms (z & Ho & Hd) _ (mz & H1 & H2 & H3)].
    - exists []. repeat constructor.
    - exists ((fst m, z) :: mz). split; [constructor; assumption|]. split; [constructor; auto|]. cbn [map fst]. congruence. }
  destruct (window_delivers C T HL _ _ _ _ _ _ _ k Hm Hrun Hll (inner_no_messages _ _ _ Hf Hn Hz) He Hk ds mz H1
    ltac:(lia)) as (m' & Ha & He').
  { rewrite H3. destruct Hw as [Hw|Hw]; [left|right; exact Hw].
    intros a n data b Eq m Hm'. rewrite <- H3 in Hw. apply (Hw (map fst a) n (map fst b)); [|exact Hm'].
    rewrite Eq, map_app. reflexivity. }
  destruct (once_answers ms [] mz s ds m' H2 Ha) as (s' & Hsa & Em). exists s'. split; [exact Hsa|].
  rewrite sestablished_iff, Em. exact He'.
Qed.

(** ** Values *)
Lemma once_values {M} (F : features) (K : Codec M) ms : forall seen mp s ds s',
  Forall2 (fun (m : N * M) p => fst p = fst m /\ payload_result F K (snd p) (Ok (snd m))) ms mp ->
  sanswers C Z T s ds (once_each (fun d => IMessage (Some d)) seen mp) s' ->
  tanswers C Z T F K s ds (once_each (fun v => TMMessage (Some v)) seen ms) s'.
Proof.
  intros seen mp s ds s' Hf. revert seen s ds s'.
  induction Hf as [|[n v] [n' p] ms mp [Hn Hd] _ IH]; intros seen s ds s' Ha.
  - destruct ds; [|destruct Ha; discriminate]. destruct Ha as [Ha _]. cbn in Ha. injection Ha as <-. split; reflexivity.
  - cbn [fst snd] in Hn, Hd. subst n'. destruct ds as [|d ds]; [destruct Ha; discriminate|]. cbn [once_each] in *.
    destruct Ha as [Ha Hlen]. cbn [map srun scall_step combine] in Ha.
    destruct (read_bin C Z T d s) as [s1 a] eqn:E. destruct (srun C Z T s1 (map SRead ds)) as [s2 h2] eqn:E2.
    injection Ha as -> Ea Eh. subst h2.
    assert (sanswers C Z T s1 ds (once_each (fun d => IMessage (Some d)) (n :: seen) mp) s') as Ha1.
    { split; [exact E2|cbn in Hlen; lia]. }
    destruct (IH _ _ _ _ Ha1) as [T1 T2].
    assert (sl_read C Z T F K d s =
      (s1, if existsb (N.eqb n) seen then Err (RecvInvalidMsg InvalidNonce) else Ok [TMMessage (Some v)])) as Et.
    { unfold sl_read. rewrite E, Ea. destruct (existsb (N.eqb n) seen); [reflexivity|].
      apply payload_read in Hd. cbn [deserialize_msgs deserialize_opt]. rewrite Hd. reflexivity. }
    split; [|cbn; lia]. cbn [map trun tcall_step combine]. rewrite Et, T1. reflexivity.
Qed.

Theorem values_delivered {M} (F : features) (K : Codec M) r rs cfg given pin s0 cs s sh k x :
  sl_create C r rs cfg given pin = Ok s0 -> srun C Z T s0 cs = (s, sh) ->
  snever_panics sh -> sreturned sh (IAck x) -> smessages sh = [] -> (forall e, In e sh -> zip_error (snd e) = false) ->
  sestablished s -> session_key (minimal s) = Some k ->
  forall ds ms,
    Forall2 (fun d m => exists z p, opens C T k d (fst m) z /\ deflated Z (Some p) z /\
                                    payload_result F K p (Ok (snd m))) ds ms ->
    2 * len sh + len ds < 2 ^ 64 ->
    in_window_of (map fst ms) \/ len (nodup N.eq_dec (map fst ms)) <= 10000 ->
    exists s', tanswers C Z T F K s ds (once_each (fun v => TMMessage (Some v)) [] ms) s' /\ sestablished s'.
Proof.
  intros Hc E Hp Hx Hn Hz He Hk ds ms Hds Hb Hw.
  assert (exists mp : list (N * bytes), Forall2 (fun d m => exists z, opens C T k d (fst m) z /\ deflated Z (Some (snd m)) z) ds mp /\
    Forall2 (fun (m : N * M) p => fst p = fst m /\ payload_result F K (snd p) (Ok (snd m))) ms mp /\
    map fst mp = map fst ms) as (mp & H1 & H2 & H3).
  { clear - Hds. induction Hds as [|d m ds ms (z & p & Ho & Hd & Hr) _ (mz & H1 & H2 & H3)].
    - exists []. repeat constructor.
    - exists ((fst m, p) :: mz). split; [constructor; [exists z; auto|assumption]|]. split; [constructor; auto|]. cbn [map fst]. congruence. }
  rewrite <- H3 in Hw.
  destruct (swindow_delivers _ _ _ _ _ _ _ _ _ _ _ Hc E Hp Hx Hn Hz He Hk ds mp H1 Hb Hw) as (s' & Ha & He').
  exists s'. split; [|exact He']. exact (once_values F K ms [] mp s ds s' H2 Ha).
Qed.

(** ** One answer *)
Lemma sreceive_det R n z a R1 a' R1' : sreceive Z R n z a R1 -> sreceive Z R n z a' R1' -> a = a' /\ R1 = R1'.
Proof.
  assert (forall R, nonce_acceptable (taken R) n -> ~ In n (taken R)) as Hna by (intros R0 [H _]; exact H).
  assert (forall x x', deflated Z x z -> deflated Z x' z -> x = x') as Hdef.
  { intros [d|] [d'|]; cbn; try tauto; intros; intuition congruence. }
  assert (forall x e, deflated Z x z -> z <> [] -> inflate Z z = inr e -> False) as Hun.
  { intros [d|] e; cbn; intros; intuition congruence. }
  destruct 1; destruct 1; try (split; reflexivity); try congruence;
    try (exfalso; match goal with H : nonce_acceptable (taken R) n |- _ => apply (Hna _ H); assumption end);
    try contradiction.
  - split; [|reflexivity]. repeat f_equal. eapply Hdef; eassumption.
  - exfalso. eapply Hun; eassumption.
  - exfalso. eapply Hun; eassumption.
  - split; [|reflexivity]. congruence.
Qed.

Theorem sreceives_det R ms os R1 os' R1' :
  sreceives Z R ms os R1 -> sreceives Z R ms os' R1' -> os = os' /\ R1 = R1'.
Proof.
  intros H. revert os' R1'. induction H as [R|R n data o R1 ms os R2 H _ IH]; intros os' R1' K.
  - inversion K. auto.
  - inversion K as [|? ? ? o2 R3 ? os2 ? H' K' E1 E2]; subst.
    destruct (sreceive_det _ _ _ _ _ _ _ H H') as [-> ->]. destruct (IH _ _ K') as [-> ->]. auto.
Qed.

End WithEnv.

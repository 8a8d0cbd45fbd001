(** C69: two honest peers that use the typed methods, over a network that
    reorders: the values read are the values written.

    As C39, with values of any type M that the configured format can express and
    that exists in the other's build; the peers may change format in between. *)

From Coq Require Import Permutation.
From Verif.Model Require Import Serde.
From Verif.Spec Require Import Wire Trace ReadSpec Session Writers CompleteTrace Network Typed TypedTrace TypedNetwork.
From Verif.Proofs Require Import Typed TypedTrace Histories Honest TypedNetwork.
From Verif.Instances Require Import Toy Scenario CompleteScenario NetScenario.
From Verif.Properties Require Import Honest.

Section Typed.
Context (C : Crypto) (Z : Zip) (T : target) (F : side -> features) (M : Type) (K : Codec M).
Context (HL : CryptoLaws C) (HZ : ZipLaws Z) (HK : CodecLaws K).
Context (P : side -> party) (k : secret_key) (tn0 tn : tnet (M := M)).
Context (Hs : session_secret C P = Some k) (Hk : keystream_ok C k) (H0 : tstart C P tn0).

Lemma typed_inv : texec C Z T F K nonce_acceptable tn0 tn ->
  exists n, netinv C Z T P k n /\ sim F K tn n.
Proof.
  intros E. pose proof (both_ways C P k HL Hs) as Hb. destruct (tstart_sim C F K P tn0 H0) as (n0 & Hn0 & S0).
  destruct (texec_sim C Z T F K HK HL HZ P k Hb Hk tn0 n0 tn S0 (start_inv C Z T P k Hb n0 Hn0) E) as (n & _ & Hi & S).
  eauto.
Qed.

Lemma typed_good : texec C Z T F K gap_bounded tn0 tn ->
  exists n, good C Z T P k n /\ sim F K tn n.
Proof.
  intros E. pose proof (both_ways C P k HL Hs) as Hb. destruct (tstart_sim C F K P tn0 H0) as (n0 & Hn0 & S0).
  destruct (texec_sim_gap C Z T F K HK HL HZ P k Hb Hk tn0 n0 tn S0
              (proj2 (net_good C Z T P k n0 n0 HL HZ Hs Hk Hn0 (exec_start _ _ _ _ _))) E) as (n & _ & Hi & S).
  eauto.
Qed.

Lemma typed_no_call_fails : texec C Z T F K gap_bounded tn0 tn ->
  (forall x, ~ sfailed C (tlayer (tn x))) /\
  (forall m, tallowed Z T F K gap_bounded tn m -> snd (tnet_step C Z T F K tn m) = true).
Proof.
  intros E. destruct (typed_good E) as (n & Hg & S). pose proof (both_ways C P k HL Hs) as Hb. split.
  - intros x. rewrite <- (sim_layer _ _ _ _ S x). exact (net_not_failed C Z T P k n x (proj1 Hg)).
  - intros tm Ha. destruct (allowed_as Z T F K HK gap_bounded tn n tm S Ha) as (m & Hm & Ha').
    pose proof (allowed_gap C Z T P k n m (proj1 Hg) (proj2 Hg) Ha') as Ha2.
    destruct (step_as C Z T F K HL HZ P k Hb Hk tn n tm m S (proj1 Hg) Hm Ha2) as [_ ->].
    apply (step_inv C Z T HL HZ P k Hb Hk n m (proj1 Hg) Ha2).
Qed.

Lemma typed_no_call_fails_wider : texec C Z T F K nonce_acceptable tn0 tn ->
  (forall x, ~ sfailed C (tlayer (tn x))) /\
  (forall m, tallowed Z T F K nonce_acceptable tn m -> snd (tnet_step C Z T F K tn m) = true).
Proof.
  intros E. destruct (typed_inv E) as (n & Hi & S). pose proof (both_ways C P k HL Hs) as Hb. split.
  - intros x. rewrite <- (sim_layer _ _ _ _ S x). exact (net_not_failed C Z T P k n x Hi).
  - intros tm Ha. destruct (allowed_as Z T F K HK nonce_acceptable tn n tm S Ha) as (m & Hm & Ha').
    destruct (step_as C Z T F K HL HZ P k Hb Hk tn n tm m S Hi Hm Ha') as [_ ->].
    apply (step_inv C Z T HL HZ P k Hb Hk n m Hi Ha').
Qed.

Lemma typed_inbox : texec C Z T F K nonce_acceptable tn0 tn -> forall x,
  tgot_conns (tinbox (tn x)) = map (fun cd => (cd, public_key C P (other x))) (tconns (tarrived (tn x))) /\
  (p_pins (P x) = true \/ tconns (tarrived (tn x)) <> [] -> tgot_acks (tinbox (tn x)) = tacks (tarrived (tn x))) /\
  (~ (p_pins (P x) = true \/ tconns (tarrived (tn x)) <> []) -> tgot_acks (tinbox (tn x)) = []) /\
  (sestablished (tlayer (tn x)) ->
     tgot_users (tinbox (tn x)) = map (fun u => Some (snd u)) (tusers (tarrived (tn x)))) /\
  (~ sestablished (tlayer (tn x)) -> tgot_users (tinbox (tn x)) = []).
Proof.
  intros E x. destruct (typed_inv E) as (n & Hi & S).
  split; [exact (typed_conns C Z T F K P k tn n S Hi x)|].
  rewrite (typed_acks C Z T F K P k tn n S Hi x).
  rewrite (Forall2_nil_iff _ _ _ (as_conns _ _ _ _ (sim_arrived _ _ _ _ S x))).
  rewrite <- some_true, <- Bool.orb_true_iff. destruct (p_pins (P x) || some (conns (arrived (n x)))).
  - split; [reflexivity|]. split; [congruence|]. exact (typed_users_got C Z T F K P k tn n S Hi x).
  - split; [discriminate|]. split; [reflexivity|]. exact (typed_users_got C Z T F K P k tn n S Hi x).
Qed.

Lemma typed_exactly_once : texec C Z T F K nonce_acceptable tn0 tn -> forall x,
  let sent_values := map (fun u => Some (snd u)) (tusers (tsent (tn (other x)))) in
  (exists rest, Permutation sent_values (tgot_users (tinbox (tn x)) ++ rest)) /\
  (ttravelling (tn x) = [] -> sestablished (tlayer (tn x)) -> Permutation sent_values (tgot_users (tinbox (tn x)))).
Proof.
  intros E x sent_values. destruct (typed_inv E) as (n & Hi & S).
  pose proof (tusers_perm _ _ (typed_network C Z T F K P k tn n S Hi x)) as Hp. rewrite tusers_app in Hp.
  apply (Permutation_map (fun u => Some (snd u))) in Hp. rewrite map_app in Hp. fold sent_values in Hp.
  destruct (typed_users_got C Z T F K P k tn n S Hi x) as [G1 G2]. split.
  - destruct (done_dec C Z T P k n x Hi) as [He|He]; rewrite (sim_layer _ _ _ _ S x) in He.
    + rewrite (G1 He). eauto.
    + rewrite (G2 He). exists sent_values. apply Permutation_refl.
  - intros Ht He. rewrite (G1 He). rewrite Ht in Hp. cbn [map tusers flat_map] in Hp. rewrite app_nil_r in Hp. exact Hp.
Qed.

Lemma typed_never_stuck : texec C Z T F K gap_bounded tn0 tn ->
  exists tn', texec C Z T F K gap_bounded tn tn' /\
    forall x, sestablished (tlayer (tn' x)) /\ ttravelling (tn' x) = [].
Proof.
  intros E. destruct (typed_good E) as (n & Hg & S). pose proof (both_ways C P k HL Hs) as Hb.
  destruct (completable_quietly C Z T HL HZ P k Hb Hk n Hg) as (n' & Q & _ & Hd).
  destruct (qexec_typed C Z T F K HL HZ P k Hb Hk tn n n' S Hg Q) as (tn' & E' & S').
  exists tn'. split; [exact E'|]. intros x. destruct (Hd x) as [H1 H2].
  rewrite (sim_layer _ _ _ _ S' x) in H1. split; [exact H1|].
  pose proof (sim_travelling _ _ _ _ S' x) as Ht. rewrite H2 in Ht. inversion Ht. reflexivity.
Qed.
End Typed.

(** No call fails and no layer gives up. *)
Theorem C69_no_call_fails : forall (C : Crypto) (Z : Zip) (T : target) (F : side -> features) (M : Type) (K : Codec M),
  CryptoLaws C -> ZipLaws Z -> CodecLaws K ->
  forall P k tn0 tn, session_secret C P = Some k -> keystream_ok C k -> tstart C P tn0 ->
  texec C Z T F K gap_bounded tn0 tn ->
  (forall x, ~ sfailed C (tlayer (tn x))) /\
  (forall m, tallowed Z T F K gap_bounded tn m -> snd (tnet_step C Z T F K tn m) = true).
Proof. exact typed_no_call_fails. Qed.
Print Assumptions C69_no_call_fails.

Theorem C69_no_call_fails_wider : forall (C : Crypto) (Z : Zip) (T : target) (F : side -> features) (M : Type) (K : Codec M),
  CryptoLaws C -> ZipLaws Z -> CodecLaws K ->
  forall P k tn0 tn, session_secret C P = Some k -> keystream_ok C k -> tstart C P tn0 ->
  texec C Z T F K nonce_acceptable tn0 tn ->
  (forall x, ~ sfailed C (tlayer (tn x))) /\
  (forall m, tallowed Z T F K nonce_acceptable tn m -> snd (tnet_step C Z T F K tn m) = true).
Proof. exact typed_no_call_fails_wider. Qed.
Print Assumptions C69_no_call_fails_wider.

(** The network neither loses nor adds. *)
Theorem C69_network : forall (C : Crypto) (Z : Zip) (T : target) (F : side -> features) (M : Type) (K : Codec M),
  CryptoLaws C -> ZipLaws Z -> CodecLaws K ->
  forall P k tn0 tn, session_secret C P = Some k -> keystream_ok C k -> tstart C P tn0 ->
  texec C Z T F K nonce_acceptable tn0 tn ->
  forall x, Permutation (tsent (tn (other x))) (tarrived (tn x) ++ map fst (ttravelling (tn x))).
Proof.
  intros C Z T F M K HL HZ HK P k tn0 tn Hs Hk H0 E.
  destruct (typed_inv C Z T F M K HL HZ HK P k tn0 tn Hs Hk H0 E) as (n & Hi & S).
  exact (typed_network C Z T F K P k tn n S Hi).
Qed.
Print Assumptions C69_network.

(** The values the application has read, as a function of what was handed over. *)
Theorem C69_inbox : forall (C : Crypto) (Z : Zip) (T : target) (F : side -> features) (M : Type) (K : Codec M),
  CryptoLaws C -> ZipLaws Z -> CodecLaws K ->
  forall P k tn0 tn, session_secret C P = Some k -> keystream_ok C k -> tstart C P tn0 ->
  texec C Z T F K nonce_acceptable tn0 tn -> forall x,
  tgot_conns (tinbox (tn x)) = map (fun cd => (cd, public_key C P (other x))) (tconns (tarrived (tn x))) /\
  (p_pins (P x) = true \/ tconns (tarrived (tn x)) <> [] -> tgot_acks (tinbox (tn x)) = tacks (tarrived (tn x))) /\
  (~ (p_pins (P x) = true \/ tconns (tarrived (tn x)) <> []) -> tgot_acks (tinbox (tn x)) = []) /\
  (sestablished (tlayer (tn x)) ->
     tgot_users (tinbox (tn x)) = map (fun u => Some (snd u)) (tusers (tarrived (tn x)))) /\
  (~ sestablished (tlayer (tn x)) -> tgot_users (tinbox (tn x)) = []).
Proof. exact typed_inbox. Qed.
Print Assumptions C69_inbox.

(** A side has negotiated exactly when it wrote its ACK and read the other's. *)
Theorem C69_established : forall (C : Crypto) (Z : Zip) (T : target) (F : side -> features) (M : Type) (K : Codec M),
  CryptoLaws C -> ZipLaws Z -> CodecLaws K ->
  forall P k tn0 tn, session_secret C P = Some k -> keystream_ok C k -> tstart C P tn0 ->
  texec C Z T F K nonce_acceptable tn0 tn -> forall x,
  (sestablished (tlayer (tn x)) <-> tacks (tsent (tn x)) <> [] /\ tgot_acks (tinbox (tn x)) <> []) /\
  (tgot_conns (tinbox (tn x)) <> [] -> session_key (minimal (tlayer (tn x))) = Some k).
Proof.
  intros C Z T F M K HL HZ HK P k tn0 tn Hs Hk H0 E.
  destruct (typed_inv C Z T F M K HL HZ HK P k tn0 tn Hs Hk H0 E) as (n & Hi & S).
  exact (typed_established C Z T F K P k tn n S Hi).
Qed.
Print Assumptions C69_established.

(** Nothing is read that was not written, nor more often; and everything once
    nothing travels any more. *)
Theorem C69_exactly_once : forall (C : Crypto) (Z : Zip) (T : target) (F : side -> features) (M : Type) (K : Codec M),
  CryptoLaws C -> ZipLaws Z -> CodecLaws K ->
  forall P k tn0 tn, session_secret C P = Some k -> keystream_ok C k -> tstart C P tn0 ->
  texec C Z T F K nonce_acceptable tn0 tn -> forall x,
  let sent_values := map (fun u => Some (snd u)) (tusers (tsent (tn (other x)))) in
  (exists rest, Permutation sent_values (tgot_users (tinbox (tn x)) ++ rest)) /\
  (ttravelling (tn x) = [] -> sestablished (tlayer (tn x)) -> Permutation sent_values (tgot_users (tinbox (tn x)))).
Proof. exact typed_exactly_once. Qed.
Print Assumptions C69_exactly_once.

(** At any point the two sides can still finish the negotiation and read
    everything written. *)
Theorem C69_never_stuck : forall (C : Crypto) (Z : Zip) (T : target) (F : side -> features) (M : Type) (K : Codec M),
  CryptoLaws C -> ZipLaws Z -> CodecLaws K ->
  forall P k tn0 tn, session_secret C P = Some k -> keystream_ok C k -> tstart C P tn0 ->
  texec C Z T F K gap_bounded tn0 tn ->
  exists tn', texec C Z T F K gap_bounded tn tn' /\
    forall x, sestablished (tlayer (tn' x)) /\ ttravelling (tn' x) = [].
Proof. exact typed_never_stuck. Qed.
Print Assumptions C69_never_stuck.

(** ** The example: Alice writes CBOR, then JSON; Bob's build has no bincode *)
Definition in_format (f : message_format) : config :=
  {| cfg_compression := 0; cfg_compression_min_size := 8192;
     cfg_message_format := f; cfg_encrypt_algo := Chacha20Poly1305Aead |}.
Definition builds (x : side) : features :=
  match x with Alice => all_features | Bob => {| feat_bin := false; feat_cbor := true; feat_json := true |} end.
Definition tnet0 : tnet (M := bytes) := fun x =>
  {| tlayer := match x with Alice => SA0 | Bob => sfresh skB seedB (Some pkA) end;
     tsent := []; ttravelling := []; tarrived := []; tinbox := [] |}.
Definition tmoves : list (tmove bytes) :=
  [QMConfig Alice (in_format Cbor); QMConfig Bob (in_format Bincode); QMConnect Bob None 8192;
   QMConnect Alice (Some [x05]) 8192; QMDeliver Bob 0; QMAck Bob (Some [x06]) 8192;
   QMDeliver Alice 1 (* the ACK *); QMDeliver Alice 0 (* the CONNECT *);
   QMAck Alice None 10; QMSend Alice [x41] 100; QMConfig Alice (in_format Utf8Json); QMSend Alice [x42] 100;
   QMDeliver Bob 2; QMDeliver Bob 1 (* user messages, last first *); QMDeliver Bob 0 (* the ACK *);
   QMSend Bob [x61; x62] 8192].
Definition tstep n m : tnet := fst (tnet_step toy toy_zip T builds toy_codec n m).
Definition tnet_after (ms : list (tmove bytes)) : tnet := fold_left tstep ms tnet0.

Definition expressibleb (n : tnet (M := bytes)) (x : side) (m : bytes) : bool :=
  let f := cfg_message_format (conf (minimal (tlayer (n x)))) in
  format_enabled (builds (other x)) f &&
  match encoder toy_codec f with
  | Some en => match en m with inl b => fitsb (packed toy_zip (Some (header f ++ b)) (tlayer (n x))) | inr _ => false end
  | None => false
  end.
Lemma expressibleb_true n x m : expressibleb n x m = true -> expressible toy_zip T builds toy_codec n x m.
Proof.
  unfold expressibleb, expressible, encoded. cbv zeta.
  set (f := cfg_message_format (conf (minimal (tlayer (n x))))). intros H. apply andb_prop in H as [H1 H2].
  split; [exact H1|]. destruct (encoder toy_codec f) as [en|] eqn:E; [|discriminate].
  destruct (en m) as [b|] eqn:Eb; [|discriminate]. exists (header f ++ b). split; [eauto|]. apply fitsb_true, H2.
Qed.
Definition expressible_optb n x cd : bool := match cd with None => true | Some m => expressibleb n x m end.
Lemma expressible_optb_true n x cd : expressible_optb n x cd = true -> expressible_opt toy_zip T builds toy_codec n x cd.
Proof. destruct cd; [apply expressibleb_true|intros _; exact I]. Qed.

Definition tallowedb (n : tnet (M := bytes)) (m : tmove bytes) : bool :=
  match m with
  | QMConnect x cd _ => is_nil (tconns (tsent (n x))) && expressible_optb n x cd
  | QMAck x cd _ =>
      negb (is_nil (tgot_conns (tinbox (n x)))) && is_nil (tacks (tsent (n x))) && expressible_optb n x cd
  | QMSend x v _ =>
      negb (is_nil (tacks (tsent (n x)))) && negb (is_nil (tgot_acks (tinbox (n x)))) &&
      (len (tusers (tsent (n x))) + 1 <? 2 ^ 64) && expressibleb n x v
  | QMConfig _ _ => true
  | QMDeliver x i =>
      match nth_error (ttravelling (n x)) i with
      | Some (QData j _, _) => j <? 10000
      | Some _ => true
      | None => false
      end
  end.
Lemma tallowedb_true n m : tallowedb n m = true -> tallowed toy_zip T builds toy_codec gap_bounded n m.
Proof.
  destruct m as [x cd cap|x cd cap|x data cap|x cfg|x i]; cbn [tallowedb tallowed]; intros H.
  - apply andb_prop in H as [H1 H2]. apply is_nil_true in H1. apply expressible_optb_true in H2. exact (conj H1 H2).
  - apply andb_prop in H as [H H3]. apply andb_prop in H as [H1 H2].
    apply is_nil_false in H1. apply is_nil_true in H2. apply expressible_optb_true in H3. exact (conj H1 (conj H2 H3)).
  - apply andb_prop in H as [H H4]. apply andb_prop in H as [H H3]. apply andb_prop in H as [H1 H2].
    apply is_nil_false in H1. apply is_nil_false in H2. apply N.ltb_lt in H3. apply expressibleb_true in H4.
    split; [exact H1|]. split; [exact H2|]. split; [exact H3|exact H4].
  - exact I.
  - destruct (nth_error (ttravelling (n x)) i) as [[p d]|]; [|discriminate]. exists p, d. split; [reflexivity|].
    destruct p as [| |j data]; auto. apply N.ltb_lt in H. intros m Hm. lia.
Qed.
Fixpoint all_tallowed (n : tnet) (ms : list (tmove bytes)) : bool :=
  match ms with
  | [] => true
  | m :: ms => tallowedb n m && all_tallowed (tstep n m) ms
  end.
Lemma texec_moves n0 n ms : texec toy toy_zip T builds toy_codec gap_bounded n0 n -> all_tallowed n ms = true ->
  texec toy toy_zip T builds toy_codec gap_bounded n0 (fold_left tstep ms n).
Proof.
  revert n. induction ms as [|m ms IH]; intros n E H; cbn [all_tallowed fold_left] in *; [exact E|].
  apply andb_prop in H as [H1 H2]. apply IH; [|exact H2]. constructor; [exact E|]. apply tallowedb_true, H1.
Qed.

Example C69_case :
  CryptoLaws toy /\ ZipLaws toy_zip /\ CodecLaws toy_codec /\ session_secret toy parties = Some kAB /\
  keystream_ok toy kAB /\ tstart toy parties tnet0 /\
  texec toy toy_zip T builds toy_codec gap_bounded tnet0 (tnet_after tmoves) /\
  tsent (tnet_after tmoves Alice) = [QConnect (Some [x05]); QAck None; QData 0 [x41]; QData 1 [x42]] /\
  tarrived (tnet_after tmoves Bob) = [QConnect (Some [x05]); QData 1 [x42]; QData 0 [x41]; QAck None] /\
  tinbox (tnet_after tmoves Alice) = [TMConnect None pkB; TMAck (Some [x06])] /\
  tinbox (tnet_after tmoves Bob) = [TMConnect (Some [x05]) pkA; TMAck None; TMMessage (Some [x42]); TMMessage (Some [x41])] /\
  ttravelling (tnet_after tmoves Bob) = [] /\ map fst (ttravelling (tnet_after tmoves Alice)) = [QData 0 [x61; x62]] /\
  (forall x, sestablished (tlayer (tnet_after tmoves x))).
Proof.
  split; [exact toy_laws|]. split; [exact toy_zip_laws|]. split; [exact toy_codec_laws|]. split; [exact secret_net0|].
  split; [exact (toy_keystream_ok kAB)|]. split; [intros []; vm_compute; repeat split|].
  split; [apply texec_moves; [constructor|vm_compute; reflexivity]|].
  split; [vm_compute; reflexivity|]. split; [vm_compute; reflexivity|]. split; [vm_compute; reflexivity|].
  split; [vm_compute; reflexivity|]. split; [vm_compute; reflexivity|]. split; [vm_compute; reflexivity|].
  intros []; eexists; vm_compute; reflexivity.
Qed.

Definition tn_bin : tnet := tnet_after (tmoves ++ [QMConfig Alice (in_format Bincode)]).

(** The condition on the other's build is needed: Bob cannot read the bincode
    value Alice was able to write. *)
Theorem C69_any_build_refuted :
  ~ (forall (C : Crypto) (Z : Zip) (T : target) (F : side -> features) (M : Type) (K : Codec M),
     CryptoLaws C -> ZipLaws Z -> CodecLaws K ->
     forall P k tn0 tn, session_secret C P = Some k -> keystream_ok C k -> tstart C P tn0 ->
     texec C Z T F K gap_bounded tn0 tn -> forall x m cap i,
     let tn1 := fst (tnet_step C Z T F K tn (QMSend x m cap)) in
     snd (tnet_step C Z T F K tn (QMSend x m cap)) = true ->
     tallowed Z T F K gap_bounded tn1 (QMDeliver (other x) i) ->
     snd (tnet_step C Z T F K tn1 (QMDeliver (other x) i)) = true).
Proof.
  intros H.
  pose proof (H toy toy_zip T builds bytes toy_codec toy_laws toy_zip_laws toy_codec_laws parties kAB tnet0 tn_bin
    secret_net0 (toy_keystream_ok kAB) (proj1 (proj2 (proj2 (proj2 (proj2 (proj2 C69_case))))))) as H1.
  assert (texec toy toy_zip T builds toy_codec gap_bounded tnet0 tn_bin) as E.
  { apply texec_moves; [constructor|vm_compute; reflexivity]. }
  specialize (H1 E Alice [x41] 8192 0%nat).
  assert (snd (tnet_step toy toy_zip T builds toy_codec tn_bin (QMSend Alice [x41] 8192)) = true) as Hw by (vm_compute; reflexivity).
  assert (tallowed toy_zip T builds toy_codec gap_bounded
    (fst (tnet_step toy toy_zip T builds toy_codec tn_bin (QMSend Alice [x41] 8192))) (QMDeliver (other Alice) 0)) as Hd.
  { apply tallowedb_true. vm_compute. reflexivity. }
  specialize (H1 Hw Hd).
  assert (snd (tnet_step toy toy_zip T builds toy_codec
    (fst (tnet_step toy toy_zip T builds toy_codec tn_bin (QMSend Alice [x41] 8192))) (QMDeliver (other Alice) 0)) = false) as Hf
    by (vm_compute; reflexivity).
  exact (Bool.diff_true_false (eq_trans (eq_sym H1) Hf)).
Qed.
Print Assumptions C69_any_build_refuted.

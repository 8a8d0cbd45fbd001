(** The typed network is the network of Spec/Network.v around the serialiser. *)

From Coq Require Import Permutation.
From Verif.Model Require Import Serde.
From Verif.Spec Require Import Wire Trace ReadSpec Session Writers CompleteTrace Network Typed TypedTrace TypedNetwork.
From Verif.Proofs Require Import BaseFacts Typed TypedTrace Honest.

(** ** Lists related element by element *)
Lemma Forall2_nth {A B} (R : A -> B -> Prop) l l' i a :
  Forall2 R l l' -> nth_error l i = Some a -> exists b, nth_error l' i = Some b /\ R a b.
Proof.
  intros H. revert i. induction H as [|x y l l' Hxy _ IH]; intros [|i] E; try discriminate; cbn in *.
  - injection E as <-. eauto.
  - apply IH, E.
Qed.
Lemma Forall2_nth_r {A B} (R : A -> B -> Prop) l l' i b :
  Forall2 R l l' -> nth_error l' i = Some b -> exists a, nth_error l i = Some a /\ R a b.
Proof.
  intros H. revert i. induction H as [|x y l l' Hxy _ IH]; intros [|i] E; try discriminate; cbn in *.
  - injection E as <-. eauto.
  - apply IH, E.
Qed.
Lemma Forall2_firstn {A B} (R : A -> B -> Prop) l l' i : Forall2 R l l' -> Forall2 R (firstn i l) (firstn i l').
Proof. intros H. revert i. induction H; intros [|i]; cbn; constructor; auto. Qed.
Lemma Forall2_skipn {A B} (R : A -> B -> Prop) l l' i : Forall2 R l l' -> Forall2 R (skipn i l) (skipn i l').
Proof. intros H. revert i. induction H; intros [|i]; cbn; try constructor; auto. Qed.
Lemma Forall2_without {A B} (R : A -> B -> Prop) l l' i :
  Forall2 R l l' -> Forall2 R (without_nth i l) (without_nth i l').
Proof. intros H. apply Forall2_app; [apply Forall2_firstn|apply Forall2_skipn]; exact H. Qed.
Lemma Forall2_map_r {A B D} (R : A -> B -> Prop) (f : B -> D) (Q : A -> D -> Prop) l l' :
  (forall a b, R a b -> Q a (f b)) -> Forall2 R l l' -> Forall2 Q l (map f l').
Proof. intros H. induction 1; constructor; auto. Qed.

Section WithEnv.
Context (C : Crypto) (Z : Zip) (T : target) (F : side -> features).
Context {M : Type} (K : Codec M).

(** ** Typed and binary packets *)
Definition packet_as (G : features) (q : tpacket M) (p : packet) : Prop :=
  match q, p with
  | QConnect x, PConnect o => value_of G K o x
  | QAck x, PAck o => value_of G K o x
  | QData i m, PData j data => i = j /\ payload_result G K data (Ok m)
  | _, _ => False
  end.

Record sim (tn : tnet (M := M)) (n : net) : Prop := {
  sim_layer : forall x, layer (n x) = tlayer (tn x);
  sim_sent : forall x, Forall2 (packet_as (F (other x))) (tsent (tn x)) (sent (n x));
  sim_travelling : forall x,
    Forall2 (fun a b => packet_as (F x) (fst a) (fst b) /\ snd a = snd b) (ttravelling (tn x)) (travelling (n x));
  sim_arrived : forall x, Forall2 (packet_as (F x)) (tarrived (tn x)) (arrived (n x));
  sim_inbox : forall x, Forall2 (typed_as (F x) K) (inbox (n x)) (tinbox (tn x))
}.

Lemma payload_functional G p a b : payload_result G K p a -> payload_result G K p b -> a = b.
Proof. intros H1 H2. apply payload_read in H1, H2. congruence. Qed.
Lemma value_functional G o x y : value_of G K o x -> value_of G K o y -> x = y.
Proof.
  destruct o, x, y; cbn; intros H1 H2; try contradiction; try reflexivity.
  pose proof (payload_functional _ _ _ _ H1 H2). congruence.
Qed.

Lemma as_conns G ql pl : Forall2 (packet_as G) ql pl ->
  Forall2 (fun x o => value_of G K o x) (tconns ql) (conns pl).
Proof.
  induction 1 as [|q p ql pl H _ IH]; [constructor|].
  destruct q, p; cbn in H; try contradiction; cbn; auto.
Qed.
Lemma as_acks G ql pl : Forall2 (packet_as G) ql pl ->
  Forall2 (fun x o => value_of G K o x) (tacks ql) (acks pl).
Proof.
  induction 1 as [|q p ql pl H _ IH]; [constructor|].
  destruct q, p; cbn in H; try contradiction; cbn; auto.
Qed.
Lemma as_users G ql pl : Forall2 (packet_as G) ql pl ->
  Forall2 (fun u v => fst u = fst v /\ payload_result G K (snd v) (Ok (snd u))) (tusers ql) (users pl).
Proof.
  induction 1 as [|q p ql pl H _ IH]; [constructor|].
  destruct q, p; cbn in H; try contradiction; cbn; auto.
Qed.
Lemma as_got_conns G il tl : Forall2 (typed_as G K) il tl ->
  Forall2 (fun o x => snd x = snd o /\ value_of G K (fst o) (fst x)) (got_conns il) (tgot_conns tl).
Proof.
  induction 1 as [|i t il tl H _ IH]; [constructor|].
  destruct i, t; cbn in H; try contradiction; cbn; auto.
Qed.
Lemma as_got_acks G il tl : Forall2 (typed_as G K) il tl -> Forall2 (value_of G K) (got_acks il) (tgot_acks tl).
Proof.
  induction 1 as [|i t il tl H _ IH]; [constructor|].
  destruct i, t; cbn in H; try contradiction; cbn; auto.
Qed.
Lemma as_got_users G il tl : Forall2 (typed_as G K) il tl -> Forall2 (value_of G K) (got_users il) (tgot_users tl).
Proof.
  induction 1 as [|i t il tl H _ IH]; [constructor|].
  destruct i, t; cbn in H; try contradiction; cbn; auto.
Qed.
Lemma Forall2_nil_iff {A B} (R : A -> B -> Prop) l l' : Forall2 R l l' -> l = [] <-> l' = [].
Proof. destruct 1; split; congruence. Qed.
Lemma as_len {A B} (R : A -> B -> Prop) l l' : Forall2 R l l' -> len l = len l'.
Proof. induction 1 as [|x y l l' _ _ IH]; [reflexivity|]. rewrite !len_cons, IH. reflexivity. Qed.
Lemma as_numbers {A B} (G : N * A -> N * B -> Prop) ul vl :
  Forall2 (fun u v => fst u = fst v /\ G u v) ul vl -> map fst ul = map fst vl.
Proof. induction 1 as [|u v ul vl [H _] _ IH]; [reflexivity|]. cbn. rewrite H, IH. reflexivity. Qed.

(** ** Writing *)
Lemma encoded_serialize f m p : encoded K f m p -> serialize K m f = Ok p.
Proof.
  intros (en & b & He & Hb & ->). unfold serialize, serialize_inner.
  destruct f; cbn [encoder] in He; try discriminate; injection He as <-; rewrite Hb; reflexivity.
Qed.

Ltac spread S :=
  pose proof (sim_layer _ _ S Alice); pose proof (sim_layer _ _ S Bob);
  pose proof (sim_sent _ _ S Alice); pose proof (sim_sent _ _ S Bob);
  pose proof (sim_travelling _ _ S Alice); pose proof (sim_travelling _ _ S Bob);
  pose proof (sim_arrived _ _ S Alice); pose proof (sim_arrived _ _ S Bob);
  pose proof (sim_inbox _ _ S Alice); pose proof (sim_inbox _ _ S Bob).

Lemma post_sim tn n x q p r :
  sim tn n -> packet_as (F (other x)) q p ->
  sim (fst (tpost tn x q r)) (fst (post n x p r)) /\ snd (tpost tn x q r) = snd (post n x p r).
Proof.
  intros S Hq. destruct r as [[s w] o]. unfold tpost, post. spread S.
  destruct o as [u|e|pp]; cbn [fst snd]; (split; [|reflexivity]); split; intros y;
    destruct x, y; cbn [tupd upd other layer sent travelling arrived inbox tlayer tsent ttravelling tarrived tinbox] in *;
    try assumption; try reflexivity; apply Forall2_app; try assumption; repeat constructor; assumption.
Qed.

(** ** Moves *)
Inductive move_as (tn : tnet (M := M)) : tmove M -> move -> Prop :=
| ma_connect x cd o cap :
    encoded_opt K (cfg_message_format (conf (minimal (tlayer (tn x))))) cd o -> value_of (F (other x)) K o cd ->
    move_as tn (QMConnect x cd cap) (Connect x o cap)
| ma_ack x cd o cap :
    encoded_opt K (cfg_message_format (conf (minimal (tlayer (tn x))))) cd o -> value_of (F (other x)) K o cd ->
    move_as tn (QMAck x cd cap) (Ack x o cap)
| ma_send x m p cap :
    encoded K (cfg_message_format (conf (minimal (tlayer (tn x))))) m p -> payload_result (F (other x)) K p (Ok m) ->
    move_as tn (QMSend x m cap) (Send x p cap)
| ma_config x cfg : move_as tn (QMConfig x cfg) (Config x cfg)
| ma_deliver x i : move_as tn (QMDeliver x i) (Deliver x i).

Context (HK : CodecLaws K).

Lemma expressible_as tn x m : expressible Z T F K tn x m ->
  exists p, encoded K (cfg_message_format (conf (minimal (tlayer (tn x))))) m p /\
    payload_result (F (other x)) K p (Ok m) /\ fits T (packed Z (Some p) (tlayer (tn x))).
Proof.
  intros (Hf & p & He & Hp). exists p. split; [exact He|]. split; [|exact Hp].
  eapply serialized_payload; [exact HK|exact (encoded_serialize _ _ _ He)|exact Hf].
Qed.
Lemma expressible_opt_as tn x cd : expressible_opt Z T F K tn x cd ->
  exists o, encoded_opt K (cfg_message_format (conf (minimal (tlayer (tn x))))) cd o /\
    value_of (F (other x)) K o cd /\ fits T (packed Z o (tlayer (tn x))).
Proof.
  destruct cd as [m|]; cbn [expressible_opt].
  - intros H. destruct (expressible_as tn x m H) as (p & H1 & H2 & H3). exists (Some p). auto.
  - intros _. exists None. split; [exact I|]. split; [exact I|apply fits_none].
Qed.

Lemma allowed_as W tn n tm :
  sim tn n -> tallowed Z T F K W tn tm -> exists m, move_as tn tm m /\ allowed Z T W n m.
Proof.
  intros S Ha. destruct tm as [x cd cap|x cd cap|x v cap|x cfg|x i]; cbn [tallowed] in Ha.
  - destruct Ha as [H1 H2]. destruct (expressible_opt_as tn x cd H2) as (o & He & Hv & Hf).
    exists (Connect x o cap). split; [constructor; assumption|]. cbn [allowed]. rewrite (sim_layer _ _ S).
    split; [|exact Hf]. apply (Forall2_nil_iff _ _ _ (as_conns _ _ _ (sim_sent _ _ S x))). exact H1.
  - destruct Ha as (H1 & H2 & H3). destruct (expressible_opt_as tn x cd H3) as (o & He & Hv & Hf).
    exists (Ack x o cap). split; [constructor; assumption|]. cbn [allowed]. rewrite (sim_layer _ _ S).
    split; [|split; [|exact Hf]].
    + intros E. apply H1. apply (Forall2_nil_iff _ _ _ (as_got_conns _ _ _ (sim_inbox _ _ S x))). exact E.
    + apply (Forall2_nil_iff _ _ _ (as_acks _ _ _ (sim_sent _ _ S x))). exact H2.
  - destruct Ha as (H1 & H2 & H3 & H4). destruct (expressible_as tn x v H4) as (p & He & Hv & Hf).
    exists (Send x p cap). split; [constructor; assumption|]. cbn [allowed]. rewrite (sim_layer _ _ S).
    rewrite <- (as_len _ _ _ (as_users _ _ _ (sim_sent _ _ S x))).
    split; [|split; [|split; [exact H3|exact Hf]]].
    + intros E. apply H1. apply (Forall2_nil_iff _ _ _ (as_acks _ _ _ (sim_sent _ _ S x))). exact E.
    + intros E. apply H2. apply (Forall2_nil_iff _ _ _ (as_got_acks _ _ _ (sim_inbox _ _ S x))). exact E.
  - exists (Config x cfg). split; [constructor|exact I].
  - destruct Ha as (q & d & Hn & HW). exists (Deliver x i). split; [constructor|]. cbn [allowed].
    destruct (Forall2_nth _ _ _ _ _ (sim_travelling _ _ S x) Hn) as ([p d'] & Hn' & Hp & Hd).
    cbn [fst snd] in Hp, Hd. subst d'. exists p, d. split; [exact Hn'|].
    destruct q, p; cbn in Hp; try contradiction; try exact I. destruct Hp as [<- _].
    rewrite <- (as_numbers _ _ _ (as_users _ _ _ (sim_arrived _ _ S x))). exact HW.
Qed.

(** ** Reading *)
Lemma decodable_msgs G l : Forall (fun i => exists t, typed_as G K i t) l ->
  exists ts, deserialize_msgs G K l [] = Ok ts /\ Forall2 (typed_as G K) l ts.
Proof.
  intros H. destruct (deserialize_msgs_result G K l []) as [(ts & E & Ht)|(l1 & ts & i & l2 & p & r & -> & _ & Hp & Hr & Hsf)].
  - exists ts. auto.
  - exfalso. apply Forall_app in H as [_ H]. apply Forall_inv in H as [t Ht].
    assert (exists m, payload_result G K p (Ok m)) as [m Hm].
    { destruct i as [o pk|o|o], t as [x pk'|x|x]; cbn in Ht, Hp; try contradiction; subst o;
        try destruct Ht as [_ Ht]; destruct x as [m|]; cbn in Ht; try contradiction; eauto. }
    pose proof (payload_functional _ _ _ _ Hm Hr) as <-. exact Hsf.
Qed.

Context (HL : CryptoLaws C) (HZ : ZipLaws Z) (P : side -> party) (k : secret_key).
Context (Hb : forall x, derived_secret C (p_sk (P x)) (x25519_public C (p_sk (P (other x)))) = Some k).
Context (Hk : keystream_ok C k).

Lemma in_map_fst {A B} (R : A -> B -> Prop) l l' b : Forall2 R l l' -> In b l' -> exists a, In a l /\ R a b.
Proof.
  induction 1 as [|x y l l' H _ IH]; [intros []|]. intros [<-|Hin].
  - exists x. split; [left; reflexivity|exact H].
  - destruct (IH Hin) as (a & Ha & Hr). exists a. split; [right; exact Ha|exact Hr].
Qed.

Lemma inbox_decodable n x ql :
  netinv C Z T P k n -> Forall2 (packet_as (F x)) ql (arrived (n x)) ->
  Forall (fun i => exists t, typed_as (F x) K i t) (inbox (n x)).
Proof.
  intros Hi Hq. apply Forall_forall. intros [o pk|o|o] Hin.
  - assert (In (o, pk) (got_conns (inbox (n x)))) as Hg.
    { apply in_flat_map. exists (IConnect o pk). split; [exact Hin|left; reflexivity]. }
    rewrite (net_conns C Z T P k n x Hi) in Hg. apply in_map_iff in Hg as (o' & E & Ho). injection E as -> _.
    destruct (in_map_fst _ _ _ _ (as_conns _ _ _ Hq) Ho) as (v & _ & Hv). exists (TMConnect v pk). split; [reflexivity|exact Hv].
  - assert (In o (got_acks (inbox (n x)))) as Hg.
    { apply in_flat_map. exists (IAck o). split; [exact Hin|left; reflexivity]. }
    rewrite (net_acks C Z T P k n x Hi) in Hg. destruct (_ || _); [|destruct Hg].
    destruct (in_map_fst _ _ _ _ (as_acks _ _ _ Hq) Hg) as (v & _ & Hv). exists (TMAck v). exact Hv.
  - assert (In o (got_users (inbox (n x)))) as Hg.
    { apply in_flat_map. exists (IMessage o). split; [exact Hin|left; reflexivity]. }
    destruct (net_users_got C Z T P k n x Hi) as [H1 H2].
    pose proof (done_established C Z T P k n x Hi) as He.
    destruct (done P x (acks (sent (n x))) (conns (arrived (n x))) (acks (arrived (n x)))).
    + rewrite H1 in Hg by (apply He; reflexivity). apply in_map_iff in Hg as (u & <- & Hu).
      destruct (in_map_fst _ _ _ _ (as_users _ _ _ Hq) Hu) as (v & _ & _ & Hv). exists (TMMessage (Some (snd v))). exact Hv.
    + rewrite H2 in Hg; [destruct Hg|]. rewrite He. discriminate.
Qed.

Lemma step_as tn n tm m :
  sim tn n -> netinv C Z T P k n -> move_as tn tm m -> allowed Z T nonce_acceptable n m ->
  sim (fst (tnet_step C Z T F K tn tm)) (fst (net_step C Z T n m)) /\
  snd (tnet_step C Z T F K tn tm) = snd (net_step C Z T n m).
Proof.
  intros S Hi Hm Ha. destruct (step_inv C Z T HL HZ P k Hb Hk n m Hi Ha) as [Hok Hi'].
  destruct Hm as [x cd o cap He Hv|x cd o cap He Hv|x v p cap He Hv|x cfg|x i]; cbn [tnet_step net_step] in *.
  - assert (sl_write_connect_msg C Z K cd (tlayer (tn x)) (fresh_writer cap) =
            write_connect_msg_bin C Z o (layer (n x)) (fresh_writer cap)) as ->.
    { rewrite typed_connect, (sim_layer _ _ S). destruct cd as [m|], o as [p|]; cbn in He; try contradiction; [|reflexivity].
      rewrite (encoded_serialize _ _ _ He). reflexivity. }
    apply post_sim; [exact S|exact Hv].
  - assert (sl_write_ack_msg C Z K cd (tlayer (tn x)) (fresh_writer cap) =
            write_ack_msg_bin C Z o (layer (n x)) (fresh_writer cap)) as ->.
    { rewrite typed_ack, (sim_layer _ _ S). destruct cd as [m|], o as [p|]; cbn in He; try contradiction; [|reflexivity].
      rewrite (encoded_serialize _ _ _ He). reflexivity. }
    apply post_sim; [exact S|exact Hv].
  - assert (sl_write C Z T K v (tlayer (tn x)) (fresh_writer cap) =
            write_bin C Z T p (layer (n x)) (fresh_writer cap)) as ->.
    { rewrite typed_write, (sim_layer _ _ S), (encoded_serialize _ _ _ He). reflexivity. }
    apply post_sim; [exact S|]. split; [|exact Hv].
    apply (as_len _ _ _ (as_users _ _ _ (sim_sent _ _ S x))).
  - rewrite (sim_layer _ _ S). destruct (sl_change_config cfg (tlayer (tn x))) as [s o]. cbn [fst snd].
    split; [|reflexivity]. spread S.
    split; intros y; destruct x, y; cbn [tupd upd other layer sent travelling arrived inbox tlayer tsent ttravelling tarrived tinbox] in *;
      try assumption; reflexivity.
  - cbn [allowed] in Ha. destruct Ha as (p & d & Hn & _).
    destruct (Forall2_nth_r _ _ _ _ _ (sim_travelling _ _ S x) Hn) as ([q d'] & Hn' & Hp & Hd).
    cbn [fst snd] in Hp, Hd. subst d'. unfold deliver, tdeliver in *. rewrite Hn in *. rewrite Hn'.
    rewrite <- (sim_layer _ _ S).
    destruct (read_bin C Z T d (layer (n x))) as [s o] eqn:Er. destruct o as [l|e|pp]; cbn [fst snd] in Hok; try discriminate.
    rewrite (typed_read_ok C Z T (F x) K d (layer (n x)) s l Er). cbn [fst snd] in Hi'.
    assert (Forall2 (packet_as (F x)) (tarrived (tn x) ++ [q]) (arrived (n x) ++ [p])) as Hq.
    { apply Forall2_app; [apply (sim_arrived _ _ S)|repeat constructor; exact Hp]. }
    assert (Forall (fun i => exists t, typed_as (F x) K i t) l) as Hdec.
    { pose proof (inbox_decodable _ x (tarrived (tn x) ++ [q]) Hi') as Hin.
      destruct x; cbn [upd arrived inbox] in Hin; specialize (Hin Hq); apply Forall_app in Hin as [_ Hin]; exact Hin. }
    destruct (decodable_msgs (F x) l Hdec) as (ts & -> & Hts). cbn [fst snd]. split; [|reflexivity].
    pose proof (Forall2_without _ _ _ i (sim_travelling _ _ S x)) as Hw.
    pose proof (Forall2_app (sim_inbox _ _ S x) Hts) as Hin.
    spread S.
    split; intros y; destruct x, y;
      cbn [tupd upd other layer sent travelling arrived inbox tlayer tsent ttravelling tarrived tinbox] in *;
      try assumption; reflexivity.
Qed.

Lemma tstart_sim tn0 : tstart C P tn0 -> exists n0, start C P n0 /\ sim tn0 n0.
Proof.
  intros H. exists (fun x => {| layer := tlayer (tn0 x); sent := []; travelling := []; arrived := []; inbox := [] |}).
  split.
  - intros x. destruct (H x) as (H1 & _). split; [exact H1|]. auto.
  - split; intros x; destruct (H x) as (_ & H2 & H3 & H4 & H5); cbn; rewrite ?H2, ?H3, ?H4, ?H5; auto.
Qed.

Theorem texec_sim tn0 n0 tn :
  sim tn0 n0 -> netinv C Z T P k n0 -> texec C Z T F K nonce_acceptable tn0 tn ->
  exists n, exec C Z T nonce_acceptable n0 n /\ netinv C Z T P k n /\ sim tn n.
Proof.
  intros S0 H0. induction 1 as [|tn tm _ (n & E & Hi & S) Ha].
  - exists n0. split; [constructor|]. auto.
  - destruct (allowed_as _ tn n tm S Ha) as (m & Hm & Ha'). exists (fst (net_step C Z T n m)).
    split; [constructor; assumption|]. split; [apply (step_inv C Z T HL HZ P k Hb Hk); assumption|].
    apply step_as; assumption.
Qed.

Theorem texec_sim_gap tn0 n0 tn :
  sim tn0 n0 -> good C Z T P k n0 -> texec C Z T F K gap_bounded tn0 tn ->
  exists n, exec C Z T gap_bounded n0 n /\ good C Z T P k n /\ sim tn n.
Proof.
  intros S0 H0. induction 1 as [|tn tm _ (n & E & Hi & S) Ha].
  - exists n0. split; [constructor|]. auto.
  - destruct (allowed_as _ tn n tm S Ha) as (m & Hm & Ha'). exists (fst (net_step C Z T n m)).
    split; [constructor; assumption|]. split; [apply (good_step C Z T HL HZ P k Hb Hk); assumption|].
    apply step_as; try assumption; [apply Hi|]. apply (allowed_gap C Z T P k n m); [apply Hi|apply Hi|exact Ha'].
Qed.

(** ** What both sides can rely on *)
Lemma chain {A B Q V} (R1 : B -> V -> Prop) (R2 : Q -> A -> Prop) (f : A -> B) (g : Q -> V) a ta tl :
  (forall o q t, R1 (f o) t -> R2 q o -> t = g q) ->
  Forall2 R2 ta a -> Forall2 R1 (map f a) tl -> tl = map g ta.
Proof.
  intros H H2. revert tl. induction H2 as [|q o ta a Hq _ IH]; intros tl H1; cbn [map] in *.
  - inversion H1. reflexivity.
  - destruct tl as [|t tl]; inversion H1 as [|x y l l' Ht Htl]. subst. cbn. f_equal; [eapply H; eassumption|apply IH, Htl].
Qed.

Lemma perm_Forall2 {A B} (R : A -> B -> Prop) l l' : Permutation l l' ->
  forall t, Forall2 R t l -> exists t', Permutation t t' /\ Forall2 R t' l'.
Proof.
  induction 1 as [|x l l' _ IH|x y l|l l1 l2 _ IH1 _ IH2]; intros t Ht.
  - inversion Ht. exists []. split; constructor.
  - inversion Ht as [|a b t0 l0 Ha Ht0]. subst. destruct (IH t0 Ht0) as (t' & Hp & H').
    exists (a :: t'). split; constructor; assumption.
  - inversion Ht as [|a b t0 l0 Ha Ht0]. subst. inversion Ht0 as [|a' b' t1 l1 Ha' Ht1]. subst.
    exists (a' :: a :: t1). split; [apply perm_swap|]. constructor; [assumption|]. constructor; assumption.
  - destruct (IH1 t Ht) as (t1 & P1 & H1). destruct (IH2 t1 H1) as (t2 & P2 & H2).
    exists t2. split; [eapply perm_trans; eassumption|exact H2].
Qed.

Lemma Forall2_functional {A B} (R : A -> B -> Prop) l t t' :
  (forall a b b', R b a -> R b' a -> b = b') ->
  Forall2 (fun b a => R b a) t l -> Forall2 (fun b a => R b a) t' l -> t = t'.
Proof.
  intros H H1. revert t'. induction H1 as [|b a t l Hb' _ IH]; intros t' H2; inversion H2; subst; [reflexivity|].
  f_equal; [eapply H; eassumption|apply IH; assumption].
Qed.

Lemma packet_functional G p q q' : packet_as G q p -> packet_as G q' p -> q = q'.
Proof.
  destruct p, q, q'; cbn; intros H1 H2; try contradiction; f_equal; try exact (value_functional _ _ _ _ H1 H2).
  - destruct H1, H2; congruence.
  - destruct H1 as [_ H1], H2 as [_ H2]. pose proof (payload_functional _ _ _ _ H1 H2). congruence.
Qed.

Section Reached.
Context (tn : tnet (M := M)) (n : net) (S : sim tn n) (Hi : netinv C Z T P k n).

Lemma typed_conns x :
  tgot_conns (tinbox (tn x)) = map (fun cd => (cd, public_key C P (other x))) (tconns (tarrived (tn x))).
Proof.
  pose proof (as_got_conns _ _ _ (sim_inbox _ _ S x)) as H1.
  rewrite (net_conns C Z T P k n x Hi) in H1.
  eapply chain; [|exact (as_conns _ _ _ (sim_arrived _ _ S x))|exact H1].
  intros o v [v' pk]. cbn. intros [-> Hv'] Hv. rewrite (value_functional _ _ _ _ Hv' Hv). reflexivity.
Qed.

Lemma typed_acks x :
  tgot_acks (tinbox (tn x)) =
    if p_pins (P x) || some (conns (arrived (n x))) then tacks (tarrived (tn x)) else [].
Proof.
  pose proof (as_got_acks _ _ _ (sim_inbox _ _ S x)) as H1.
  rewrite (net_acks C Z T P k n x Hi) in H1. destruct (_ || _); [|inversion H1; reflexivity].
  rewrite <- (map_id (tacks (tarrived (tn x)))). rewrite <- (map_id (acks (arrived (n x)))) in H1.
  eapply chain; [|exact (as_acks _ _ _ (sim_arrived _ _ S x))|exact H1].
  intros o v v' Hv' Hv. exact (value_functional _ _ _ _ Hv' Hv).
Qed.

Lemma typed_users_got x :
  (sestablished (tlayer (tn x)) -> tgot_users (tinbox (tn x)) = map (fun u => Some (snd u)) (tusers (tarrived (tn x)))) /\
  (~ sestablished (tlayer (tn x)) -> tgot_users (tinbox (tn x)) = []).
Proof.
  pose proof (as_got_users _ _ _ (sim_inbox _ _ S x)) as H1.
  destruct (net_users_got C Z T P k n x Hi) as [G1 G2]. rewrite (sim_layer _ _ S x) in G1, G2. split; intros He.
  - rewrite (G1 He) in H1. eapply chain; [|exact (as_users _ _ _ (sim_arrived _ _ S x))|exact H1].
    intros o v v' Hv' [_ Hv]. apply (value_functional (F x) (Some (snd o))); [exact Hv'|exact Hv].
  - rewrite (G2 He) in H1. inversion H1. reflexivity.
Qed.

Lemma typed_network x :
  Permutation (tsent (tn (other x))) (tarrived (tn x) ++ map fst (ttravelling (tn x))).
Proof.
  pose proof (ni_perm C Z T P k n Hi x) as Hp.
  pose proof (sim_sent _ _ S (other x)) as H1. rewrite other_other in H1.
  destruct (perm_Forall2 _ _ _ Hp _ H1) as (t' & Hp' & H2).
  assert (t' = tarrived (tn x) ++ map fst (ttravelling (tn x))) as ->; [|exact Hp'].
  eapply Forall2_functional; [|exact H2|].
  - intros a b b'. apply packet_functional.
  - apply Forall2_app; [apply (sim_arrived _ _ S)|].
    pose proof (sim_travelling _ _ S x) as Ht. clear - Ht. induction Ht as [|a b t l Hab Hr IH]; cbn [map]; [constructor|].
    constructor; [exact (proj1 Hab)|exact IH].
Qed.

Lemma typed_established x :
  (sestablished (tlayer (tn x)) <-> tacks (tsent (tn x)) <> [] /\ tgot_acks (tinbox (tn x)) <> []) /\
  (tgot_conns (tinbox (tn x)) <> [] -> session_key (minimal (tlayer (tn x))) = Some k).
Proof.
  rewrite <- (sim_layer _ _ S x). split.
  - rewrite (net_established C Z T P k n x Hi).
    rewrite (Forall2_nil_iff _ _ _ (as_acks _ _ _ (sim_sent _ _ S x))).
    rewrite <- (Forall2_nil_iff _ _ _ (as_got_acks _ _ _ (sim_inbox _ _ S x))). reflexivity.
  - rewrite <- (Forall2_nil_iff _ _ _ (as_got_conns _ _ _ (sim_inbox _ _ S x))). apply (net_key C Z T P k n x Hi).
Qed.

End Reached.

Lemma tusers_app l l' : tusers (l ++ l' : list (tpacket M)) = tusers l ++ tusers l'.
Proof. unfold tusers. apply flat_map_app. Qed.
Lemma tusers_perm l l' : Permutation l l' -> Permutation (@tusers M l) (tusers l').
Proof. intros H. apply Permutation_flat_map. exact H. Qed.

Lemma qexec_typed tn n n' :
  sim tn n -> good C Z T P k n -> qexec C Z T n n' ->
  exists tn', texec C Z T F K gap_bounded tn tn' /\ sim tn' n'.
Proof.
  intros S0 H0 E. cut (good C Z T P k n' /\ exists tn', texec C Z T F K gap_bounded tn tn' /\ sim tn' n').
  { intros [_ H]. exact H. }
  induction E as [|n1 m E (G & tn1 & E1 & S) Ha Hq].
  - split; [exact H0|]. exists tn. split; [constructor|exact S0].
  - split; [apply (good_step C Z T HL HZ P k Hb Hk); assumption|].
    assert (exists tm, move_as tn1 tm m /\ tallowed Z T F K gap_bounded tn1 tm) as (tm & Hm & Hta).
    { destruct m as [x [cd|] cap|x [cd|] cap|x data cap|x cfg|x i]; cbn [quiet] in Hq; try contradiction; cbn [allowed] in Ha.
      - exists (QMConnect x None cap). split; [constructor; exact I|]. split; [|exact I].
        apply (Forall2_nil_iff _ _ _ (as_conns _ _ _ (sim_sent _ _ S x))). apply Ha.
      - exists (QMAck x None cap). split; [constructor; exact I|]. destruct Ha as (A1 & A2 & _). split; [|split; [|exact I]].
        + intros H. apply A1. apply (Forall2_nil_iff _ _ _ (as_got_conns _ _ _ (sim_inbox _ _ S x))). exact H.
        + apply (Forall2_nil_iff _ _ _ (as_acks _ _ _ (sim_sent _ _ S x))). exact A2.
      - exists (QMDeliver x i). split; [constructor|]. destruct Ha as (p & d & Hn & HW).
        destruct (Forall2_nth_r _ _ _ _ _ (sim_travelling _ _ S x) Hn) as ([q d'] & Hn' & Hp & Hd).
        cbn [fst snd] in Hp, Hd. subst d'. exists q, d. split; [exact Hn'|].
        destruct q, p; cbn in Hp; try contradiction; try exact I. destruct Hp as [-> _].
        rewrite (as_numbers _ _ _ (as_users _ _ _ (sim_arrived _ _ S x))). exact HW. }
    exists (fst (tnet_step C Z T F K tn1 tm)). split; [constructor; assumption|].
    apply step_as; try assumption; [apply G|]. apply (allowed_gap C Z T P k n1 m); [apply G|apply G|exact Ha].
Qed.

End WithEnv.

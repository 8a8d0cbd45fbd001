(** Typed histories as binary histories, and what they return. *)

From Coq Require Import Arith ZifyBool ZifyNat ZifyN.
From Verif.Model Require Import Serde.
From Verif.Spec Require Import Wire Datagram Trace ReadSpec Accept Session Writers Attacks CompleteTrace Typed
  CompleteAdversary TypedTrace.
From Verif.Proofs Require Import BaseFacts IoFacts CipherFacts ReaderFacts ReadCases WindowFacts Invariant
  Negotiation Sending CompleteFacts CompleteAdversary Typed Split.

Section WithEnv.
Context (C : Crypto) (Z : Zip) (T : target) (F : features).
Context {M : Type} (K : Codec M).

(** ** The configuration along a binary history *)
Lemma write_message_conf data s w : conf (fst (fst (write_message C T data s w))) = conf s.
Proof.
  destruct (write_message C T data s w) as [[s1 w1] o] eqn:E. cbn [fst].
  apply write_message_cases in E
    as [(_ & -> & _)|[(_ & _ & -> & _)|(Hst & k & o1 & _ & _ &
        [(e & _ & _ & ->)|[(_ & n & Hn & -> & _)|(_ & p & _ & -> & _)]])]]; reflexivity.
Qed.

Lemma scall_conf s c s' r :
  scall_step C Z T s c = (s', r) -> conf (minimal s') = config_after (conf (minimal s)) [(c, r)].
Proof.
  unfold config_after. cbn [fold_left].
  destruct c as [d|cd w|cd w|data w| |cfg]; cbn [scall_step].
  - pose proof (read_bin_conf C Z T d s) as H. destruct (read_bin C Z T d s) as [s1 o]. cbn [fst] in H.
    intros [= <- <-]. exact H.
  - unfold write_connect_msg_bin, writer_write_connect_msg.
    destruct (sig_key_pair s) as [seed|]; [|intros [= <- <-]; reflexivity].
    unfold create_connect_message.
    destruct (apply_action (msl_status (minimal s)) (Create TConnect)) as [st [x|e|p]];
      [|intros [= <- <-]; reflexivity|intros [= <- <-]; reflexivity].
    destruct (encapsulate_message C _ _) as [b|e|p];
      [|intros [= <- <-]; reflexivity|intros [= <- <-]; reflexivity].
    destruct (write_signed C seed b w) as [w' o]. intros [= <- <-]. reflexivity.
  - unfold write_ack_msg_bin, writer_write_ack_msg.
    destruct (sig_key_pair s) as [seed|]; [|intros [= <- <-]; reflexivity].
    unfold create_ack_message.
    destruct (apply_action (msl_status (minimal s)) (Create TAck)) as [st [x|e|p]];
      [|intros [= <- <-]; reflexivity|intros [= <- <-]; reflexivity].
    destruct (encapsulate_message C _ _) as [b|e|p];
      [|intros [= <- <-]; reflexivity|intros [= <- <-]; reflexivity].
    destruct (write_signed C seed b w) as [w' o]. intros [= <- <-]. reflexivity.
  - unfold write_bin, writer_write_bin_message.
    pose proof (write_message_conf (compress Z data s) (minimal s) w) as H.
    destruct (write_message C T _ (minimal s) w) as [[m w'] o]. cbn [fst] in H. intros [= <- <-]. exact H.
  - unfold sl_try_clone, try_clone. destruct (msl_status (minimal s)); intros [= <- <-]; reflexivity.
  - unfold sl_change_config, change_config. destruct (negb (cloned (minimal s))); intros [= <- <-]; reflexivity.
Qed.

Lemma srun_conf s cs s' h :
  srun C Z T s cs = (s', h) -> conf (minimal s') = config_after (conf (minimal s)) h.
Proof.
  revert s h. induction cs as [|c cs IH]; intros s h; cbn [srun].
  - intros [= -> <-]. reflexivity.
  - destruct (scall_step C Z T s c) as [s1 r] eqn:E. destruct (srun C Z T s1 cs) as [s2 h2] eqn:E2.
    intros [= <- <-]. rewrite (IH s1 h2 E2), (scall_conf s c s1 r E). reflexivity.
Qed.

Lemma srun_app s cs1 cs2 s1 h1 s2 h2 :
  srun C Z T s cs1 = (s1, h1) -> srun C Z T s1 cs2 = (s2, h2) -> srun C Z T s (cs1 ++ cs2) = (s2, h1 ++ h2).
Proof.
  revert s h1. induction cs1 as [|c cs1 IH]; intros s h1; cbn [srun app].
  - intros [= -> <-] E. exact E.
  - destruct (scall_step C Z T s c) as [sa r]. destruct (srun C Z T sa cs1) as [sb hb] eqn:Eb.
    intros [= <- <-] E. rewrite (IH sa hb Eb E). reflexivity.
Qed.

(** ** One typed call *)
Lemma serialize_cases m f :
  (exists p, serialize K m f = Ok p /\ encoded K f m p) \/
  (exists e, serialize K m f = Err e /\ unserialisable K m f e) \/
  (serialize K m f = Panic PUnimplemented /\ f = Utf8PlainText).
Proof.
  destruct (serialize K m f) as [p|e|q] eqn:E.
  - left. exists p. split; [reflexivity|]. exact (serialize_ok K m f p E).
  - right. left. exists e. split; [reflexivity|]. unfold serialize, serialize_inner in E.
    destruct f; cbn [obind] in E; try discriminate; try (left; split; congruence);
      right;
      match type of E with context [match ?x with _ => _ end] => destruct x as [c|c] eqn:Ec end;
      cbn [obind] in E; try discriminate; injection E as <-;
      eexists _, c; (split; [reflexivity|split; [exact Ec|reflexivity]]).
  - right. right. unfold serialize, serialize_inner in E.
    destruct f; cbn [obind] in E; try discriminate;
      try (match type of E with context [match ?x with _ => _ end] => destruct x end; cbn [obind] in E; discriminate).
    split; congruence.
Qed.

Lemma tcall_projects s c s' r :
  tcall_step C Z T F K s c = (s', r) ->
  exists h, tprojects F K (cfg_message_format (conf (minimal s))) (c, r) h /\ srun C Z T s (map fst h) = (s', h).
Proof.
  set (f := cfg_message_format (conf (minimal s))).
  destruct c as [d|cd w|cd w|m w|c]; cbn [tcall_step].
  - destruct (read_bin C Z T d s) as [s1 o] eqn:E.
    destruct (typed_read C Z T F K d s s1 o E) as (o' & -> & Ho). intros [= <- <-].
    exists [(SRead d, SMsgs o)]. split; [|cbn [map fst srun scall_step]; rewrite E; reflexivity].
    destruct o as [l|e|p]; [apply tp_read; exact Ho|subst o'; apply tp_read_error|subst o'; apply tp_read_panic].
  - rewrite typed_connect. destruct cd as [m|].
    + destruct (serialize_cases m f) as [(p & Hs & He)|[(e & Hs & He)|(Hs & He)]]; fold f; rewrite Hs.
      * destruct (write_connect_msg_bin C Z (Some p) s w) as [[s1 w1] o] eqn:E. intros [= <- <-].
        exists [(SConnect (Some p) w, SWritten o w1)]. split; [apply tp_connect; exact He|].
        cbn [map fst srun scall_step]. rewrite E. reflexivity.
      * intros [= <- <-]. exists []. split; [apply tp_connect_not; left; eauto|reflexivity].
      * intros [= <- <-]. exists []. split; [apply tp_connect_not; right; auto|reflexivity].
    + destruct (write_connect_msg_bin C Z None s w) as [[s1 w1] o] eqn:E. intros [= <- <-].
      exists [(SConnect None w, SWritten o w1)]. split; [apply tp_connect; exact I|].
      cbn [map fst srun scall_step]. rewrite E. reflexivity.
  - rewrite typed_ack. destruct cd as [m|].
    + destruct (serialize_cases m f) as [(p & Hs & He)|[(e & Hs & He)|(Hs & He)]]; fold f; rewrite Hs.
      * destruct (write_ack_msg_bin C Z (Some p) s w) as [[s1 w1] o] eqn:E. intros [= <- <-].
        exists [(SAck (Some p) w, SWritten o w1)]. split; [apply tp_ack; exact He|].
        cbn [map fst srun scall_step]. rewrite E. reflexivity.
      * intros [= <- <-]. exists []. split; [apply tp_ack_not; left; eauto|reflexivity].
      * intros [= <- <-]. exists []. split; [apply tp_ack_not; right; auto|reflexivity].
    + destruct (write_ack_msg_bin C Z None s w) as [[s1 w1] o] eqn:E. intros [= <- <-].
      exists [(SAck None w, SWritten o w1)]. split; [apply tp_ack; exact I|].
      cbn [map fst srun scall_step]. rewrite E. reflexivity.
  - rewrite typed_write. destruct (serialize_cases m f) as [(p & Hs & He)|[(e & Hs & He)|(Hs & He)]]; fold f; rewrite Hs.
    + destruct (write_bin C Z T p s w) as [[s1 w1] o] eqn:E. intros [= <- <-].
      exists [(SWrite p w, SWritten o w1)]. split; [apply tp_write; exact He|].
      cbn [map fst srun scall_step]. rewrite E. reflexivity.
    + intros [= <- <-]. exists []. split; [apply tp_write_not; left; eauto|reflexivity].
    + intros [= <- <-]. exists []. split; [apply tp_write_not; right; auto|reflexivity].
  - destruct (scall_step C Z T s c) as [s1 r1] eqn:E. intros [= <- <-].
    exists [(c, r1)]. split; [apply tp_bin|]. cbn [map fst srun]. rewrite E. reflexivity.
Qed.

Theorem typed_erases s cs s' th :
  trun C Z T F K s cs = (s', th) ->
  exists sh, erases F K (conf (minimal s)) th sh /\ srun C Z T s (map fst sh) = (s', sh).
Proof.
  revert s th. induction cs as [|c cs IH]; intros s th; cbn [trun].
  - intros [= -> <-]. exists []. split; [apply er_nil|reflexivity].
  - destruct (tcall_step C Z T F K s c) as [s1 r] eqn:E. destruct (trun C Z T F K s1 cs) as [s2 th2] eqn:E2.
    intros [= <- <-]. destruct (tcall_projects s c s1 r E) as (h & Hp & Hr).
    destruct (IH s1 th2 E2) as (sh & He & Hs). exists (h ++ sh). split.
    + apply er_cons; [exact Hp|]. rewrite <- (srun_conf _ _ _ _ Hr). exact He.
    + rewrite map_app. eapply srun_app; eassumption.
Qed.

(** From a new layer. *)
Theorem typed_projection r rs cfg given pin s0 cs s th :
  sl_create C r rs cfg given pin = Ok s0 -> trun C Z T F K s0 cs = (s, th) ->
  exists sh, erases F K cfg th sh /\ srun C Z T s0 (map fst sh) = (s, sh).
Proof.
  intros Hc E. destruct (typed_erases s0 cs s th E) as (sh & He & Hs). exists sh. split; [|exact Hs].
  assert (conf (minimal s0) = cfg) as <-; [|exact He].
  unfold sl_create, create in Hc. destruct given as [sd|]; [|destruct rs as [sd|]]; cbn [obind] in Hc; try discriminate;
    destruct (ekp_generate C r); try discriminate; injection Hc as <-; reflexivity.
Qed.

(** ** Events of a typed history and of the binary one *)
Lemma tprojects_shape f e h : tprojects F K f e h -> h = [] \/ exists x, h = [x].
Proof. intros H. inversion H; subst; eauto. Qed.

Lemma erases_in_r cfg th sh e :
  erases F K cfg th sh -> In e sh -> exists te f, In te th /\ tprojects F K f te [e].
Proof.
  induction 1 as [|cfg te th h sh Hp He IH]; intros Hi; [contradiction|].
  apply in_app_or in Hi as [Hi|Hi].
  - destruct (tprojects_shape _ _ _ Hp) as [->|[x ->]]; [contradiction|].
    destruct Hi as [->|[]]. eexists te, _. split; [left; reflexivity|exact Hp].
  - destruct (IH Hi) as (te' & f & H1 & H2). exists te', f. split; [right; exact H1|exact H2].
Qed.

Lemma erases_in_l cfg th sh te :
  erases F K cfg th sh -> In te th -> exists f h, tprojects F K f te h /\ incl h sh.
Proof.
  induction 1 as [|cfg te' th h sh Hp He IH]; intros Hi; [contradiction|].
  destruct Hi as [<-|Hi].
  - eexists _, h. split; [exact Hp|apply incl_appl, incl_refl].
  - destruct (IH Hi) as (f & h' & H1 & H2). exists f, h'. split; [exact H1|apply incl_appr; exact H2].
Qed.

Lemma erases_length cfg th sh : erases F K cfg th sh -> (length sh <= length th)%nat.
Proof.
  induction 1 as [|cfg te th h sh Hp He IH]; [cbn; lia|].
  rewrite app_length. cbn [length]. destruct (tprojects_shape _ _ _ Hp) as [->|[x ->]]; cbn [length]; lia.
Qed.

Lemma erases_read cfg th sh d : erases F K cfg th sh -> sread sh d -> tread th d.
Proof.
  intros He [r Hr]. destruct (erases_in_r _ _ _ _ He Hr) as (te & f & Hi & Hp).
  inversion Hp; subst; eexists; eauto.
Qed.

(** What is written. *)
Definition carried (v : option (content (M := M))) (o : option bytes) : Prop :=
  match v, o with
  | None, None => True
  | Some (inl m), Some p => exists f, encoded K f m p
  | Some (inr p), Some p' => p' = p
  | _, _ => False
  end.

Lemma carried_typed f x o : encoded_opt K f x o -> carried (typed_content x) o.
Proof. destruct x, o; cbn; eauto. Qed.
Lemma carried_raw o : carried (raw_content o) o.
Proof. destruct o; cbn; auto. Qed.

Definition write_call (k : kind) (o : option bytes) (w : bufwriter) : option scall :=
  match k, o with
  | KindConnect, o => Some (SConnect o w)
  | KindAck, o => Some (SAck o w)
  | KindMessage, Some p => Some (SWrite p w)
  | KindMessage, None => None
  end.

Lemma unencodable_not_ok f m o : unencodable K f m o -> o <> Ok tt.
Proof. intros [(e & _ & ->)|(_ & ->)]; discriminate. Qed.

(** A successful writing call is a binary writing call. *)
Lemma tprojects_writing f c w' h k v w :
  tprojects F K f (c, TOther (SWritten (Ok tt) w')) h -> writing c = Some (k, v, w) ->
  exists o sc, write_call k o w = Some sc /\ carried v o /\ h = [(sc, SWritten (Ok tt) w')].
Proof.
  intros H Hw. inversion H; subst; cbn [writing] in Hw;
    try (exfalso; eapply unencodable_not_ok; [eassumption|reflexivity]).
  - destruct c0 as [d|cd w0|cd w0|data w0| |cfg]; try discriminate; injection Hw as <- <- <-.
    + exists cd. eexists. split; [reflexivity|]. split; [apply carried_raw|reflexivity].
    + exists cd. eexists. split; [reflexivity|]. split; [apply carried_raw|reflexivity].
    + exists (Some data). eexists. split; [reflexivity|]. split; [reflexivity|reflexivity].
  - injection Hw as <- <- <-. eexists o, _. split; [reflexivity|]. split; [eapply carried_typed; eassumption|reflexivity].
  - injection Hw as <- <- <-. eexists o, _. split; [reflexivity|]. split; [eapply carried_typed; eassumption|reflexivity].
  - injection Hw as <- <- <-. eexists (Some p), _. split; [reflexivity|]. split; [cbn; eauto|reflexivity].
Qed.

Lemma tprojects_write_call f te k o w sc r :
  tprojects F K f te [(sc, r)] -> write_call k o w = Some sc ->
  exists c v, te = (c, TOther r) /\ writing c = Some (k, v, w) /\ carried v o.
Proof.
  intros H Hw. destruct k; [|..|destruct o as [p|]; [|discriminate]]; injection Hw as <-; inversion H; subst.
  - eexists _, _. split; [reflexivity|]. split; [reflexivity|apply carried_raw].
  - eexists _, _. split; [reflexivity|]. split; [reflexivity|eapply carried_typed; eassumption].
  - eexists _, _. split; [reflexivity|]. split; [reflexivity|apply carried_raw].
  - eexists _, _. split; [reflexivity|]. split; [reflexivity|eapply carried_typed; eassumption].
  - eexists _, _. split; [reflexivity|]. split; [reflexivity|reflexivity].
  - eexists _, _. split; [reflexivity|]. split; [reflexivity|cbn; eauto].
Qed.

(** What is returned. *)
Definition returned_as (o : option bytes) (v : option (content (M := M))) : Prop :=
  match o, v with
  | None, None => True
  | Some p, Some (inl m) => payload_result F K p (Ok m)
  | Some p, Some (inr p') => p' = p
  | _, _ => False
  end.

Lemma value_returned o x : value_of F K o x -> returned_as o (typed_content x).
Proof. destruct o, x; cbn; auto. Qed.
Lemma raw_returned o : returned_as o (raw_content o).
Proof. destruct o; cbn; auto. Qed.

Lemma arrives (HK : CodecLaws K) v o v' : carried v o -> returned_as o v' -> arrives_as_opt F K v v'.
Proof.
  destruct v as [[m|p]|], o as [q|], v' as [[m'|p']|]; cbn; auto; try contradiction.
  - intros (f & en & b & He & Hb & ->) H.
    inversion H as [| | | |f' de r m0 Hf Hd Hr Heq|]; subst.
    apply app_inv_len in Heq as [Hh ->]; [|unfold len; rewrite !header_length; reflexivity].
    apply header_injective in Hh. subst f'.
    pose proof (codec_roundtrip K HK m f en de b He Hd Hb) as H2. congruence.
  - intros H ->. exact H.
  - intros -> H. exact H.
  - intros -> ->. reflexivity.
Qed.

Lemma typed_result_ok l ts : typed_result F K l (Ok ts) -> Forall2 (typed_as F K) l ts.
Proof.
  intros [(ts' & [= <-] & H)|(l1 & ts' & i & l2 & p & r & _ & _ & _ & _ & H)]; [exact H|].
  destruct r; contradiction.
Qed.

(** Kind, content and key of a binary message. *)
Definition bin_item (i : incoming_binary_message) : kind * option bytes * bytes :=
  match i with
  | IConnect o pk => (KindConnect, o, pk)
  | IAck o => (KindAck, o, [])
  | IMessage o => (KindMessage, o, [])
  end.
Definition item_of (i : incoming_binary_message) (t : kind * option (content (M := M)) * bytes) : Prop :=
  fst (fst t) = fst (fst (bin_item i)) /\ snd t = snd (bin_item i) /\ returned_as (snd (fst (bin_item i))) (snd (fst t)).

Lemma typed_item_of i t : typed_as F K i t -> item_of i (typed_item t).
Proof.
  destruct i as [o pk|o|o], t as [x pk'|x|x]; cbn [typed_as]; try contradiction.
  - intros [-> H]. repeat split. apply value_returned. exact H.
  - intros H. repeat split. apply value_returned. exact H.
  - intros H. repeat split. apply value_returned. exact H.
Qed.
Lemma raw_item_of i : item_of i (raw_item i).
Proof. destruct i; repeat split; apply raw_returned. Qed.

(** Each message returned is a message the binary call returned. *)
Lemma raw_items l : Forall2 item_of l (map raw_item l).
Proof. induction l as [|i l IH]; cbn [map]; constructor; [apply raw_item_of|exact IH]. Qed.
Lemma typed_items l ts : Forall2 (typed_as F K) l ts -> Forall2 item_of l (map typed_item ts).
Proof. induction 1; cbn [map]; constructor; [apply typed_item_of; assumption|assumption]. Qed.

Lemma tprojects_items f te h :
  tprojects F K f te h ->
  items (snd te) = [] \/ exists c l, h = [(c, SMsgs (Ok l))] /\ Forall2 item_of l (items (snd te)).
Proof.
  assert (forall (c : scall) (r : sreply), items (M := M) (TOther r) = [] \/
            exists c0 l, [(c, r)] = [(c0, SMsgs (Ok l))] /\ Forall2 item_of l (items (M := M) (TOther r))) as Hraw.
  { intros c [[l|e|p]|? ?|?|?]; try (left; reflexivity).
    right. exists c, l. split; [reflexivity|apply raw_items]. }
  destruct 1 as [c r|d l o Ho|d e|d p|x w o r Ho|x w o r Ho|m w p r Ho|m w o Ho|m w o Ho|m w o Ho]; cbn [snd];
    try (left; reflexivity); try apply Hraw.
  destruct o as [ts|e|p]; try (left; reflexivity). right. exists (SRead d), l. split; [reflexivity|].
  apply typed_items, typed_result_ok, Ho.
Qed.

Lemma srun_reply s cs s' sh c l : srun C Z T s cs = (s', sh) -> In (c, SMsgs (Ok l)) sh -> exists d, c = SRead d.
Proof.
  revert s sh. induction cs as [|c0 cs IH]; intros s sh; cbn [srun].
  - intros [= <- <-] [].
  - destruct (scall_step C Z T s c0) as [s1 r] eqn:E. destruct (srun C Z T s1 cs) as [s2 h] eqn:E2.
    intros [= <- <-] [H|H]; [|exact (IH _ _ E2 H)]. injection H as -> ->.
    destruct c as [d|cd w|cd w|data w| |cfg]; [eauto|..]; exfalso; cbn [scall_step] in E.
    + destruct (write_connect_msg_bin C Z cd s w) as [[? ?] ?]. discriminate.
    + destruct (write_ack_msg_bin C Z cd s w) as [[? ?] ?]. discriminate.
    + destruct (write_bin C Z T data s w) as [[? ?] ?]. discriminate.
    + destruct (sl_try_clone s) as [? ?]. discriminate.
    + destruct (sl_change_config cfg s) as [? ?]. discriminate.
Qed.

(** ** Layers *)
Definition erased (t : tsession (M := M)) (x : ssession) : Prop :=
  ss_sk x = ts_sk t /\ ss_seed x = ts_seed t /\ ss_conf x = ts_conf t /\ ss_pin x = ts_pin t /\
  ss_state x = ts_state t /\ erases F K (ts_conf t) (ts_log t) (ss_log x) /\ sgenuine C Z T x.

Lemma erased_exists t : tgenuine C Z T F K t -> exists x, erased t x.
Proof.
  intros (rs & given & s0 & cs & Hg & Hc & E).
  destruct (typed_projection _ _ _ _ _ _ _ _ _ Hc E) as (sh & He & Hs).
  exists {| ss_sk := ts_sk t; ss_seed := ts_seed t; ss_conf := ts_conf t; ss_pin := ts_pin t;
            ss_state := ts_state t; ss_log := sh |}.
  unfold erased. cbn. repeat split; auto. exists rs, given, s0, (map fst sh). auto.
Qed.

Lemma erased_put t x k o w w' sc d :
  erased t x -> write_call k o w = Some sc -> In (sc, SWritten (Ok tt) w') (ss_log x) ->
  takes_all w -> output w' = output w ++ d -> exists v, carried v o /\ tput t k v d.
Proof.
  intros (_ & _ & _ & _ & _ & He & _) Hw Hi Ht Ho. destruct (erases_in_r _ _ _ _ He Hi) as (te & f & Hte & Hp).
  destruct (tprojects_write_call _ _ _ _ _ _ _ Hp Hw) as (c & v & -> & Hc & Hv).
  exists v. split; [exact Hv|]. exists c, w, w'. auto.
Qed.

Lemma put_erased t x k v d :
  erased t x -> tput t k v d ->
  exists o, carried v o /\ match k with
                           | KindConnect => put x (SConnect o) d
                           | KindAck => put x (SAck o) d
                           | KindMessage => exists p, o = Some p /\ put x (SWrite p) d
                           end.
Proof.
  intros (_ & _ & _ & _ & _ & He & _) (c & w & w' & Hi & Hw & Ht & Ho).
  destruct (erases_in_l _ _ _ _ He Hi) as (f & h & Hp & Hin).
  destruct (tprojects_writing _ _ _ _ _ _ _ Hp Hw) as (o & sc & Hsc & Hv & ->).
  exists o. split; [exact Hv|]. assert (In (sc, SWritten (Ok tt) w') (ss_log x)) as Hx by (apply Hin; left; reflexivity).
  destruct k; cbn in Hsc; [|..|destruct o as [p|]; [|discriminate]]; injection Hsc as <-.
  - exists w, w'. auto.
  - exists w, w'. auto.
  - exists p. split; [reflexivity|]. exists w, w'. auto.
Qed.

Lemma returned_erased t x k v pk :
  erased t x -> treturned (ts_log t) k v pk ->
  exists i, sreturned (ss_log x) i /\ item_of i (k, v, pk).
Proof.
  intros (_ & _ & _ & _ & _ & He & rs & gv & s0 & cs & _ & _ & Hrun) (te & Hi & Hit).
  destruct (erases_in_l _ _ _ _ He Hi) as (f & h & Hp & Hin).
  destruct (tprojects_items _ _ _ Hp) as [Hn|(c & l & -> & Hl)]; [rewrite Hn in Hit; contradiction|].
  assert (In (c, SMsgs (Ok l)) (ss_log x)) as Hx by (apply Hin; left; reflexivity).
  destruct (srun_reply _ _ _ _ _ _ Hrun Hx) as (d & ->).
  destruct (forall2_in_r _ _ _ _ Hl Hit) as (i & Hii & Hk). exists i. split; [|exact Hk]. exists d, l. auto.
Qed.

Lemma panics_erased t x : erased t x -> tnever_panics (ts_log t) -> snever_panics (ss_log x).
Proof.
  intros (_ & _ & _ & _ & _ & He & _) Hn e Hi. destruct (erases_in_r _ _ _ _ He Hi) as (te & f & Hte & Hp).
  apply Hn in Hte. inversion Hp; subst; cbn in *; auto; contradiction.
Qed.

Definition image (B : tsession -> Prop) (x : ssession) : Prop := exists b, B b /\ erased b x.

Lemma sowned_image seed B : towned C Z T F K seed B -> sowned C Z T seed (image B).
Proof.
  intros Ho x (b & Hb & He). destruct (Ho b Hb) as [_ <-]. destruct He as (_ & -> & _ & _ & _ & _ & Hg). auto.
Qed.

Lemma sunforged_image seed B t x :
  towned C Z T F K seed B -> erased t x -> tunforged C seed B (ts_log t) -> sunforged C seed (image B) (ss_log x).
Proof.
  intros Ho He Hu text sig Hr Hv.
  assert (tread (ts_log t) (text ++ sig)) as Hr'
    by (destruct He as (_ & _ & _ & _ & _ & He & _); exact (erases_read _ _ _ _ He Hr)).
  destruct (Hu _ _ Hr' Hv) as (b & k & v & Hb & Hk & Hput).
  destruct (Ho b Hb) as [Hg _]. destruct (erased_exists b Hg) as (y & Hy).
  destruct (put_erased _ _ _ _ _ Hy Hput) as (o & _ & Hp).
  exists y, o. split; [exists b; auto|]. destruct k; [left; exact Hp|right; exact Hp|congruence].
Qed.

Lemma put_connect_erased b x o d : erased b x -> put x (SConnect o) d -> exists v, carried v o /\ tput b KindConnect v d.
Proof.
  intros He (w & w' & Hi & Ht & Ho).
  exact (erased_put _ _ KindConnect o w w' _ _ He eq_refl Hi Ht Ho).
Qed.
Lemma put_ack_erased b x o d : erased b x -> put x (SAck o) d -> exists v, carried v o /\ tput b KindAck v d.
Proof.
  intros He (w & w' & Hi & Ht & Ho).
  exact (erased_put _ _ KindAck o w w' _ _ He eq_refl Hi Ht Ho).
Qed.

Lemma erased_epk b x : erased b x -> sepk C x = tepk C b.
Proof. intros (H & _). unfold sepk, tepk. congruence. Qed.
Lemma erased_key b x : erased b x -> skey x = tkey b.
Proof. intros (_ & _ & _ & _ & H & _). unfold skey, tkey. congruence. Qed.

Section Session.
Context (HL : CryptoLaws C) (HZ : ZipLaws Z) (HK : CodecLaws K).
Context (a : tsession (M := M)) (Ha : tgenuine C Z T F K a).
Context (seed : bytes) (B : tsession (M := M) -> Prop) (HB : towned C Z T F K seed B)
  (Hu : tunforged C seed B (ts_log a)).

Theorem tconnect_authentic v' :
  treturned (ts_log a) KindConnect v' (ed25519_public C seed) ->
  exists b v cd, B b /\ tput b KindConnect v (signed_connect C seed (tepk C b) cd) /\ arrives_as_opt F K v v' /\
    tkey a = derived_secret C (ts_sk a) (tepk C b).
Proof.
  intros Hr. destruct (erased_exists a Ha) as (x & Hx).
  destruct (returned_erased _ _ _ _ _ Hx Hr) as (i & Hi & Hk & Hpk & Hv).
  destruct i as [o pk|o|o]; cbn in Hk, Hpk, Hv; try discriminate. subst pk.
  assert (sgenuine C Z T x) as Hg by apply Hx.
  destruct (sconnect_authentic C Z T HL HZ x Hg seed _ (sowned_image _ _ HB) (sunforged_image _ _ _ _ HB Hx Hu) o Hi)
    as (y & cd & (b & Hb & Hy) & Hput & Hkey).
  destruct (put_connect_erased _ _ _ _ Hy Hput) as (v & Hc & Hp).
  rewrite (erased_epk _ _ Hy) in Hp, Hkey. rewrite (erased_key _ _ Hx) in Hkey.
  exists b, v, cd. split; [exact Hb|]. split; [exact Hp|]. split; [exact (arrives HK _ _ _ Hc Hv)|].
  destruct Hx as (<- & _). exact Hkey.
Qed.

Lemma peer_erased x pk : erased a x -> tpeer_is a pk -> speer_is x pk.
Proof.
  intros Hx [H|(v & H)]; [left; destruct Hx as (_ & _ & _ & -> & _); exact H|].
  right. destruct (returned_erased _ _ _ _ _ Hx H) as (i & Hi & Hk & Hpk & _).
  destruct i as [o pk'|o|o]; cbn in Hk, Hpk; try discriminate. subst pk'. exists o. exact Hi.
Qed.

Theorem tack_authentic v' pk :
  tpeer_is a (ed25519_public C seed) -> treturned (ts_log a) KindAck v' pk ->
  exists b v cd d e, B b /\ tput b KindAck v (signed_ack C seed (tepk C a) cd) /\ arrives_as_opt F K v v' /\
    tread (ts_log b) d /\ carries_epk d e /\ sha256 C e = sha256 C (tepk C a).
Proof.
  intros Hp0 Hr. destruct (erased_exists a Ha) as (x & Hx).
  destruct (returned_erased _ _ _ _ _ Hx Hr) as (i & Hi & Hk & _ & Hv).
  destruct i as [o pk'|o|o]; cbn in Hk, Hv; try discriminate.
  assert (sgenuine C Z T x) as Hg by apply Hx.
  destruct (sack_authentic C Z T HL HZ x Hg seed _ (sowned_image _ _ HB) (sunforged_image _ _ _ _ HB Hx Hu) o
              (peer_erased _ _ Hx Hp0) Hi)
    as (y & cd & d & e & (b & Hb & Hy) & Hput & Hrd & He & Hs).
  destruct (put_ack_erased _ _ _ _ Hy Hput) as (v & Hc & Hp).
  rewrite (erased_epk _ _ Hx) in Hp, Hs.
  exists b, v, cd, d, e. split; [exact Hb|]. split; [exact Hp|]. split; [exact (arrives HK _ _ _ Hc Hv)|].
  split; [|auto]. destruct Hy as (_ & _ & _ & _ & _ & Hy & _). exact (erases_read _ _ _ _ Hy Hrd).
Qed.

Theorem testablished_authentic k :
  ts_pin a = Some (ed25519_public C seed) -> tnever_panics (ts_log a) -> sestablished (ts_state a) ->
  tkey a = Some k ->
  (exists b v cd, B b /\ tput b KindConnect v (signed_connect C seed (tepk C b) cd) /\
     derived_secret C (ts_sk a) (tepk C b) = Some k) /\
  (exists b v cd, B b /\ tput b KindAck v (signed_ack C seed (tepk C a) cd)).
Proof.
  intros Hpin Hn Hest Hk. destruct (erased_exists a Ha) as (x & Hx).
  assert (sgenuine C Z T x) as Hg by apply Hx.
  assert (ss_pin x = Some (ed25519_public C seed)) as H1 by (destruct Hx as (_ & _ & _ & -> & _); exact Hpin).
  assert (sestablished (ss_state x)) as H2 by (destruct Hx as (_ & _ & _ & _ & -> & _); exact Hest).
  assert (skey x = Some k) as H3 by (rewrite (erased_key _ _ Hx); exact Hk).
  destruct (sestablished_authentic C Z T HL HZ x Hg seed _ (sowned_image _ _ HB) (sunforged_image _ _ _ _ HB Hx Hu) k
              H1 (panics_erased _ _ Hx Hn) H2 H3)
    as [(y & o & cd & (b & Hb & Hy) & Hput & Hd) (y2 & o2 & cd2 & (b2 & Hb2 & Hy2) & Hput2)].
  split.
  - destruct (put_connect_erased _ _ _ _ Hy Hput) as (v & _ & Hp). rewrite (erased_epk _ _ Hy) in Hp, Hd.
    exists b, v, cd. split; [exact Hb|]. split; [exact Hp|]. destruct Hx as (<- & _). exact Hd.
  - destruct (put_ack_erased _ _ _ _ Hy2 Hput2) as (v & _ & Hp). rewrite (erased_epk _ _ Hx) in Hp.
    exists b2, v, cd2. auto.
Qed.
End Session.

(** ** User messages *)

(** [m] comes from part of [l], in order. *)
Inductive picks {A B} (R : A -> B -> Prop) : list A -> list B -> Prop :=
| pk_nil : picks R [] []
| pk_take x y l m : R x y -> picks R l m -> picks R (x :: l) (y :: m)
| pk_skip x l m : picks R l m -> picks R (x :: l) m.

Lemma picks_app {A B} (R : A -> B -> Prop) l l' m m' : picks R l m -> picks R l' m' -> picks R (l ++ l') (m ++ m').
Proof. induction 1; intros H'; cbn [app]; [exact H'|apply pk_take; auto|apply pk_skip; auto]. Qed.
Lemma picks_none {A B} (R : A -> B -> Prop) l : picks R l [].
Proof. induction l; constructor; assumption. Qed.

Definition kept (i : kind * option (content (M := M)) * bytes) : list (option content) :=
  match i with (KindMessage, v, _) => [v] | _ => [] end.

Lemma items_kept l m : Forall2 item_of l m -> picks returned_as (flat_map message_of l) (flat_map kept m).
Proof.
  induction 1 as [|i [[k v] pk] l m (Hk & _ & Hv) Hf IH]; cbn [flat_map]; [constructor|].
  apply picks_app; [|exact IH].
  destruct i as [o pk'|o|o]; cbn in *; subst k; cbn; [constructor..|]. apply pk_take; [exact Hv|constructor].
Qed.

Lemma erases_received cfg th sh : erases F K cfg th sh -> picks returned_as (smessages sh) (treceived th).
Proof.
  induction 1 as [|cfg te th h sh Hp He IH]; [constructor|].
  assert (smessages (h ++ sh) = smessages h ++ smessages sh) as -> by apply flat_map_app.
  change (treceived (te :: th)) with (flat_map kept (items (snd te)) ++ treceived th).
  apply picks_app; [|exact IH].
  destruct (tprojects_items _ _ _ Hp) as [->|(c & l & -> & Hl)]; [apply picks_none|].
  cbn. rewrite app_nil_r. apply items_kept. exact Hl.
Qed.

Lemma picked (l : list (N * bytes)) (m : list (option (content (M := M)))) :
  picks returned_as (map (fun x => Some (snd x)) l) m ->
  NoDup (map fst l) ->
  exists l' : list (N * content),
    m = map (fun x => Some (snd x)) l' /\ NoDup (map fst l') /\
    forall n v, In (n, v) l' -> exists p, In (n, p) l /\ returned_as (Some p) (Some v).
Proof.
  revert m. induction l as [|[n p] l IH]; intros m H Hn; cbn [map snd fst] in *.
  - inversion H; subst. exists []. repeat split; [constructor|intros ? ? []].
  - inversion Hn as [|? ? Hnot Hn']; subst. inversion H as [|? v ? m' Hr Hm|? ? ? Hm]; subst.
    + destruct v as [v|]; [|contradiction]. destruct (IH _ Hm Hn') as (l' & -> & Hd & Hl).
      exists ((n, v) :: l'). cbn [map snd fst]. split; [reflexivity|]. split.
      * constructor; [|exact Hd]. intros Hi. apply in_map_iff in Hi as ([n0 v0] & E & Hi). cbn in E. subst n0.
        destruct (Hl _ _ Hi) as (p' & Hp' & _). apply Hnot. apply in_map_iff. exists (n, p'). auto.
      * intros n0 v0 [E|Hi]; [injection E as <- <-; exists p; split; [left; reflexivity|exact Hr]|].
        destruct (Hl _ _ Hi) as (p' & Hp' & Hr'). exists p'. split; [right; exact Hp'|exact Hr'].
    + destruct (IH _ Hm Hn') as (l' & -> & Hd & Hl). exists l'. split; [reflexivity|]. split; [exact Hd|].
      intros n0 v0 Hi. destruct (Hl _ _ Hi) as (p' & Hp' & Hr'). exists p'. split; [right; exact Hp'|exact Hr'].
Qed.

Lemma tprojects_written f te h :
  tprojects F K f te h -> Forall2 (fun v p => carried v (Some p)) (twritten [te]) (swrites h).
Proof.
  destruct 1 as [c r|d l o Ho|d e|d p|x w o r Ho|x w o r Ho|m w p r Ho|m w o Ho|m w o Ho|m w o Ho];
    try constructor.
  - destruct c as [d|cd w|cd w|data w| |cfg], r as [?|[u|e|p] ?|?|?]; cbn; try constructor; [reflexivity|constructor].
  - destruct r as [?|[u|e|p0] ?|?|?]; cbn; try constructor; [exists f; exact Ho|constructor].
  - destruct o as [[]|e|p]; cbn; try constructor. exfalso. exact (unencodable_not_ok _ _ _ Ho eq_refl).
Qed.

Lemma erases_written cfg th sh :
  erases F K cfg th sh -> Forall2 (fun v p => carried v (Some p)) (twritten th) (swrites sh).
Proof.
  induction 1 as [|cfg te th h sh Hp He IH]; [constructor|].
  assert (swrites (h ++ sh) = swrites h ++ swrites sh) as -> by apply flat_map_app.
  assert (twritten (te :: th) = twritten [te] ++ twritten th) as -> by apply (flat_map_app _ [te] th).
  apply Forall2_app; [eapply tprojects_written; exact Hp|exact IH].
Qed.

Theorem tmessages_authentic (HL : CryptoLaws C) (HZ : ZipLaws Z) (HK : CodecLaws K)
    (a : tsession (M := M)) (W : tsession (M := M) -> Prop) k :
  tgenuine C Z T F K a -> 2 * len (ts_log a) < 2 ^ 64 -> tkey a = Some k ->
  (forall b, W b -> tgenuine C Z T F K b /\ len (twritten (ts_log b)) < 2 ^ 64) ->
  tunforged_tags C k W (ts_log a) ->
  exists l : list (N * content),
    treceived (ts_log a) = map (fun x => Some (snd x)) l /\
    NoDup (map fst l) /\
    forall n v', In (n, v') l ->
      exists b v, W b /\ tkey b = Some k /\ nth_error (twritten (ts_log b)) (N.to_nat n) = Some (Some v) /\
        arrives_as F K v v'.
Proof.
  intros Ha Hlen Hk HW Hu. destruct (erased_exists a Ha) as (x & Hx).
  pose proof Hx as (_ & _ & _ & _ & _ & He & Hg).
  assert (2 * len (ss_log x) < 2 ^ 64) as Hlx.
  { pose proof (erases_length _ _ _ He). unfold len in *. lia. }
  assert (skey x = Some k) as Hkx by (rewrite (erased_key _ _ Hx); exact Hk).
  assert (forall y, image W y -> sgenuine C Z T y /\ len (swrites (ss_log y)) < 2 ^ 64) as HWy.
  { intros y (b & Hb & Hy). split; [apply Hy|]. destruct (HW b Hb) as [_ Hl].
    destruct Hy as (_ & _ & _ & _ & _ & Hy & _). apply erases_written in Hy. apply forall2_length in Hy.
    unfold len in *. rewrite <- Hy. exact Hl. }
  assert (sunforged_tags C k (image W) (ss_log x)) as Hux.
  { intros text Hr. destruct (Hu text (erases_read _ _ _ _ He Hr)) as (b & v & Hb & Hkb & Hput).
    destruct (HW b Hb) as [Hgb _]. destruct (erased_exists b Hgb) as (y & Hy).
    destruct (put_erased _ _ _ _ _ Hy Hput) as (o & _ & p & -> & Hp).
    exists y, p. split; [exists b; auto|]. split; [rewrite (erased_key _ _ Hy); exact Hkb|exact Hp]. }
  destruct (smessages_authentic C Z T HL HZ x (image W) k Hg Hlx Hkx HWy Hux) as (l & Hl & Hd & Hn).
  pose proof (erases_received _ _ _ He) as Hrec. rewrite Hl in Hrec.
  destruct (picked l _ Hrec Hd) as (l' & E & Hd' & Hl'). exists l'. split; [exact E|]. split; [exact Hd'|].
  intros n v' Hi. destruct (Hl' _ _ Hi) as (p & Hp & Hr). destruct (Hn _ _ Hp) as (y & (b & Hb & Hy) & Hky & Hnth).
  pose proof Hy as (_ & _ & _ & _ & _ & Hey & _).
  destruct (forall2_nth _ _ _ _ _ (erases_written _ _ _ Hey) Hnth) as (v & Hv & Hc).
  destruct v as [v|]; [|contradiction].
  exists b, v. split; [exact Hb|]. split; [rewrite <- (erased_key _ _ Hy); exact Hky|]. split; [exact Hv|].
  exact (arrives HK (Some v) (Some p) (Some v') Hc Hr).
Qed.
End WithEnv.

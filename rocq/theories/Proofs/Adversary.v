(** Authentication when signatures and tags are not forged. *)

From Coq Require Import Arith ZifyBool ZifyNat ZifyN.
From Verif.Model Require Import Minimal.
From Verif.Spec Require Import Wire Datagram Trace ReadSpec Accept Session Writers Attacks Adversary.
From Verif.Proofs Require Import BaseFacts IoFacts CipherFacts ReaderFacts ReadCases WindowFacts Invariant
  Negotiation Failure DatagramFacts ReadSpecFacts Accept Keys TraceInv UserReads Ledger Nonces Sending Early
  Histories Corollaries DevErrors CompleteFacts.

Section WithEnv.
Context (C : Crypto) (T : target) (HL : CryptoLaws C).

(** ** What an owner signs *)
Lemma ack_layout b cd t :
  genuine C T b -> In (CAck cd, RBytes (Ok t)) (ses_log b) ->
  exists e, t = ack_frame (sha256 C e) (custom cd) /\
    exists d r, In (CRead d, r) (ses_log b) /\ carries_epk d e /\
      (connect_accepted (CRead d, r) = true \/ panics r = true).
Proof.
  intros (s0 & cs & Hc & E) Hin. apply in_split in Hin as (h1 & h2 & Eh). rewrite Eh in E.
  destruct (run_at _ _ _ _ _ _ _ _ E) as (cs1 & cs2 & s1 & s2 & E1 & E2 & _).
  cbn [fst snd call_step] in E2. destruct (create_ack_message C cd s1) as [s3 o] eqn:Ec.
  injection E2 as -> ->.
  pose proof (tinv_run C T HL _ _ _ s0 cs1 s1 h1 Hc E1) as HT.
  apply (create_ack_cases C T) in Ec as [(st & e & _ & _ & Hpe & Ho)|(_ & e & Ho & _)];
    [|discriminate|exact (ti_inv _ _ _ _ _ _ HT)].
  injection Ho as ->. exists e. split; [reflexivity|].
  destruct (ti_peer _ _ _ _ _ _ HT e Hpe) as (d & r & Hi & Hca & Hx).
  exists d, r. split; [rewrite Eh; apply in_app_iff; left; exact Hi|]. auto.
Qed.

Lemma to_sign_cases b t :
  genuine C T b -> to_sign (ses_log b) t ->
  (exists k cd, In (CConnect k cd, RBytes (Ok t)) (ses_log b) /\ t = connect_frame (epk C b) k (custom cd)) \/
  (exists cd e, In (CAck cd, RBytes (Ok t)) (ses_log b) /\ t = ack_frame (sha256 C e) (custom cd) /\
     exists d r, In (CRead d, r) (ses_log b) /\ carries_epk d e /\
       (connect_accepted (CRead d, r) = true \/ panics r = true)).
Proof.
  intros Hg [c Hin]. pose proof Hg as (s0 & cs & Hc & E). pose proof Hin as Hin0.
  apply in_split in Hin as (h1 & h2 & Eh). rewrite Eh in E.
  destruct (run_at _ _ _ _ _ _ _ _ E) as (cs1 & cs2 & s1 & s2 & E1 & E2 & _).
  cbn [fst snd] in E2.
  assert ((exists k cd, c = CConnect k cd) \/ exists cd, c = CAck cd) as [(k & cd & ->)|(cd & ->)].
  { destruct c; cbn [call_step] in E2; eauto;
      match type of E2 with context [let '(_, _) := ?x in _] => destruct x as [? ?] end;
      try discriminate. destruct p; discriminate. }
  - left. exists k, cd. split; [exact Hin0|]. eapply (connect_layout C T HL); [exact Hc|exact E|].
    apply in_app_iff. right. left. reflexivity.
  - right. destruct (ack_layout b cd t Hg Hin0) as (e & H). exists cd, e. auto.
Qed.

Lemma connect_text L e pk cd k cd' e' :
  length e = 32%nat -> length e' = 32%nat -> length pk = length k ->
  frame_len L [x00; x01] (connect_content e pk cd) = connect_frame e' k (custom cd') ->
  e = e' /\ pk = k /\ cd = custom cd'.
Proof.
  intros He He' Hk E. unfold connect_frame, frame, frame_len, connect_content in E.
  do 2 (apply app_inv_head in E). apply app_inv_len in E as [_ E]; [|reflexivity].
  apply app_inv_head in E. apply app_inv_len in E as [E1 E]; [|lia].
  apply app_inv_head in E. apply app_inv_len in E as [E2 E]; [|exact Hk]. auto.
Qed.

Lemma ack_text L x cd y cd' :
  length x = 32%nat -> length y = 32%nat ->
  frame_len L [x00; x02] (x ++ cd) = ack_frame y (custom cd') -> x = y /\ cd = custom cd'.
Proof.
  intros He He' E. unfold ack_frame, frame, frame_len in E.
  do 2 (apply app_inv_head in E). apply app_inv_len in E as [_ E]; [|reflexivity].
  apply app_inv_head in E. apply app_inv_len in E; [exact E|lia].
Qed.

Lemma text_types L c L' c' :
  frame_len L [x00; x01] c <> frame_len L' [x00; x02] c'.
Proof.
  unfold frame_len. intros E.
  do 2 (apply app_inv_head in E). apply app_inv_len in E as [_ E]; [|reflexivity]. discriminate.
Qed.

(** ** What a layer accepts *)
Lemma source_submitted h1 e h2 d : source h1 e d -> In d (submitted (h1 ++ e :: h2)).
Proof.
  unfold source, submitted. rewrite flat_map_app, in_app_iff. cbn [flat_map]. rewrite in_app_iff.
  destruct e as [[] r]; cbn [fst]; intros H; try contradiction.
  - subst. right. left. left. reflexivity.
  - left. apply in_flat_map. eexists. split; [exact H|]. left. reflexivity.
Qed.

Section Session.
Context (a : session) (Ha : genuine C T a).

Lemma one_key_ok pk : peer_is a pk ->
  forall h1 e h2 m, ses_log a = h1 ++ e :: h2 -> In m (delivered (snd e)) ->
    negotiation_ok C T pk (epk C a) h1 e m.
Proof.
  intros Hp. destruct Ha as (s0 & cs & Hc & E).
  destruct (one_peer_key C T HL _ _ _ _ _ _ _ Hc E) as (pk' & Hpin & Hok).
  assert (pk' = pk) as ->; [|exact Hok].
  destruct Hp as [Hp|(e & al & o & Hin & Hm)]; [auto|].
  apply in_split in Hin as (h1 & h2 & Eh). pose proof (Hok _ _ _ _ Eh Hm) as [H _]. auto.
Qed.

(** A CONNECT is delivered by the read of its datagram. *)
Lemma connect_by_read h1 e h2 al pk o :
  ses_log a = h1 ++ e :: h2 -> In (MConnect al pk o) (delivered (snd e)) ->
  exists d s, e = (CRead d, RMsg (Ok (Some (MConnect al pk o)))) /\ reachable C T s /\
    snd (read C T d s) = Ok (Some (MConnect al pk o)).
Proof.
  intros Eh Hm. destruct Ha as (s0 & cs & Hc & E). rewrite Eh in E.
  destruct (run_at _ _ _ _ _ _ _ _ E) as (cs1 & cs2 & s1 & s2 & E1 & E2 & _).
  pose proof (run_reachable C T _ _ _ _ (reach_create C T _ _ _ _ Hc) E1) as HR.
  destruct e as [c r]. cbn [fst snd] in *. destruct c; cbn [call_step] in E2.
  - destruct (read C T incoming s1) as [s3 x] eqn:Er. injection E2 as -> <-. exists incoming, s1.
    destruct x as [[m|]| |]; cbn in Hm; try contradiction. destruct Hm as [->|[]]. rewrite Er. auto.
  - destruct (take_ack_msg_recv_too_early C T s1) as [s3 x] eqn:Et. injection E2 as -> <-.
    destruct x as [[m|]| |]; cbn in Hm; try contradiction. destruct Hm as [->|[]].
    apply (take_ack_ack C T HL _ _ _ HR) in Et as [|[y Hy]]; discriminate.
  - destruct (drain_tmp_stack_user_msgs C T s1) as [s3 x] eqn:Et. injection E2 as -> <-.
    destruct x as [l| |]; cbn in Hm; try contradiction.
    apply (drain_users C T _ _ _ HR) in Et.
    rewrite Forall_forall in Et. apply Et in Hm. discriminate.
  - destruct (create_connect_message C public_key cd s1); injection E2 as -> <-; contradiction.
  - destruct (create_ack_message C cd s1); injection E2 as -> <-; contradiction.
  - destruct (write_message C T data s1 w) as [[? ?] ?]; injection E2 as -> <-; contradiction.
  - destruct (try_clone s1); injection E2 as -> <-; contradiction.
  - destruct (change_config cfg s1); injection E2 as -> <-; contradiction.
Qed.

(** The signed datagram behind a delivered CONNECT or ACK. *)
Lemma connect_signed pk e al o :
  In e (ses_log a) -> In (MConnect al pk o) (delivered (snd e)) ->
  exists L e' cd sig, length e' = 32%nat /\ o = nonempty cd /\
    In (frame_len L [x00; x01] (connect_content e' pk cd) ++ sig) (submitted (ses_log a)) /\
    ed25519_verify C pk (frame_len L [x00; x01] (connect_content e' pk cd)) sig = true /\
    session_key (ses_state a) = derived_secret C (ses_sk a) e'.
Proof.
  intros Hin Hm. pose proof Hin as Hin0. apply in_split in Hin as (h1 & h2 & Eh).
  destruct (connect_by_read _ _ _ _ _ _ Eh Hm) as (d & s & -> & HR & Hrd).
  apply (connect_canonical C T HL s d al pk o HR) in Hrd
    as (_ & Hpk & L & e' & cd & sig & _ & He' & _ & Hd & Ho & Hv & _).
  exists L, e', cd, sig. split; [exact He'|]. split; [exact Ho|]. split; [|split; [exact Hv|]].
  - rewrite Eh, <- Hd. apply source_submitted. reflexivity.
  - destruct Ha as (s0 & cs & Hc & E).
    eapply (accepted_connect_decides C T HL); [exact Hc|exact E|exact Hin0|reflexivity|].
    split; [apply len_32; exact He'|]. exists L, pk, (cd ++ sig). split; [apply len_32; exact Hpk|].
    rewrite Hd. unfold frame_len, connect_content. rewrite <- !app_assoc. reflexivity.
Qed.

Lemma ack_signed pk e o :
  peer_is a pk -> In e (ses_log a) -> In (MAck o) (delivered (snd e)) ->
  exists L cd sig, o = nonempty cd /\
    In (frame_len L [x00; x02] (sha256 C (epk C a) ++ cd) ++ sig) (submitted (ses_log a)) /\
    ed25519_verify C pk (frame_len L [x00; x02] (sha256 C (epk C a) ++ cd)) sig = true.
Proof.
  intros Hpk Hin Hm. apply in_split in Hin as (h1 & h2 & Eh).
  destruct (one_key_ok pk Hpk _ _ _ _ Eh Hm) as (d & cd & Hs & Ho & L & sig & _ & Hd & Hv).
  exists L, cd, sig. split; [exact Ho|]. split; [|exact Hv].
  rewrite Eh, <- Hd. apply source_submitted. exact Hs.
Qed.

(** A layer that expects [pk] and has negotiated has delivered both. *)
Lemma established_deliveries pk k :
  ses_pin a = Some pk -> panic_free (ses_log a) -> established (ses_state a) ->
  session_key (ses_state a) = Some k ->
  (exists e al o, In e (ses_log a) /\ In (MConnect al pk o) (delivered (snd e))) /\
  (exists e o, In e (ses_log a) /\ In (MAck o) (delivered (snd e))).
Proof.
  intros Hpin Hp Hest Hk. pose proof Ha as (s0 & cs & Hc & E).
  pose proof (proj1 (negotiation_exact C T _ _ _ _ _ _ _ Hc E (panic_free_no_panic _ Hp)) Hest) as Hn.
  destruct Hn as (_ & (e1 & Hi1 & H1) & _ & (e2 & Hi2 & H2) & _). split.
  - destruct e1 as [c r]. unfold connect_accepted in H1. cbn [snd] in H1.
    destruct r as [[[[al k' o| |]|]|er|]| | | | |]; try discriminate.
    + pose proof Hi1 as Hs. apply in_split in Hs as (h1 & h2 & Eh).
      assert (In (MConnect al k' o) (delivered (snd (c, RMsg (Ok (Some (MConnect al k' o))))))) as Hm by (left; reflexivity).
      pose proof (one_key_ok pk (or_introl Hpin) _ _ _ _ Eh Hm) as [-> _].
      eexists _, al, o. split; [exact Hi1|exact Hm].
    + exfalso. destruct er; try discriminate.
      pose proof (tinv_run C T HL _ _ _ _ _ _ _ Hc E) as HT.
      destruct (ti_acc _ _ _ _ _ _ HT _ Hi1 eq_refl) as (d & e' & Hf & Hcar & _). cbn in Hf. subst c.
      destruct (proj2 (missing_secret_iff C T HL _ _ _ _ _ _ _ []
        {| bw_cap := 0; bw_buf := []; bw_sink := {| sink_data := []; sink_script := [] |} |} Hc E Hest)
        (ex_intro _ d Hi1)) as (s' & w' & Hw).
      apply write_message_cases in Hw
        as [(_ & _ & _ & [(? & ? & _ & H)|[_ H]])|[(_ & H & _)|(_ & k' & o1 & _ & _ & H)]]; try discriminate.
      * unfold session_key in Hk. rewrite H in Hk. discriminate.
      * destruct H as [(e & _ & H & _)|[(_ & n & _ & _ & H)|(_ & q & Hq & _ & H)]]; try discriminate.
        injection H as <-. destruct (tame_u64_incr _ _ _ Hq); discriminate.
  - destruct e2 as [c r]. unfold ack_accepted in H2. cbn [snd] in H2.
    destruct r as [[[[| o|]|]|er|]| | | | |]; try discriminate.
    eexists _, o. split; [exact Hi2|left; reflexivity].
Qed.

Context (pk : bytes) (B : session -> Prop) (HB : owned C T pk B) (HU : unforged C pk B (ses_log a)).

Theorem connect_authentic e al o :
  In e (ses_log a) -> In (MConnect al pk o) (delivered (snd e)) ->
  exists b cd t, B b /\ In (CConnect pk cd, RBytes (Ok t)) (ses_log b) /\ o = nonempty (custom cd) /\
    session_key (ses_state a) = derived_secret C (ses_sk a) (epk C b).
Proof.
  intros Hin Hm.
  destruct (connect_signed pk e al o Hin Hm) as (L & e' & cd & sig & He' & Ho & Hs & Hv & Hk).
  destruct (HU _ _ Hs Hv) as (b & Hb & Hsign).
  destruct (HB b Hb) as [Hg Hown].
  apply to_sign_cases in Hsign as [(k & cd' & Hi & Ht)|(cd' & e2 & _ & Ht & _)]; [| |exact Hg].
  - pose proof (Hown _ _ _ Hi) as ->.
    apply connect_text in Ht as (E1 & _ & E3); [|exact He'|apply (law_x25519_public_len C HL)|reflexivity].
    eexists b, cd', _. split; [exact Hb|]. split; [exact Hi|]. split; [congruence|].
    rewrite <- E1. exact Hk.
  - exfalso. exact (text_types _ _ _ _ Ht).
Qed.

Theorem ack_authentic e o :
  peer_is a pk -> In e (ses_log a) -> In (MAck o) (delivered (snd e)) ->
  exists b cd d r x, B b /\
    In (CAck cd, RBytes (Ok (ack_frame (sha256 C (epk C a)) (custom cd)))) (ses_log b) /\
    o = nonempty (custom cd) /\
    In (CRead d, r) (ses_log b) /\ (connect_accepted (CRead d, r) = true \/ panics r = true) /\
    carries_epk d x /\ sha256 C x = sha256 C (epk C a).
Proof.
  intros Hpk Hin Hm.
  destruct (ack_signed pk e o Hpk Hin Hm) as (L & cd & sig & Ho & Hs & Hv).
  destruct (HU _ _ Hs Hv) as (b & Hb & Hsign).
  destruct (HB b Hb) as [Hg Hown].
  apply to_sign_cases in Hsign as [(k & cd' & Hi & Ht)|(cd' & x & Hi & Ht & d' & r & Hr & Hcar & Hx)]; [| |exact Hg].
  - exfalso. symmetry in Ht. exact (text_types _ _ _ _ Ht).
  - pose proof Ht as Ht'.
    apply ack_text in Ht as [E1 E2]; [|apply (law_sha256_len C HL)..].
    exists b, cd', d', r, x. split; [exact Hb|]. split; [rewrite Ht', <- E1 in Hi; exact Hi|].
    split; [congruence|]. auto.
Qed.

(** A layer that expects [pk] and has negotiated. *)
Theorem established_authentic k :
  ses_pin a = Some pk -> panic_free (ses_log a) -> established (ses_state a) ->
  session_key (ses_state a) = Some k ->
  (exists b cd t, B b /\ In (CConnect pk cd, RBytes (Ok t)) (ses_log b) /\
     derived_secret C (ses_sk a) (epk C b) = Some k) /\
  (exists b cd, B b /\ In (CAck cd, RBytes (Ok (ack_frame (sha256 C (epk C a)) (custom cd)))) (ses_log b)).
Proof.
  intros Hpin Hp Hest Hk.
  destruct (established_deliveries pk k Hpin Hp Hest Hk) as [(e1 & al & o & Hi1 & H1) (e2 & o2 & Hi2 & H2)]. split.
  - destruct (connect_authentic _ _ _ Hi1 H1) as (b & cd & t & X1 & X2 & _ & X3).
    exists b, cd, t. split; [exact X1|]. split; [exact X2|]. congruence.
  - destruct (ack_authentic _ o2 (or_introl Hpin) Hi2 H2) as (b & cd & d & r & x & X1 & X2 & _). eauto.
Qed.
End Session.

(** ** User messages *)
Lemma writes_count s cs s' h : run C T s cs = (s', h) -> length (writes h) = count written h.
Proof.
  revert s h. induction cs as [|c cs IH]; intros s h E; [injection E as _ <-; reflexivity|].
  cbn [run] in E. destruct (call_step C T s c) as [s1 r] eqn:Ec. destruct (run C T s1 cs) as [s2 h2] eqn:Er.
  injection E as -> <-. specialize (IH _ _ Er). unfold writes, count in *. cbn [flat_map filter].
  rewrite app_length, IH. clear IH Er.
  destruct c; cbn [call_step] in Ec;
    match type of Ec with context [let '(_, _) := ?x in _] => destruct x as [? ?] end;
    try (injection Ec as _ <-; unfold written; cbn; reflexivity).
  destruct p as [? ?]. injection Ec as _ <-. destruct o; reflexivity.
Qed.

Lemma wrote_nth b d : genuine C T b -> len (writes (ses_log b)) < 2 ^ 64 -> wrote b d ->
  exists k n data, session_key (ses_state b) = Some k /\ n < 2 ^ 64 /\
    nth_error (writes (ses_log b)) (N.to_nat n) = Some data /\ d = user_datagram C k n data.
Proof.
  intros (s0 & cs & Hc & E) Hl (data & w & w' & Hin & Hw & Ho).
  apply in_split in Hin as (h1 & h2 & Eh). rewrite Eh in *.
  destruct (run_at _ _ _ _ _ _ _ _ E) as (cs1 & cs2 & s1 & s2 & E1 & _).
  pose proof (writes_count _ _ _ _ E1) as Hn.
  assert (writes (h1 ++ (CWrite data w, RWritten (Ok tt) w') :: h2) = writes h1 ++ data :: writes h2) as Ew.
  { unfold writes. rewrite flat_map_app. reflexivity. }
  rewrite Ew in *. unfold len in Hl. rewrite app_length in Hl. cbn [length] in Hl.
  destruct (sent_nonces_count C T HL _ _ _ _ _ _ _ _ _ _ _ Hc E Hw) as (k & Hk & Ho'); [lia|].
  rewrite Ho in Ho'. apply app_inv_head in Ho'.
  exists k, (N.of_nat (count written h1)), data. split; [exact Hk|]. split; [lia|].
  split; [|exact Ho']. rewrite nth_error_app2 by lia. rewrite Nnat.Nat2N.id, <- Hn, Nat.sub_diag. reflexivity.
Qed.

Theorem messages_authentic a (W : session -> Prop) k :
  genuine C T a -> len (ses_log a) < 2 ^ 64 -> session_key (ses_state a) = Some k ->
  (forall b, W b -> genuine C T b /\ len (writes (ses_log b)) < 2 ^ 64) ->
  unforged_tags C k W (ses_log a) ->
  exists l : list (N * bytes),
    user_deliveries (ses_log a) = map (fun x => nonempty (snd x)) l /\
    NoDup (map fst l) /\
    forall n data, In (n, data) l ->
      exists b, W b /\ session_key (ses_state b) = Some k /\
        nth_error (writes (ses_log b)) (N.to_nat n) = Some data.
Proof.
  intros (s0 & cs & Hc & E) Hb Hk HW HU.
  destruct (replay_free C T HL _ _ _ _ _ _ _ Hc E Hb) as (l & H1 & _ & H3 & H4).
  exists (map (fun x => (snd (fst x), snd x)) l). split; [|split].
  - rewrite H1, map_map. reflexivity.
  - rewrite map_map. exact H3.
  - intros n data Hin. apply in_map_iff in Hin as ([[i n'] data'] & Eq & Hin). cbn in Eq. injection Eq as -> ->.
    destruct (H4 _ _ _ Hin) as (k' & d & Hk' & Hd & Hn & _ & text & (L & HLf & Ht) & Hs).
    assert (k' = k) by congruence. subst k'. apply nth_error_In in Hd. rewrite Hs in Hd.
    destruct (HU _ Hd) as (b & Hwb & Hkb & Hwr). destruct (HW b Hwb) as [Hg Hlb].
    destruct (wrote_nth _ _ Hg Hlb Hwr) as (k2 & n2 & data2 & Hk2 & Hn2 & Hnth & Hd2).
    assert (k2 = k) by congruence. subst k2.
    unfold user_datagram in Hd2. apply (seal_inj C HL) in Hd2. rewrite Ht in Hd2.
    apply (hashed_inj C HL) in Hd2. unfold user_frame, frame, frame_len in Hd2.
    do 2 (apply app_inv_head in Hd2). apply app_inv_len in Hd2 as [_ Hd2]; [|reflexivity].
    apply app_inv_head in Hd2. apply app_inv_len in Hd2 as [E1 E2]; [|reflexivity].
    assert (n = n2) as -> by (eapply u64_be_inj; eassumption).
    subst data2. exists b. auto.
Qed.

(** ** Mixed sessions *)

(** [b] and [c] are layers of one owner.  [b] has only created its CONNECT; [c]
    has answered [a]'s.  The attacker gives [a] the CONNECT of [b] and the ACK
    of [c]. *)
Theorem session_mixing skA skB skC cfgA cfgB cfgC a0 b0 c0 pinB pinC sa sb cdA cdB cdC acA acC z z' :
  create C (RngKey skA) cfgA (Some (ed25519_public C sb)) = Ok a0 ->
  create C (RngKey skB) cfgB pinB = Ok b0 ->
  create C (RngKey skC) cfgC pinC = Ok c0 ->
  pinC = None \/ pinC = Some (ed25519_public C sa) ->
  x25519_agree C skA (x25519_public C skB) = Some z ->
  x25519_agree C skA (x25519_public C skC) = Some z' ->
  86 + len (custom cdA) < 2 ^ usize_bits T -> 86 + len (custom cdB) < 2 ^ usize_bits T ->
  50 + len (custom acC) < 2 ^ usize_bits T ->
  let pkA := ed25519_public C sa in
  let pkB := ed25519_public C sb in
  let signed seed t := t ++ ed25519_sign C seed t in
  exists a b c tA tB tC uA uC hA,
    run C T b0 [CConnect pkB cdB] = (b, [(CConnect pkB cdB, RBytes (Ok tB))]) /\
    run C T c0 [CConnect pkB cdC; CRead (signed sa tA); CAck acC] =
      (c, [(CConnect pkB cdC, RBytes (Ok tC));
           (CRead (signed sa tA), RMsg (Ok (Some (MConnect [x00; x00; x00; x00] pkA (nonempty (custom cdA))))));
           (CAck acC, RBytes (Ok uC))]) /\
    run C T a0 [CConnect pkA cdA; CRead (signed sb tB); CAck acA; CRead (signed sb uC)] = (a, hA) /\
    hA = [(CConnect pkA cdA, RBytes (Ok tA));
          (CRead (signed sb tB), RMsg (Ok (Some (MConnect [x00; x00; x00; x00] pkB (nonempty (custom cdB))))));
          (CAck acA, RBytes (Ok uA));
          (CRead (signed sb uC), RMsg (Ok (Some (MAck (nonempty (custom acC))))))] /\
    established a /\ session_key a = derived_secret C skA (x25519_public C skB) /\
    session_key b = None /\ session_key c = derived_secret C skA (x25519_public C skC).
Proof.
  intros HA HB HC Hpc Hz Hz' B1 B2 B3 pkA pkB signed.
  assert (x25519_agree C skC (x25519_public C skA) = Some z') as Hz'' by (rewrite (law_x25519_comm C HL); exact Hz').
  destruct (handshake C T HL skA cfgA _ a0 pkA cdA sb (x25519_public C skB) (custom cdB) acA (custom acC) z
    HA (or_intror eq_refl) (law_x25519_public_len C HL skB) Hz B2 B3) as (a & Ra & Ea & Ka & _).
  destruct (handshake C T HL skC cfgC pinC c0 pkB cdC sa (x25519_public C skA) (custom cdA) acC [] z'
    HC Hpc (law_x25519_public_len C HL skA) Hz'' B1 ltac:(cbn; clear; unfold usize_bits; destruct (usize_width T); reflexivity))
    as (c4 & Rc & _ & Kc & _).
  change [CConnect pkB cdC; CRead (signed_connect C sa (x25519_public C skA) (custom cdA)); CAck acC;
          CRead (signed_ack C sa (x25519_public C skC) [])]
    with ([CConnect pkB cdC; CRead (signed_connect C sa (x25519_public C skA) (custom cdA)); CAck acC] ++
          [CRead (signed_ack C sa (x25519_public C skC) [])]) in Rc.
  rewrite (Negotiation.run_app C T) in Rc.
  destruct (run C T c0 [CConnect pkB cdC; CRead (signed_connect C sa (x25519_public C skA) (custom cdA)); CAck acC])
    as [c hc] eqn:Ec.
  destruct (run C T c [CRead (signed_ack C sa (x25519_public C skC) [])]) as [c5 h5] eqn:Ec5.
  injection Rc as -> Rh.
  assert (hc = [(CConnect pkB cdC, RBytes (Ok (connect_frame (x25519_public C skC) pkB (custom cdC))));
    (CRead (signed_connect C sa (x25519_public C skA) (custom cdA)),
       RMsg (Ok (Some (MConnect [x00; x00; x00; x00] pkA (nonempty (custom cdA))))));
    (CAck acC, RBytes (Ok (ack_frame (sha256 C (x25519_public C skA)) (custom acC))))]) as ->.
  { cbn [run] in Ec5. destruct (call_step C T c _) as [c6 r6]. injection Ec5 as -> <-.
    match type of Rh with _ = [?x; ?y; ?w; ?v] => change [x; y; w; v] with ([x; y; w] ++ [v]) in Rh end.
    apply app_inj_tail in Rh as [-> _]. reflexivity. }
  exists a, (fst (run C T b0 [CConnect pkB cdB])), c,
    (connect_frame (x25519_public C skA) pkA (custom cdA)),
    (connect_frame (x25519_public C skB) pkB (custom cdB)),
    (connect_frame (x25519_public C skC) pkB (custom cdC)),
    (ack_frame (sha256 C (x25519_public C skB)) (custom acA)),
    (ack_frame (sha256 C (x25519_public C skA)) (custom acC)).
  eexists.
  split.
  { injection HB as <-. cbn [run call_step].
    destruct (create_connect_message C pkB cdB _) as [s1 o] eqn:E1. cbn [fst].
    apply create_connect_cases in E1 as [(r & _ & _ & ->)|(_ & e & _ & E1)]; [|discriminate E1].
    reflexivity. }
  split; [exact Ec|]. split; [exact Ra|]. split; [reflexivity|]. split; [exact Ea|]. split; [exact Ka|]. split.
  - injection HB as <-. reflexivity.
  - rewrite (derived_secret_comm C HL).
    pose proof (tinv_run C T HL skC pinC cfgC c0 _ _ _ HC Ec) as HT.
    eapply (accepted_connect_decides C T HL skC cfgC pinC c0 _ c _ _ _ _ HC Ec).
    + right. left. reflexivity.
    + reflexivity.
    + split; [apply len_32, (law_x25519_public_len C HL)|].
      eexists _, pkA, _. split; [apply len_32, (law_ed25519_public_len C HL)|].
      unfold signed_connect, connect_frame, frame, frame_len, connect_content. rewrite <- !app_assoc. reflexivity.
Qed.

End WithEnv.

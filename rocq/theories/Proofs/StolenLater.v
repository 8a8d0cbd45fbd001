(** A signature key stolen after the negotiation, and before it. *)

From Verif.Model Require Import Minimal.
From Verif.Spec Require Import Wire Datagram Trace ReadSpec Accept Session Writers Attacks Adversary Stolen.
From Verif.Proofs Require Import BaseFacts CipherFacts Negotiation Failure Accept Keys TraceInv Sending Ledger Histories Corollaries Steps Adversary Stolen.

Section WithEnv.
Context (C : Crypto) (T : target) (HL : CryptoLaws C).

Lemma calm_drain bs : forall s acc s1 l, calm s -> drain_loop C T bs acc s = (s1, Ok l) ->
  Forall (fun m => is_user m = true) acc -> Forall (fun m => is_user m = true) l.
Proof.
  induction bs as [|b bs IH]; intros s acc s1 l Hs E Ha; cbn [drain_loop] in E.
  - injection E as <- <-. exact Ha.
  - pose proof (read_inner_calm C T false b s Hs) as Hs'.
    destruct (read_inner C T false b s) as [x [[m|]|e|p]] eqn:F; cbn [fst] in Hs'; try discriminate.
    + apply (IH x (acc ++ [m]) s1 l Hs' E). apply Forall_app. split; [exact Ha|]. constructor; [|constructor].
      destruct (calm_read_inner _ _ _ _ _ _ _ Hs F _ eq_refl) as [y ->]. reflexivity.
    + exact (IH x acc s1 l Hs' E Ha).
Qed.

Lemma calm_delivers s c s1 r : calm s -> call_step C T s c = (s1, r) ->
  forall m, In m (delivered r) -> is_user m = true.
Proof.
  intros Hs E m Hm. destruct c; cbn [call_step] in E.
  - destruct (read C T incoming s) as [x o] eqn:F. injection E as <- <-.
    destruct o as [[mm|]|e|p]; try contradiction. destruct Hm as [<-|[]].
    destruct (calm_read _ _ _ _ _ _ Hs F _ eq_refl) as [y ->]. reflexivity.
  - unfold take_ack_msg_recv_too_early in E. destruct (ack_msg_recv_too_early s) as [b|]; [|injection E as <- <-; contradiction].
    destruct (read C T b _) as [x o] eqn:F. injection E as <- <-.
    destruct o as [[mm|]|e|p]; try contradiction. destruct Hm as [<-|[]].
    assert (calm (set_ack_early None s)) as Hs' by exact Hs.
    destruct (calm_read _ _ _ _ _ _ Hs' F _ eq_refl) as [y ->]. reflexivity.
  - unfold drain_tmp_stack_user_msgs in E. destruct (drain_loop _ _ _ _ _) as [x o] eqn:F. injection E as <- <-.
    destruct o as [l|e|p]; try contradiction.
    assert (calm (set_stack [] s)) as Hs' by exact Hs.
    pose proof (calm_drain _ _ _ _ _ Hs' F (Forall_nil _)) as Hl. rewrite Forall_forall in Hl. apply Hl. exact Hm.
  - destruct (create_connect_message _ _ _ _) as [x [o|o|o]]; injection E as <- <-; contradiction.
  - destruct (create_ack_message _ _ _) as [x [o|o|o]]; injection E as <- <-; contradiction.
  - destruct (write_message _ _ _ _ _) as [[x w'] [o|o|o]]; injection E as <- <-; contradiction.
  - destruct (try_clone s) as [x [o|o|o]]; injection E as <- <-; contradiction.
  - destruct (change_config cfg s) as [x [o|o|o]]; injection E as <- <-; contradiction.
Qed.

Theorem stolen_later a pk B k cs s h (W : session -> Prop) :
  genuine C T a -> owned C T pk B -> unforged C pk B (ses_log a) ->
  ses_pin a = Some pk -> panic_free (ses_log a) -> established (ses_state a) ->
  session_key (ses_state a) = Some k ->
  run C T (ses_state a) cs = (s, h) ->
  len (ses_log a ++ h) < 2 ^ 64 ->
  (forall b, W b -> genuine C T b /\ len (writes (ses_log b)) < 2 ^ 64) ->
  unforged_tags C k W (ses_log a ++ h) ->
  session_key s = Some k /\
  (exists b cd t, B b /\ In (CConnect pk cd, RBytes (Ok t)) (ses_log b) /\
     derived_secret C (ses_sk a) (epk C b) = Some k) /\
  (forall e m, In e h -> In m (delivered (snd e)) -> is_user m = true) /\
  exists l : list (N * bytes),
    user_deliveries (ses_log a ++ h) = map (fun x => nonempty (snd x)) l /\
    NoDup (map fst l) /\
    forall n data, In (n, data) l ->
      exists b, W b /\ session_key (ses_state b) = Some k /\
        nth_error (writes (ses_log b)) (N.to_nat n) = Some data.
Proof.
  intros HG HO HU Hp Hf He Hk R Hlen HW HT.
  assert (reachable C T (ses_state a)) as HR.
  { destruct HG as (s0 & ks & Hc & R0). eapply (run_reachable C T); [|exact R0]. econstructor. exact Hc. }
  pose proof (secret_is_final C T HL _ _ _ _ _ HR R Hk) as Hk'.
  split; [exact Hk'|]. split; [exact (proj1 (established_authentic C T HL a HG pk B HO HU k Hp Hf He Hk))|]. split.
  - assert (calm (ses_state a)) as Hs by (left; apply established_iff; exact He).
    clear -Hs R. revert Hs h R. generalize (ses_state a). induction cs as [|c cs IH]; intros x Hs h R; cbn [run] in R.
    { injection R as <- <-. contradiction. }
    destruct (call_step C T x c) as [y r] eqn:E, (run C T y cs) as [z g] eqn:R'. injection R as <- <-.
    intros e m [<-|Hin] Hm; [eapply calm_delivers; eassumption|].
    pose proof (step_calm C T x c Hs) as Hy. rewrite E in Hy. eapply IH; eassumption.
  - apply (messages_authentic C T HL {| ses_sk := ses_sk a; ses_conf := ses_conf a; ses_pin := ses_pin a;
       ses_state := s; ses_log := ses_log a ++ h |} W k); try assumption.
    destruct HG as (s0 & ks & Hc & R0). exists s0, (ks ++ cs). split; [exact Hc|]. cbn.
    rewrite (Negotiation.run_app C T), R0, R. reflexivity.
Qed.

(** Before the negotiation: whoever holds the expected peer's seed gets the
    session. *)
Theorem stolen_before sk cfg pin s0 pkA cdA seed sk' c ac c' z :
  create C (RngKey sk) cfg pin = Ok s0 -> pin = None \/ pin = Some (ed25519_public C seed) ->
  x25519_agree C sk (x25519_public C sk') = Some z ->
  86 + len c < 2 ^ usize_bits T -> 50 + len c' < 2 ^ usize_bits T ->
  exists s h, run C T s0
      [CConnect pkA cdA; CRead (signed_connect C seed (x25519_public C sk') c); CAck ac;
       CRead (signed_ack C seed (x25519_public C sk) c')] = (s, h) /\
    established s /\ session_key s = derived_secret C sk' (x25519_public C sk) /\ session_key s <> None.
Proof.
  intros Hc Hp Hz B1 B2.
  destruct (handshake C T HL sk cfg pin s0 pkA cdA seed (x25519_public C sk') c ac c' z
    Hc Hp (law_x25519_public_len C HL sk') Hz B1 B2) as (s & R & E & K & _).
  eexists s, _. split; [exact R|]. split; [exact E|]. rewrite K. split; [apply derived_secret_comm; exact HL|].
  unfold derived_secret. rewrite Hz. discriminate.
Qed.

End WithEnv.

(** Lemmas about the writer model. *)

From Coq Require Import Arith ZifyBool ZifyNat ZifyN.
From Verif.Model Require Import Io.
From Verif.Proofs Require Import BaseFacts.

(** ** Conservation of bytes, for every sink *)

Lemma flush_loop_bytes sc out buf :
  let '(s, b, e) := flush_loop sc out buf in
  sink_data s ++ b = out ++ buf /\ (e = None -> b = []) /\
  (length (sink_script s) <= length sc)%nat /\
  (e <> None -> (length (sink_script s) < length sc)%nat).
Proof.
  revert out buf; induction sc as [|r sc IH]; intros out buf; cbn [flush_loop].
  - destruct buf as [|x buf]; cbn [sink_data sink_script].
    + repeat split; auto. intros H; congruence.
    + rewrite app_nil_r. repeat split; auto. intros H; congruence.
  - destruct buf as [|x buf].
    + cbn [sink_data sink_script]. repeat split; auto. intros H; congruence.
    + destruct r as [n|e].
      * destruct (N.to_nat (N.min n (len (x :: buf)))) as [|k] eqn:Ek.
        -- cbn [sink_data sink_script length]. repeat split; auto; discriminate.
        -- specialize (IH (out ++ firstn (S k) (x :: buf)) (skipn (S k) (x :: buf))).
           destruct (flush_loop sc _ _) as [[s b] e].
           destruct IH as (H1 & H2 & H3 & H4).
           rewrite H1, <- app_assoc, firstn_skipn. cbn [length].
           repeat split; auto. intros He; specialize (H4 He); lia.
      * destruct e;
          try (cbn [sink_data sink_script length]; repeat split; auto; discriminate).
        specialize (IH out (x :: buf)).
        destruct (flush_loop sc _ _) as [[s b] e].
        destruct IH as (H1 & H2 & H3 & H4). cbn [length].
        repeat split; auto. intros He; specialize (H4 He); lia.
Qed.

Lemma bw_flush_buf_bytes w w' e :
  bw_flush_buf w = (w', e) ->
  bw_bytes w' = bw_bytes w /\ bw_cap w' = bw_cap w /\ (e = None -> bw_buf w' = []) /\
  (length (sink_script (bw_sink w')) <= length (sink_script (bw_sink w)))%nat /\
  (e <> None -> (length (sink_script (bw_sink w')) < length (sink_script (bw_sink w)))%nat).
Proof.
  unfold bw_flush_buf, bw_bytes.
  pose proof (flush_loop_bytes (sink_script (bw_sink w)) (sink_data (bw_sink w)) (bw_buf w)) as H.
  destruct (flush_loop _ _ _) as [[s b] e0].
  destruct H as (H1 & H2 & H3 & H4).
  intros E; injection E as <- <-. cbn [bw_sink bw_buf bw_cap]. auto.
Qed.

Lemma sink_write_bytes s b s' r :
  sink_write s b = (s', r) ->
  (length (sink_script s') <= length (sink_script s))%nat /\
  match r with
  | inl n => n <= len b /\ sink_data s' = sink_data s ++ firstn (N.to_nat n) b
  | inr _ => sink_data s' = sink_data s /\
             (length (sink_script s') < length (sink_script s))%nat
  end.
Proof.
  unfold sink_write. destruct (sink_script s) as [|[n|e] sc] eqn:Es; intros E; injection E as <- <-;
    cbn [sink_data sink_script length].
  - split; [lia|]. split; [lia|]. unfold len. rewrite Nat2N.id, firstn_all. reflexivity.
  - split; [lia|]. split; [lia|]. rewrite Nat2N.id. reflexivity.
  - split; [lia|]. split; [reflexivity|]. lia.
Qed.

(** One [write]: on success the first n bytes are handed over; on error none. *)
Lemma bw_write_bytes w b w' r :
  bw_write w b = (w', r) ->
  bw_cap w' = bw_cap w /\
  (length (sink_script (bw_sink w')) <= length (sink_script (bw_sink w)))%nat /\
  match r with
  | inl n => n <= len b /\ bw_bytes w' = bw_bytes w ++ firstn (N.to_nat n) b /\
             (len b < bw_cap w -> n = len b)
  | inr _ => bw_bytes w' = bw_bytes w /\
             (length (sink_script (bw_sink w')) < length (sink_script (bw_sink w)))%nat
  end.
Proof.
  unfold bw_write.
  destruct (N.ltb_spec (bw_cap w) (len (bw_buf w) + len b)) as [Hc|Hc].
  - destruct (bw_flush_buf w) as [w1 e] eqn:Ef.
    apply bw_flush_buf_bytes in Ef as (H1 & H2 & H3 & H4 & H5).
    destruct e as [e|].
    + intros E; injection E as <- <-. repeat split; auto.
      apply H5; discriminate.
    + specialize (H3 eq_refl).
      destruct (N.leb_spec (bw_cap w1) (len b)) as [Hl|Hl].
      * destruct (sink_write (bw_sink w1) b) as [s r'] eqn:Es.
        apply sink_write_bytes in Es as (S1 & S2).
        intros E; injection E as <- <-. cbn [bw_cap bw_sink].
        split; [exact H2|]. split; [lia|].
        unfold bw_bytes in *. cbn [bw_sink bw_buf]. rewrite H3 in *.
        rewrite app_nil_r in *.
        destruct r' as [n|e].
        -- destruct S2 as [S2 S3]. rewrite S3, H1. repeat split; auto. lia.
        -- destruct S2 as [S2 S3]. rewrite S2. split; [exact H1|lia].
      * intros E; injection E as <- <-. cbn [bw_cap bw_sink].
        split; [exact H2|]. split; [exact H4|].
        unfold bw_bytes in *. cbn [bw_sink bw_buf]. rewrite app_assoc, H1.
        rewrite firstn_len. repeat split; auto. lia.
  - destruct (N.leb_spec (bw_cap w) (len b)) as [Hl|Hl].
    + assert (bw_buf w = []) as Hb.
      { destruct (bw_buf w) as [|x l]; [reflexivity|]. rewrite len_cons in Hc. lia. }
      destruct (sink_write (bw_sink w) b) as [s r'] eqn:Es.
      apply sink_write_bytes in Es as (S1 & S2).
      intros E; injection E as <- <-. cbn [bw_cap bw_sink].
      split; [reflexivity|]. split; [exact S1|].
      unfold bw_bytes in *. cbn [bw_sink bw_buf]. rewrite Hb, !app_nil_r.
      destruct r' as [n|e].
      * destruct S2 as [S2 S3]. rewrite S3. repeat split; auto. lia.
      * exact S2.
    + intros E; injection E as <- <-. cbn [bw_cap bw_sink].
      split; [reflexivity|]. split; [lia|].
      unfold bw_bytes in *. cbn [bw_sink bw_buf]. rewrite app_assoc.
      rewrite firstn_len. repeat split; auto. lia.
Qed.

(** [write_all]: on success every byte is handed over; on error a prefix. *)
Lemma write_all_loop_bytes fuel w b w' e :
  write_all_loop fuel w b = (w', e) ->
  bw_cap w' = bw_cap w /\
  (length (sink_script (bw_sink w')) <= length (sink_script (bw_sink w)))%nat /\
  exists k, (k <= length b)%nat /\ bw_bytes w' = bw_bytes w ++ firstn k b /\
            (e = None -> k = length b).
Proof.
  revert w b; induction fuel as [|fuel IH]; intros w b; cbn [write_all_loop].
  - destruct b as [|x b]; intros E; injection E as <- <-.
    + split; [reflexivity|]. split; [lia|]. exists O. cbn. rewrite app_nil_r. auto.
    + split; [reflexivity|]. split; [lia|]. exists O. cbn. rewrite app_nil_r.
      repeat split; try lia. discriminate.
  - destruct b as [|x b].
    + intros E; injection E as <- <-. split; [reflexivity|]. split; [lia|].
      exists O. cbn. rewrite app_nil_r. auto.
    + destruct (bw_write w (x :: b)) as [w1 r] eqn:Ew.
      apply bw_write_bytes in Ew as (H1 & H2 & H3).
      destruct r as [n|e1].
      * destruct H3 as (H3 & H4 & _).
        destruct (N.eqb_spec n 0) as [En|En].
        -- subst n. intros E; injection E as <- <-. split; [exact H1|]. split; [exact H2|].
           exists O. rewrite H4. cbn. repeat split; try lia. discriminate.
        -- intros E. apply IH in E as (E1 & E2 & k & E3 & E4 & E5).
           split; [congruence|]. split; [lia|].
           exists (N.to_nat n + k)%nat. rewrite skipn_length in E3, E5.
           unfold len in H3. split; [lia|]. split.
           ++ rewrite E4, H4, <- app_assoc. f_equal.
              rewrite (firstn_split (x :: b) (N.to_nat n) (N.to_nat n + k)) by lia.
              do 2 f_equal. lia.
           ++ intros He. specialize (E5 He). lia.
      * destruct H3 as (H3 & H4).
        assert (forall e0, (w1, Some e0) = (w', e) ->
          bw_cap w' = bw_cap w /\
          (length (sink_script (bw_sink w')) <= length (sink_script (bw_sink w)))%nat /\
          exists k, (k <= length (x :: b))%nat /\ bw_bytes w' = bw_bytes w ++ firstn k (x :: b) /\
            (e = None -> k = length (x :: b))) as Herr.
        { intros e0 E; injection E as <- <-. split; [exact H1|]. split; [exact H2|].
          exists O. cbn. rewrite app_nil_r. repeat split; auto; try lia. discriminate. }
        destruct e1; try apply Herr.
        intros E. apply IH in E as (E1 & E2 & k & E3 & E4 & E5).
        split; [congruence|]. split; [lia|].
        exists k. rewrite E4, H3. auto.
Qed.

Lemma bw_write_all_bytes w b w' e :
  bw_write_all w b = (w', e) ->
  bw_cap w' = bw_cap w /\
  exists k, (k <= length b)%nat /\ bw_bytes w' = bw_bytes w ++ firstn k b /\
            (e = None -> k = length b).
Proof.
  unfold bw_write_all. intros E. apply write_all_loop_bytes in E as (H1 & _ & H2). auto.
Qed.

Lemma bw_write_all_ok w b w' :
  bw_write_all w b = (w', None) -> bw_bytes w' = bw_bytes w ++ b /\ bw_cap w' = bw_cap w.
Proof.
  intros E. apply bw_write_all_bytes in E as (H1 & k & H2 & H3 & H4).
  specialize (H4 eq_refl). subst k. rewrite firstn_all in H3. auto.
Qed.

(** ** The fuel of [bw_write_all] is enough *)

Definition script_real (sc : list wresp) : Prop :=
  forall r, In r sc -> r <> WFail IoModelFuel.

Lemma flush_loop_real sc out buf :
  script_real sc ->
  let '(s, b, e) := flush_loop sc out buf in
  script_real (sink_script s) /\ e <> Some IoModelFuel.
Proof.
  revert out buf; induction sc as [|r sc IH]; intros out buf Hr; cbn [flush_loop].
  - destruct buf; cbn [sink_script]; split; auto; discriminate.
  - assert (script_real sc) as Hr' by (intros r' Hin; apply Hr; right; exact Hin).
    destruct buf as [|x buf]; [cbn [sink_script]; split; auto; discriminate|].
    destruct r as [n|e].
    + destruct (N.to_nat _); [cbn [sink_script]; split; auto; discriminate|]. apply IH; exact Hr'.
    + assert (e <> IoModelFuel) as He.
      { intros ->. apply (Hr (WFail IoModelFuel)); [left|]; reflexivity. }
      destruct e; try (cbn [sink_script]; split; auto; congruence). apply IH; exact Hr'.
Qed.

Lemma bw_write_real w b w' r :
  script_real (sink_script (bw_sink w)) -> bw_write w b = (w', r) ->
  script_real (sink_script (bw_sink w')) /\ r <> inr IoModelFuel.
Proof.
  unfold bw_write. intros Hr.
  assert (forall w1, script_real (sink_script (bw_sink w1)) ->
    (if bw_cap w1 <=? len b then
      let '(s, r0) := sink_write (bw_sink w1) b in
      ({| bw_cap := bw_cap w1; bw_buf := bw_buf w1; bw_sink := s |}, r0)
    else
      ({| bw_cap := bw_cap w1; bw_buf := bw_buf w1 ++ b; bw_sink := bw_sink w1 |},
       inl (len b))) = (w', r) ->
    script_real (sink_script (bw_sink w')) /\ r <> inr IoModelFuel) as Hrest.
  { intros w1 Hr1. destruct (_ <=? _).
    - unfold sink_write. destruct (sink_script (bw_sink w1)) as [|[n|e] sc] eqn:Es;
        intros E; injection E as <- <-; cbn [bw_sink sink_script].
      + split; [intros ? []|discriminate].
      + split; [intros x Hx; apply Hr1; right; exact Hx|discriminate].
      + split; [intros x Hx; apply Hr1; right; exact Hx|].
        intros E; injection E as ->. apply (Hr1 (WFail IoModelFuel)); [left|]; reflexivity.
    - intros E; injection E as <- <-. cbn [bw_sink]. split; [exact Hr1|discriminate]. }
  destruct (_ <? _).
  - unfold bw_flush_buf.
    pose proof (flush_loop_real (sink_script (bw_sink w)) (sink_data (bw_sink w)) (bw_buf w) Hr) as H.
    destruct (flush_loop _ _ _) as [[s b'] e].
    destruct H as [H1 H2]. destruct e as [e|].
    + intros E; injection E as <- <-. cbn [bw_sink]. split; [exact H1|congruence].
    + apply Hrest. cbn [bw_sink]. exact H1.
  - apply Hrest; exact Hr.
Qed.

Lemma write_all_loop_fuel fuel w b w' e :
  script_real (sink_script (bw_sink w)) ->
  (length b + length (sink_script (bw_sink w)) <= fuel)%nat ->
  write_all_loop fuel w b = (w', e) -> e <> Some IoModelFuel.
Proof.
  revert w b; induction fuel as [|fuel IH]; intros w b Hr Hf; cbn [write_all_loop].
  - destruct b as [|x b]; [|cbn in Hf; lia]. intros E; injection E as <- <-. discriminate.
  - destruct b as [|x b]; [intros E; injection E as <- <-; discriminate|].
    destruct (bw_write w (x :: b)) as [w1 r] eqn:Ew.
    pose proof (bw_write_real _ _ _ _ Hr Ew) as [Hr1 Hr2].
    apply bw_write_bytes in Ew as (H1 & H2 & H3).
    destruct r as [n|e1].
    + destruct H3 as (H3 & _).
      destruct (N.eqb_spec n 0) as [En|En]; [intros E; injection E as <- <-; discriminate|].
      apply IH; [exact Hr1|]. rewrite skipn_length. unfold len in H3. cbn [length] in *. lia.
    + destruct H3 as (_ & H3).
      destruct e1; try (intros E; injection E as <- <-; congruence).
      apply IH; [exact Hr1|]. lia.
Qed.

(** The out-of-fuel answer of the model never occurs: the loop always ends. *)
Lemma bw_write_all_fuel w b w' e :
  script_real (sink_script (bw_sink w)) ->
  bw_write_all w b = (w', e) -> e <> Some IoModelFuel.
Proof.
  unfold bw_write_all. intros Hr. apply write_all_loop_fuel; [exact Hr|]. lia.
Qed.

(** ** Sinks that take everything *)

Definition accepting (w : bufwriter) : Prop := sink_script (bw_sink w) = [].

Lemma bw_write_accepting w b :
  accepting w ->
  exists w', bw_write w b = (w', inl (len b)) /\ accepting w' /\
             bw_bytes w' = bw_bytes w ++ b /\ bw_cap w' = bw_cap w.
Proof.
  intros Ha. destruct (bw_write w b) as [w' r] eqn:E. exists w'.
  pose proof (bw_write_bytes _ _ _ _ E) as (H1 & H2 & H3).
  unfold accepting in *. rewrite Ha in *. cbn [length] in *.
  assert (sink_script (bw_sink w') = []) as Ha'.
  { destruct (sink_script (bw_sink w')); [reflexivity|cbn in H2; lia]. }
  destruct r as [n|e].
  - destruct H3 as (H3 & H4 & H5).
    assert (n = len b) as ->.
    { revert E. unfold bw_write, bw_flush_buf. rewrite Ha.
      destruct (_ <? _); cbn [flush_loop].
      - destruct (bw_buf w); cbn [bw_cap bw_sink]; destruct (_ <=? _);
          unfold sink_write; cbn [sink_script sink_data]; congruence.
      - destruct (_ <=? _); unfold sink_write; rewrite ?Ha; congruence. }
    repeat split; auto. rewrite H4. unfold len. rewrite Nat2N.id, firstn_all. reflexivity.
  - destruct H3 as (_ & H3). lia.
Qed.

Lemma bw_write_all_accepting w b :
  accepting w ->
  exists w', bw_write_all w b = (w', None) /\ accepting w' /\
             bw_bytes w' = bw_bytes w ++ b /\ bw_cap w' = bw_cap w.
Proof.
  intros Ha. unfold bw_write_all, accepting in *. rewrite Ha. cbn [length].
  rewrite Nat.add_0_r. destruct b as [|x b].
  - exists w. cbn. rewrite app_nil_r. auto.
  - cbn [length write_all_loop].
    destruct (bw_write_accepting w (x :: b) Ha) as (w' & E & Ha' & H1 & H2).
    rewrite E. exists w'. rewrite len_cons.
    destruct (N.eqb_spec (1 + len b) 0) as [H0|_]; [lia|].
    rewrite skipn_all2 by (unfold len; cbn [length]; lia).
    destruct (length b); cbn [write_all_loop]; auto.
Qed.

(** ** Where errors come from: the sink answered with them, or took nothing *)
Lemma flush_loop_from sc out buf :
  let '(s, b, e) := flush_loop sc out buf in
  incl (sink_script s) sc /\ (forall x, e = Some x -> x = IoWriteZero \/ In (WFail x) sc).
Proof.
  revert out buf; induction sc as [|r sc IH]; intros out buf; cbn [flush_loop].
  - destruct buf; cbn [sink_script]; (split; [apply incl_refl|discriminate]).
  - destruct buf as [|y buf]; [cbn [sink_script]; split; [apply incl_refl|discriminate]|].
    assert (forall o b, let '(s, b, e) := flush_loop sc o b in
              incl (sink_script s) (r :: sc) /\
              (forall x, e = Some x -> x = IoWriteZero \/ In (WFail x) (r :: sc))) as Hrec.
    { intros o b. specialize (IH o b). destruct (flush_loop sc o b) as [[s b'] e]. destruct IH as [H1 H2].
      split; [apply incl_tl, H1|]. intros x Hx. destruct (H2 x Hx) as [H|H]; [left; exact H|right; right; exact H]. }
    destruct r as [n|e].
    + destruct (N.to_nat _); [|apply Hrec]. cbn [sink_script].
      split; [apply incl_tl, incl_refl|]. intros x Hx. injection Hx as <-. left. reflexivity.
    + destruct e; try apply Hrec; cbn [sink_script];
        (split; [apply incl_tl, incl_refl|]; intros x Hx; injection Hx as <-; right; left; reflexivity).
Qed.

Lemma bw_write_from w b w' r :
  bw_write w b = (w', r) ->
  incl (sink_script (bw_sink w')) (sink_script (bw_sink w)) /\
  (forall x, r = inr x -> x = IoWriteZero \/ In (WFail x) (sink_script (bw_sink w))).
Proof.
  unfold bw_write.
  assert (forall w1, incl (sink_script (bw_sink w1)) (sink_script (bw_sink w)) ->
    (if bw_cap w1 <=? len b then
      let '(s, r0) := sink_write (bw_sink w1) b in
      ({| bw_cap := bw_cap w1; bw_buf := bw_buf w1; bw_sink := s |}, r0)
    else
      ({| bw_cap := bw_cap w1; bw_buf := bw_buf w1 ++ b; bw_sink := bw_sink w1 |},
       inl (len b))) = (w', r) ->
    incl (sink_script (bw_sink w')) (sink_script (bw_sink w)) /\
    (forall x, r = inr x -> x = IoWriteZero \/ In (WFail x) (sink_script (bw_sink w)))) as Hrest.
  { intros w1 Hr1. destruct (_ <=? _).
    - unfold sink_write. destruct (sink_script (bw_sink w1)) as [|[n|e] sc] eqn:Es;
        intros E; injection E as <- <-; cbn [bw_sink sink_script].
      + split; [intros ? []|discriminate].
      + split; [intros x Hx; apply Hr1; right; exact Hx|discriminate].
      + split; [intros x Hx; apply Hr1; right; exact Hx|].
        intros x E; injection E as <-. right. apply Hr1. left. reflexivity.
    - intros E; injection E as <- <-. cbn [bw_sink]. split; [exact Hr1|discriminate]. }
  destruct (_ <? _).
  - unfold bw_flush_buf.
    pose proof (flush_loop_from (sink_script (bw_sink w)) (sink_data (bw_sink w)) (bw_buf w)) as H.
    destruct (flush_loop _ _ _) as [[s b'] e].
    destruct H as [H1 H2]. destruct e as [e|].
    + intros E; injection E as <- <-. cbn [bw_sink]. split; [exact H1|].
      intros x Hx. injection Hx as <-. apply H2. reflexivity.
    + apply Hrest. cbn [bw_sink]. exact H1.
  - apply Hrest, incl_refl.
Qed.

Lemma write_all_loop_from fuel w b w' e :
  (length b + length (sink_script (bw_sink w)) <= fuel)%nat ->
  write_all_loop fuel w b = (w', e) ->
  incl (sink_script (bw_sink w')) (sink_script (bw_sink w)) /\
  (forall x, e = Some x -> x = IoWriteZero \/ In (WFail x) (sink_script (bw_sink w))).
Proof.
  revert w b; induction fuel as [|fuel IH]; intros w b Hf; cbn [write_all_loop].
  - destruct b as [|x b]; [|cbn in Hf; lia]. intros E; injection E as <- <-. split; [apply incl_refl|discriminate].
  - destruct b as [|x b]; [intros E; injection E as <- <-; split; [apply incl_refl|discriminate]|].
    destruct (bw_write w (x :: b)) as [w1 r] eqn:Ew.
    pose proof (bw_write_from _ _ _ _ Ew) as [Hi He].
    apply bw_write_bytes in Ew as (H1 & H2 & H3).
    assert (forall c, (length c + length (sink_script (bw_sink w1)) <= fuel)%nat ->
      write_all_loop fuel w1 c = (w', e) ->
      incl (sink_script (bw_sink w')) (sink_script (bw_sink w)) /\
      (forall x, e = Some x -> x = IoWriteZero \/ In (WFail x) (sink_script (bw_sink w)))) as Hrec.
    { intros c Hc E. destruct (IH w1 c Hc E) as [I1 I2]. split; [eapply incl_tran; eauto|].
      intros y Hy. destruct (I2 y Hy) as [H|H]; [left; exact H|right; apply Hi, H]. }
    destruct r as [n|e1].
    + destruct H3 as (H3 & _).
      destruct (N.eqb_spec n 0) as [En|En].
      * intros E; injection E as <- <-. split; [exact Hi|]. intros y Hy. injection Hy as <-. left. reflexivity.
      * apply Hrec. rewrite skipn_length. unfold len in H3. cbn [length] in *. lia.
    + destruct H3 as (_ & H3).
      destruct e1; try (intros E; injection E as <- <-; split; [exact Hi|]; intros y Hy; injection Hy as <-;
        apply He; reflexivity).
      apply Hrec. lia.
Qed.

Lemma bw_write_all_from w b w' e :
  bw_write_all w b = (w', e) ->
  incl (sink_script (bw_sink w')) (sink_script (bw_sink w)) /\
  (forall x, e = Some x -> x = IoWriteZero \/ In (WFail x) (sink_script (bw_sink w))).
Proof. unfold bw_write_all. apply write_all_loop_from. lia. Qed.

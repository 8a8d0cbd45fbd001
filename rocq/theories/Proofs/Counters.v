(** C33: neither nonce counter can overflow in a history shorter than 2^64. *)

From Coq Require Import Arith ZifyBool ZifyNat ZifyN.
From Verif.Model Require Import Minimal.
From Verif.Spec Require Import Wire Datagram Trace ReadSpec Accept Session Writers.
From Verif.Proofs Require Import BaseFacts IoFacts CipherFacts ReaderFacts ReadCases WindowFacts Invariant
  Negotiation Failure DatagramFacts ReadSpecFacts Accept Keys TraceInv UserReads Ledger Nonces Sending.

Lemma filter_shorter {A} (p : A -> bool) l : (length (filter p l) <= length l)%nat.
Proof. induction l as [|x l IH]; cbn [filter length]; [lia|]. destruct (p x); cbn [length]; lia. Qed.

Section WithEnv.
Context (C : Crypto) (T : target) (HL : CryptoLaws C).

Lemma opens_no_panic s k d n data p :
  Inv C T s -> used s + 1 < 2 ^ 64 -> session_key s = Some k -> opens C T k d n data ->
  snd (read C T d s) <> Panic p.
Proof.
  intros HI Hu Hk Ho Hp.
  destruct (opens_class C T HL _ _ _ _ Ho) as (text & L & Hd & Hc & [Hle Hh] & Hq & Hg).
  rewrite <- Hk in Hc.
  assert (panic_cause C T s d) as Hpc by (apply (read_panic_iff C T HL s HI); eauto).
  assert (forall c, datagram T C (session_key s) d c -> c = DFrame text L (KUser n)) as Huq
    by (intros; eapply datagram_unique; eassumption).
  destruct Hpc as [Hx|? ? ? ? Hx|? ? ? Hx|text' L' n' Hx _ _ Hy|
                   ? ? ? ? Hx|? ? ? Hx|text' L' n' Hx _ _ _ _ Hy|text' L' n' Hx H1 H2 H3 H4 H5 H6];
    apply Huq in Hx; try discriminate; injection Hx as -> -> ->.
  - lia.
  - unfold get_message, slice in Hg.
    cbn [frame_data dd_data dd_user_msg_begin dd_user_msg_end headers_size] in Hg.
    replace (16 + 10 <=? text_end T L) with false in Hg by (symmetry; apply N.leb_gt; lia).
    discriminate Hg.
  - apply (not_last_nonce C T s n HI Hu). split; [exact H4|]. split; [exact H5|exact H6].
Qed.

Theorem counters_safe r cfg pin s0 cs s h :
  create C r cfg pin = Ok s0 -> run C T s0 cs = (s, h) -> len h + 1 < 2 ^ 64 ->
  (forall data w, snd (write_message C T data s w) <> Panic POverflow) /\
  (forall k d n data p, session_key s = Some k -> opens C T k d n data -> snd (read C T d s) <> Panic p).
Proof.
  intros Hc E Hb. pose proof (reach_create C T _ _ _ _ Hc) as HR0.
  pose proof (run_reachable C T _ _ _ _ HR0 E) as HR. split.
  - intros data w Hp. destruct (created_fresh C _ _ _ _ Hc) as (_ & _ & _ & F).
    assert (N.of_nat (count written h) <= len h) as Hcnt.
    { unfold count, len. pose proof (filter_shorter written h). lia. }
    pose proof (sent_count C T _ _ _ _ HR0 E) as Hs. rewrite F in Hs. specialize (Hs ltac:(lia)).
    destruct (write_message C T data s w) as [[s' w'] o] eqn:Ew. cbn [snd] in Hp. subst o.
    apply write_message_cases in Ew
      as [(_ & _ & _ & [(l & r' & _ & H)|(_ & H)])|[(_ & _ & _ & _ & H)|(Hst & k & o1 & Hk & He &
          [(e & _ & H & _)|[(-> & n & Hn & _ & H)|(_ & p & Hp & _ & H)]])]]; try discriminate.
    rewrite u64_incr_small in Hp by lia. discriminate.
  - intros k d n data p Hk Ho.
    destruct (linv_created C T HL _ _ _ _ _ _ _ Hc E ltac:(lia)) as (l & pend & [] & Hu0).
    apply (opens_no_panic s k d n data p); auto; [apply inv_reachable, HR|].
    pose proof (submitted_len h). unfold len in *. cbn [length] in li_used. lia.
Qed.

End WithEnv.

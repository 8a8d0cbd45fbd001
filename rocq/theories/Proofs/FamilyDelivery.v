(** Delivery through any number of handles. *)

From Coq Require Import Arith ZifyBool ZifyNat ZifyN Permutation.
From Verif.Model Require Import Complete.
From Verif.Spec Require Import Wire Datagram Trace ReadSpec Accept Session Writers Adversary CompleteTrace Projection Receiver
  CompleteReceiver CompleteAdversary Family FamilyAdversary FamilyDelivery.
From Verif.Proofs Require Import BaseFacts IoFacts CipherFacts ReaderFacts DatagramFacts Invariant UserReads Ledger Nonces Sending Corollaries
  CompleteFacts CompleteMode Split CompleteAdversary Fragile Receiver CompleteReceiver Lives Family SFamily FamilyReceiver FamilyAdversary Accept.

(** The element at some place of a list made of at most one element per call. *)
Lemma nth_flat {E A} (p : E -> list A) (tr : trace E) q x :
  (forall e, (length (p e) <= 1)%nat) -> nth_error (flat_map p (map snd tr)) q = Some x ->
  exists t i e, nth_error tr t = Some (i, e) /\ p e = [x] /\ q = length (flat_map p (map snd (firstn t tr))).
Proof.
  intros Hp. revert q. induction tr as [|[i e] tr IH]; intros q H; cbn [map snd flat_map] in H.
  { destruct q; discriminate H. }
  specialize (Hp e) as He. destruct (p e) as [|y [|? ?]] eqn:Ee; cbn [length] in He; [|clear He|lia].
  - cbn [app] in H. destruct (IH q H) as (t & i' & e' & H1 & H2 & H3). exists (S t), i', e'. split; [exact H1|]. split; [exact H2|].
    cbn [firstn map snd flat_map]. rewrite Ee. exact H3.
  - destruct q as [|q]; cbn [app nth_error] in H.
    + injection H as ->. exists 0%nat, i, e. split; [reflexivity|]. split; [exact Ee|reflexivity].
    + destruct (IH q H) as (t & i' & e' & H1 & H2 & H3). exists (S t), i', e'. split; [exact H1|]. split; [exact H2|].
      cbn [firstn map snd flat_map]. rewrite Ee. cbn [app length]. lia.
Qed.

Lemma picked_combine {A B} (l : list (A * B)) ps xs : picked l ps xs -> map fst (combine ps (map fst xs)) = ps.
Proof. unfold picked. induction 1 as [|p x ps xs _ _ IH]; cbn; [reflexivity|]. f_equal. exact IH. Qed.

Lemma existsb_notin n l : ~ In n l -> existsb (N.eqb n) l = false.
Proof.
  intros H. destruct (existsb (N.eqb n) l) eqn:E; [|reflexivity]. apply existsb_exists in E as (m & Hm & He).
  apply N.eqb_eq in He. subst m. contradiction.
Qed.

Lemma once_fresh (ms : list (N * bytes)) : forall seen, NoDup (map fst ms) -> (forall n, In n (map fst ms) -> ~ In n seen) ->
  once seen ms = map (fun m => Ok (Some (MMessage (nonempty (snd m))))) ms.
Proof.
  induction ms as [|[n data] ms IH]; intros seen Hn Hs; cbn [once map fst snd] in *; [reflexivity|].
  inversion Hn as [|a b Ha Hb]; subst. rewrite (existsb_notin n seen (Hs n (or_introl eq_refl))). f_equal.
  apply IH; [exact Hb|]. intros m Hm [<-|Hin]; [contradiction|]. exact (Hs m (or_intror Hm) Hin).
Qed.

Lemma once_each_fresh {V W} (deliver : V -> W) (ms : list (N * V)) : forall seen, NoDup (map fst ms) -> (forall n, In n (map fst ms) -> ~ In n seen) ->
  once_each deliver seen ms = map (fun m => Ok [deliver (snd m)]) ms.
Proof.
  induction ms as [|[n data] ms IH]; intros seen Hn Hs; cbn [once_each map fst snd] in *; [reflexivity|].
  inversion Hn as [|a b Ha Hb]; subst. rewrite (existsb_notin n seen (Hs n (or_introl eq_refl))). f_equal.
  apply IH; [exact Hb|]. intros m Hm [<-|Hin]; [contradiction|]. exact (Hs m (or_intror Hm) Hin).
Qed.

Lemma picked_all {A} (l : list A) ps xs :
  picked l ps xs -> Permutation (map N.to_nat ps) (seq 0 (length l)) -> NoDup ps /\ Permutation xs l.
Proof.
  intros H HP. split.
  - apply (NoDup_map_inv N.to_nat). eapply Permutation_NoDup; [symmetry; exact HP|apply seq_NoDup].
  - assert (map Some xs = map (nth_error l) (map N.to_nat ps)) as E.
    { clear HP. induction H as [|p x ps xs Hp _ IH]; cbn [map]; [reflexivity|]. rewrite Hp, IH. reflexivity. }
    assert (map (nth_error l) (seq 0 (length l)) = map Some l) as El.
    { clear. induction l as [|a l IH]; [reflexivity|]. cbn [length seq map nth_error]. f_equal. rewrite <- IH, <- seq_shift, map_map. reflexivity. }
    apply (Permutation_map (nth_error l)) in HP. rewrite El, <- E in HP.
    apply (Permutation_map_inv) in HP as (l' & E' & HP').
    assert (l' = xs) as ->; [|symmetry; exact HP'].
    clear - E'. revert xs E'. induction l' as [|a l' IH]; intros [|b xs] E'; cbn in E'; try discriminate; [reflexivity|].
    injection E' as -> E'. f_equal. apply IH. exact E'.
Qed.

Section WithEnv.
Context (C : Crypto) (Z : Zip) (T : target) (HL : CryptoLaws C) (HZ : ZipLaws Z).
Local Notation sevent := (scall * sreply)%type.

Lemma posted_writes u : map fst (posted u) = writes (map snd u).
Proof.
  unfold posted, writes. induction (map snd u) as [|[c r] h IH]; [reflexivity|]. cbn [flat_map]. rewrite map_app. f_equal; [|exact IH].
  destruct c; try reflexivity. destruct r; try reflexivity; match goal with o : outcome unit |- _ => destruct o; reflexivity end.
Qed.
Lemma sposted_writes u : map fst (sposted u) = swrites (map snd u).
Proof.
  unfold sposted, swrites. induction (map snd u) as [|[c r] h IH]; [reflexivity|]. cbn [flat_map]. rewrite map_app. f_equal; [|exact IH].
  destruct c; try reflexivity. destruct r; try reflexivity. match goal with o : outcome unit |- _ => destruct o end; reflexivity.
Qed.

(** With one writing handle, the messages posted are numbered by their places. *)
Lemma posted_nth g u k j p data d :
  family C T g u -> len u < 2 ^ 64 -> good_writers u -> holds (g, u) k -> only writes_user u j ->
  nth_error (posted u) (N.to_nat p) = Some (data, d) -> d = user_datagram C k p data /\ p < 2 ^ 64.
Proof.
  intros HG Hb Hg (x & Hx & Hk) Hw Hp. apply nth_flat in Hp as (t & i & e & Ht & He & Hq).
  2: { intros [c r]. destruct c; cbn; try lia. destruct r; cbn; try lia; match goal with o : outcome unit |- _ => destruct o; cbn; lia end. }
  destruct e as [c r]. destruct c; try discriminate He. destruct r as [| | |[[]| |] w'| |]; try discriminate He.
  injection He as <- Ed.
  assert (i = j) as -> by (eapply Hw; [eapply nth_error_In, Ht|discriminate]).
  destruct (family_numbers C T HL g u HG Hb) as (k0 & Hk0 & Hnum).
  assert (k = k0) as <- by (eapply Hk0; eassumption).
  destruct (Hnum t j _ _ _ Ht (Hg _ _ _ _ (nth_error_In _ _ Ht))) as (_ & Ho).
  rewrite Ho, skipn_exact in Ed.
  pose proof (fi_wf _ _ _ _ (finv_family C T HL _ _ HG Hb)) as HWu.
  assert (N.of_nat (number clones written u t) < 2 ^ 64) as Hn by (eapply past_short; eassumption).
  assert (N.of_nat (number clones written u t) = p) as E.
  { change (number clones written u t) with (count written (events u (Family.past clones u t))). rewrite count_writes.
    - assert (writes (events u (Family.past clones u t)) = writes (map snd (firstn t u))) as -> by exact (only_past clones _ u _ t j _ HWu Hw Ht).
      rewrite <- posted_writes, map_length.
      assert (length (posted (firstn t u)) = N.to_nat p) as -> by (symmetry; exact Hq). apply Nnat.N2Nat.id.
    - intros e He. apply events_in in He as (i' & He). apply (family_replies C T _ _ _ _ HG He).
    - intros e He. apply events_in in He as (i' & He). apply (family_replies C T _ _ _ _ HG He). }
  rewrite E in *. auto.
Qed.

Theorem family_delivers f tr i s k g u j :
  family C T f tr -> nth_error f i = Some s ->
  lossless (events tr (Family.life clones tr i)) -> user_deliveries (events tr (Family.life clones tr i)) = [] ->
  established s -> session_key s = Some k -> keystream_ok C k ->
  family C T g u -> len u < 2 ^ 64 -> good_writers u -> holds (g, u) k -> only writes_user u j ->
  forall ps xs, picked (posted u) ps xs -> (forall x, In x xs -> len (snd x) < 2 ^ usize_bits T) ->
    len tr + len ps < 2 ^ 64 -> in_window_of ps \/ len (nodup N.eq_dec ps) <= 10000 ->
    exists s', answers C T s (map snd xs) (once [] (combine ps (map fst xs))) s' /\ established s'.
Proof.
  intros HF Hs Hl Hn He Hk Hks HG Hbu Hg Hh Hw ps xs Hp Hsz Hb Hwin.
  destruct (family_receiver C T HL f tr i s k HF ltac:(lia) Hs Hl He Hk) as (l & Hacc & H).
  rewrite (no_deliveries C T _ _ _ _ Hacc Hn) in H. cbn [map] in H.
  pose proof (picked_combine _ _ _ Hp) as Ec.
  assert (length xs = length ps) as Elen by (clear - Hp; induction Hp; cbn; congruence).
  assert (Forall2 (fun d m => opens C T k d (fst m) (snd m)) (map snd xs) (combine ps (map fst xs))) as Ho.
  { clear - Hp Hsz HG Hbu Hg Hh Hw Hks HL. induction Hp as [|p [data d] ps xs Hp _ IH]; cbn [map combine fst snd]; constructor; cbn [fst snd].
    - destruct (posted_nth g u k j p data d HG Hbu Hg Hh Hw Hp) as (-> & Hpn). apply user_opens; [exact Hpn|exact Hks|].
      pose proof (user_datagram_len C HL k p data). specialize (Hsz _ (or_introl eq_refl)). cbn [snd] in Hsz. lia.
    - apply IH. intros x Hx. apply Hsz. right. exact Hx. }
  destruct (H _ _ Ho) as (os & s' & R' & Ha & Hr & _ & Hf). { unfold len in *. rewrite map_length, Elen. exact Hb. }
  exists s'. assert (os = once [] (combine ps (map fst xs)) /\ dead R' = false) as [-> Hd].
  { destruct Hwin as [Hwin|Hwin]; [eapply window_once|eapply few_once]; try eassumption.
    - intros a n data b Eq m Hm. apply (Hwin (map fst a) n (map fst b)); [|exact Hm]. rewrite <- Ec, Eq, map_app. reflexivity.
    - rewrite Ec. exact Hwin. }
  split; [exact Ha|]. apply Hf, Hd.
Qed.

Theorem family_delivers_all f tr i s k g u j :
  family C T f tr -> nth_error f i = Some s ->
  lossless (events tr (Family.life clones tr i)) -> user_deliveries (events tr (Family.life clones tr i)) = [] ->
  established s -> session_key s = Some k -> keystream_ok C k ->
  family C T g u -> len u < 2 ^ 64 -> good_writers u -> holds (g, u) k -> only writes_user u j ->
  forall ps xs, picked (posted u) ps xs -> (forall x, In x xs -> len (snd x) < 2 ^ usize_bits T) ->
    len tr + len ps < 2 ^ 64 -> in_window_of ps \/ len ps <= 10000 ->
    Permutation (map N.to_nat ps) (seq 0 (length (posted u))) ->
    exists s', answers C T s (map snd xs) (map (fun x => Ok (Some (MMessage (nonempty (fst x))))) xs) s' /\ established s' /\
      Permutation (map fst xs) (writes (map snd u)).
Proof.
  intros HF Hs Hl Hn He Hk Hks HG Hbu Hg Hh Hw ps xs Hp Hsz Hb Hwin HP.
  destruct (picked_all _ _ _ Hp HP) as [Hnd Hx].
  destruct (family_delivers f tr i s k g u j HF Hs Hl Hn He Hk Hks HG Hbu Hg Hh Hw ps xs Hp Hsz Hb) as (s' & Ha & He').
  { destruct Hwin as [Hwin|Hwin]; [left; exact Hwin|right]. rewrite nodup_fixed_point by exact Hnd. exact Hwin. }
  exists s'. split; [|split; [exact He'|]].
  - rewrite once_fresh in Ha; [|rewrite (picked_combine _ _ _ Hp); exact Hnd|intros n _ []].
    assert (map (fun m => Ok (Some (MMessage (nonempty (snd m))))) (combine ps (map fst xs)) =
            map (fun x : bytes * bytes => Ok (Some (MMessage (nonempty (fst x))))) xs) as E.
    { clear - Hp. induction Hp as [|p x ps xs _ _ IH]; cbn; [reflexivity|]. f_equal. exact IH. }
    rewrite E in Ha. exact Ha.
  - rewrite <- posted_writes. apply Permutation_map. exact Hx.
Qed.

(** ** Complete mode *)
Lemma sposted_nth g u k j p data d :
  sfamily C Z T g u -> len u < 2 ^ 64 -> sgood_writers u -> sholds (g, u) k -> only swrites_user u j ->
  nth_error (sposted u) (N.to_nat p) = Some (data, d) ->
  exists z, deflated Z (Some data) z /\ d = user_datagram C k p z /\ p < 2 ^ 64.
Proof.
  intros HG Hb Hg Hh Hw Hp. apply nth_flat in Hp as (t & i & e & Ht & He & Hq).
  2: { intros [c r]. destruct c; cbn; try lia. destruct r; cbn; try lia; match goal with o : outcome unit |- _ => destruct o; cbn; lia end. }
  destruct e as [c r]. destruct c; try discriminate He. destruct r as [|[[]| |] w'| |]; try discriminate He.
  injection He as <- Ed.
  assert (i = j) as -> by (eapply Hw; [eapply nth_error_In, Ht|discriminate]).
  destruct (sfamily_written C Z T HL HZ g u t j _ _ _ k HG Hb Ht (Hg _ _ _ _ (nth_error_In _ _ Ht)) Hh) as (z & Hz & Ho).
  rewrite Ho, skipn_exact in Ed.
  pose proof (sf_wf _ _ _ _ _ (sfinv_family C Z T HL _ _ HG Hb)) as HWu.
  assert (N.of_nat (number sclones swritten u t) < 2 ^ 64) as Hn by (eapply past_short; eassumption).
  assert (N.of_nat (number sclones swritten u t) = p) as E.
  { change (number sclones swritten u t) with (length (filter swritten (events u (Family.past sclones u t)))).
    assert (forall h : list sevent, length (filter swritten h) = length (swrites h)) as Hc.
    { induction h as [|[c r] h IH]; [reflexivity|]. unfold swrites in *. cbn [filter flat_map]. rewrite app_length, <- IH.
      unfold swritten. destruct c; try reflexivity. destruct r as [|[| |]| |]; reflexivity. }
    rewrite Hc.
    assert (swrites (events u (Family.past sclones u t)) = swrites (map snd (firstn t u))) as -> by exact (only_past sclones _ u _ t j _ HWu Hw Ht).
    rewrite <- sposted_writes, map_length.
    assert (length (sposted (firstn t u)) = N.to_nat p) as -> by (symmetry; exact Hq). apply Nnat.N2Nat.id. }
  rewrite E in *. exists z. auto.
Qed.

Lemma sreceives_lift R mz os R' : sreceives Z R mz os R' -> forall ms,
  Forall2 (fun (m : N * bytes) z => fst z = fst m /\ deflated Z (Some (snd m)) (snd z)) ms mz ->
  exists os', receives R mz os' R' /\
    forall seen, os' = once seen mz -> os = once_each (fun d => IMessage (Some d)) seen ms.
Proof.
  induction 1 as [R|R n z a R1 mz os R2 H1 _ IH]; intros ms Hf; inversion Hf as [|[n' data] z0 ms' mz' [Hn Hd] Hf']; subst.
  - exists []. split; [constructor|reflexivity].
  - cbn [fst snd] in *. subst n'. destruct (IH _ Hf') as (os' & Hr & Ho). clear IH.
    inversion H1; subst.
    + eexists (_ :: os'). split; [econstructor; [apply rc_repeated; assumption|exact Hr]|].
      intros seen E. cbn [once once_each] in *. destruct (existsb (N.eqb n) seen); [|discriminate E].
      f_equal. apply Ho. congruence.
    + eexists (_ :: os'). split; [econstructor; [apply rc_dead; assumption|exact Hr]|].
      intros seen E. cbn [once] in E. destruct (existsb (N.eqb n) seen); discriminate E.
    + eexists (_ :: os'). split; [econstructor; [apply rc_delivered; assumption|exact Hr]|].
      intros seen E. cbn [once once_each] in *. destruct (existsb (N.eqb n) seen); [discriminate E|].
      f_equal; [|apply Ho; congruence]. do 4 f_equal. destruct Hd as [Hz0 Hi].
      match goal with X : deflated Z ?x z |- _ => destruct x as [x0|]; cbn in X; [destruct X as [_ X]|contradiction]; congruence end.
    + exfalso. destruct Hd as [_ Hd]. congruence.
    + eexists (_ :: os'). split; [econstructor; [apply rc_too_many; assumption|exact Hr]|].
      intros seen E. cbn [once] in E. destruct (existsb (N.eqb n) seen); discriminate E.
Qed.

Theorem sfamily_delivers f tr i s k g u j x :
  sfamily C Z T f tr -> nth_error f i = Some s ->
  let sh := events tr (Family.life sclones tr i) in
  snever_panics sh -> sreturned sh (IAck x) -> smessages sh = [] -> (forall e, In e sh -> zip_error (snd e) = false) ->
  sestablished s -> session_key (minimal s) = Some k -> keystream_ok C k ->
  sfamily C Z T g u -> len u < 2 ^ 64 -> sgood_writers u -> sholds (g, u) k -> only swrites_user u j ->
  forall ps xs, picked (sposted u) ps xs -> (forall x, In x xs -> len (snd x) < 2 ^ usize_bits T) ->
    2 * len tr + len ps < 2 ^ 64 -> in_window_of ps \/ len (nodup N.eq_dec ps) <= 10000 ->
    exists s', sanswers C Z T s (map snd xs) (once_each (fun d => IMessage (Some d)) [] (combine ps (map fst xs))) s' /\ sestablished s'.
Proof.
  intros HF Hs sh Hnp Hx Hn Hz He Hk Hks HG Hbu Hg Hh Hw ps xs Hp Hsz Hb Hwin.
  destruct (sfamily_receiver C Z T HL HZ f tr i s k x HF ltac:(lia) Hs Hnp Hx He Hk) as (l & _ & _ & Hm & H).
  specialize (Hm Hz). fold sh in Hm. rewrite Hn in Hm. inversion Hm. subst l. clear Hm. cbn [map] in H.
  pose proof (picked_combine _ _ _ Hp) as Ec.
  assert (length xs = length ps) as Elen by (clear - Hp; induction Hp; cbn; congruence).
  assert (exists mz, Forall2 (fun d m => opens C T k d (fst m) (snd m)) (map snd xs) mz /\
    Forall2 (fun (m : N * bytes) z => fst z = fst m /\ deflated Z (Some (snd m)) (snd z)) (combine ps (map fst xs)) mz /\
    map fst mz = ps) as (mz & Ho & Hd & E3).
  { clear - Hp Hsz HG Hbu Hg Hh Hw Hks HL HZ. induction Hp as [|p [data d] ps xs Hp _ IH]; cbn [map combine fst snd].
    - exists []. repeat constructor.
    - destruct IH as (mz & I1 & I2 & I3); [intros y Hy; apply Hsz; right; exact Hy|].
      destruct (sposted_nth g u k j p data d HG Hbu Hg Hh Hw Hp) as (z & Hz & -> & Hpn).
      exists ((p, z) :: mz). split; [|split; [constructor; cbn [fst snd]; auto|cbn [map fst]; congruence]].
      constructor; [|exact I1]. cbn [fst snd]. apply user_opens; [exact Hpn|exact Hks|].
      pose proof (user_datagram_len C HL k p z). specialize (Hsz _ (or_introl eq_refl)). cbn [snd] in Hsz. lia. }
  destruct (H _ _ Ho) as (os & s' & R' & Ha & Hr & _ & Hf). { unfold len in *. rewrite map_length, Elen. exact Hb. }
  destruct (sreceives_lift _ _ _ _ Hr _ Hd) as (os' & Hr' & Hos).
  assert (os' = once [] mz /\ dead R' = false) as [E Hdd].
  { destruct Hwin as [Hwin|Hwin]; [eapply window_once|eapply few_once]; try eassumption.
    - intros a n data b Eq m Hm. apply (Hwin (map fst a) n (map fst b)); [|exact Hm]. rewrite <- E3, Eq, map_app. reflexivity.
    - rewrite E3. exact Hwin. }
  exists s'. rewrite (Hos [] E) in Ha. split; [exact Ha|]. apply Hf, Hdd.
Qed.

Theorem sfamily_delivers_all f tr i s k g u j x :
  sfamily C Z T f tr -> nth_error f i = Some s ->
  let sh := events tr (Family.life sclones tr i) in
  snever_panics sh -> sreturned sh (IAck x) -> smessages sh = [] -> (forall e, In e sh -> zip_error (snd e) = false) ->
  sestablished s -> session_key (minimal s) = Some k -> keystream_ok C k ->
  sfamily C Z T g u -> len u < 2 ^ 64 -> sgood_writers u -> sholds (g, u) k -> only swrites_user u j ->
  forall ps xs, picked (sposted u) ps xs -> (forall x, In x xs -> len (snd x) < 2 ^ usize_bits T) ->
    2 * len tr + len ps < 2 ^ 64 -> in_window_of ps \/ len ps <= 10000 ->
    Permutation (map N.to_nat ps) (seq 0 (length (sposted u))) ->
    exists s', sanswers C Z T s (map snd xs) (map (fun x => Ok [IMessage (Some (fst x))]) xs) s' /\ sestablished s' /\
      Permutation (map fst xs) (swrites (map snd u)).
Proof.
  intros HF Hs sh Hnp Hx Hn Hz He Hk Hks HG Hbu Hg Hh Hw ps xs Hp Hsz Hb Hwin HP.
  destruct (picked_all _ _ _ Hp HP) as [Hnd Hxs].
  destruct (sfamily_delivers f tr i s k g u j x HF Hs Hnp Hx Hn Hz He Hk Hks HG Hbu Hg Hh Hw ps xs Hp Hsz Hb) as (s' & Ha & He').
  { destruct Hwin as [Hwin|Hwin]; [left; exact Hwin|right]. rewrite nodup_fixed_point by exact Hnd. exact Hwin. }
  exists s'. split; [|split; [exact He'|]].
  - rewrite once_each_fresh in Ha; [|rewrite (picked_combine _ _ _ Hp); exact Hnd|intros n _ []].
    assert (map (fun m : N * bytes => Ok [IMessage (Some (snd m))]) (combine ps (map fst xs)) =
            map (fun x : bytes * bytes => Ok [IMessage (Some (fst x))]) xs) as E.
    { clear - Hp. induction Hp as [|p y ps xs _ _ IH]; cbn; [reflexivity|]. f_equal. exact IH. }
    rewrite E in Ha. exact Ha.
  - rewrite <- sposted_writes. apply Permutation_map. exact Hxs.
Qed.
End WithEnv.

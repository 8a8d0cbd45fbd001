(** C83: whatever the handles on both sides, delivered messages are the peer's. *)

From Coq Require Import Arith.
From Verif.Model Require Import Complete.
From Verif.Spec Require Import Wire Datagram Trace ReadSpec Accept Session Writers Adversary CompleteTrace
  CompleteAdversary Family FamilyAdversary.
From Verif.Proofs Require Import BaseFacts FamilyAdversary.
From Verif.Instances Require Import Toy Scenario CompleteScenario.
From Verif.Properties Require Import Adversary Family.

(** ** C83 *)

(** Everything delivered in the life of a handle was written on a handle of a
    connection [W] with the same key, under the number counted on that handle,
    and each number was delivered at most once. *)
Theorem C83_authentic : forall (C : Crypto) (T : target), CryptoLaws C -> forall f tr i s k (W : connection -> Prop),
  family C T f tr -> len tr < 2 ^ 64 -> nth_error f i = Some s -> session_key s = Some k ->
  (forall c, W c -> family C T (fst c) (snd c) /\ len (snd c) < 2 ^ 64) ->
  unforged_datagrams C k W tr ->
  exists l : list (N * bytes),
    user_deliveries (events tr (life clones tr i)) = map (fun x => nonempty (snd x)) l /\
    NoDup (map fst l) /\
    forall n data, In (n, data) l ->
      exists c t, W c /\ holds c k /\ wrote_as c t data (user_datagram C k n data) /\
        n = N.of_nat (count written (events (snd c) (past clones (snd c) t))).
Proof. exact family_authentic. Qed.
Print Assumptions C83_authentic.

(** The use [try_clone] is made for: one handle writes there, one handle reads
    here.  Everything delivered here is one of the messages written there,
    each at most once. *)
Theorem C83_end_to_end : forall (C : Crypto) (T : target), CryptoLaws C -> forall f tr i s k g u j,
  family C T f tr -> len tr < 2 ^ 64 -> nth_error f i = Some s -> session_key s = Some k ->
  family C T g u -> len u < 2 ^ 64 -> unforged_datagrams C k (eq (g, u)) tr ->
  only delivers_user tr i -> only writes_user u j ->
  exists l : list (N * bytes),
    user_deliveries (map snd tr) = map (fun x => nonempty (snd x)) l /\
    NoDup (map fst l) /\
    forall n data, In (n, data) l -> nth_error (writes (map snd u)) (N.to_nat n) = Some data.
Proof. exact family_end_to_end. Qed.
Print Assumptions C83_end_to_end.

(** However many handles write there, as long as one handle reads here: [ps]
    are the places of the messages delivered here among the messages written
    there. *)
Theorem C83_one_reader : forall (C : Crypto) (T : target), CryptoLaws C -> forall f tr i s k g u,
  family C T f tr -> len tr < 2 ^ 64 -> nth_error f i = Some s -> session_key s = Some k ->
  family C T g u -> len u < 2 ^ 64 -> unforged_datagrams C k (eq (g, u)) tr ->
  only delivers_user tr i ->
  exists ps, NoDup ps /\
    Forall2 (fun p o => exists data, nth_error (writes (map snd u)) p = Some data /\ o = nonempty data)
      ps (user_deliveries (map snd tr)).
Proof. exact family_one_reading. Qed.
Print Assumptions C83_one_reader.

(** The peer of the families of C82: handle 0 writes, handle 1 reads. *)
Definition peer_use : list (nat * call) :=
  map (pair 0%nat) callsB ++
  [(0%nat, CClone); (0%nat, CWrite [x31] vec_writer); (1%nat, CRead (msgA 0 [x41])); (0%nat, CWrite [x33] vec_writer);
   (0%nat, CWrite [x32] vec_writer)].
Definition peer_f := Eval vm_compute in fst (fam_run [B0] peer_use).
Definition peer_tr := Eval vm_compute in snd (fam_run [B0] peer_use).
Lemma fam_run_B0 cs : fam_ok [B0] cs = true -> family toy T (fst (fam_run [B0] cs)) (snd (fam_run [B0] cs)).
Proof. exact (fam_run_family [B0] [] cs (family_create toy T _ _ _ _ created_B0)). Qed.
Lemma peer_family : family toy T peer_f peer_tr.
Proof.
  replace peer_f with (fst (fam_run [B0] peer_use)) by (vm_compute; exact eq_refl).
  replace peer_tr with (snd (fam_run [B0] peer_use)) by (vm_compute; exact eq_refl).
  apply fam_run_B0. vm_compute. exact eq_refl.
Qed.
Lemma peer_holds : holds (peer_f, peer_tr) kAB.
Proof. exists (nth 0 peer_f dummy). split; [left; vm_compute; exact eq_refl|vm_compute; exact eq_refl]. Qed.

Lemma unforged_check C k W (tr : trace event) ws :
  CryptoLaws C ->
  forallb (fun x => match fst (snd x) with CRead d => negb (tag_good C k d) || existsb (bytes_eqb d) ws | _ => true end) tr = true ->
  (forall d, In d ws -> exists c t data, W c /\ holds c k /\ wrote_as c t data d) ->
  unforged_datagrams C k W tr.
Proof.
  intros HL H Hw i text r Hin. rewrite forallb_forall in H. specialize (H _ Hin). cbn [fst snd] in H.
  rewrite (tag_good_seal C k text HL) in H. cbn [negb orb] in H.
  apply existsb_exists in H as (x & Hx & He). apply bytes_eqb_eq in He. subst x. apply Hw. exact Hx.
Qed.
Lemma peer_wrote d : In d [msgA 0 [x31]; msgA 2 [x32]] ->
  exists c t data, eq (peer_f, peer_tr) c /\ holds c kAB /\ wrote_as c t data d.
Proof.
  intros [<-|[<-|[]]].
  - eexists _, 5%nat, _. split; [reflexivity|]. split; [exact peer_holds|].
    eexists _, _, _. split; [reflexivity|]. split; [left; reflexivity|]. vm_compute. exact eq_refl.
  - eexists _, 8%nat, _. split; [reflexivity|]. split; [exact peer_holds|].
    eexists _, _, _. split; [reflexivity|]. split; [left; reflexivity|]. vm_compute. exact eq_refl.
Qed.
Lemma only_check {E} (p : E -> Prop) (b : E -> bool) (tr : trace E) j :
  (forall e, p e -> b e = true) -> forallb (fun x => negb (b (snd x)) || Nat.eqb (fst x) j) tr = true -> only p tr j.
Proof.
  intros Hb H i e Hin Hp. rewrite forallb_forall in H. specialize (H _ Hin). cbn [fst snd] in H. rewrite (Hb e Hp) in H.
  apply Nat.eqb_eq, H.
Qed.
Lemma some_check {A} (l : list A) : l <> [] -> match l with [] => false | _ => true end = true.
Proof. destruct l; [congruence|reflexivity]. Qed.

Example C83_case :
  family toy T split_f split_tr /\ len split_tr < 2 ^ 64 /\ nth_error split_f 1 = Some split_1 /\ session_key split_1 = Some kAB /\
  family toy T peer_f peer_tr /\ len peer_tr < 2 ^ 64 /\ unforged_datagrams toy kAB (eq (peer_f, peer_tr)) split_tr /\
  only delivers_user split_tr 1 /\ only writes_user peer_tr 0 /\
  user_deliveries (map snd split_tr) = [Some [x31]; Some [x32]] /\ writes (map snd peer_tr) = [[x31]; [x33]; [x32]].
Proof.
  split; [exact split_family|]. do 3 (split; [vm_compute; exact eq_refl|]).
  split; [exact peer_family|]. split; [vm_compute; exact eq_refl|]. split.
  { apply (unforged_check toy kAB _ _ [msgA 0 [x31]; msgA 2 [x32]] toy_laws); [vm_compute; exact eq_refl|exact peer_wrote]. }
  split. { eapply only_check; [intros e; apply some_check|vm_compute; exact eq_refl]. }
  split. { eapply only_check; [intros e; apply some_check|vm_compute; exact eq_refl]. }
  split; vm_compute; exact eq_refl.
Qed.

(** Without one reading handle: false.  The peer wrote [x31] once, two handles
    delivered it. *)
Theorem C83_any_readers_refuted :
  ~ (forall (C : Crypto) (T : target), CryptoLaws C -> forall f tr i s k g u,
     family C T f tr -> len tr < 2 ^ 64 -> nth_error f i = Some s -> session_key s = Some k ->
     family C T g u -> len u < 2 ^ 64 -> unforged_datagrams C k (eq (g, u)) tr ->
     exists ps, NoDup ps /\
       Forall2 (fun p o => exists data, nth_error (writes (map snd u)) p = Some data /\ o = nonempty data)
         ps (user_deliveries (map snd tr))).
Proof.
  intros H. destruct (H toy T toy_laws shared_f shared_tr 0%nat (nth 0 shared_f dummy) kAB peer_f peer_tr) as (ps & Hn & Hf).
  - exact shared_family.
  - vm_compute. exact eq_refl.
  - vm_compute. exact eq_refl.
  - vm_compute. exact eq_refl.
  - exact peer_family.
  - vm_compute. exact eq_refl.
  - apply (unforged_check toy kAB _ _ [msgA 0 [x31]; msgA 2 [x32]] toy_laws); [vm_compute; exact eq_refl|exact peer_wrote].
  - assert (user_deliveries (map snd shared_tr) = [Some [x31]; Some [x31]]) as E by (vm_compute; exact eq_refl). rewrite E in Hf.
    assert (writes (map snd peer_tr) = [[x31]; [x33]; [x32]]) as Ew by (vm_compute; exact eq_refl). rewrite Ew in Hf.
    assert (forall p, (exists data, nth_error [[x31]; [x33]; [x32]] p = Some data /\ Some [x31] = nonempty data) -> p = 0%nat) as H0.
    { intros p (data & Hp & Hd). destruct p as [|[|[|[|p]]]]; cbn in Hp; try discriminate; [reflexivity|injection Hp as <-; discriminate Hd..]. }
    inversion Hf as [|p1 o1 ps1 os1 Hp1 Hf1]; subst. inversion Hf1 as [|p2 o2 ps2 os2 Hp2 Hf2]; subst.
    apply H0 in Hp1, Hp2. subst. inversion Hn as [|a b Ha _]; subst. apply Ha. left. reflexivity.
Qed.
Print Assumptions C83_any_readers_refuted.

(** Complete mode. *)
Theorem C83_complete_authentic : forall (C : Crypto) (Z : Zip) (T : target), CryptoLaws C -> ZipLaws Z ->
  forall f tr i s k (W : sconnection -> Prop),
  sfamily C Z T f tr -> 2 * len tr < 2 ^ 64 -> nth_error f i = Some s -> session_key (minimal s) = Some k ->
  (forall c, W c -> sfamily C Z T (fst c) (snd c) /\ len (snd c) < 2 ^ 64) ->
  sunforged_datagrams C k W tr ->
  exists l : list (N * bytes),
    smessages (events tr (life sclones tr i)) = map (fun x => Some (snd x)) l /\
    NoDup (map fst l) /\
    forall n data, In (n, data) l ->
      exists c t z, W c /\ sholds c k /\ swrote_as c t data (user_datagram C k n z) /\
        n = N.of_nat (length (filter swritten (events (snd c) (past sclones (snd c) t)))).
Proof. exact sfamily_authentic. Qed.
Print Assumptions C83_complete_authentic.

Theorem C83_complete_end_to_end : forall (C : Crypto) (Z : Zip) (T : target), CryptoLaws C -> ZipLaws Z ->
  forall f tr i s k g u j,
  sfamily C Z T f tr -> 2 * len tr < 2 ^ 64 -> nth_error f i = Some s -> session_key (minimal s) = Some k ->
  sfamily C Z T g u -> len u < 2 ^ 64 -> sunforged_datagrams C k (eq (g, u)) tr ->
  only sdelivers_user tr i -> only swrites_user u j ->
  exists l : list (N * bytes),
    smessages (map snd tr) = map (fun x => Some (snd x)) l /\
    NoDup (map fst l) /\
    forall n data, In (n, data) l -> nth_error (swrites (map snd u)) (N.to_nat n) = Some data.
Proof. exact sfamily_end_to_end. Qed.
Print Assumptions C83_complete_end_to_end.

Theorem C83_complete_one_reader : forall (C : Crypto) (Z : Zip) (T : target), CryptoLaws C -> ZipLaws Z ->
  forall f tr i s k g u,
  sfamily C Z T f tr -> 2 * len tr < 2 ^ 64 -> nth_error f i = Some s -> session_key (minimal s) = Some k ->
  sfamily C Z T g u -> len u < 2 ^ 64 -> sunforged_datagrams C k (eq (g, u)) tr ->
  only sdelivers_user tr i ->
  exists ps, NoDup ps /\
    Forall2 (fun p o => exists data, nth_error (swrites (map snd u)) p = Some data /\ o = Some data)
      ps (smessages (map snd tr)).
Proof. exact sfamily_one_reading. Qed.
Print Assumptions C83_complete_one_reader.

Definition ssplit_use : list (nat * scall) :=
  map (pair 0%nat) scallsA ++
  [(0%nat, SClone); (0%nat, SWrite [x41] vec_writer); (1%nat, SRead (msgA 1 [x00; x33])); (1%nat, SRead (msgA 1 [x00; x33]));
   (1%nat, SRead (msgA 0 [x00; x31]))].
Definition ssplit_f := Eval vm_compute in fst (sfam_run [SA0] ssplit_use).
Definition ssplit_tr := Eval vm_compute in snd (sfam_run [SA0] ssplit_use).
Lemma ssplit_family : sfamily toy toy_zip T ssplit_f ssplit_tr.
Proof.
  replace ssplit_f with (fst (sfam_run [SA0] ssplit_use)) by (vm_compute; exact eq_refl).
  replace ssplit_tr with (snd (sfam_run [SA0] ssplit_use)) by (vm_compute; exact eq_refl).
  apply sfam_run_SA0. vm_compute. exact eq_refl.
Qed.
Definition speer_use : list (nat * scall) :=
  map (pair 0%nat) scallsB ++
  [(0%nat, SClone); (0%nat, SWrite [x31] vec_writer); (1%nat, SRead (msgA 0 [x00; x41])); (0%nat, SWrite [x33] vec_writer)].
Definition speer_f := Eval vm_compute in fst (sfam_run [SB0] speer_use).
Definition speer_tr := Eval vm_compute in snd (sfam_run [SB0] speer_use).
Lemma sfam_run_SB0 cs : sfam_ok [SB0] cs = true -> sfamily toy toy_zip T (fst (sfam_run [SB0] cs)) (snd (sfam_run [SB0] cs)).
Proof. exact (sfam_run_family [SB0] [] cs (sfamily_create toy toy_zip T _ _ _ _ _ _ created_SB0)). Qed.
Lemma speer_family : sfamily toy toy_zip T speer_f speer_tr.
Proof.
  replace speer_f with (fst (sfam_run [SB0] speer_use)) by (vm_compute; exact eq_refl).
  replace speer_tr with (snd (sfam_run [SB0] speer_use)) by (vm_compute; exact eq_refl).
  apply sfam_run_SB0. vm_compute. exact eq_refl.
Qed.
Lemma speer_holds : sholds (speer_f, speer_tr) kAB.
Proof. exists (nth 0 speer_f SA0). split; [left; vm_compute; exact eq_refl|vm_compute; exact eq_refl]. Qed.
Lemma sunforged_check C k W (tr : trace (scall * sreply)) ws :
  CryptoLaws C ->
  forallb (fun x => match fst (snd x) with SRead d => negb (tag_good C k d) || existsb (bytes_eqb d) ws | _ => true end) tr = true ->
  (forall d, In d ws -> exists c t data, W c /\ sholds c k /\ swrote_as c t data d) ->
  sunforged_datagrams C k W tr.
Proof.
  intros HL H Hw i text r Hin. rewrite forallb_forall in H. specialize (H _ Hin). cbn [fst snd] in H.
  rewrite (tag_good_seal C k text HL) in H. cbn [negb orb] in H.
  apply existsb_exists in H as (x & Hx & He). apply bytes_eqb_eq in He. subst x. apply Hw. exact Hx.
Qed.
Definition ssplit_1 := nth 1 ssplit_f SA0.
Example C83_complete_case :
  sfamily toy toy_zip T ssplit_f ssplit_tr /\ 2 * len ssplit_tr < 2 ^ 64 /\ nth_error ssplit_f 1 = Some ssplit_1 /\
  session_key (minimal ssplit_1) = Some kAB /\
  sfamily toy toy_zip T speer_f speer_tr /\ len speer_tr < 2 ^ 64 /\
  sunforged_datagrams toy kAB (eq (speer_f, speer_tr)) ssplit_tr /\
  only sdelivers_user ssplit_tr 1 /\ only swrites_user speer_tr 0 /\
  smessages (map snd ssplit_tr) = [Some [x33]; Some [x31]] /\ swrites (map snd speer_tr) = [[x31]; [x33]].
Proof.
  split; [exact ssplit_family|]. do 3 (split; [vm_compute; exact eq_refl|]).
  split; [exact speer_family|]. split; [vm_compute; exact eq_refl|]. split.
  { apply (sunforged_check toy kAB _ _ [msgA 0 [x00; x31]; msgA 1 [x00; x33]] toy_laws); [vm_compute; exact eq_refl|].
    intros d [<-|[<-|[]]].
    - eexists _, 5%nat, _. split; [reflexivity|]. split; [exact speer_holds|].
      eexists _, _, _. split; [reflexivity|]. split; [left; reflexivity|]. vm_compute. exact eq_refl.
    - eexists _, 7%nat, _. split; [reflexivity|]. split; [exact speer_holds|].
      eexists _, _, _. split; [reflexivity|]. split; [left; reflexivity|]. vm_compute. exact eq_refl. }
  split. { eapply only_check; [intros e; apply some_check|vm_compute; exact eq_refl]. }
  split. { eapply only_check; [intros e; apply some_check|vm_compute; exact eq_refl]. }
  split; vm_compute; exact eq_refl.
Qed.

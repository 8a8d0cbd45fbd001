(** C81: a signature key stolen after the negotiation opens nothing.

    [forging C v] (Spec/Stolen.v) is the world [C] in which the signatures [v]
    are good too, whoever made them: stolen seeds, a broken signature scheme. *)

From Verif.Model Require Import Complete.
From Verif.Spec Require Import Wire Datagram Trace ReadSpec Accept Session Writers Attacks Adversary CompleteTrace Stolen.
From Verif.Proofs Require Import Stolen StolenLater.
From Verif.Instances Require Import Toy Scenario CompleteScenario.
From Verif.Properties Require Import Adversary.

(** ** C81, minimal mode *)

(** From an established layer on, with the same calls: the forged signatures
    change nothing, neither a reply nor the layer, up to the first call that
    reads one.  That call is an error either way, and with the forged
    signature accepted the layer is failed: nothing is delivered or sent any
    more. *)
Theorem C81_thief : forall (C : Crypto) (T : target) (v : bytes -> bytes -> bytes -> bool)
    s cs s1 h1 s2 h2,
  reachable C T s -> established s ->
  run C T s cs = (s1, h1) -> run (forging C v) T s cs = (s2, h2) ->
  (s2 = s1 /\ h2 = h1) \/
  exists g c e t1 t2,
    reads_forgery C v c /\ too_late e /\
    h1 = g ++ (c, RMsg (Err (RecvInvalidMsg InvalidHashOrSig))) :: t1 /\
    h2 = g ++ (c, RMsg (Err e)) :: t2 /\ Forall inert t2 /\ failed C s2.
Proof. intros C T v. exact (thief C T v). Qed.
Print Assumptions C81_thief.

(** A forgery of B's signature: 64 zero bytes are good for [pkB]. *)
Definition zeros : bytes := repeat x00 64.
Definition thief_sig (pk t sig : bytes) : bool := bytes_eqb pk pkB && bytes_eqb sig zeros.
Definition late_connect : bytes := connect_frame epkA pkB [x66] ++ zeros.
Definition robbed : list call :=
  [CRead (msgA 0 [x31]); CRead late_connect; CRead (msgA 1 [x32]); CWrite [x33] vec_writer].

Example C81_thief_case :
  reachable toy T A4 /\ established A4 /\
  map snd (snd (run toy T A4 robbed)) =
    [RMsg (Ok (Some (MMessage (Some [x31])))); RMsg (Err (RecvInvalidMsg InvalidHashOrSig));
     RMsg (Ok (Some (MMessage (Some [x32]))));
     RWritten (Ok tt) (snd (fst (write_message toy T [x33] (fst (run toy T A4 (firstn 3 robbed))) vec_writer)))] /\
  map snd (snd (run (forging toy thief_sig) T A4 robbed)) =
    [RMsg (Ok (Some (MMessage (Some [x31])))); RMsg (Err (RecvInvalidMsg UnexpectedConnectMsg));
     RMsg (Err ConnectionHadFail); RWritten (Err ConnectionHadFail) vec_writer] /\
  reads_forgery toy thief_sig (CRead late_connect).
Proof.
  split; [exact reachable_A4|]. split; [eexists; vm_compute; exact eq_refl|].
  split; [vm_compute; exact eq_refl|]. split; [vm_compute; exact eq_refl|].
  exists pkB, (connect_frame epkA pkB [x66]), zeros. split; [exact eq_refl|]. split; vm_compute; exact eq_refl.
Qed.

(** ** C81, complete mode *)
Theorem C81_complete_thief : forall (C : Crypto) (Z : Zip) (T : target) (v : bytes -> bytes -> bytes -> bool)
    s cs s1 h1 s2 h2,
  sreachable C Z T s -> sestablished s ->
  srun C Z T s cs = (s1, h1) -> srun (forging C v) Z T s cs = (s2, h2) ->
  (s2 = s1 /\ h2 = h1) \/
  exists g c e t1 t2,
    sreads_forgery C v c /\ too_late e /\
    h1 = g ++ (c, SMsgs (Err (RecvInvalidMsg InvalidHashOrSig))) :: t1 /\
    h2 = g ++ (c, SMsgs (Err e)) :: t2 /\ Forall sinert t2 /\ sfailed C s2.
Proof. intros C Z T v. exact (sthief C T v Z). Qed.
Print Assumptions C81_complete_thief.

Example C81_complete_thief_case :
  sestablished SA4 /\
  map snd (snd (srun toy toy_zip T SA4 [SRead late_connect; SClone])) =
    [SMsgs (Err (RecvInvalidMsg InvalidHashOrSig)); snd (scall_step toy toy_zip T SA4 SClone)] /\
  map snd (snd (srun (forging toy thief_sig) toy_zip T SA4 [SRead late_connect; SClone])) =
    [SMsgs (Err (RecvInvalidMsg UnexpectedConnectMsg)); SCloned (Err NegoMustHaveBeenSuccessful)].
Proof.
  split; [eexists; vm_compute; exact eq_refl|]. split; vm_compute; exact eq_refl.
Qed.

(** ** C81, what the layer can rely on *)

(** [a] expects [pk] and has become established while nothing signed with [pk]
    was forged.  Whatever is forged afterwards ([unforged] says nothing about
    [h]), its key stays the one shared with the owner of [pk], no CONNECT and
    no ACK is delivered, and every user message, before and after the theft,
    was written by a layer that holds that key. *)
Theorem C81_authentic_later : forall (C : Crypto) (T : target), CryptoLaws C ->
  forall a pk B k cs s h (W : session -> Prop),
  genuine C T a -> owned C T pk B -> unforged C pk B (ses_log a) ->
  ses_pin a = Some pk -> panic_free (ses_log a) -> established (ses_state a) ->
  session_key (ses_state a) = Some k ->
  run C T (ses_state a) cs = (s, h) ->
  len (ses_log a ++ h) < 2 ^ 64 ->
  (forall b, W b -> genuine C T b /\ len (writes (ses_log b)) < 2 ^ 64) ->
  unforged_tags C k W (ses_log a ++ h) ->
  session_key s = Some k /\
  (exists b cd t, B b /\ In (CConnect pk cd, RBytes (Ok t)) (ses_log b) /\
     derived_secret C (ses_sk a) (epk C b) = Some k) /\
  (forall e m, In e h -> In m (delivered (snd e)) -> is_user m = true) /\
  exists l : list (N * bytes),
    user_deliveries (ses_log a ++ h) = map (fun x => nonempty (snd x)) l /\
    NoDup (map fst l) /\
    forall n data, In (n, data) l ->
      exists b, W b /\ session_key (ses_state b) = Some k /\
        nth_error (writes (ses_log b)) (N.to_nat n) = Some data.
Proof. exact stolen_later. Qed.
Print Assumptions C81_authentic_later.

(** A thief who signs with B's seed for their own ephemeral key, after A has
    become established. *)
Definition sesA4 : session :=
  {| ses_sk := skA; ses_conf := config_default; ses_pin := Some pkB;
     ses_state := after A0p callsA; ses_log := log A0p callsA |}.
Definition later : list call := [CRead (msgA 0 [x31]); CRead (signed_connect toy seedB epkA [x66])].

Example C81_authentic_later_case :
  genuine toy T sesA4 /\ owned toy T pkB (eq sesB) /\ unforged toy pkB (eq sesB) (ses_log sesA4) /\
  ses_pin sesA4 = Some pkB /\ panic_free (ses_log sesA4) /\ established (ses_state sesA4) /\
  session_key (ses_state sesA4) = Some kAB /\
  ~ unforged toy pkB (eq sesB) (snd (run toy T (ses_state sesA4) later)) /\
  unforged_tags toy kAB (eq sesB) (ses_log sesA4 ++ snd (run toy T (ses_state sesA4) later)) /\
  user_deliveries (ses_log sesA4 ++ snd (run toy T (ses_state sesA4) later)) = [Some [x31]] /\
  failed toy (fst (run toy T (ses_state sesA4) later)).
Proof.
  split; [exists A0p, callsA; split; [exact created_A0p|apply run_log]|].
  split; [exact owned_B|]. split.
  { apply (unforged_check toy pkB (eq sesB) (ses_log sesA4)
             [connect_frame epkB pkB [x05]; ack_frame (toy_hash epkA) []]); [vm_compute; reflexivity|].
    intros t [<-|[<-|[]]]; exists sesB; (split; [reflexivity|]).
    - exists (CConnect pkB (Some [x05])). vm_compute. left. reflexivity.
    - exists (CAck None). vm_compute. right. right. left. reflexivity. }
  split; [reflexivity|]. split.
  { intros e He. assert (forallb (fun e => negb (panics (snd e))) (ses_log sesA4) = true) as H by (vm_compute; reflexivity).
    rewrite forallb_forall in H. specialize (H e He). destruct (panics (snd e)); [discriminate|reflexivity]. }
  split; [eexists; vm_compute; reflexivity|]. split; [vm_compute; reflexivity|].
  split.
  { intros H. destruct (H (connect_frame epkA pkB [x66]) (toy_sign seedB (connect_frame epkA pkB [x66]))) as (b & <- & c & Hc).
    - vm_compute. right. left. reflexivity.
    - vm_compute. reflexivity.
    - assert (existsb (fun e => match snd e with RBytes (Ok t) => bytes_eqb t (connect_frame epkA pkB [x66]) | _ => false end)
                (ses_log sesB) = false) as F by (vm_compute; reflexivity).
      apply Bool.not_true_iff_false in F. apply F. apply existsb_exists. eexists. split; [exact Hc|]. vm_compute. reflexivity. }
  split.
  { apply (unforged_tags_check toy kAB (eq sesB) _ [msgA 0 [x31]] toy_laws); [vm_compute; reflexivity|].
    intros d [<-|[]]. exists sesB. split; [reflexivity|]. split; [vm_compute; reflexivity|].
    eexists [x31], vec_writer, _. split; [vm_compute; do 4 right; left; reflexivity|].
    split; [left; reflexivity|]. vm_compute. reflexivity. }
  split; [vm_compute; reflexivity|]. vm_compute. reflexivity.
Qed.

(** ** C81, the theft has to come after *)

(** The same seed in the thief's hands before the negotiation: the layer
    becomes established with the thief, who has its key. *)
Theorem C81_before : forall (C : Crypto) (T : target), CryptoLaws C ->
  forall sk cfg pin s0 pkA cdA seed sk' c ac c' z,
  create C (RngKey sk) cfg pin = Ok s0 -> pin = None \/ pin = Some (ed25519_public C seed) ->
  x25519_agree C sk (x25519_public C sk') = Some z ->
  86 + len c < 2 ^ usize_bits T -> 50 + len c' < 2 ^ usize_bits T ->
  exists s h, run C T s0
      [CConnect pkA cdA; CRead (signed_connect C seed (x25519_public C sk') c); CAck ac;
       CRead (signed_ack C seed (x25519_public C sk) c')] = (s, h) /\
    established s /\ session_key s = derived_secret C sk' (x25519_public C sk) /\ session_key s <> None.
Proof. exact stolen_before. Qed.
Print Assumptions C81_before.

Example C81_before_case :
  create toy (RngKey skA) config_default (Some pkB) = Ok A0p /\ ed25519_public toy seedB = pkB /\
  (exists z, x25519_agree toy skA (x25519_public toy [x66; x67]) = Some z) /\
  let s := fst (run toy T A0p
      [CConnect pkA None; CRead (signed_connect toy seedB (x25519_public toy [x66; x67]) []); CAck None;
       CRead (signed_ack toy seedB epkA [])]) in
  established s /\ session_key s <> Some kAB.
Proof.
  split; [exact created_A0p|]. split; [vm_compute; exact eq_refl|]. split; [eexists; vm_compute; exact eq_refl|].
  split; [eexists; vm_compute; exact eq_refl|]. vm_compute. discriminate.
Qed.

(** The [Debug] text of a layer can be read back. *)

From Coq Require Import Strings.Ascii Decimal DecimalString DecimalN DecimalPos DecimalFacts Permutation Lia.
From Coq Require Import PeanoNat.
From Verif.Model Require Import Minimal Complete Debug.
From Verif.Spec Require Import Wire Datagram Trace ReadSpec Accept Session Attacks Writers Debug.
From Verif.Proofs Require Import BaseFacts CipherFacts Invariant Accept Sending UserReads Early Corollaries.
Local Open Scope string_scope.

(** * Readers *)

Lemma string_app_assoc (a b c : string) : (a ++ b) ++ c = a ++ (b ++ c).
Proof. induction a as [|x a IH]; cbn; [reflexivity|]. now rewrite IH. Qed.

Lemma string_app_nil (a : string) : a ++ "" = a.
Proof. induction a as [|x a IH]; cbn; [reflexivity|]. now rewrite IH. Qed.

Definition reader (A : Type) := string -> option (A * string).
Definition reads {A} (f : A -> string) (p : reader A) : Prop :=
  forall a x, stop x -> p (f a ++ x) = Some (a, x).

Fixpoint eat (l s : string) : option string :=
  match l, s with
  | EmptyString, _ => Some s
  | String a l', String b s' => if Ascii.eqb a b then eat l' s' else None
  | _, _ => None
  end.

Lemma eat_app (l x : string) : eat l (l ++ x) = Some x.
Proof. induction l as [|a l IH]; cbn; [reflexivity|]. now rewrite Ascii.eqb_refl. Qed.

Lemma stop_comma x : stop ("," ++ x). Proof. exists x. auto. Qed.
Lemma stop_bracket x : stop ("]" ++ x). Proof. exists x. auto. Qed.
Lemma stop_brace x : stop ("}" ++ x). Proof. exists x. auto. Qed.
Lemma stop_paren x : stop (")" ++ x). Proof. exists x. auto. Qed.
Lemma stop_space x : stop (" " ++ x). Proof. exists x. auto. Qed.

(** A string that starts with one of the five. *)
Ltac stops :=
  first [ assumption
        | (eexists; first [ left; reflexivity | right; left; reflexivity
                          | right; right; left; reflexivity
                          | right; right; right; left; reflexivity
                          | right; right; right; right; reflexivity ]) ].

(** ** Numbers *)

Definition is_digit (a : ascii) : bool :=
  let n := N_of_ascii a in ((48 <=? n) && (n <=? 57))%N.

Fixpoint digits (s : string) : string * string :=
  match s with
  | String a s' => if is_digit a then let (d, r) := digits s' in (String a d, r) else ("", s)
  | EmptyString => ("", "")
  end.

Lemma digits_stop x : stop x -> digits x = ("", x).
Proof. intros [y [-> | [-> | [-> | [-> | ->]]]]]; reflexivity. Qed.

Lemma digits_empty d x : stop x -> digits (NilEmpty.string_of_uint d ++ x) = (NilEmpty.string_of_uint d, x).
Proof.
  intros Hx. induction d as [|d IH|d IH|d IH|d IH|d IH|d IH|d IH|d IH|d IH|d IH];
    cbn [NilEmpty.string_of_uint append digits];
    [now apply digits_stop|..];
    cbn [is_digit]; match goal with |- context [is_digit ?a] => change (is_digit a) with true end;
    cbn iota; rewrite IH; reflexivity.
Qed.

Lemma to_uint_nonnil (n : N) : N.to_uint n <> Nil.
Proof. destruct n as [|p]; [discriminate|]. apply DecimalPos.Unsigned.to_uint_nonnil. Qed.

Definition p_dec : reader N := fun s =>
  let (d, r) := digits s in
  match NilZero.uint_of_string d with Some u => Some (N.of_uint u, r) | None => None end.

Lemma reads_dec : reads dec p_dec.
Proof.
  intros n x Hx. unfold p_dec, dec.
  assert (Hz : NilZero.string_of_uint (N.to_uint n) = NilEmpty.string_of_uint (N.to_uint n)).
  { generalize (to_uint_nonnil n). destruct (N.to_uint n); [congruence|reflexivity..]. }
  rewrite Hz, digits_empty by exact Hx.
  rewrite <- Hz, DecimalString.NilZero.usu by apply to_uint_nonnil.
  now rewrite DecimalN.Unsigned.of_to.
Qed.

Definition p_byte : reader byte := fun s =>
  match p_dec s with
  | Some (n, r) => match Byte.of_N n with Some b => Some (b, r) | None => None end
  | None => None
  end.
Lemma reads_byte : reads (fun b => dec (Byte.to_N b)) p_byte.
Proof. intros b x Hx. unfold p_byte. rewrite reads_dec by exact Hx. now rewrite Byte.of_to_N. Qed.

(** ** Lists *)

Section Lists.
Context {A : Type} (f : A -> string) (p : reader A) (close : string).

(** The rest of a list, an element having been announced. *)
Fixpoint p_more (fuel : nat) (s : string) : option (list A * string) :=
  match fuel with
  | O => None
  | S fuel' =>
      match p s with
      | None => None
      | Some (a, s1) =>
          match eat close s1 with
          | Some s2 => Some ([a], s2)
          | None =>
              match eat ", " s1 with
              | None => None
              | Some s2 => match p_more fuel' s2 with Some (l, s3) => Some (a :: l, s3) | None => None end
              end
          end
      end
  end.
Definition p_items : reader (list A) := fun s =>
  match eat close s with Some s1 => Some ([], s1) | None => p_more (S (String.length s)) s end.

Hypothesis Hclose : close = "]" \/ close = "}".
Hypothesis Hp : reads f p.
Hypothesis Hfree : forall a x, eat close (f a ++ x) = None.

Lemma string_length_app (a b : string) : String.length (a ++ b) = (String.length a + String.length b)%nat.
Proof. induction a as [|x a IH]; cbn; [reflexivity|]. now rewrite IH. Qed.

Lemma close_stop x : stop (close ++ x).
Proof. destruct Hclose as [-> | ->]; [apply stop_bracket|apply stop_brace]. Qed.

Lemma reads_more l x fuel : l <> [] -> (List.length l <= fuel)%nat ->
  p_more fuel (commas (map f l) ++ close ++ x) = Some (l, x).
Proof.
  revert fuel. induction l as [|a l IH]; intros fuel Hne Hf; [congruence|].
  destruct fuel as [|fuel]; [cbn in Hf; lia|].
  cbn [p_more]. destruct l as [|b l].
  - cbn [map commas]. rewrite Hp by apply close_stop. now rewrite eat_app.
  - change (commas (map f (a :: b :: l))) with (f a ++ ", " ++ commas (map f (b :: l))).
    rewrite !string_app_assoc. rewrite Hp by stops.
    replace (eat close (", " ++ commas (map f (b :: l)) ++ close ++ x)) with (@None string)
      by (destruct Hclose as [-> | ->]; reflexivity).
    rewrite eat_app, IH; [reflexivity|congruence|cbn in *; lia].
Qed.

Lemma commas_length l : (List.length l <= S (String.length (commas (map f l))))%nat.
Proof.
  induction l as [|a l IH]; [cbn; lia|]. destruct l as [|b l]; [cbn; lia|].
  change (commas (map f (a :: b :: l))) with (f a ++ ", " ++ commas (map f (b :: l))).
  rewrite !string_length_app. cbn [List.length] in *. cbn [String.length]. lia.
Qed.

Lemma reads_items l x : p_items (commas (map f l) ++ close ++ x) = Some (l, x).
Proof.
  destruct l as [|a l].
  - cbn [map commas append]. unfold p_items. now rewrite eat_app.
  - unfold p_items.
    assert (Hn : eat close (commas (map f (a :: l)) ++ close ++ x) = None).
    { destruct l as [|b l]; [cbn [map commas]; apply Hfree|].
      change (commas (map f (a :: b :: l))) with (f a ++ ", " ++ commas (map f (b :: l))).
      rewrite string_app_assoc. apply Hfree. }
    rewrite Hn. apply reads_more; [congruence|].
    rewrite string_length_app. pose proof (commas_length (a :: l)). lia.
Qed.
End Lists.

Definition p_list {A} (p : reader A) : reader (list A) := fun s =>
  match eat "[" s with Some s1 => p_items p "]" s1 | None => None end.
Definition p_set : reader (list N) := fun s =>
  match eat "{" s with Some s1 => p_items p_dec "}" s1 | None => None end.

Lemma reads_list {A} (f : A -> string) p :
  reads f p -> (forall a x, eat "]" (f a ++ x) = None) -> reads (dbg_list f) (p_list p).
Proof.
  intros Hp Hfree l x Hx. unfold p_list, dbg_list. rewrite !string_app_assoc, eat_app.
  apply (reads_items f p "]"); auto.
Qed.

Lemma dec_free c n x : is_digit c = false -> eat (String c "") (dec n ++ x) = None.
Proof.
  intros Hc. unfold dec.
  assert (H : forall d, d <> Nil -> eat (String c "") (NilZero.string_of_uint d ++ x) = None);
    [|apply H, to_uint_nonnil].
  intros d Hd.
  destruct d; [congruence|..]; cbn [NilZero.string_of_uint NilEmpty.string_of_uint append eat];
    match goal with |- context [Ascii.eqb c ?a] => destruct (Ascii.eqb c a) eqn:E end;
    try reflexivity; apply Ascii.eqb_eq in E; subst c; discriminate Hc.
Qed.

Definition p_bytes : reader bytes := p_list p_byte.
Lemma reads_bytes : reads dbg_bytes p_bytes.
Proof. apply reads_list; [apply reads_byte|]. intros b x. now apply dec_free. Qed.

Definition p_queue : reader (list bytes) := p_list p_bytes.
Lemma reads_queue : reads (dbg_list dbg_bytes) p_queue.
Proof. apply reads_list; [apply reads_bytes|]. intros b x. reflexivity. Qed.

Lemma reads_set l x : p_set (dbg_set l ++ x) = Some (in_order l, x).
Proof.
  unfold p_set, dbg_set. rewrite !string_app_assoc, eat_app.
  apply (reads_items dec p_dec "}"); auto using reads_dec. intros n y. now apply dec_free.
Qed.

(** ** Options and enumerations *)

Definition p_option {A} (p : reader A) : reader (option A) := fun s =>
  match eat "None" s with
  | Some s1 => Some (None, s1)
  | None =>
      match eat "Some(" s with
      | None => None
      | Some s1 =>
          match p s1 with
          | None => None
          | Some (a, s2) => match eat ")" s2 with Some s3 => Some (Some a, s3) | None => None end
          end
      end
  end.
Lemma reads_option {A} (f : A -> string) p : reads f p -> reads (dbg_option f) (p_option p).
Proof.
  intros Hp [a|] x Hx; unfold p_option, dbg_option.
  - rewrite !string_app_assoc.
    replace (eat "None" ("Some(" ++ f a ++ ")" ++ x)) with (@None string) by reflexivity.
    rewrite eat_app, Hp by apply stop_paren. now rewrite eat_app.
  - now rewrite eat_app.
Qed.

(** One of a few words, none the beginning of another. *)
Fixpoint p_words {A} (l : list (A * string)) : reader A := fun s =>
  match l with
  | [] => None
  | (a, w) :: r => match eat w s with Some s1 => Some (a, s1) | None => p_words r s end
  end.

Definition p_bool : reader bool := p_words [(true, "true"); (false, "false")].
Lemma reads_bool : reads dbg_bool p_bool.
Proof. intros [|] x _; reflexivity. Qed.

Definition p_format : reader message_format :=
  p_words [(RawBinary, "RawBinary"); (Utf8PlainText, "Utf8PlainText"); (Utf8Json, "Utf8Json");
           (Cbor, "Cbor"); (Bincode, "Bincode")].
Lemma reads_format : reads dbg_format p_format.
Proof. intros [ | | | | ] x _; reflexivity. Qed.

Definition p_status : reader status :=
  p_words (map (fun s => (s, dbg_status s))
    (Fail :: NegotiationSuccessful ::
     flat_map (fun l => map (OngoingNegotiation l) [WaitConnectMsg; ValidConnectMsgReceived; AckMsgSent])
              [Created; ConnectMsgSent; ValidAckMsgReceived])).
Lemma reads_status : reads dbg_status p_status.
Proof. intros [|l r|] x _; [reflexivity| |reflexivity]. destruct l, r; reflexivity. Qed.

(** ** Structs *)

Notation "'eat!' l 'from' s ; k" := (match eat l%string s with Some s => k | None => None end)
  (at level 200, s name, k at level 200).
Notation "'get!' a 'by' p 'from' s ; k" := (match p s with Some (a, s) => k | None => None end)
  (at level 200, s name, a name, k at level 200).

Definition p_config (ser : bool) : reader (N * N * option message_format * encrypt_algo) := fun s =>
  eat! "SecureLayerConfig { compression: Compression(" from s;
  get! c by p_dec from s;
  eat! "), compression_min_size: " from s;
  get! m by p_dec from s;
  if ser then
    eat! ", message_format: " from s;
    get! f by p_format from s;
    eat! ", encrypt_algo: Chacha20Poly1305Aead }" from s;
    Some ((c, m, Some f, Chacha20Poly1305Aead), s)
  else
    eat! ", encrypt_algo: Chacha20Poly1305Aead }" from s;
    Some ((c, m, None, Chacha20Poly1305Aead), s).

Definition config_fields (ser : bool) (c : config) :=
  (cfg_compression c, cfg_compression_min_size c,
   if ser then Some (cfg_message_format c) else None, cfg_encrypt_algo c).

Ltac step :=
  first [ rewrite eat_app
        | rewrite reads_dec by stops
        | rewrite reads_format by stops
        | rewrite reads_bytes by stops ].

Lemma reads_config ser c x : p_config ser (dbg_config ser c ++ x) = Some (config_fields ser c, x).
Proof.
  unfold p_config, dbg_config, config_fields. destruct (cfg_encrypt_algo c).
  unfold dbg_encrypt_algo.
  destruct ser; rewrite !string_app_assoc; repeat step;
    cbn [append]; repeat step; reflexivity.
Qed.

Definition p_secret : reader secret_key := fun s =>
  eat! "SecretKey { key: " from s;
  get! k by p_bytes from s;
  eat! ", nonce: " from s;
  get! n by p_bytes from s;
  eat! ", aad: " from s;
  get! a by p_bytes from s;
  eat! " }" from s;
  Some (Build_secret_key k n a, s).
Lemma reads_secret : reads dbg_secret_key p_secret.
Proof.
  intros k x Hx. unfold p_secret, dbg_secret_key. rewrite !string_app_assoc.
  repeat step. destruct k; reflexivity.
Qed.

Definition p_algo : reader algo_with_secret := fun s =>
  eat! "Chacha20Poly1305Aead(" from s;
  get! k by p_secret from s;
  eat! ")" from s;
  Some (WithChacha k, s).
Lemma reads_algo : reads dbg_algo_with_secret p_algo.
Proof.
  intros [k] x Hx. unfold p_algo, dbg_algo_with_secret. rewrite !string_app_assoc.
  step. rewrite reads_secret by stops. now step.
Qed.

(** What is printed before anything ring prints. *)
Definition p_head (ser : bool) :
  reader (option bytes * bool * (N * N * option message_format * encrypt_algo) * option algo_with_secret) := fun s =>
  eat! "MinimalSecureLayer { ack_msg_recv_too_early: " from s;
  get! a by (p_option p_bytes) from s;
  eat! ", cloned: " from s;
  get! b by p_bool from s;
  eat! ", config: " from s;
  get! c by (p_config ser) from s;
  eat! ", encrypt_algo_with_secret: " from s;
  get! k by (p_option p_algo) from s;
  Some ((a, b, c, k), s).

Section WithRing.
Context (R : RingDebug) (ser : bool) (rd : reader bytes).
Hypothesis Hrd : forall b x, stop x -> rd (dbg_public R b ++ x) = Some (b, x).

Lemma reads_head s x :
  p_head ser (dbg_msl R ser s ++ x) =
  Some ((ack_msg_recv_too_early s, cloned s, config_fields ser (conf s), encrypt_algo_with_secret s),
    (", ephemeral_kp: " ++ dbg_option (dbg_ekp R) (ephemeral s) ++
     ", ephemeral_pubkey: " ++ dbg_epk R (ephemeral_pubkey s) ++
     ", next_nonce_expected: " ++ dec (next_nonce_expected s) ++
     ", next_nonce_sent: " ++ dec (next_nonce_sent s) ++
     ", orphan_nonce_list: " ++ dbg_set (orphan_nonce_list s) ++
     ", peer_epk: " ++ dbg_option dbg_bytes (peer_epk s) ++
     ", peer_sig_pubkey: " ++ dbg_option dbg_bytes (peer_sig_pubkey s) ++
     ", status: " ++ dbg_status (msl_status s) ++
     ", tmp_stack_user_msgs: " ++ dbg_list dbg_bytes (tmp_stack_user_msgs s) ++ " }" ++ x)).
Proof.
  unfold p_head, dbg_msl. rewrite !string_app_assoc.
  step. rewrite (reads_option _ _ reads_bytes) by stops.
  step. rewrite reads_bool by stops.
  step. rewrite reads_config.
  step. rewrite (reads_option _ _ reads_algo) by stops. reflexivity.
Qed.

Definition p_epk : reader bytes := fun s =>
  eat! "EphemeralPublicKey(" from s;
  get! k by rd from s;
  eat! ")" from s;
  Some (k, s).
Lemma reads_epk : reads (dbg_epk R) p_epk.
Proof.
  intros b x Hx. unfold p_epk, dbg_epk. rewrite !string_app_assoc.
  step. rewrite Hrd by stops. now step.
Qed.

Definition p_ekp : reader bytes := fun s =>
  eat! "EphemeralKeyPair { privkey: " from s;
  match eat (dbg_private R) s with
  | Some s => eat! ", pubkey: " from s; get! k by p_epk from s; eat! " }" from s; Some (k, s)
  | None => None
  end.
Lemma reads_ekp k x : stop x -> p_ekp (dbg_ekp R k ++ x) = Some (ekp_pub k, x).
Proof.
  intros Hx. unfold p_ekp, dbg_ekp. rewrite !string_app_assoc.
  do 3 step. rewrite reads_epk by stops. now step.
Qed.
Lemma reads_ephemeral o x : stop x ->
  p_option p_ekp (dbg_option (dbg_ekp R) o ++ x) = Some (option_map ekp_pub o, x).
Proof.
  intros Hx. destruct o as [k|]; unfold p_option, dbg_option.
  - rewrite !string_app_assoc.
    replace (eat "None" ("Some(" ++ dbg_ekp R k ++ ")" ++ x)) with (@None string) by reflexivity.
    step. rewrite reads_ekp by apply stop_paren. now step.
  - now step.
Qed.

(** Everything. *)
Definition fields (s : msl) :=
  ((ack_msg_recv_too_early s, cloned s, config_fields ser (conf s), encrypt_algo_with_secret s),
   option_map ekp_pub (ephemeral s), ephemeral_pubkey s,
   (next_nonce_expected s, next_nonce_sent s, in_order (orphan_nonce_list s)),
   (peer_epk s, peer_sig_pubkey s, msl_status s, tmp_stack_user_msgs s)).

Definition p_msl := fun s =>
  get! h by (p_head ser) from s;
  eat! ", ephemeral_kp: " from s;
  get! e by (p_option p_ekp) from s;
  eat! ", ephemeral_pubkey: " from s;
  get! p by p_epk from s;
  eat! ", next_nonce_expected: " from s;
  get! n by p_dec from s;
  eat! ", next_nonce_sent: " from s;
  get! m by p_dec from s;
  eat! ", orphan_nonce_list: " from s;
  get! o by p_set from s;
  eat! ", peer_epk: " from s;
  get! pe by (p_option p_bytes) from s;
  eat! ", peer_sig_pubkey: " from s;
  get! pk by (p_option p_bytes) from s;
  eat! ", status: " from s;
  get! st by p_status from s;
  eat! ", tmp_stack_user_msgs: " from s;
  get! q by p_queue from s;
  eat! " }" from s;
  Some ((h, e, p, (n, m, o), (pe, pk, st, q)), s).

Lemma reads_msl s x : p_msl (dbg_msl R ser s ++ x) = Some (fields s, x).
Proof.
  unfold p_msl. rewrite reads_head.
  step. rewrite reads_ephemeral by stops.
  step. rewrite reads_epk by stops.
  step. rewrite reads_dec by stops.
  step. rewrite reads_dec by stops.
  step. rewrite reads_set.
  step. rewrite (reads_option _ _ reads_bytes) by stops.
  step. rewrite (reads_option _ _ reads_bytes) by stops.
  step. rewrite reads_status by stops.
  step. rewrite reads_queue by stops.
  step. reflexivity.
Qed.

(** The text is made from these. *)
Lemma dbg_of_fields s1 s2 : fields s1 = fields s2 -> dbg_msl R ser s1 = dbg_msl R ser s2.
Proof.
  unfold fields, config_fields. intros H. unfold dbg_msl, dbg_config, dbg_set.
  assert (Hser : (if ser then Some (cfg_message_format (conf s1)) else None) =
                 (if ser then Some (cfg_message_format (conf s2)) else None)) by congruence.
  assert (Hfmt : (if ser then ", message_format: " ++ dbg_format (cfg_message_format (conf s1)) else "") =
                 (if ser then ", message_format: " ++ dbg_format (cfg_message_format (conf s2)) else ""))
    by (destruct ser; [congruence|reflexivity]).
  assert (Hek : dbg_option (dbg_ekp R) (ephemeral s1) = dbg_option (dbg_ekp R) (ephemeral s2)).
  { assert (E : option_map ekp_pub (ephemeral s1) = option_map ekp_pub (ephemeral s2)) by congruence.
    destruct (ephemeral s1), (ephemeral s2); cbn in E; try discriminate E; [|reflexivity].
    unfold dbg_option, dbg_ekp. congruence. }
  rewrite Hfmt, Hek. injection H as -> -> -> -> _ -> -> _ -> -> -> -> -> -> -> ->. reflexivity.
Qed.
End WithRing.

(** * The replay memory is shown in order *)

Lemma insert_perm n l : Permutation (insert n l) (n :: l).
Proof.
  induction l as [|m l IH]; cbn [insert]; [reflexivity|].
  destruct (n <=? m)%N; [reflexivity|]. rewrite IH. apply perm_swap.
Qed.
Lemma in_order_perm l : Permutation (in_order l) l.
Proof.
  induction l as [|n l IH]; cbn [in_order fold_right]; [constructor|].
  rewrite insert_perm. now constructor.
Qed.
Lemma insert_comm a b l : insert a (insert b l) = insert b (insert a l).
Proof.
  induction l as [|m l IH].
  - cbn [insert]. destruct (N.leb_spec a b), (N.leb_spec b a); try lia; try reflexivity.
    now replace b with a by lia.
  - cbn [insert].
    destruct (N.leb_spec b m) as [H1|H1], (N.leb_spec a m) as [H2|H2]; cbn [insert];
      repeat match goal with |- context [N.leb ?x ?y] => destruct (N.leb_spec x y); try lia end;
      try reflexivity; try (now rewrite IH); try (now replace b with a by lia).
Qed.
Lemma in_order_unique l1 l2 : Permutation l1 l2 -> in_order l1 = in_order l2.
Proof.
  induction 1 as [|x l l' _ IH|x y l|l l' l'' _ IH1 _ IH2]; cbn [in_order fold_right] in *;
    [reflexivity|unfold in_order in *; now rewrite IH|apply insert_comm|congruence].
Qed.

Lemma fields_iff ser s1 s2 : fields ser s1 = fields ser s2 <-> look_alike ser s1 s2.
Proof.
  unfold fields, config_fields. split.
  - intros H.
    assert (Ho : in_order (orphan_nonce_list s1) = in_order (orphan_nonce_list s2)) by congruence.
    assert (Hs : encrypt_algo_with_secret s1 = encrypt_algo_with_secret s2) by congruence.
    constructor; try congruence.
    + intros ->. congruence.
    + unfold session_key. now rewrite Hs.
    + now rewrite <- (in_order_perm (orphan_nonce_list s1)), Ho, in_order_perm.
  - intros [].
    assert (encrypt_algo_with_secret s1 = encrypt_algo_with_secret s2) as ->.
    { unfold session_key in la_secret.
      destruct (encrypt_algo_with_secret s1) as [[]|], (encrypt_algo_with_secret s2) as [[]|]; congruence. }
    rewrite (in_order_unique _ _ la_orphans).
    replace (if ser then Some (cfg_message_format (conf s1)) else None)
      with (if ser then Some (cfg_message_format (conf s2)) else None)
      by (destruct ser; [rewrite la_format|]; reflexivity).
    congruence.
Qed.

(** * Theorems *)

Theorem debug_exactly R ser s1 s2 : RingDebugLaws R ->
  dbg_msl R ser s1 = dbg_msl R ser s2 <-> look_alike ser s1 s2.
Proof.
  intros [[rd Hrd] _]. rewrite <- fields_iff. split; [|apply dbg_of_fields].
  intros H.
  pose proof (reads_msl R ser rd Hrd s1 "") as H1. pose proof (reads_msl R ser rd Hrd s2 "") as H2.
  rewrite H in H1. congruence.
Qed.

Theorem debug_complete_exactly C R ser s1 s2 : RingDebugLaws R ->
  dbg_secure_layer R ser C s1 = dbg_secure_layer R ser C s2 <->
  look_alike ser (minimal s1) (minimal s2) /\
  option_map (ed25519_public C) (sig_key_pair s1) = option_map (ed25519_public C) (sig_key_pair s2).
Proof.
  intros [[rd Hrd] [kd Hkd]]. rewrite <- fields_iff. split.
  - intros H. unfold dbg_secure_layer in H.
    set (tail := fun s => ", sig_key_pair: " ++
      dbg_option (fun seed => dbg_keypair R (ed25519_public C seed)) (sig_key_pair s) ++ " }") in *.
    assert (H' : dbg_msl R ser (minimal s1) ++ tail s1 = dbg_msl R ser (minimal s2) ++ tail s2).
    { enough (E : Some (dbg_msl R ser (minimal s1) ++ tail s1) = Some (dbg_msl R ser (minimal s2) ++ tail s2))
        by congruence.
      rewrite <- (eat_app "SecureLayer { minimal_secure_layer: " (dbg_msl R ser (minimal s1) ++ tail s1)),
              <- (eat_app "SecureLayer { minimal_secure_layer: " (dbg_msl R ser (minimal s2) ++ tail s2)).
      now f_equal. }
    pose proof (reads_msl R ser rd Hrd (minimal s1) (tail s1)) as H1.
    pose proof (reads_msl R ser rd Hrd (minimal s2) (tail s2)) as H2.
    rewrite H' in H1. rewrite H1 in H2.
    assert (E1 : fields ser (minimal s1) = fields ser (minimal s2)) by congruence.
    assert (E2 : tail s1 = tail s2) by congruence. split; [exact E1|].
    unfold tail in E2.
    assert (K : forall o x, stop x ->
      p_option kd (dbg_option (fun seed => dbg_keypair R (ed25519_public C seed)) o ++ x) =
      Some (option_map (ed25519_public C) o, x)).
    { intros o x Hx.
      replace (dbg_option (fun seed => dbg_keypair R (ed25519_public C seed)) o)
        with (dbg_option (dbg_keypair R) (option_map (ed25519_public C) o)) by (now destruct o).
      now apply (reads_option (dbg_keypair R) kd). }
    apply (f_equal (eat ", sig_key_pair: ")) in E2. rewrite !eat_app in E2. injection E2 as E2.
    apply (f_equal (p_option kd)) in E2. rewrite !K in E2 by stops. congruence.
  - intros [H1 H2]. unfold dbg_secure_layer. rewrite (dbg_of_fields R ser _ _ H1).
    replace (dbg_option (fun seed => dbg_keypair R (ed25519_public C seed)) (sig_key_pair s1))
      with (dbg_option (fun seed => dbg_keypair R (ed25519_public C seed)) (sig_key_pair s2)); [reflexivity|].
    destruct (sig_key_pair s1), (sig_key_pair s2); cbn in H2; try discriminate H2; [|reflexivity].
    unfold dbg_option. congruence.
Qed.

(** ** What a reader of the text gets *)

(** The session key. *)
Definition spy_key (t : string) : option secret_key :=
  match p_head true t with
  | Some ((_, _, _, Some (WithChacha k)), _) => Some k
  | Some ((_, _, _, None), _) => None
  | None =>
      match p_head false t with
      | Some ((_, _, _, Some (WithChacha k)), _) => Some k
      | _ => None
      end
  end.

Lemma head_other R s x : p_head true (dbg_msl R false s ++ x) = None.
Proof.
  unfold p_head, dbg_msl. rewrite !string_app_assoc.
  step. rewrite (reads_option _ _ reads_bytes) by stops.
  step. rewrite reads_bool by stops.
  step. unfold p_config, dbg_config, dbg_encrypt_algo. destruct (cfg_encrypt_algo (conf s)).
  rewrite !string_app_assoc. repeat step. reflexivity.
Qed.

Theorem debug_spy : exists spy : string -> option secret_key,
  forall R ser s, spy (dbg_msl R ser s) = session_key s.
Proof.
  exists spy_key. intros R ser s. rewrite <- (string_app_nil (dbg_msl R ser s)).
  unfold spy_key, session_key. destruct ser.
  - rewrite reads_head. destruct (encrypt_algo_with_secret s) as [[k]|]; reflexivity.
  - rewrite head_other, reads_head. destruct (encrypt_algo_with_secret s) as [[k]|]; reflexivity.
Qed.

Theorem debug_complete_spy : exists spy : string -> option secret_key,
  forall C R ser s, spy (dbg_secure_layer R ser C s) = session_key (minimal s).
Proof.
  exists (fun t => match eat "SecureLayer { minimal_secure_layer: " t with Some t' => spy_key t' | None => None end).
  intros C R ser s. unfold dbg_secure_layer. rewrite eat_app.
  unfold spy_key, session_key. destruct ser.
  - rewrite reads_head. destruct (encrypt_algo_with_secret (minimal s)) as [[k]|]; reflexivity.
  - rewrite head_other, reads_head. destruct (encrypt_algo_with_secret (minimal s)) as [[k]|]; reflexivity.
Qed.

Section Eavesdrop.
Context (C : Crypto) (HL : CryptoLaws C) (T : target).

(** The user data of a clear text: 26 bytes before it, 32 after it. *)
Definition data_of (text : bytes) : bytes := firstn (List.length text - 58) (skipn 26 text).

Lemma data_of_frame L n data :
  data_of (hashed C (frame_len L [x00; x00] (u64_be n ++ data)%list)) = data.
Proof.
  unfold hashed.
  set (h := sha256 C _). assert (Hh : List.length h = 32%nat).
  { pose proof (law_sha256_len C HL (frame_len L [x00; x00] (u64_be n ++ data)%list)) as E.
    fold h in E. unfold len in E. lia. }
  unfold frame_len. rewrite <- !app_assoc. unfold data_of.
  assert (E : forall (a b c : bytes), List.length a = 26%nat -> List.length c = 32%nat ->
    firstn (List.length (a ++ b ++ c)%list - 58) (skipn 26 (a ++ b ++ c)%list) = b).
  { intros a b c Ha Hc. rewrite skipn_app, skipn_all2 by lia. rewrite Ha, !app_length, Ha, Hc.
    replace (26 - 26)%nat with 0%nat by lia. cbn [skipn app].
    replace (26 + (List.length b + 32) - 58)%nat with (List.length b) by lia.
    rewrite firstn_app, firstn_all, Nat.sub_diag. cbn [firstn]. apply app_nil_r. }
  specialize (E (magic ++ version ++ u64_be L ++ [x00; x00] ++ u64_be n)%list data h eq_refl Hh).
  rewrite <- !app_assoc in E. exact E.
Qed.

Theorem debug_eavesdrop : exists ear : string -> bytes -> option bytes,
  forall R ser s k d n data, session_key s = Some k -> opens C T k d n data ->
  ear (dbg_msl R ser s) d = Some data.
Proof.
  destruct debug_spy as [spy Hspy].
  exists (fun t d => option_map (fun k => data_of (ciphertext C k (without_tag d))) (spy t)).
  intros R ser s k d n data Hk (_ & _ & text & (L & _ & ->) & ->).
  rewrite Hspy, Hk. cbn [option_map]. f_equal.
  rewrite without_tag_seal by exact HL. rewrite ciphertext_invol. apply data_of_frame.
Qed.

Theorem debug_forge : exists forge : string -> N -> bytes -> bytes,
  forall R ser s q k n data,
  session_key s = Some k ->
  reachable C T q -> established q -> session_key q = Some k -> keystream_ok C k ->
  n < 2 ^ 64 -> window_room q n -> ~ last_nonce T q n -> 26 + len data < 2 ^ usize_bits T ->
  snd (read C T (forge (dbg_msl R ser s) n data) q) = Ok (Some (MMessage (nonempty data))).
Proof.
  destruct debug_spy as [spy Hspy].
  exists (fun t n data => match spy t with Some k => user_datagram C k n data | None => [] end).
  intros R ser s q k n data Hk Hq He Hkq Hks Hn Hroom Hlast Hb.
  rewrite Hspy, Hk.
  apply (user_delivered_iff C T HL q (inv_reachable C T q Hq)).
  exists k, n, data. split; [|reflexivity].
  destruct (opens_user_datagram C T k n data Hn Hks Hb) as (_ & _ & Ht).
  unfold user_delivery. auto 10.
Qed.

(** The user messages that wait for the peer's ACK. *)
Theorem debug_waiting R ser : RingDebugLaws R -> exists peek : string -> list bytes,
  forall r cfg pin s0 cs s h k xs,
  create C r cfg pin = Ok s0 -> run C T s0 cs = (s, h) -> len h < 2 ^ 64 ->
  lossless h -> user_deliveries h = [] -> session_key s = Some k ->
  Forall2 (fun d x => opens C T k d (fst x) (snd x)) (early_messages h) xs ->
  peek (dbg_msl R ser s) = map snd xs.
Proof.
  intros [[rd Hrd] _].
  exists (fun t => match p_msl R ser rd t with
                   | Some ((_, _, _, _, (_, _, _, q)), _) => map data_of q
                   | None => []
                   end).
  intros r cfg pin s0 cs s h k xs Hc E Hb Hl Hu Hk HF.
  destruct (waiting_run C T HL _ _ _ _ _ _ _ Hc E Hb Hl Hu) as [HW _].
  rewrite <- (string_app_nil (dbg_msl R ser s)), (reads_msl R ser rd Hrd). unfold fields.
  unfold waiting in HW. revert xs HF.
  induction HW as [|d b ds bs (k' & H1 & H2) HW IH]; intros xs HF; inversion HF as [|d' x ds' xs' Ho HF']; subst;
    [reflexivity|].
  cbn [map]. f_equal; [|apply IH, HF'].
  destruct Ho as (_ & _ & text & (L & _ & Ht) & Hd).
  assert (k' = k) as -> by congruence. apply (seal_inj C HL) in Hd. subst b. rewrite Ht. apply data_of_frame.
Qed.
End Eavesdrop.

(** The text of a seed is the seed. *)
Theorem debug_seed : exists spy : string -> option bytes, forall seed, spy (dbg_seed32 seed) = Some seed.
Proof.
  exists (fun s => match eat "Seed32(" s with
                   | Some s => match p_bytes s with Some (b, _) => Some b | None => None end
                   | None => None
                   end).
  intros seed. unfold dbg_seed32. rewrite eat_app, reads_bytes by stops. reflexivity.
Qed.

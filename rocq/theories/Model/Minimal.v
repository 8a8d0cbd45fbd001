(** src/minimal.rs: [MinimalSecureLayer].

    A method taking [&mut self] becomes a function returning the new layer and
    the outcome.  On [Err] and on [Panic] the returned layer is the layer as
    the real code leaves it at that point (so it can be used again after an
    error, or after [catch_unwind]). *)

From Verif.Model Require Export Reader Status Config.

(** src/minimal.rs:34-51.  [BTreeSet<u64>] is a duplicate-free list. *)
Record msl := {
  ack_msg_recv_too_early : option bytes;
  cloned : bool;
  conf : config;
  encrypt_algo_with_secret : option algo_with_secret;
  ephemeral : option ephemeral_kp;
  ephemeral_pubkey : bytes;
  next_nonce_expected : N;
  next_nonce_sent : N;
  orphan_nonce_list : list N;
  peer_epk : option bytes;
  peer_sig_pubkey : option bytes;
  msl_status : status;
  tmp_stack_user_msgs : list bytes
}.

(** Field assignments [self.f = v], one for each field of src/minimal.rs:34-48
    that a method of src/minimal.rs:53-416 assigns. *)
Definition set_ack_early v (s : msl) := {|
  ack_msg_recv_too_early := v; cloned := cloned s; conf := conf s;
  encrypt_algo_with_secret := encrypt_algo_with_secret s; ephemeral := ephemeral s;
  ephemeral_pubkey := ephemeral_pubkey s; next_nonce_expected := next_nonce_expected s;
  next_nonce_sent := next_nonce_sent s; orphan_nonce_list := orphan_nonce_list s;
  peer_epk := peer_epk s; peer_sig_pubkey := peer_sig_pubkey s; msl_status := msl_status s;
  tmp_stack_user_msgs := tmp_stack_user_msgs s |}.
Definition set_cloned v (s : msl) := {|
  ack_msg_recv_too_early := ack_msg_recv_too_early s; cloned := v; conf := conf s;
  encrypt_algo_with_secret := encrypt_algo_with_secret s; ephemeral := ephemeral s;
  ephemeral_pubkey := ephemeral_pubkey s; next_nonce_expected := next_nonce_expected s;
  next_nonce_sent := next_nonce_sent s; orphan_nonce_list := orphan_nonce_list s;
  peer_epk := peer_epk s; peer_sig_pubkey := peer_sig_pubkey s; msl_status := msl_status s;
  tmp_stack_user_msgs := tmp_stack_user_msgs s |}.
Definition set_conf v (s : msl) := {|
  ack_msg_recv_too_early := ack_msg_recv_too_early s; cloned := cloned s; conf := v;
  encrypt_algo_with_secret := encrypt_algo_with_secret s; ephemeral := ephemeral s;
  ephemeral_pubkey := ephemeral_pubkey s; next_nonce_expected := next_nonce_expected s;
  next_nonce_sent := next_nonce_sent s; orphan_nonce_list := orphan_nonce_list s;
  peer_epk := peer_epk s; peer_sig_pubkey := peer_sig_pubkey s; msl_status := msl_status s;
  tmp_stack_user_msgs := tmp_stack_user_msgs s |}.
Definition set_secret v (s : msl) := {|
  ack_msg_recv_too_early := ack_msg_recv_too_early s; cloned := cloned s; conf := conf s;
  encrypt_algo_with_secret := v; ephemeral := ephemeral s;
  ephemeral_pubkey := ephemeral_pubkey s; next_nonce_expected := next_nonce_expected s;
  next_nonce_sent := next_nonce_sent s; orphan_nonce_list := orphan_nonce_list s;
  peer_epk := peer_epk s; peer_sig_pubkey := peer_sig_pubkey s; msl_status := msl_status s;
  tmp_stack_user_msgs := tmp_stack_user_msgs s |}.
Definition set_ephemeral v (s : msl) := {|
  ack_msg_recv_too_early := ack_msg_recv_too_early s; cloned := cloned s; conf := conf s;
  encrypt_algo_with_secret := encrypt_algo_with_secret s; ephemeral := v;
  ephemeral_pubkey := ephemeral_pubkey s; next_nonce_expected := next_nonce_expected s;
  next_nonce_sent := next_nonce_sent s; orphan_nonce_list := orphan_nonce_list s;
  peer_epk := peer_epk s; peer_sig_pubkey := peer_sig_pubkey s; msl_status := msl_status s;
  tmp_stack_user_msgs := tmp_stack_user_msgs s |}.
Definition set_next_nonce_sent v (s : msl) := {|
  ack_msg_recv_too_early := ack_msg_recv_too_early s; cloned := cloned s; conf := conf s;
  encrypt_algo_with_secret := encrypt_algo_with_secret s; ephemeral := ephemeral s;
  ephemeral_pubkey := ephemeral_pubkey s; next_nonce_expected := next_nonce_expected s;
  next_nonce_sent := v; orphan_nonce_list := orphan_nonce_list s;
  peer_epk := peer_epk s; peer_sig_pubkey := peer_sig_pubkey s; msl_status := msl_status s;
  tmp_stack_user_msgs := tmp_stack_user_msgs s |}.
Definition set_window v o (s : msl) := {|
  ack_msg_recv_too_early := ack_msg_recv_too_early s; cloned := cloned s; conf := conf s;
  encrypt_algo_with_secret := encrypt_algo_with_secret s; ephemeral := ephemeral s;
  ephemeral_pubkey := ephemeral_pubkey s; next_nonce_expected := v;
  next_nonce_sent := next_nonce_sent s; orphan_nonce_list := o;
  peer_epk := peer_epk s; peer_sig_pubkey := peer_sig_pubkey s; msl_status := msl_status s;
  tmp_stack_user_msgs := tmp_stack_user_msgs s |}.
Definition set_peer_epk v (s : msl) := {|
  ack_msg_recv_too_early := ack_msg_recv_too_early s; cloned := cloned s; conf := conf s;
  encrypt_algo_with_secret := encrypt_algo_with_secret s; ephemeral := ephemeral s;
  ephemeral_pubkey := ephemeral_pubkey s; next_nonce_expected := next_nonce_expected s;
  next_nonce_sent := next_nonce_sent s; orphan_nonce_list := orphan_nonce_list s;
  peer_epk := v; peer_sig_pubkey := peer_sig_pubkey s; msl_status := msl_status s;
  tmp_stack_user_msgs := tmp_stack_user_msgs s |}.
Definition set_peer_sig_pubkey v (s : msl) := {|
  ack_msg_recv_too_early := ack_msg_recv_too_early s; cloned := cloned s; conf := conf s;
  encrypt_algo_with_secret := encrypt_algo_with_secret s; ephemeral := ephemeral s;
  ephemeral_pubkey := ephemeral_pubkey s; next_nonce_expected := next_nonce_expected s;
  next_nonce_sent := next_nonce_sent s; orphan_nonce_list := orphan_nonce_list s;
  peer_epk := peer_epk s; peer_sig_pubkey := v; msl_status := msl_status s;
  tmp_stack_user_msgs := tmp_stack_user_msgs s |}.
Definition set_status v (s : msl) := {|
  ack_msg_recv_too_early := ack_msg_recv_too_early s; cloned := cloned s; conf := conf s;
  encrypt_algo_with_secret := encrypt_algo_with_secret s; ephemeral := ephemeral s;
  ephemeral_pubkey := ephemeral_pubkey s; next_nonce_expected := next_nonce_expected s;
  next_nonce_sent := next_nonce_sent s; orphan_nonce_list := orphan_nonce_list s;
  peer_epk := peer_epk s; peer_sig_pubkey := peer_sig_pubkey s; msl_status := v;
  tmp_stack_user_msgs := tmp_stack_user_msgs s |}.
Definition set_stack v (s : msl) := {|
  ack_msg_recv_too_early := ack_msg_recv_too_early s; cloned := cloned s; conf := conf s;
  encrypt_algo_with_secret := encrypt_algo_with_secret s; ephemeral := ephemeral s;
  ephemeral_pubkey := ephemeral_pubkey s; next_nonce_expected := next_nonce_expected s;
  next_nonce_sent := next_nonce_sent s; orphan_nonce_list := orphan_nonce_list s;
  peer_epk := peer_epk s; peer_sig_pubkey := peer_sig_pubkey s; msl_status := msl_status s;
  tmp_stack_user_msgs := v |}.

(** BTreeSet::contains / remove / insert / len, as used at
    src/minimal.rs:244, 267, 271, 276. *)
Definition set_contains (n : N) (l : list N) : bool := existsb (N.eqb n) l.
Definition set_remove (n : N) (l : list N) : list N := filter (fun m => negb (N.eqb n m)) l.
Definition set_insert (n : N) (l : list N) : list N :=
  if set_contains n l then l else n :: l.

Section WithEnv.
Context (C : Crypto) (T : target).

(** src/minimal.rs:55-76 ([try_clone]): (self, clone). *)
Definition try_clone (s : msl) : msl * outcome msl :=
  match msl_status s with
  | NegotiationSuccessful =>
      let s := set_cloned true s in
      (s, Ok {| ack_msg_recv_too_early := None; cloned := true; conf := conf s;
                encrypt_algo_with_secret := encrypt_algo_with_secret s; ephemeral := None;
                ephemeral_pubkey := ephemeral_pubkey s;
                next_nonce_expected := next_nonce_expected s;
                next_nonce_sent := next_nonce_sent s;
                orphan_nonce_list := orphan_nonce_list s;
                peer_epk := None; peer_sig_pubkey := None;
                msl_status := NegotiationSuccessful;
                tmp_stack_user_msgs := tmp_stack_user_msgs s |})
  | _ => (s, Err NegoMustHaveBeenSuccessful)
  end.

(** src/minimal.rs:78-85 *)
Definition change_config (new_config : config) (s : msl) : msl * outcome unit :=
  if negb (cloned s) then (set_conf new_config s, Ok tt)
  else (s, Err ForbidChangeConfAfterClone).

(** src/minimal.rs:87-111 ([create]); randomness is an argument. *)
Definition create (r : rng_result) (cfg : config) (expected_remote_sig_public_key : option bytes)
  : outcome msl :=
  do kp <- ekp_generate C r;
  Ok {| ack_msg_recv_too_early := None; cloned := false; conf := cfg;
        encrypt_algo_with_secret := None; ephemeral := Some kp;
        ephemeral_pubkey := ekp_pub kp; next_nonce_expected := 0; next_nonce_sent := 0;
        orphan_nonce_list := []; peer_epk := None;
        peer_sig_pubkey := expected_remote_sig_public_key;
        msl_status := status_init; tmp_stack_user_msgs := [] |}.

(** src/minimal.rs:112-131 *)
Definition compute_shared_secret (peer_ephemeral_public_key : bytes) (s : msl)
  : msl * outcome unit :=
  let algo := cfg_encrypt_algo (conf s) in
  match ephemeral s with
  | Some kp =>
      let s := set_ephemeral None s in
      match ekp_compute_shared_secret C kp peer_ephemeral_public_key
              (algo_shared_secret_len algo) with
      | Ok secret =>
          match algo_build algo secret with
          | Ok a => (set_secret (Some a) s, Ok tt)
          | Err e => (s, Err e)
          | Panic p => (s, Panic p)
          end
      | Err e => (s, Err e)
      | Panic p => (s, Panic p)
      end
  | None =>
      match encrypt_algo_with_secret s with
      | Some _ => (s, Ok tt)
      | None => (s, Panic PNoEphemeralKp)
      end
  end.

(** src/minimal.rs:145-147 *)
Definition encapsulate_message (m : message_ref) (s : msl) : outcome bytes :=
  message_to_bytes C m (ephemeral_pubkey s) (peer_epk s).

(** src/minimal.rs:404-408 and src/signature.rs:26-30 *)
Definition verify_sig (data sig_pubkey : bytes) (user_msg_end : N) : outcome bool :=
  do data_signed <- slice_to data user_msg_end;
  do sig <- slice_from data user_msg_end;
  Ok (ed25519_verify C sig_pubkey data_signed sig).

(** src/minimal.rs:267-269: [while orphans.remove(&next) { next += 1 }].
    Returns the loop's (next, orphans) and [Some p] if the increment panicked.
    Fuel: every turn removes an element, so the number of orphans is enough;
    with fuel exhausted the list is empty and the loop condition is false. *)
Fixpoint absorb_orphans (fuel : nat) (next : N) (orphans : list N)
  : N * list N * option panic :=
  match fuel with
  | O => (next, orphans, None)
  | S fuel' =>
      if set_contains next orphans then
        let orphans := set_remove next orphans in
        match u64_incr T next with
        | Ok next => absorb_orphans fuel' next orphans
        | Panic p => (next, orphans, Some p)
        | Err _ => (next, orphans, None)
        end
      else (next, orphans, None)
  end.

(** src/minimal.rs:264-277 ("Update orphan_nonce_list"). *)
Definition update_window (nonce : N) (s : msl) : msl * outcome unit :=
  if nonce =? next_nonce_expected s then
    match u64_incr T (next_nonce_expected s) with
    | Ok next =>
        let '(next, orphans, p) :=
          absorb_orphans (length (orphan_nonce_list s)) next (orphan_nonce_list s) in
        let s := set_window next orphans s in
        match p with
        | None => (s, Ok tt)
        | Some p => (s, Panic p)
        end
    | Err e => (s, Err e)
    | Panic p => (s, Panic p)
    end
  else if MAX_ORPHAN_NONCES <=? len (orphan_nonce_list s) then
    (set_status Fail s, Err TooManyUnorderedMsgs)
  else (set_window (next_nonce_expected s) (set_insert nonce (orphan_nonce_list s)) s, Ok tt).

(** src/minimal.rs:281-287: [data.drain(begin..end)] and [Message::from_bytes]. *)
Definition get_message (d : decrypted_data) : outcome (option message) :=
  do m <- slice (dd_data d) (dd_user_msg_begin d) (dd_user_msg_end d);
  Ok (Some (message_from_bytes m (dd_headers d))).

(** src/minimal.rs:187-215: the Connect arm of [read_inner], then 281-287. *)
Definition read_connect (d : decrypted_data) (peer_ephemeral_pk sig_pubkey : bytes) (s : msl)
  : msl * outcome (option message) :=
  let '(s, mismatch) :=
    match peer_sig_pubkey s with
    | Some k => (s, negb (bytes_eqb sig_pubkey k))
    | None => (set_peer_sig_pubkey (Some sig_pubkey) s, false)
    end in
  if mismatch then (s, Err UnexpectedRemoteSigPubKey)
  else
    match verify_sig (dd_data d) sig_pubkey (dd_user_msg_end d) with
    | Panic p => (s, Panic p)
    | Err e => (s, Err e)
    | Ok false => (s, Err (RecvInvalidMsg InvalidHashOrSig))
    | Ok true =>
        let '(st, r) := apply_action (msl_status s) (Receive TConnect) in
        let s := set_status st s in
        match r with
        | Panic p => (s, Panic p)
        | Err e => (s, Err e)
        | Ok _ =>
            let s := set_peer_epk (Some peer_ephemeral_pk) s in
            match compute_shared_secret peer_ephemeral_pk s with
            | (s, Panic p) => (s, Panic p)
            | (s, Err e) => (s, Err e)
            | (s, Ok _) => (s, get_message d)
            end
        end
    end.

(** src/minimal.rs:216-241: the Ack arm of [read_inner], then 281-287. *)
Definition read_ack (incoming : bytes) (d : decrypted_data) (challenge : bytes) (s : msl)
  : msl * outcome (option message) :=
  if negb (bytes_eqb challenge (sha256 C (ephemeral_pubkey s)))
  then (s, Err (RecvInvalidMsg InvalidChallenge))
  else
    match peer_sig_pubkey s with
    | None =>
        match ack_msg_recv_too_early s with
        | None => (set_ack_early (Some incoming) s, Ok None)
        | Some _ => (set_status Fail s, Err (RecvInvalidMsg UnexpectedAckMsg))
        end
    | Some k =>
        match verify_sig (dd_data d) k (dd_user_msg_end d) with
        | Panic p => (s, Panic p)
        | Err e => (s, Err e)
        | Ok false => (s, Err (RecvInvalidMsg InvalidHashOrSig))
        | Ok true =>
            let '(st, r) := apply_action (msl_status s) (Receive TAck) in
            let s := set_status st s in
            match r with
            | Panic p => (s, Panic p)
            | Err e => (s, Err e)
            | Ok _ => (s, get_message d)
            end
        end
    end.

(** src/minimal.rs:242-278: the UserMsg arm of [read_inner], then 281-287. *)
Definition read_user (d : decrypted_data) (nonce : N) (s : msl)
  : msl * outcome (option message) :=
  if (nonce <? next_nonce_expected s) || set_contains nonce (orphan_nonce_list s)
  then (s, Err (RecvInvalidMsg InvalidNonce))
  else
    let '(st, r) := apply_action (msl_status s) (Receive TUserMsg) in
    let s := set_status st s in
    match r with
    | Panic p => (s, Panic p)
    | Err e => (s, Err e)
    | Ok (Some PushUserMsgIntoTmpStack) =>
        (set_stack (tmp_stack_user_msgs s ++ [dd_data d]) s, Ok None)
    | Ok None =>
        match (do data_hashed <- slice_to (dd_data d) (dd_user_msg_end d);
               do hash <- slice_from (dd_data d) (dd_user_msg_end d);
               Ok (bytes_eqb hash (sha256 C data_hashed))) with
        | Panic p => (s, Panic p)
        | Err e => (s, Err e)
        | Ok false => (s, Err (RecvInvalidMsg InvalidHashOrSig))
        | Ok true =>
            match update_window nonce s with
            | (s, Panic p) => (s, Panic p)
            | (s, Err e) => (s, Err e)
            | (s, Ok _) => (s, get_message d)
            end
        end
    end.

(** src/minimal.rs:162-288 ([read_inner]) *)
Definition read_inner (check_encrypt_state : bool) (incoming : bytes) (s : msl)
  : msl * outcome (option message) :=
  match reader_read C T (encrypt_algo_with_secret s) incoming check_encrypt_state with
  | Panic p => (s, Panic p)
  | Err e => (set_status Fail s, Err e)
  | Ok d =>
      match dd_headers d with
      | HConnect epk _ sig_pubkey => read_connect d epk sig_pubkey s
      | HAck challenge => read_ack incoming d challenge s
      | HUserMsg nonce => read_user d nonce s
      end
  end.

(** src/minimal.rs:159-161 ([read]) *)
Definition read (incoming : bytes) (s : msl) : msl * outcome (option message) :=
  read_inner true incoming s.

(** src/minimal.rs:150-156 *)
Definition take_ack_msg_recv_too_early (s : msl) : msl * outcome (option message) :=
  match ack_msg_recv_too_early s with
  | Some bin_ack_msg => read bin_ack_msg (set_ack_early None s)
  | None => (s, Ok None)
  end.

(** src/minimal.rs:133-142: the loop of [drain_tmp_stack_user_msgs]. *)
Fixpoint drain_loop (bin_msgs : list bytes) (acc : list message) (s : msl)
  : msl * outcome (list message) :=
  match bin_msgs with
  | [] => (s, Ok acc)
  | b :: rest =>
      match read_inner false b s with
      | (s, Panic p) => (s, Panic p)
      | (s, Err e) => (s, Err e)
      | (s, Ok (Some m)) => drain_loop rest (acc ++ [m]) s
      | (s, Ok None) => drain_loop rest acc s
      end
  end.
(** src/minimal.rs:133-142 *)
Definition drain_tmp_stack_user_msgs (s : msl) : msl * outcome (list message) :=
  drain_loop (tmp_stack_user_msgs s) [] (set_stack [] s).

(** src/minimal.rs:291-329.  Simplified: the in-memory BufWriter takes everything,
    so the message and its hash are concatenated (Proofs/IoFacts.v shows that a
    BufWriter over a sink that takes everything does that). *)
Definition encrypt_and_write (encapsuled_message : bytes) (s : msl) (w : bufwriter)
  : bufwriter * outcome unit :=
  match encrypt_algo_with_secret s with
  | None => (w, Panic PNoSecret)
  | Some a => encrypt C (encapsuled_message ++ sha256 C encapsuled_message) a w
  end.

(** src/minimal.rs:332-352 *)
Definition create_connect_message (public_key : bytes) (custom_data : option bytes) (s : msl)
  : msl * outcome bytes :=
  let '(st, r) := apply_action (msl_status s) (Create TConnect) in
  let s := set_status st s in
  match r with
  | Panic p => (s, Panic p)
  | Err e => (s, Err e)
  | Ok _ =>
      match encapsulate_message (RConnect SIG_ALGO_ED25519 public_key custom_data) s with
      | Ok d => (s, Ok d)
      | Err e => (set_status Fail s, Err e)
      | Panic p => (s, Panic p)
      end
  end.

(** src/minimal.rs:355-367 *)
Definition create_ack_message (custom_data : option bytes) (s : msl) : msl * outcome bytes :=
  let '(st, r) := apply_action (msl_status s) (Create TAck) in
  let s := set_status st s in
  match r with
  | Panic p => (s, Panic p)
  | Err e => (s, Err e)
  | Ok _ =>
      match encapsulate_message (RAck custom_data) s with
      | Ok d => (s, Ok d)
      | Err e => (set_status Fail s, Err e)
      | Panic p => (s, Panic p)
      end
  end.

(** src/minimal.rs:392-402 *)
Definition encapsulate_and_encrypt_and_write_message (data : bytes) (s : msl) (w : bufwriter)
  : bufwriter * outcome unit :=
  match encapsulate_message (RMessage (Some data) (next_nonce_sent s)) s with
  | Ok m => encrypt_and_write m s w
  | Err e => (w, Err e)
  | Panic p => (w, Panic p)
  end.

(** src/minimal.rs:370-390 *)
Definition write_message (data : bytes) (s : msl) (w : bufwriter)
  : msl * bufwriter * outcome unit :=
  let '(st, r) := apply_action (msl_status s) (Create TUserMsg) in
  let s := set_status st s in
  match r with
  | Panic p => (s, w, Panic p)
  | Err e => (s, w, Err e)
  | Ok _ =>
      match encapsulate_and_encrypt_and_write_message data s w with
      | (w, Ok _) =>
          let s := set_status NegotiationSuccessful s in
          match u64_incr T (next_nonce_sent s) with
          | Ok n => (set_next_nonce_sent n s, w, Ok tt)
          | Err e => (s, w, Err e)
          | Panic p => (s, w, Panic p)
          end
      | (w, Err e) => (set_status Fail s, w, Err e)
      | (w, Panic p) => (s, w, Panic p)
      end
  end.

End WithEnv.

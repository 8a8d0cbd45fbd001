(** [read_bin] and [read] of src/complete.rs with the capacity hint of the
    decompressor, which Model/Complete.v leaves out. *)

From Verif.Model Require Export Serde.

Section WithEnv.
Context (C : Crypto) (Z : Zip) (T : target).

(** src/complete.rs:187-193, whole: [Vec::with_capacity(bin_zip_msg.len() * 5)]
    comes first. *)
Definition uncompress_hint (b : bytes) : outcome bytes :=
  do n <- usize_mul T (len b) 5;
  do _ <- vec_with_capacity T n;
  uncompress Z b.

(** The uses of it in src/complete.rs:113-177, as in Model/Complete.v. *)
Definition uncompress_opt_hint (o : option bytes) : outcome (option bytes) :=
  match o with
  | None => Ok None
  | Some d => do x <- uncompress_hint d; Ok (Some x)
  end.

(** src/complete.rs:153-163 *)
Fixpoint uncompress_msgs_hint (l : list message) (acc : list incoming_binary_message)
  : outcome (list incoming_binary_message) :=
  match l with
  | [] => Ok acc
  | MMessage cd :: l' =>
      do x <- uncompress_opt_hint cd;
      uncompress_msgs_hint l' (acc ++ [IMessage x])
  | _ :: l' => uncompress_msgs_hint l' acc
  end.

(** src/complete.rs:113-177 *)
Definition read_bin_hint (incoming : bytes) (s : secure_layer)
  : secure_layer * outcome (list incoming_binary_message) :=
  match read C T incoming (minimal s) with
  | (m, Panic p) => (set_minimal m s, Panic p)
  | (m, Err e) => (set_minimal m s, Err e)
  | (m, Ok None) => (set_minimal m s, Ok [])
  | (m, Ok (Some (MConnect _ sig_pubkey cd))) =>
      let s := set_minimal m s in
      match uncompress_opt_hint cd with
      | Panic p => (s, Panic p)
      | Err e => (s, Err e)
      | Ok x =>
          let msgs := [IConnect x sig_pubkey] in
          match take_ack_msg_recv_too_early C T m with
          | (m, Panic p) => (set_minimal m s, Panic p)
          | (m, Err e) => (set_minimal m s, Err e)
          | (m, Ok (Some (MAck cd))) =>
              (set_minimal m s,
               do y <- uncompress_opt_hint cd; Ok (msgs ++ [IAck y]))
          | (m, Ok _) => (set_minimal m s, Ok msgs)
          end
      end
  | (m, Ok (Some (MAck cd))) =>
      let s := set_minimal m s in
      match uncompress_opt_hint cd with
      | Panic p => (s, Panic p)
      | Err e => (s, Err e)
      | Ok x =>
          match drain_tmp_stack_user_msgs C T m with
          | (m, Panic p) => (set_minimal m s, Panic p)
          | (m, Err e) => (set_minimal m s, Err e)
          | (m, Ok l) => (set_minimal m s, uncompress_msgs_hint l [IAck x])
          end
      end
  | (m, Ok (Some (MMessage cd))) =>
      (set_minimal m s, do x <- uncompress_opt_hint cd; Ok [IMessage x])
  end.

Context (F : features) {M : Type} (K : Codec M).

(** src/complete.rs:181-186, src/complete/serde/deserializer.rs:29-39, over it. *)
Definition sl_read_hint (incoming : bytes) (s : secure_layer)
  : secure_layer * outcome (list (incoming_message M)) :=
  match read_bin_hint incoming s with
  | (s, Ok l) => (s, deserialize_msgs F K l [])
  | (s, Err e) => (s, Err e)
  | (s, Panic p) => (s, Panic p)
  end.

End WithEnv.

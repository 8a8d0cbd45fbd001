(** Base vocabulary of the model: bytes, machine integers, slices, outcomes.

    These definitions model Rust itself (the language and [core]), as it is
    used by /repo/src.  Simplification common to the whole model: a [Vec<u8>]
    or [&[u8]] is a list of bytes of any length (real Rust bounds it by
    isize::MAX); allocation never fails. *)

From Coq Require Export List NArith Bool Lia.
From Coq Require Export Strings.Byte.
Export ListNotations.
#[global] Open Scope N_scope.

(** [Vec<u8>], [&[u8]] and [u8; N] wherever they occur in /repo/src. *)
Definition bytes := list byte.

(** [Vec::len] as a machine number.  Models every [.len()] in /repo/src. *)
Definition len {A} (l : list A) : N := N.of_nat (length l).

(** Truncating conversion to u8.  Used by [be_encode] only. *)
Definition byte_of_N (n : N) : byte :=
  match Byte.of_N (n mod 256) with Some b => b | None => x00 end.

(** [u64::to_be_bytes] (k = 8).  src/message.rs:208 and src/message.rs:249. *)
Fixpoint be_encode (k : nat) (n : N) : bytes :=
  match k with
  | O => []
  | S k' => be_encode k' (n / 256) ++ [byte_of_N n]
  end.

(** [u64::from_be_bytes].  src/reader.rs:76 and src/reader.rs:105. *)
Definition be_decode (l : bytes) : N :=
  fold_left (fun acc b => acc * 256 + Byte.to_N b) l 0.

(** [==] on byte slices ([impl PartialEq for [u8]]). *)
Fixpoint bytes_eqb (a b : bytes) : bool :=
  match a, b with
  | [], [] => true
  | x :: a', y :: b' => Byte.eqb x y && bytes_eqb a' b'
  | _, _ => false
  end.

(** [>] on byte slices ([impl PartialOrd for [u8]]: lexicographic, a strict
    prefix is smaller).  src/agreement.rs:109. *)
Fixpoint bytes_gtb (a b : bytes) : bool :=
  match a, b with
  | [], _ => false
  | _ :: _, [] => true
  | x :: a', y :: b' =>
      if N.eqb (Byte.to_N x) (Byte.to_N y) then bytes_gtb a' b'
      else N.ltb (Byte.to_N y) (Byte.to_N x)
  end.

(** Bitwise xor of two bytes (stream cipher, see Crypto.v). *)
Definition byte_xor (a b : byte) : byte :=
  byte_of_N (N.lxor (Byte.to_N a) (Byte.to_N b)).

(** How the crate is compiled: with or without arithmetic overflow checks
    (debug / release profile), and for a 32 or a 64 bit [usize].  Nothing in
    /repo/Cargo.toml fixes either. *)
Inductive ptr_width := P32 | P64.
(** The two choices together; see the comment above. *)
Record target := { overflow_checks : bool; usize_width : ptr_width }.

(** [usize::BITS] of the target; bounds the additions of src/reader.rs:76-77. *)
Definition usize_bits (T : target) : N :=
  match usize_width T with P32 => 32 | P64 => 64 end.

(** Why a Rust panic happened. *)
Inductive panic :=
| PSliceRange        (* slice index or drain range out of bounds *)
| POverflow          (* arithmetic overflow with overflow checks on *)
| PNoPeerEpk         (* src/message.rs:190 *)
| PNoSecret          (* src/minimal.rs:300 *)
| PNoEphemeralKp     (* src/minimal.rs:129 (unreachable!) *)
| PWrongSecretLen    (* src/encryption.rs:57 *)
| PUnimplemented     (* serializer.rs:119, deserializer.rs:104 *)
| PRandom            (* src/seeds.rs:50 *)
| PCapacity.         (* Vec::with_capacity of more than isize::MAX bytes: src/complete.rs:188 *)

(** [std::io::Error], as far as the code distinguishes it. *)
Inductive io_error :=
| IoInterrupted
| IoWriteZero
| IoOther (code : N)
| IoModelFuel.       (* not in Rust: fuel of a modelled loop ran out; proved never to occur *)

(** chacha20_poly1305_aead::DecryptError (payload of errors.rs:30). *)
Inductive decrypt_error := DecTagMismatch | DecIo (e : io_error).

(** src/errors.rs:84-112. *)
Inductive incoming_msg_err :=
| InvalidChallenge | InvalidHashOrSig | InvalidMagicValue | InvalidNonce
| MessageTooShort | UnexpectedAckMsg | UnexpectedConnectMsg | UnexpectedMessage
| UnexpectedEncryptionState | UnknownMessageFormat | UnknownMessageType
| UnsupportedSigAlgo | UnsupportedVersion.

(** src/complete/serde.rs:49-63 (the library error payloads are one code). *)
Inductive serde_error :=
| BincodeError (code : N) | CborError (code : N) | JsonError (code : N)
| UseSuffixedBinFunctions.

(** src/errors.rs:20-74, all features on. *)
Inductive error :=
| BufferFlushError | ConnectionHadFail | ConnectMsgAlreadyWritten
| FailToComputeAgreement | FailToDecryptData (e : decrypt_error)
| FailToEncryptData (e : io_error) | FailToGenEphemerKeyPair
| FailToGenEphemerPubKey | FailtoGenSigKeyPair | ForbidChangeConfAfterClone
| ForbidWriteAckMsgNow | MessageMustBeSigned | NegoMustHaveBeenSuccessful
| SerdeError (e : serde_error) | SerializationError (e : io_error)
| TryToGenConnectMsgTooLate | TryToWriteMsgWhenNegoNotSuccessful
| RecvInvalidMsg (e : incoming_msg_err) | TooManyUnorderedMsgs
| UnexpectedRemoteSigPubKey | WriteError (e : io_error)
| WrittenLenError (expected found : N) | ZipError (e : io_error).

(** What a call does: returns a value, returns [Err], or panics. *)
Inductive outcome (A : Type) : Type :=
| Ok (a : A)
| Err (e : error)
| Panic (p : panic).
Arguments Ok {A} a.
Arguments Err {A} e.
Arguments Panic {A} p.

(** The [?] operator, used throughout /repo/src: an error or a panic ends the
    function. *)
Definition obind {A B} (o : outcome A) (f : A -> outcome B) : outcome B :=
  match o with Ok a => f a | Err e => Err e | Panic p => Panic p end.

(** [let x = o?; f] *)
Notation "'do' x <- o ; f" := (obind o (fun x => f))
  (at level 200, x pattern, o at level 100, f at level 200).

(** [a + b] on usize: overflow panics when overflow checks are on and wraps
    otherwise.  src/reader.rs:77. *)
Definition usize_add (T : target) (a b : N) : outcome N :=
  if a + b <? 2 ^ usize_bits T then Ok (a + b)
  else if overflow_checks T then Panic POverflow
  else Ok ((a + b) mod 2 ^ usize_bits T).

(** [a * b] on usize, likewise.  src/complete.rs:188. *)
Definition usize_mul (T : target) (a b : N) : outcome N :=
  if a * b <? 2 ^ usize_bits T then Ok (a * b)
  else if overflow_checks T then Panic POverflow
  else Ok ((a * b) mod 2 ^ usize_bits T).

(** [Vec::<u8>::with_capacity(n)]: panics when [n] exceeds isize::MAX.  That the
    allocator may have no memory left is not modelled.  src/complete.rs:188. *)
Definition vec_with_capacity (T : target) (n : N) : outcome unit :=
  if n <? 2 ^ (usize_bits T - 1) then Ok tt else Panic PCapacity.

(** [x as usize] from u64: truncation.  src/reader.rs:76. *)
Definition u64_as_usize (T : target) (n : N) : N := n mod 2 ^ usize_bits T.

(** [x += 1] on u64.  src/minimal.rs:266, 268, 382. *)
Definition u64_incr (T : target) (n : N) : outcome N :=
  if n + 1 <? 2 ^ 64 then Ok (n + 1)
  else if overflow_checks T then Panic POverflow
  else Ok ((n + 1) mod 2 ^ 64).

(** [&d[..n]] with its bounds check: src/reader.rs:48, 64, 99,
    src/minimal.rs:258, 405, src/complete/serde/deserializer.rs:78. *)
Definition slice_to (d : bytes) (n : N) : outcome bytes :=
  if n <=? len d then Ok (firstn (N.to_nat n) d) else Panic PSliceRange.
(** [&d[n..]] with its bounds check: src/reader.rs:81, src/minimal.rs:259,
    406, src/complete/serde/deserializer.rs:80. *)
Definition slice_from (d : bytes) (n : N) : outcome bytes :=
  if n <=? len d then Ok (skipn (N.to_nat n) d) else Panic PSliceRange.
(** [&d[a..b]] with its bounds check: src/reader.rs:69, 75, 102-138. *)
Definition slice (d : bytes) (a b : N) : outcome bytes :=
  if (a <=? b) && (b <=? len d)
  then Ok (firstn (N.to_nat (b - a)) (skipn (N.to_nat a) d))
  else Panic PSliceRange.

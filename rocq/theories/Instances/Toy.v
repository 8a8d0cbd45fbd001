(** Instances of the library interfaces that satisfy their laws and compute.

    They are NOT the real algorithms; they only show that the hypotheses of
    the theorems can be met together, and let Examples run the model. *)

From Coq Require Import Arith ZifyBool ZifyNat ZifyN.
From Verif.Model Require Import Serde.
From Verif.Spec Require Import Wire.
From Verif.Proofs Require Import BaseFacts.

Definition pad32 (b : bytes) : bytes := firstn 32 (b ++ repeat x00 32).

Definition toy_sum (b : bytes) : N :=
  fold_left (fun a x => (a * 31 + Byte.to_N x + 1) mod 2 ^ 64) b 0.

Definition toy_hash (b : bytes) : bytes := be_encode 32 (toy_sum b).

Definition zero32 : bytes := repeat x00 32.

Definition xor_bytes (a b : bytes) : bytes :=
  map (fun p => byte_xor (fst p) (snd p)) (combine a b).

(** The all-zero public key is refused, as ring refuses small-order points. *)
Definition toy_agree (sk pk : bytes) : option bytes :=
  if bytes_eqb pk zero32 || bytes_eqb (pad32 sk) zero32 || negb (len pk =? 32) then None
  else Some (xor_bytes (pad32 sk) pk).

Definition toy_pbkdf2 (al : pbkdf2_algo) (it : N) (salt sec : bytes) (n : nat) : bytes :=
  firstn n (sec ++ salt ++ repeat x07 n).

Definition toy_keystream (key nonce : bytes) (i : nat) : byte :=
  byte_of_N (N.of_nat i + Byte.to_N (hd x01 key) + Byte.to_N (hd x01 nonce)).

Definition toy_mac (key nonce aad ct : bytes) : bytes :=
  be_encode 16 (toy_sum (key ++ nonce ++ aad ++ ct)).

Definition toy_sign (seed m : bytes) : bytes := pad32 seed ++ toy_hash m.
Definition toy_verify (pk m sig : bytes) : bool :=
  (len pk =? 32) && bytes_eqb sig (pk ++ toy_hash m).

Definition toy : Crypto := {|
  sha256 := toy_hash;
  x25519_public := pad32;
  x25519_agree := toy_agree;
  pbkdf2 := toy_pbkdf2;
  chacha20_keystream := toy_keystream;
  poly1305_mac := toy_mac;
  ed25519_public := pad32;
  ed25519_sign := toy_sign;
  ed25519_verify := toy_verify
|}.

Lemma pad32_length b : length (pad32 b) = 32%nat.
Proof. unfold pad32. rewrite firstn_length, app_length, repeat_length. lia. Qed.

Lemma xor_bytes_comm a b : xor_bytes a b = xor_bytes b a.
Proof.
  unfold xor_bytes. revert b. induction a as [|x a IH]; intros [|y b]; cbn [combine map]; try reflexivity.
  rewrite IH. f_equal. apply byte_xor_comm.
Qed.

Lemma toy_laws : CryptoLaws toy.
Proof.
  constructor; cbn [toy sha256 x25519_public x25519_agree pbkdf2 poly1305_mac ed25519_public
                    ed25519_sign ed25519_verify].
  - intros m. apply length_be_encode.
  - apply pad32_length.
  - intros a b. unfold toy_agree.
    assert (forall c, len (pad32 c) = 32) as Hl by (intros c; unfold len; rewrite pad32_length; reflexivity).
    rewrite !Hl, (orb_comm (bytes_eqb (pad32 b) zero32)), xor_bytes_comm. reflexivity.
  - intros al it salt sec n. unfold toy_pbkdf2. rewrite firstn_length, !app_length, repeat_length. lia.
  - intros k n a c. apply length_be_encode.
  - apply pad32_length.
  - intros s m. unfold toy_sign, toy_hash. rewrite app_length, pad32_length, length_be_encode. reflexivity.
  - intros s m. unfold toy_verify, toy_sign. rewrite bytes_eqb_refl.
    unfold len. rewrite pad32_length. reflexivity.
  - intros pk m s. unfold toy_verify. intros E. apply andb_true_iff in E as [E1 E2].
    apply N.eqb_eq in E1. apply bytes_eqb_eq in E2. subst s. unfold toy_hash.
    rewrite app_length, length_be_encode. unfold len in E1. lia.
Qed.

(** No session of this instance has the key stream of C08's exception. *)
Lemma toy_keystream_ok k : keystream_ok toy k.
Proof.
  intros H. pose proof (H 0%nat ltac:(lia)) as H0. pose proof (H 1%nat ltac:(lia)) as H1.
  cbn [toy chacha20_keystream] in *. unfold toy_keystream in *.
  apply (f_equal Byte.to_N) in H0, H1. rewrite to_N_byte_of_N in H0, H1.
  change (Byte.to_N x00) with 0 in *.
  set (a := Byte.to_N (hd x01 (sk_key k))) in *. set (b := Byte.to_N (hd x01 (sk_nonce k))) in *.
  replace (N.of_nat 0 + a + b) with (a + b) in H0 by lia.
  replace (N.of_nat 1 + a + b) with (1 + (a + b)) in H1 by lia.
  rewrite N.add_mod, H0 in H1 by lia. discriminate.
Qed.

(** DEFLATE: a level byte, then the data; other first bytes do not inflate. *)
Definition toy_zip : Zip := {|
  deflate := fun l b => byte_of_N (l mod 10) :: b;
  inflate := fun b => match b with
                      | x :: r => if Byte.to_N x <? 10 then inl r else inr (IoOther 2)
                      | [] => inr (IoOther 1)
                      end
|}.

Lemma toy_zip_laws : ZipLaws toy_zip.
Proof.
  constructor; cbn [toy_zip deflate inflate]; [|discriminate].
  intros l b. rewrite to_N_byte_of_N.
  assert (l mod 10 mod 256 < 10) as H.
  { pose proof (N.mod_lt l 10 ltac:(lia)). rewrite N.mod_small; lia. }
  apply N.ltb_lt in H. rewrite H. reflexivity.
Qed.

(** Values are byte strings; the JSON back end refuses those starting with ff. *)
Definition toy_codec : Codec bytes := {|
  bincode_ser := fun b => inl b; bincode_de := fun b => inl b;
  cbor_ser := fun b => inl (xa0 :: b);
  cbor_de := fun b => match b with _ :: r => inl r | [] => inr 1 end;
  json_ser := fun b => match b with xff :: _ => inr 2 | _ => inl b end;
  json_de := fun b => inl b
|}.

Lemma toy_codec_laws : CodecLaws toy_codec.
Proof.
  constructor; cbn; intros m b E.
  - congruence.
  - injection E as <-. reflexivity.
  - destruct m as [|[] r]; congruence.
Qed.

Definition all_features : features := {| feat_bin := true; feat_cbor := true; feat_json := true |}.

(** The two build profiles on 64-bit machines, and a 32-bit one. *)
Definition debug64 : target := {| overflow_checks := true; usize_width := P64 |}.
Definition release64 : target := {| overflow_checks := false; usize_width := P64 |}.
Definition release32 : target := {| overflow_checks := false; usize_width := P32 |}.

(** A writer with the default capacity over a sink that takes everything. *)
Definition vec_writer : bufwriter :=
  {| bw_cap := 8192; bw_buf := []; bw_sink := {| sink_data := []; sink_script := [] |} |}.

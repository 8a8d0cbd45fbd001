(** SHA-256 (FIPS 180-4), the function behind src/digest.rs.

    Not used by the theorems, which hold for every hash function of 32 bytes; it
    lets the tests of /repo that contain a real digest be run (RepoTests.v). *)

From Coq Require Import Arith ZifyNat ZifyN.
From Verif.Model Require Import Crypto.
From Verif.Proofs Require Import BaseFacts.

Definition w32 (n : N) : N := N.land n 4294967295.
Definition rotr (k n : N) : N := N.lor (N.shiftr n k) (w32 (N.shiftl n (32 - k))).
Definition xor3 (a b c : N) : N := N.lxor a (N.lxor b c).

Definition big0 x := xor3 (rotr 2 x) (rotr 13 x) (rotr 22 x).
Definition big1 x := xor3 (rotr 6 x) (rotr 11 x) (rotr 25 x).
Definition small0 x := xor3 (rotr 7 x) (rotr 18 x) (N.shiftr x 3).
Definition small1 x := xor3 (rotr 17 x) (rotr 19 x) (N.shiftr x 10).
Definition ch x y z := N.lxor (N.land x y) (N.land (N.lxor x 4294967295) z).
Definition maj x y z := xor3 (N.land x y) (N.land x z) (N.land y z).

Definition k256 : list N := [
  1116352408; 1899447441; 3049323471; 3921009573; 961987163; 1508970993; 2453635748; 2870763221;
  3624381080; 310598401; 607225278; 1426881987; 1925078388; 2162078206; 2614888103; 3248222580;
  3835390401; 4022224774; 264347078; 604807628; 770255983; 1249150122; 1555081692; 1996064986;
  2554220882; 2821834349; 2952996808; 3210313671; 3336571891; 3584528711; 113926993; 338241895;
  666307205; 773529912; 1294757372; 1396182291; 1695183700; 1986661051; 2177026350; 2456956037;
  2730485921; 2820302411; 3259730800; 3345764771; 3516065817; 3600352804; 4094571909; 275423344;
  430227734; 506948616; 659060556; 883997877; 958139571; 1322822218; 1537002063; 1747873779;
  1955562222; 2024104815; 2227730452; 2361852424; 2428436474; 2756734187; 3204031479; 3329325298].
Definition h256 : list N := [1779033703; 3144134277; 1013904242; 2773480762; 1359893119; 2600822924; 528734635; 1541459225].

(** The message, a bit 1, zeros, and the length in bits. *)
Definition padded (m : bytes) : bytes :=
  m ++ [x80] ++ repeat x00 (N.to_nat ((119 - len m mod 64) mod 64)) ++ be_encode 8 (8 * len m).

Fixpoint words (fuel : nat) (b : bytes) : list N :=
  match fuel, b with
  | S fuel, _ :: _ => be_decode (firstn 4 b) :: words fuel (skipn 4 b)
  | _, _ => []
  end.

(** The message schedule, latest word first. *)
Fixpoint schedule (n : nat) (w : list N) : list N :=
  match n with
  | O => w
  | S n => schedule n (w32 (small1 (nth 1 w 0) + nth 6 w 0 + small0 (nth 14 w 0) + nth 15 w 0) :: w)
  end.

Fixpoint rounds (kw : list (N * N)) (s : list N) : list N :=
  match kw with
  | [] => s
  | (k, w) :: kw =>
      match s with
      | [a; b; c; d; e; f; g; h] =>
          let t1 := w32 (h + big1 e + ch e f g + k + w) in
          let t2 := w32 (big0 a + maj a b c) in
          rounds kw [w32 (t1 + t2); a; b; c; w32 (d + t1); e; f; g]
      | _ => s
      end
  end.

Definition block (s : list N) (b : bytes) : list N :=
  let w := rev (schedule 48 (rev (words 16 b))) in
  map (fun p => w32 (fst p + snd p)) (combine s (rounds (combine k256 w) s)).

Fixpoint blocks (fuel : nat) (s : list N) (b : bytes) : list N :=
  match fuel, b with
  | S fuel, _ :: _ => blocks fuel (block s (firstn 64 b)) (skipn 64 b)
  | _, _ => s
  end.

Definition real_sha256 (m : bytes) : bytes :=
  let p := padded m in firstn 32 (flat_map (be_encode 4) (blocks (length p) h256 p) ++ repeat x00 32).

Lemma real_sha256_length m : length (real_sha256 m) = 32%nat.
Proof. unfold real_sha256. cbv zeta. rewrite firstn_length, app_length, repeat_length. lia. Qed.

(** FIPS 180-4 examples: "abc", and a message of 56 bytes, which takes two blocks. *)
Example sha256_abc : be_decode (real_sha256 [x61; x62; x63]) = 
  84342368487090800366523834928142263660104883695016514377462985829716817089965.
Proof. vm_compute. reflexivity. Qed.
Example sha256_empty : be_decode (real_sha256 []) = 
  102987336249554097029535212322581322789799900648198034993379397001115665086549.
Proof. vm_compute. reflexivity. Qed.
Example sha256_two_blocks : be_decode (real_sha256 (map byte_of_N (map N.of_nat (seq 0 56)))) = 
  98679987954361808999627318433111766196784316072401972557975419786965711975778.
Proof. vm_compute. reflexivity. Qed.

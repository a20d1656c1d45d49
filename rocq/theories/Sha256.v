(** * SHA-256, for test vectors

    FIPS 180-4, so that examples can be compared with the values in the tests of the
    repository (src/crypto.rs 1000-1040).  No theorem depends on it. *)
From Coq Require Import String Ascii List NArith Bool.
From Verif Require Import Base JsonValue JsonText Metadata Paths Codec Serde Keys KeyToy.
Import ListNotations.
Open Scope string_scope.

Definition w32 (n : N) : N := (n mod 4294967296)%N.
Definition rotr (k n : N) : N := N.lor (N.shiftr n k) (w32 (N.shiftl n (32 - k))).
Definition xor3 (a b c : N) : N := N.lxor a (N.lxor b c).
Definition round_constants : list N := [
  0x428a2f98; 0x71374491; 0xb5c0fbcf; 0xe9b5dba5; 0x3956c25b; 0x59f111f1; 0x923f82a4; 0xab1c5ed5;
  0xd807aa98; 0x12835b01; 0x243185be; 0x550c7dc3; 0x72be5d74; 0x80deb1fe; 0x9bdc06a7; 0xc19bf174;
  0xe49b69c1; 0xefbe4786; 0x0fc19dc6; 0x240ca1cc; 0x2de92c6f; 0x4a7484aa; 0x5cb0a9dc; 0x76f988da;
  0x983e5152; 0xa831c66d; 0xb00327c8; 0xbf597fc7; 0xc6e00bf3; 0xd5a79147; 0x06ca6351; 0x14292967;
  0x27b70a85; 0x2e1b2138; 0x4d2c6dfc; 0x53380d13; 0x650a7354; 0x766a0abb; 0x81c2c92e; 0x92722c85;
  0xa2bfe8a1; 0xa81a664b; 0xc24b8b70; 0xc76c51a3; 0xd192e819; 0xd6990624; 0xf40e3585; 0x106aa070;
  0x19a4c116; 0x1e376c08; 0x2748774c; 0x34b0bcb5; 0x391c0cb3; 0x4ed8aa4a; 0x5b9cca4f; 0x682e6ff3;
  0x748f82ee; 0x78a5636f; 0x84c87814; 0x8cc70208; 0x90befffa; 0xa4506ceb; 0xbef9a3f7; 0xc67178f2]%N.
Definition initial : list N :=
  [0x6a09e667; 0xbb67ae85; 0x3c6ef372; 0xa54ff53a; 0x510e527f; 0x9b05688c; 0x1f83d9ab; 0x5be0cd19]%N.

(** The message schedule, latest word first. *)
Fixpoint schedule (k : nat) (w : list N) : list N :=
  match k with
  | O => w
  | S k =>
      let w2 := nth 1 w 0%N in let w7 := nth 6 w 0%N in let w15 := nth 14 w 0%N in let w16 := nth 15 w 0%N in
      let s0 := xor3 (rotr 7 w15) (rotr 18 w15) (N.shiftr w15 3) in
      let s1 := xor3 (rotr 17 w2) (rotr 19 w2) (N.shiftr w2 10) in
      schedule k (w32 (s1 + w7 + s0 + w16) :: w)
  end.
Definition one_round (st : list N) (kw : N * N) : list N :=
  match st with
  | [a; b; c; d; e; f; g; h] =>
      let ch := N.lxor (N.land e f) (N.land (N.lxor e 4294967295) g) in
      let maj := xor3 (N.land a b) (N.land a c) (N.land b c) in
      let t1 := (h + xor3 (rotr 6 e) (rotr 11 e) (rotr 25 e) + ch + fst kw + snd kw)%N in
      let t2 := (xor3 (rotr 2 a) (rotr 13 a) (rotr 22 a) + maj)%N in
      [w32 (t1 + t2); a; b; c; w32 (d + t1); e; f; g]
  | _ => st
  end.
Definition block (st : list N) (words : list N) : list N :=
  let w := rev (schedule 48 (rev words)) in
  let st' := fold_left one_round (combine round_constants w) st in
  map (fun p => w32 (fst p + snd p)%N) (combine st st').
Fixpoint words_of (l : list N) : list N :=
  match l with a :: b :: c :: d :: r => (((a * 256 + b) * 256 + c) * 256 + d)%N :: words_of r | _ => [] end.
Fixpoint blocks (k : nat) (st : list N) (w : list N) : list N :=
  match k with O => st | S k => blocks k (block st (firstn 16 w)) (skipn 16 w) end.
Definition sha256 (s : bytes) : bytes :=
  let l := map N_of_ascii (list_ascii_of_string s) in
  let n := length l in
  let zeros := Nat.modulo (119 - Nat.modulo n 64) 64 in
  let len := map N_of_ascii (list_ascii_of_string (big_endian 8 (8 * N.of_nat n) "")) in
  let padded := (l ++ [128%N] ++ repeat 0%N zeros ++ len)%list in
  let st := blocks (Nat.div (length padded) 64) initial (words_of padded) in
  fold_right (fun w acc => big_endian 4 w acc) "" st.

Example sha256_abc : hex_encode (sha256 "abc") = "ba7816bf8f01cfea414140de5dae2223b00361a396177a9cb410ff61f20015ad".
Proof. vm_compute. reflexivity. Qed.
Example sha256_long :
  hex_encode (sha256 "abcdbcdecdefdefgefghfghighijhijkijkljklmklmnlmnomnopnopq") =
  "248d6a61d20638b8e5c026930c3e6039a33ce45964ff2167f6ecedd419db06c1".
Proof. vm_compute. reflexivity. Qed.

(** SHA-256 where the examples need it; the rest is as in KeyToy.v. *)
Definition real_sha256 : crypto :=
  mkCrypto (ring_verify checksums) (fun a b => match a with Sha256 => sha256 b | _ => ring_digest checksums a b end).

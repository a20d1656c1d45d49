(** * SHA-512 and Ed25519, for test vectors

    FIPS 180-4 and RFC 8032, so that the model can be run on the repositories in the tests
    of /repo.  No theorem depends on it. *)
From Coq Require Import String Ascii List NArith Bool.
From Verif Require Import Base JsonValue JsonText Metadata Paths Codec Serde Keys KeyToy Sha256.
Import ListNotations.
Open Scope string_scope.

(** ** SHA-512 *)

Definition w64 (n : N) : N := N.land n 0xffffffffffffffff.
Definition rotr64 (k n : N) : N := N.lor (N.shiftr n k) (w64 (N.shiftl n (64 - k))).
Definition round_constants512 : list N := [
  0x428a2f98d728ae22; 0x7137449123ef65cd; 0xb5c0fbcfec4d3b2f; 0xe9b5dba58189dbbc;
  0x3956c25bf348b538; 0x59f111f1b605d019; 0x923f82a4af194f9b; 0xab1c5ed5da6d8118;
  0xd807aa98a3030242; 0x12835b0145706fbe; 0x243185be4ee4b28c; 0x550c7dc3d5ffb4e2;
  0x72be5d74f27b896f; 0x80deb1fe3b1696b1; 0x9bdc06a725c71235; 0xc19bf174cf692694;
  0xe49b69c19ef14ad2; 0xefbe4786384f25e3; 0x0fc19dc68b8cd5b5; 0x240ca1cc77ac9c65;
  0x2de92c6f592b0275; 0x4a7484aa6ea6e483; 0x5cb0a9dcbd41fbd4; 0x76f988da831153b5;
  0x983e5152ee66dfab; 0xa831c66d2db43210; 0xb00327c898fb213f; 0xbf597fc7beef0ee4;
  0xc6e00bf33da88fc2; 0xd5a79147930aa725; 0x06ca6351e003826f; 0x142929670a0e6e70;
  0x27b70a8546d22ffc; 0x2e1b21385c26c926; 0x4d2c6dfc5ac42aed; 0x53380d139d95b3df;
  0x650a73548baf63de; 0x766a0abb3c77b2a8; 0x81c2c92e47edaee6; 0x92722c851482353b;
  0xa2bfe8a14cf10364; 0xa81a664bbc423001; 0xc24b8b70d0f89791; 0xc76c51a30654be30;
  0xd192e819d6ef5218; 0xd69906245565a910; 0xf40e35855771202a; 0x106aa07032bbd1b8;
  0x19a4c116b8d2d0c8; 0x1e376c085141ab53; 0x2748774cdf8eeb99; 0x34b0bcb5e19b48a8;
  0x391c0cb3c5c95a63; 0x4ed8aa4ae3418acb; 0x5b9cca4f7763e373; 0x682e6ff3d6b2b8a3;
  0x748f82ee5defb2fc; 0x78a5636f43172f60; 0x84c87814a1f0ab72; 0x8cc702081a6439ec;
  0x90befffa23631e28; 0xa4506cebde82bde9; 0xbef9a3f7b2c67915; 0xc67178f2e372532b;
  0xca273eceea26619c; 0xd186b8c721c0c207; 0xeada7dd6cde0eb1e; 0xf57d4f7fee6ed178;
  0x06f067aa72176fba; 0x0a637dc5a2c898a6; 0x113f9804bef90dae; 0x1b710b35131c471b;
  0x28db77f523047d84; 0x32caab7b40c72493; 0x3c9ebe0a15c9bebc; 0x431d67c49c100d4c;
  0x4cc5d4becb3e42b6; 0x597f299cfc657e2a; 0x5fcb6fab3ad6faec; 0x6c44198c4a475817]%N.
Definition initial512 : list N :=
  [0x6a09e667f3bcc908; 0xbb67ae8584caa73b; 0x3c6ef372fe94f82b; 0xa54ff53a5f1d36f1;
  0x510e527fade682d1; 0x9b05688c2b3e6c1f; 0x1f83d9abfb41bd6b; 0x5be0cd19137e2179]%N.
Fixpoint schedule512 (k : nat) (w : list N) : list N :=
  match k with
  | O => w
  | S k =>
      let w2 := nth 1 w 0%N in let w7 := nth 6 w 0%N in let w15 := nth 14 w 0%N in let w16 := nth 15 w 0%N in
      let s0 := xor3 (rotr64 1 w15) (rotr64 8 w15) (N.shiftr w15 7) in
      let s1 := xor3 (rotr64 19 w2) (rotr64 61 w2) (N.shiftr w2 6) in
      schedule512 k (w64 (s1 + w7 + s0 + w16) :: w)
  end.
Definition one_round512 (st : list N) (kw : N * N) : list N :=
  match st with
  | [a; b; c; d; e; f; g; h] =>
      let ch := N.lxor (N.land e f) (N.land (N.lxor e 0xffffffffffffffff) g) in
      let maj := xor3 (N.land a b) (N.land a c) (N.land b c) in
      let t1 := (h + xor3 (rotr64 14 e) (rotr64 18 e) (rotr64 41 e) + ch + fst kw + snd kw)%N in
      let t2 := (xor3 (rotr64 28 a) (rotr64 34 a) (rotr64 39 a) + maj)%N in
      [w64 (t1 + t2); a; b; c; w64 (d + t1); e; f; g]
  | _ => st
  end.
Definition block512 (st : list N) (words : list N) : list N :=
  let w := rev (schedule512 64 (rev words)) in
  let st' := fold_left one_round512 (combine round_constants512 w) st in
  map (fun p => w64 (fst p + snd p)%N) (combine st st').
Fixpoint pairs_of (l : list N) : list N :=
  match l with a :: b :: r => (a * 4294967296 + b)%N :: pairs_of r | _ => [] end.
Fixpoint blocks512 (k : nat) (st : list N) (w : list N) : list N :=
  match k with O => st | S k => blocks512 k (block512 st (firstn 16 w)) (skipn 16 w) end.
Definition sha512 (s : bytes) : bytes :=
  let l := map N_of_ascii (list_ascii_of_string s) in
  let n := length l in
  let zeros := Nat.modulo (239 - Nat.modulo n 128) 128 in
  let len := map N_of_ascii (list_ascii_of_string (big_endian 16 (8 * N.of_nat n) "")) in
  let padded := (l ++ [128%N] ++ repeat 0%N zeros ++ len)%list in
  let st := blocks512 (Nat.div (length padded) 128) initial512 (pairs_of (words_of padded)) in
  fold_right (fun w acc => big_endian 8 w acc) "" st.

Example sha512_abc : hex_encode (sha512 "abc") =
  "ddaf35a193617abacc417349ae20413112e6fa4e89a97ea20a9eeee64b55d39a2192992a274fc1a836ba3c23a3feebbd454d4423643ce80e2a9ac94fa54ca49f".
Proof. vm_compute. reflexivity. Qed.

Open Scope N_scope.

(** ** The field of 2^255 - 19 elements: numbers below 2^256, reduced at the end *)

Definition prime : N := 0x7fffffffffffffffffffffffffffffffffffffffffffffffffffffffffffffed.
Definition low255 : N := 0x7fffffffffffffffffffffffffffffffffffffffffffffffffffffffffffffff.
Definition fold255 (x : N) : N := N.land x low255 + 19 * N.shiftr x 255.
Definition norm (x : N) : N := fold255 (fold255 x).
Definition fmul (x y : N) : N := norm (x * y).
Definition fadd (x y : N) : N := fold255 (x + y).
Definition fsub (x y : N) : N := fold255 (x + 4 * prime - y).
Definition freeze (x : N) : N := x mod prime.
Fixpoint fpow (x : N) (e : positive) : N :=
  match e with
  | xH => x
  | xO e => let y := fpow x e in fmul y y
  | xI e => let y := fpow x e in fmul x (fmul y y)
  end.
Definition finv (x : N) : N := fpow x 0x7fffffffffffffffffffffffffffffffffffffffffffffffffffffffffffffeb.
Definition curve_d : N := 0x52036cee2b6ffe738cc740797779e89800700a4d4141d8ab75eb4dca135978a3.
Definition curve_2d : N := 0x2406d9dc56dffce7198e80f2eef3d13000e0149a8283b156ebd69b9426b2f159.
Definition sqrt_m1 : N := 0x2b8324804fc1df0b2b4d00993dfbd7a72f431806ad2fe478c4ee1b274a0ea0b0.

(** ** Points, in extended coordinates (RFC 8032, 5.1.4) *)

Record point := mkPoint { px : N; py : N; pz : N; pt : N }.
Definition neutral : point := mkPoint 0 1 1 0.
Definition base_point : point :=
  mkPoint 0x216936d3cd6e53fec0a4e231fdd6dc5c692cc7609525a7b2c9562d608f25d51a
          0x6666666666666666666666666666666666666666666666666666666666666658 1
          0x67875f0fd78b766566ea4e8e64abe37d20f09f80775152f56dde8ab3a5b7dda3.
Definition padd (P Q : point) : point :=
  let a := fmul (fsub (py P) (px P)) (fsub (py Q) (px Q)) in
  let b := fmul (fadd (py P) (px P)) (fadd (py Q) (px Q)) in
  let c := fmul (fmul (pt P) curve_2d) (pt Q) in
  let d := fmul (2 * pz P) (pz Q) in
  let e := fsub b a in let f := fsub d c in let g := fadd d c in let h := fadd b a in
  mkPoint (fmul e f) (fmul g h) (fmul f g) (fmul e h).
Definition pdouble (P : point) : point :=
  let a := fmul (px P) (px P) in let b := fmul (py P) (py P) in
  let c := fmul (2 * pz P) (pz P) in
  let h := fadd a b in
  let xy := fadd (px P) (py P) in
  let e := fsub h (fmul xy xy) in
  let g := fsub a b in let f := fadd c g in
  mkPoint (fmul e f) (fmul g h) (fmul f g) (fmul e h).
Definition pneg (P : point) : point := mkPoint (fsub 0 (px P)) (py P) (pz P) (fsub 0 (pt P)).

(** [s P + k Q], bit by bit from the highest of [n] bits. *)
Fixpoint double_mul (n : nat) (s k : N) (P Q PQ : point) (acc : point) : point :=
  match n with
  | O => acc
  | S n =>
      let acc := pdouble acc in
      let acc := match N.testbit_nat s n, N.testbit_nat k n with
                 | true, true => padd acc PQ
                 | true, false => padd acc P
                 | false, true => padd acc Q
                 | false, false => acc
                 end in
      double_mul n s k P Q PQ acc
  end.

(** ** Encodings *)

Fixpoint little_endian_value (s : bytes) : N :=
  match s with EmptyString => 0 | String c s => N_of_ascii c + 256 * little_endian_value s end.
Fixpoint little_endian_bytes (n : nat) (x : N) : bytes :=
  match n with O => "" | S n => String (ascii_of_N (N.modulo x 256)) (little_endian_bytes n (N.div x 256)) end.
Definition encode_point (P : point) : bytes :=
  let i := finv (pz P) in
  let x := freeze (fmul (px P) i) in let y := freeze (fmul (py P) i) in
  little_endian_bytes 32 (y + (if N.odd x then 2 ^ 255 else 0)).
Definition decode_point (s : bytes) : option point :=
  let v := little_endian_value s in
  let y := N.land v low255 in
  let sign := N.testbit v 255 in
  if (prime <=? y)%N then None else
  let yy := fmul y y in
  let u := fsub yy 1 in let w := fadd (fmul curve_d yy) 1 in
  let w3 := fmul (fmul w w) w in
  let w7 := fmul (fmul w3 w3) w in
  let x := fmul (fmul u w3) (fpow (fmul u w7) 0xffffffffffffffffffffffffffffffffffffffffffffffffffffffffffffffd) in
  let c := freeze (fmul w (fmul x x)) in
  let x := if (c =? freeze u)%N then Some (freeze x)
           else if (c =? freeze (fsub 0 u))%N then Some (freeze (fmul x sqrt_m1)) else None in
  match x with
  | None => None
  | Some x =>
      if (x =? 0)%N && sign then None else
      let x := if Bool.eqb (N.odd x) sign then x else freeze (fsub 0 x) in
      Some (mkPoint x y 1 (fmul x y))
  end.

Definition group_order : N := 0x1000000000000000000000000000000014def9dea2f79cd65812631a5cf5d3ed.

(** ** Signatures (RFC 8032, 5.1.7, without the cofactor, as in ring) *)
Definition ed25519_verify (public msg sig : bytes) : bool :=
  if negb (Nat.eqb (String.length public) 32 && Nat.eqb (String.length sig) 64) then false else
  let r := substring 0 32 sig in
  let s := little_endian_value (substring 32 32 sig) in
  if (group_order <=? s)%N then false else
  match decode_point public with
  | None => false
  | Some a =>
      let k := (little_endian_value (sha512 (r ++ public ++ msg)) mod group_order)%N in
      let a' := pneg a in
      String.eqb r (encode_point (double_mul 253 s k base_point a' (padd base_point a') neutral))
  end.

Definition unhex (s : string) : bytes := match hex_decode s with Some b => b | None => "" end.

(** RFC 8032, 7.1, tests 1 and 3. *)
Example rfc8032_1 : ed25519_verify
  (unhex "d75a980182b10ab7d54bfed3c964073a0ee172f3daa62325af021a68f707511a") ""
  (unhex "e5564300c360ac729086e2cc806e828a84877f1eb8e5d974d873e065224901555fb8821590a33bacc61e39701cf9b46bd25bf5f0595bbe24655141438e7a100b") = true.
Proof. vm_compute. reflexivity. Qed.

(** * Hexadecimal, base64url, DER lengths: what the texts mean

    By tables and positional value, without the functions of Codec.v. *)
From Coq Require Import String Ascii List NArith Arith Bool.
From Verif Require Import Base.
Import ListNotations.
Open Scope string_scope.

(** The digit at position [n] of an alphabet. *)
Definition nth_char (alphabet : string) (n : N) (c : ascii) : Prop :=
  String.get (N.to_nat n) alphabet = Some c.

(** Two lower-case digits per byte, high one first. *)
Inductive hex_text : string -> bytes -> Prop :=
| hex_nil : hex_text "" ""
| hex_cons h l x y b t r :
    nth_char "0123456789abcdef" x h -> nth_char "0123456789abcdef" y l ->
    N_of_ascii b = (16 * x + y)%N -> hex_text t r ->
    hex_text (String h (String l t)) (String b r).

Definition lower_hex (s : string) : Prop :=
  Nat.Even (String.length s) /\
  forall n c, String.get n s = Some c -> exists x, nth_char "0123456789abcdef" x c.

Definition b64_alphabet : string := "ABCDEFGHIJKLMNOPQRSTUVWXYZabcdefghijklmnopqrstuvwxyz0123456789-_".

(** RFC 4648, section 5: three bytes are a number in base 256, four digits the same
    number in base 64; a short last group is filled with zero bits and padded. *)
Inductive b64_text : string -> bytes -> Prop :=
| b64_nil : b64_text "" ""
| b64_one cx cy x y a :
    nth_char b64_alphabet x cx -> nth_char b64_alphabet y cy ->
    (N_of_ascii a * 16 = x * 64 + y)%N ->
    b64_text (String cx (String cy "==")) (String a "")
| b64_two cx cy cz x y z a b :
    nth_char b64_alphabet x cx -> nth_char b64_alphabet y cy -> nth_char b64_alphabet z cz ->
    ((N_of_ascii a * 256 + N_of_ascii b) * 4 = (x * 64 + y) * 64 + z)%N ->
    b64_text (String cx (String cy (String cz "="))) (String a (String b ""))
| b64_three cx cy cz cw x y z w a b c t r :
    nth_char b64_alphabet x cx -> nth_char b64_alphabet y cy -> nth_char b64_alphabet z cz ->
    nth_char b64_alphabet w cw ->
    ((N_of_ascii a * 256 + N_of_ascii b) * 256 + N_of_ascii c = ((x * 64 + y) * 64 + z) * 64 + w)%N ->
    b64_text t r ->
    b64_text (String cx (String cy (String cz (String cw t)))) (String a (String b (String c r))).

(** Big-endian value. *)
Definition be_value (s : bytes) : N :=
  fold_left (fun n c => n * 256 + N_of_ascii c)%N (list_ascii_of_string s) 0%N.

(** X.690, 10.1: the definite length octets, in the fewest possible. *)
Inductive der_length : N -> bytes -> Prop :=
| dl_short n c : (n < 128)%N -> N_of_ascii c = n -> der_length n (String c "")
| dl_long n k c d s : (128 <= n)%N -> N_of_ascii k = (128 + N.of_nat (String.length (String d s)))%N ->
    N_of_ascii d <> 0%N -> be_value (String d s) = n -> c = String k (String d s) ->
    der_length n c.

(** One DER value. *)
Definition der_value (tag : N) (v : bytes) (s : bytes) : Prop :=
  exists t l, N_of_ascii t = tag /\ der_length (N.of_nat (String.length v)) l /\ s = String t (l ++ v).

(** RFC 8410 / RFC 3279: SubjectPublicKeyInfo with the two algorithm identifiers,
    NULL parameters and a bit string without unused bits. *)
Definition octets (l : list N) (s : bytes) : Prop := map N_of_ascii (list_ascii_of_string s) = l.
Definition spki (oid : list N) (key : bytes) (s : bytes) : Prop :=
  exists o o' nul z alg bits inner body,
    octets oid o /\ der_value 6 o o' /\ octets [5; 0]%N nul /\ der_value 48 (o' ++ nul) alg /\
    octets [0]%N z /\ der_value 3 (z ++ key) bits /\ inner = alg ++ bits /\ der_value 48 inner body /\
    s = body.
Definition oid_rsa : list N := [42; 134; 72; 134; 247; 13; 1; 1; 1]%N.
Definition oid_ed25519 : list N := [43; 101; 112]%N.

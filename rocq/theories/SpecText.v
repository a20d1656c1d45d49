(** * Characters and their bytes

    RFC 3629: a character is a number below 0x110000 that is not a surrogate; it is
    written in one to four bytes, the fewest possible. *)
From Coq Require Import String Ascii List NArith.
From Verif Require Import Base SpecCodec.
Import ListNotations.
Open Scope string_scope.

Definition scalar (n : N) : Prop := (n < 55296 \/ 57344 <= n < 1114112)%N.

(** The six bits of a byte after the first. *)
Definition following (c : ascii) (n : N) : Prop := (n < 64 /\ N_of_ascii c = 128 + n)%N.
Inductive utf8_char : N -> bytes -> Prop :=
| u8_one c : (N_of_ascii c < 128)%N -> utf8_char (N_of_ascii c) (String c "")
| u8_two a b x y : (N_of_ascii a = 192 + x /\ x < 32)%N -> following b y ->
    (128 <= x * 64 + y)%N -> utf8_char (x * 64 + y) (String a (String b ""))
| u8_three a b c x y z : (N_of_ascii a = 224 + x /\ x < 16)%N -> following b y -> following c z ->
    (2048 <= (x * 64 + y) * 64 + z)%N -> utf8_char ((x * 64 + y) * 64 + z) (String a (String b (String c "")))
| u8_four a b c d x y z w : (N_of_ascii a = 240 + x /\ x < 8)%N -> following b y -> following c z -> following d w ->
    (65536 <= ((x * 64 + y) * 64 + z) * 64 + w)%N ->
    utf8_char (((x * 64 + y) * 64 + z) * 64 + w) (String a (String b (String c (String d "")))).

Inductive utf8_text : list N -> bytes -> Prop :=
| u8_nil : utf8_text [] ""
| u8_cons n l c s : scalar n -> utf8_char n c -> utf8_text l s -> utf8_text (n :: l) (c ++ s).

(** Several base64 texts behind one another. *)
Inductive b64_texts : string -> bytes -> Prop :=
| b64s_nil : b64_texts "" ""
| b64s_cons t b t' b' : b64_text t b -> b64_texts t' b' -> b64_texts (t ++ t') (b ++ b').

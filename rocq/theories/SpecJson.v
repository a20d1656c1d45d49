(** * What JSON text means: the grammar of RFC 8259, independent of the reader

    [document t j]: the text [t] spells the value [j].  Members are listed in the
    order of the text.  Nothing here uses JsonText.v; the only shared definitions
    are the value type and UTF-8. *)
From Coq Require Import String Ascii List NArith ZArith Bool Permutation Sorted.
From Verif Require Import Base JsonValue Utf8.
Import ListNotations.
Open Scope string_scope.

Definition code (c : ascii) : N := N_of_ascii c.

Inductive white : string -> Prop :=
| white_nil : white ""
| white_cons c w : In (code c) [32; 9; 10; 13]%N -> white w -> white (String c w).

(** ** Strings *)
Definition hexit (c : ascii) (n : N) : Prop :=
  (48 <= code c <= 57 /\ code c = 48 + n)%N \/
  (65 <= code c <= 70 /\ code c = 55 + n)%N \/
  (97 <= code c <= 102 /\ code c = 87 + n)%N.

(** Four hexadecimal digits and their value. *)
Inductive hex4 : string -> N -> Prop :=
| hex4_intro a b c d na nb nc nd :
    hexit a na -> hexit b nb -> hexit c nc -> hexit d nd ->
    hex4 (String a (String b (String c (String d ""))))
         (na * 4096 + nb * 256 + nc * 16 + nd).

Definition surrogate (n : N) : Prop := (55296 <= n <= 57343)%N.
Definition high_surrogate (n : N) : Prop := (55296 <= n <= 56319)%N.
Definition low_surrogate (n : N) : Prop := (56320 <= n <= 57343)%N.

(** The two-character escapes: the letter after the backslash and the code it
    stands for. *)
Definition short_escapes : list (ascii * N) :=
  [ (""""%char, 34%N); ("\"%char, 92%N); ("/"%char, 47%N); ("b"%char, 8%N);
    ("f"%char, 12%N); ("n"%char, 10%N); ("r"%char, 13%N); ("t"%char, 9%N) ].

(** [spelled t b]: between the quotes, the text [t] stands for the bytes [b]. *)
Inductive spelled : string -> bytes -> Prop :=
| sp_nil : spelled "" ""
| sp_plain t b c :
    spelled t b -> (32 <= code c)%N -> code c <> 34%N -> code c <> 92%N ->
    spelled (t ++ String c "") (b ++ String c "")
| sp_short t b e n :
    spelled t b -> In (e, n) short_escapes ->
    spelled (t ++ String "\" (String e "")) (b ++ String (ascii_of_N n) "")
| sp_unicode t b h n :
    spelled t b -> hex4 h n -> ~ surrogate n ->
    spelled (t ++ "\u" ++ h) (b ++ utf8_encode n)
| sp_pair t b h1 n1 h2 n2 :
    spelled t b -> hex4 h1 n1 -> high_surrogate n1 -> hex4 h2 n2 -> low_surrogate n2 ->
    spelled (t ++ "\u" ++ h1 ++ "\u" ++ h2)
            (b ++ utf8_encode (65536 + (n1 - 55296) * 1024 + (n2 - 56320))).

Inductive literal : string -> bytes -> Prop :=
| literal_intro t b : spelled t b -> utf8_valid b = true -> literal ("""" ++ t ++ """") b.

(** ** Numbers *)
Definition digit (c : ascii) (n : N) : Prop := (n <= 9)%N /\ code c = (48 + n)%N.

(** Decimal without leading zeros, and its value. *)
Inductive natural : string -> N -> Prop :=
| natural_digit c d : digit c d -> natural (String c "") d
| natural_more t n c d : natural t n -> n <> 0%N -> digit c d -> natural (t ++ String c "") (10 * n + d).

Inductive digits : string -> Prop :=
| digits_one c d : digit c d -> digits (String c "")
| digits_more t c d : digits t -> digit c d -> digits (t ++ String c "").

Definition minus_opt (s : string) : Prop := s = "" \/ s = "-".
Inductive exponent : string -> Prop :=
| exponent_intro e s d : e = "e"%char \/ e = "E"%char -> s = "" \/ s = "+" \/ s = "-" -> digits d ->
    exponent (String e (s ++ d)).

Inductive number_text : string -> json -> Prop :=
| nt_unsigned t n : natural t n -> (n <= u64_max)%N -> number_text t (JInt (Z.of_N n))
| nt_negative t n : natural t n -> (0 < n <= 9223372036854775808)%N ->
    number_text ("-" ++ t) (JInt (- Z.of_N n))
| nt_big t n : natural t n -> (u64_max < n)%N -> number_text t (JFloat t)
| nt_neg_big t n : natural t n -> n = 0%N \/ (9223372036854775808 < n)%N ->
    number_text ("-" ++ t) (JFloat ("-" ++ t))
| nt_frac s t n f : minus_opt s -> natural t n -> digits f ->
    number_text (s ++ t ++ "." ++ f) (JFloat (s ++ t ++ "." ++ f))
| nt_exp s t n e : minus_opt s -> natural t n -> exponent e ->
    number_text (s ++ t ++ e) (JFloat (s ++ t ++ e))
| nt_frac_exp s t n f e : minus_opt s -> natural t n -> digits f -> exponent e ->
    number_text (s ++ t ++ "." ++ f ++ e) (JFloat (s ++ t ++ "." ++ f ++ e)).

(** ** Values *)
Inductive value_text : string -> json -> Prop :=
| vt_null : value_text "null" JNull
| vt_true : value_text "true" (JBool true)
| vt_false : value_text "false" (JBool false)
| vt_number t j : number_text t j -> value_text t j
| vt_string t s : literal t s -> value_text t (JStr s)
| vt_empty_array w : white w -> value_text ("[" ++ w ++ "]") (JArr [])
| vt_array t l : elements t l -> value_text ("[" ++ t ++ "]") (JArr l)
| vt_empty_object w : white w -> value_text ("{" ++ w ++ "}") (JObj [])
| vt_object t m : members t m -> value_text ("{" ++ t ++ "}") (JObj m)
with elements : string -> list json -> Prop :=
| el_one w1 t w2 j : white w1 -> value_text t j -> white w2 -> elements (w1 ++ t ++ w2) [j]
| el_more w1 t w2 j ts l : white w1 -> value_text t j -> white w2 -> elements ts l ->
    elements (w1 ++ t ++ w2 ++ "," ++ ts) (j :: l)
with members : string -> list (string * json) -> Prop :=
| me_one w0 kt k w1 w2 t w3 j :
    white w0 -> literal kt k -> white w1 -> white w2 -> value_text t j -> white w3 ->
    members (w0 ++ kt ++ w1 ++ ":" ++ w2 ++ t ++ w3) [(k, j)]
| me_more w0 kt k w1 w2 t w3 j ts m :
    white w0 -> literal kt k -> white w1 -> white w2 -> value_text t j -> white w3 ->
    members ts m ->
    members (w0 ++ kt ++ w1 ++ ":" ++ w2 ++ t ++ w3 ++ "," ++ ts) ((k, j) :: m).

Inductive document : string -> json -> Prop :=
| document_intro w1 t w2 j : white w1 -> value_text t j -> white w2 -> document (w1 ++ t ++ w2) j.

(** Nesting of arrays and objects. *)
Fixpoint depth (j : json) : nat :=
  match j with
  | JArr l => S (fold_right (fun x n => Nat.max (depth x) n) 0 l)
  | JObj m => S (fold_right (fun kv n => let '(_, x) := kv in Nat.max (depth x) n) 0 m)
  | _ => 0
  end.

(** ** Values as such *)

(** No object, at any level, has two members of the same name. *)
Inductive unique_names : json -> Prop :=
| un_null : unique_names JNull
| un_bool b : unique_names (JBool b)
| un_int z : unique_names (JInt z)
| un_float l : unique_names (JFloat l)
| un_str s : unique_names (JStr s)
| un_arr l : Forall unique_names l -> unique_names (JArr l)
| un_obj m : Forall (fun kv => unique_names (snd kv)) m -> NoDup (map fst m) -> unique_names (JObj m).

(** The same value: objects are maps, the order of their members is no part of
    the value. *)
Inductive same_value : json -> json -> Prop :=
| sv_null : same_value JNull JNull
| sv_bool b : same_value (JBool b) (JBool b)
| sv_int z : same_value (JInt z) (JInt z)
| sv_float l : same_value (JFloat l) (JFloat l)
| sv_str s : same_value (JStr s) (JStr s)
| sv_arr l l' : Forall2 same_value l l' -> same_value (JArr l) (JArr l')
| sv_obj m m1 m' : Permutation m m1 ->
    Forall2 (fun kv kv' => fst kv = fst kv' /\ same_value (snd kv) (snd kv')) m1 m' ->
    same_value (JObj m) (JObj m').

(** Somewhere in the value there is a number that is not an integer of 64 bits. *)
Inductive has_float : json -> Prop :=
| hf_float l : has_float (JFloat l)
| hf_arr l j : In j l -> has_float j -> has_float (JArr l)
| hf_obj m k j : In (k, j) m -> has_float j -> has_float (JObj m).

(** Values [serde_json::Value] can hold: strings are UTF-8, integers fit in
    64 bits, and nesting is bounded when it came out of a text. *)
Inductive holds_in_value : json -> Prop :=
| hv_null : holds_in_value JNull
| hv_bool b : holds_in_value (JBool b)
| hv_int z : (-9223372036854775808 <= z <= 18446744073709551615)%Z -> holds_in_value (JInt z)
| hv_float l : number_text l (JFloat l) -> holds_in_value (JFloat l)
| hv_str s : utf8_valid s = true -> holds_in_value (JStr s)
| hv_arr l : Forall holds_in_value l -> holds_in_value (JArr l)
| hv_obj m : Forall (fun kv => utf8_valid (fst kv) = true /\ holds_in_value (snd kv)) m ->
    holds_in_value (JObj m).

(** Members sorted by the bytes of their names, strictly, at every level. *)
Inductive in_order : json -> Prop :=
| io_null : in_order JNull
| io_bool b : in_order (JBool b)
| io_int z : in_order (JInt z)
| io_float l : in_order (JFloat l)
| io_str s : in_order (JStr s)
| io_arr l : Forall in_order l -> in_order (JArr l)
| io_obj m : Forall (fun kv => in_order (snd kv)) m ->
    StronglySorted (fun a b => String.compare (fst a) (fst b) = Lt) m -> in_order (JObj m).

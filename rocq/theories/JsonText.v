(** * JSON text: serde_json's reader and writer, and the canonical form of
    src/interchange/cjson/mod.rs 318-430

    The reader belongs to the serde_json crate; it is modelled because everything
    [src/interchange/cjson] does rests on it.  It is an automaton that eats one
    byte at a time, so it needs no fuel: [feed] is structural in the text. *)
From Coq Require Import String Ascii List NArith ZArith Bool.
From Verif Require Import Base JsonValue Utf8 Paths.
Import ListNotations.
Open Scope string_scope.

(** ** Reading *)

(** serde_json's default recursion limit (128): arrays and objects may be nested
    127 deep.  The automaton takes the limit as a parameter [lim].
    serde_json's parser, called in src/interchange/cjson/mod.rs 300-315. *)
Definition max_depth : nat := 127.

(** What is open around the value being read; finished elements and members are
    in reverse order.
    serde_json's parser, called in src/interchange/cjson/mod.rs 300-315. *)
Inductive frame :=
| FArr (done : list json)
| FObj (done : list (string * json)) (key : string).

(** Parts of a number literal.
    serde_json's parser, called in src/interchange/cjson/mod.rs 300-315. *)
Inductive num_phase := NMinus | NZero | NInt | NDot | NFrac | NExp | NExpSign | NExpInt.

(** Inside a string: plain text, after a backslash, inside the four digits of a
    \u escape (with the high surrogate before it, if any), after a high surrogate.
    serde_json's parser, called in src/interchange/cjson/mod.rs 300-315. *)
Inductive esc :=
| EPlain
| EBackslash
| EHex (high : option N) (todo : nat) (acc : N)
| EHigh (high : N)
| EHighBackslash (high : N).

(** A string is read either as a value or as the name of a member.
    serde_json's parser, called in src/interchange/cjson/mod.rs 300-315. *)
Inductive str_ctx := CtxValue | CtxKey (done : list (string * json)).

(** serde_json's parser, called in src/interchange/cjson/mod.rs 300-315. *)
Inductive mode :=
| MValue                                        (* a value must follow *)
| MFirst                                        (* after '[': a value or ']' *)
| MKey (done : list (string * json)) (first : bool)  (* a name must follow; '}' only if first *)
| MColon (done : list (string * json)) (key : string)
| MStr (ctx : str_ctx) (acc : bytes) (e : esc)
| MNum (phase : num_phase) (lit : string)
| MLit (rest : string) (v : json)               (* inside null, true, false *)
| MDone (v : json).                             (* a value is complete *)

(** serde_json's parser, called in src/interchange/cjson/mod.rs 300-315. *)
Inductive state := Run (stack : list frame) (m : mode) | Failed.

(** serde_json's parser, called in src/interchange/cjson/mod.rs 300-315. *)
Definition is_ws (c : ascii) : bool :=
  Ascii.eqb c " " || Ascii.eqb c "010" || Ascii.eqb c "009" || Ascii.eqb c "013".

(** serde_json's parser, called in src/interchange/cjson/mod.rs 300-315. *)
Definition is_digit (c : ascii) : bool :=
  ((48 <=? N_of_ascii c) && (N_of_ascii c <=? 57))%N.

(** Hexadecimal digit of a \u escape, either case.
    serde_json's parser, called in src/interchange/cjson/mod.rs 300-315. *)
Definition hex_val (c : ascii) : option N :=
  let n := N_of_ascii c in
  if ((48 <=? n) && (n <=? 57))%N then Some (n - 48)%N
  else if ((97 <=? n) && (n <=? 102))%N then Some (n - 87)%N
  else if ((65 <=? n) && (n <=? 70))%N then Some (n - 55)%N
  else None.

(** serde_json's parser, called in src/interchange/cjson/mod.rs 300-315. *)
Definition push (acc : string) (c : ascii) : string := acc ++ String c "".

(** serde_json's parser, called in src/interchange/cjson/mod.rs 300-315. *)
Fixpoint digits_value (acc : N) (s : string) : N :=
  match s with
  | EmptyString => acc
  | String c r => digits_value (acc * 10 + (N_of_ascii c - 48))%N r
  end.

(** [Number] of an integer literal: [u64], negative [i64], anything else (also
    "-0") a float.  Simplification: a literal beyond the range of [f64] is an error
    in serde_json; here it is a [JFloat] like any other.
    serde_json's parser, called in src/interchange/cjson/mod.rs 300-315. *)
Definition int_number (lit : string) : json :=
  match lit with
  | String "-" r =>
      let n := digits_value 0 r in
      if (n =? 0)%N || (9223372036854775808 <? n)%N then JFloat lit else JInt (- Z.of_N n)
  | _ =>
      let n := digits_value 0 lit in
      if (n <=? u64_max)%N then JInt (Z.of_N n) else JFloat lit
  end.

(** The value of a number literal that may end here.
    serde_json's parser, called in src/interchange/cjson/mod.rs 300-315. *)
Definition number (p : num_phase) (lit : string) : option json :=
  match p with
  | NZero | NInt => Some (int_number lit)
  | NFrac | NExpInt => Some (JFloat lit)
  | _ => None
  end.

(** One more character of a number literal.
    serde_json's parser, called in src/interchange/cjson/mod.rs 300-315. *)
Definition num_step (p : num_phase) (c : ascii) : option num_phase :=
  let exp := Ascii.eqb c "e" || Ascii.eqb c "E" in
  match p with
  | NMinus => if Ascii.eqb c "0" then Some NZero else if is_digit c then Some NInt else None
  | NZero => if Ascii.eqb c "." then Some NDot else if exp then Some NExp else None
  | NInt => if is_digit c then Some NInt else if Ascii.eqb c "." then Some NDot
            else if exp then Some NExp else None
  | NDot => if is_digit c then Some NFrac else None
  | NFrac => if is_digit c then Some NFrac else if exp then Some NExp else None
  | NExp => if is_digit c then Some NExpInt
            else if Ascii.eqb c "+" || Ascii.eqb c "-" then Some NExpSign else None
  | NExpSign | NExpInt => if is_digit c then Some NExpInt else None
  end.

(** After a complete value.
    serde_json's parser, called in src/interchange/cjson/mod.rs 300-315. *)
Definition step_done (stk : list frame) (v : json) (c : ascii) : state :=
  if is_ws c then Run stk (MDone v)
  else match stk with
  | [] => Failed
  | FArr done :: r =>
      if Ascii.eqb c "," then Run (FArr (v :: done) :: r) MValue
      else if Ascii.eqb c "]" then Run r (MDone (JArr (rev (v :: done))))
      else Failed
  | FObj done k :: r =>
      if Ascii.eqb c "," then Run r (MKey ((k, v) :: done) false)
      else if Ascii.eqb c "}" then Run r (MDone (JObj (rev ((k, v) :: done))))
      else Failed
  end.

(** Where a value must begin ([first]: right after '[').
    serde_json's parser, called in src/interchange/cjson/mod.rs 300-315. *)
Definition step_value (lim : nat) (stk : list frame) (m : mode) (c : ascii) : state :=
  let deeper := Nat.ltb (length stk) lim in
  if is_ws c then Run stk m
  else if Ascii.eqb c """" then Run stk (MStr CtxValue "" EPlain)
  else if Ascii.eqb c "-" then Run stk (MNum NMinus "-")
  else if Ascii.eqb c "0" then Run stk (MNum NZero "0")
  else if is_digit c then Run stk (MNum NInt (String c ""))
  else if Ascii.eqb c "n" then Run stk (MLit "ull" JNull)
  else if Ascii.eqb c "t" then Run stk (MLit "rue" (JBool true))
  else if Ascii.eqb c "f" then Run stk (MLit "alse" (JBool false))
  else if Ascii.eqb c "[" then if deeper then Run (FArr [] :: stk) MFirst else Failed
  else if Ascii.eqb c "{" then if deeper then Run stk (MKey [] true) else Failed
  else Failed.

(** The closing quote: the bytes must be UTF-8.
    serde_json's parser, called in src/interchange/cjson/mod.rs 300-315. *)
Definition end_string (stk : list frame) (ctx : str_ctx) (acc : bytes) : state :=
  if utf8_valid acc then
    match ctx with
    | CtxValue => Run stk (MDone (JStr acc))
    | CtxKey done => Run stk (MColon done acc)
    end
  else Failed.

(** A finished \u escape.
    serde_json's parser, called in src/interchange/cjson/mod.rs 300-315. *)
Definition unicode_escape (stk : list frame) (ctx : str_ctx) (acc : bytes) (high : option N) (n : N)
  : state :=
  match high with
  | None =>
      if ((55296 <=? n) && (n <=? 56319))%N then Run stk (MStr ctx acc (EHigh n))
      else if ((56320 <=? n) && (n <=? 57343))%N then Failed
      else Run stk (MStr ctx (acc ++ utf8_encode n) EPlain)
  | Some h =>
      if ((56320 <=? n) && (n <=? 57343))%N
      then Run stk (MStr ctx (acc ++ utf8_encode (65536 + (h - 55296) * 1024 + (n - 56320))) EPlain)
      else Failed
  end.

(** serde_json's parser, called in src/interchange/cjson/mod.rs 300-315. *)
Definition step_string (stk : list frame) (ctx : str_ctx) (acc : bytes) (e : esc) (c : ascii) : state :=
  match e with
  | EPlain =>
      if Ascii.eqb c """" then end_string stk ctx acc
      else if Ascii.eqb c "\" then Run stk (MStr ctx acc EBackslash)
      else if (N_of_ascii c <? 32)%N then Failed
      else Run stk (MStr ctx (push acc c) EPlain)
  | EBackslash =>
      let put d := Run stk (MStr ctx (push acc d) EPlain) in
      if Ascii.eqb c """" then put """"%char
      else if Ascii.eqb c "\" then put "\"%char
      else if Ascii.eqb c "/" then put "/"%char
      else if Ascii.eqb c "b" then put "008"%char
      else if Ascii.eqb c "f" then put "012"%char
      else if Ascii.eqb c "n" then put "010"%char
      else if Ascii.eqb c "r" then put "013"%char
      else if Ascii.eqb c "t" then put "009"%char
      else if Ascii.eqb c "u" then Run stk (MStr ctx acc (EHex None 4 0))
      else Failed
  | EHex high todo n =>
      match hex_val c with
      | None => Failed
      | Some d =>
          let n := (n * 16 + d)%N in
          match todo with
          | S (S todo') => Run stk (MStr ctx acc (EHex high (S todo') n))
          | _ => unicode_escape stk ctx acc high n
          end
      end
  | EHigh h => if Ascii.eqb c "\" then Run stk (MStr ctx acc (EHighBackslash h)) else Failed
  | EHighBackslash h => if Ascii.eqb c "u" then Run stk (MStr ctx acc (EHex (Some h) 4 0)) else Failed
  end.

(** serde_json's parser, called in src/interchange/cjson/mod.rs 300-315. *)
Definition step (lim : nat) (st : state) (c : ascii) : state :=
  match st with
  | Failed => Failed
  | Run stk m =>
      match m with
      | MValue => step_value lim stk MValue c
      | MFirst =>
          if Ascii.eqb c "]"
          then match stk with FArr _ :: r => Run r (MDone (JArr [])) | _ => Failed end
          else step_value lim stk MFirst c
      | MKey done first =>
          if is_ws c then Run stk m
          else if Ascii.eqb c """" then Run stk (MStr (CtxKey done) "" EPlain)
          else if Ascii.eqb c "}" && first then Run stk (MDone (JObj []))
          else Failed
      | MColon done k =>
          if is_ws c then Run stk m
          else if Ascii.eqb c ":" then Run (FObj done k :: stk) MValue
          else Failed
      | MStr ctx acc e => step_string stk ctx acc e c
      | MNum p lit =>
          match num_step p c with
          | Some p' => Run stk (MNum p' (push lit c))
          | None => match number p lit with Some v => step_done stk v c | None => Failed end
          end
      | MLit rest v =>
          match rest with
          | String d rest' =>
              if Ascii.eqb c d
              then Run stk (match rest' with EmptyString => MDone v | _ => MLit rest' v end)
              else Failed
          | EmptyString => Failed
          end
      | MDone v => step_done stk v c
      end
  end.

(** serde_json's parser, called in src/interchange/cjson/mod.rs 300-315. *)
Fixpoint feed (lim : nat) (st : state) (s : string) : state :=
  match s with EmptyString => st | String c r => feed lim (step lim st c) r end.

(** serde_json's parser, called in src/interchange/cjson/mod.rs 300-315. *)
Definition finish (st : state) : result json :=
  match st with
  | Run [] (MDone v) => Ok v
  | Run [] (MNum p lit) => match number p lit with Some v => Ok v | None => Err Encoding end
  | _ => Err Encoding
  end.

(** serde_json's reading of one document, used by [serde_json::from_slice]
    (src/interchange/cjson/mod.rs 310-315).  The result is the syntax tree: members
    in the order of the text, repeated names kept; what a visitor makes of it is
    [to_value] and Shims.v.  Simplification: serde_json skips the value of an
    unknown field with a laxer scanner (no UTF-8 and surrogate checks, deeper
    nesting); here it is read like any other value. *)
Definition parse (s : bytes) : result json := finish (feed max_depth (Run [] MValue) s).

(** ** Values *)

(** [BTreeMap<String, V>]: association lists with strictly increasing keys;
    [String::cmp] compares the bytes.
    As in src/interchange/cjson/mod.rs 421-427. *)
Fixpoint bt_insert {V} (k : string) (v : V) (m : list (string * V)) : list (string * V) :=
  match m with
  | [] => [(k, v)]
  | (k', v') :: r =>
      match String.compare k k' with
      | Lt => (k, v) :: m
      | Eq => (k, v) :: r
      | Gt => (k', v') :: bt_insert k v r
      end
  end.
(** [BTreeMap::from_iter], as in src/interchange/cjson/mod.rs 421-427. *)
Definition btree {V} (l : list (string * V)) : list (string * V) :=
  fold_left (fun m kv => bt_insert (fst kv) (snd kv) m) l [].

(** [impl Deserialize for serde_json::Value]: the last member of a name wins, names
    are sorted ([serde_json::Map] is a [BTreeMap]).
    Called in src/interchange/cjson/mod.rs 310-315. *)
Fixpoint to_value (j : json) : json :=
  match j with
  | JArr l => JArr (map to_value l)
  | JObj m => JObj (btree (map (fun kv => let '(k, v) := kv in (k, to_value v)) m))
  | _ => j
  end.

(** src/interchange/cjson/mod.rs 310-315 [Json::from_slice::<serde_json::Value>]. *)
Definition value_from_slice (s : bytes) : result json := let? j := parse s in Ok (to_value j).

(** ** Writing *)

(** [?] in the loops of src/interchange/cjson/mod.rs 404-430. *)
Definition map_result {A B} (f : A -> result B) : list A -> result (list B) :=
  fix go l :=
    match l with
    | [] => Ok []
    | a :: r => let? b := f a in let? bs := go r in Ok (b :: bs)
    end.

(** src/interchange/cjson/mod.rs 404-430 [convert]: the same value again, or an
    error if it contains a float; the [BTreeMap] is rebuilt.  The error is the
    [Error::Opaque] of line 208. *)
Fixpoint convert (j : json) : result json :=
  match j with
  | JFloat _ => Err Opaque
  | JArr l => let? l' := map_result convert l in Ok (JArr l')
  | JObj m =>
      let? m' := map_result (fun kv => let '(k, v) := kv in let? v' := convert v in Ok (k, v')) m in
      Ok (JObj (btree m'))
  | _ => Ok j
  end.

(** serde_json's escaping of one byte of a string ([format_escaped_str]).
    Called in src/interchange/cjson/mod.rs 358 and 386. *)
Definition escape (c : ascii) : string :=
  let n := N_of_ascii c in
  if Ascii.eqb c """" then "\"""
  else if Ascii.eqb c "\" then "\\"
  else if (n =? 8)%N then "\b"
  else if (n =? 9)%N then "\t"
  else if (n =? 10)%N then "\n"
  else if (n =? 12)%N then "\f"
  else if (n =? 13)%N then "\r"
  else if (n <? 32)%N then "\u00" ++ String (hex_digit (n / 16)) (String (hex_digit (n mod 16)) "")
  else String c "".
(** serde_json's [format_escaped_str_contents], called in src/interchange/cjson/mod.rs 358 and 386. *)
Fixpoint escape_str (s : bytes) : string :=
  match s with EmptyString => "" | String c r => escape c ++ escape_str r end.
(** serde_json's [Value::String(..).to_string()], called in src/interchange/cjson/mod.rs 358 and 386. *)
Definition quote (s : bytes) : string := """" ++ escape_str s ++ """".

(** [itoa::write].
    Called in src/interchange/cjson/mod.rs 349-354. *)
Definition decimal_z (z : Z) : string :=
  if (z <? 0)%Z then "-" ++ decimal (Z.to_N (- z)) else decimal (Z.to_N z).

(** The commas of src/interchange/cjson/mod.rs 362-394. *)
Fixpoint join_comma (l : list string) : string :=
  match l with
  | [] => ""
  | [s] => s
  | s :: r => s ++ "," ++ join_comma r
  end.

(** src/interchange/cjson/mod.rs 334-397 [Value::write].  ([convert] has removed the
    floats; [JFloat] keeps its literal here, as the pretty
    printer below does; serde_json would print the shortest decimal of the [f64].) *)
Fixpoint write (j : json) : string :=
  match j with
  | JNull => "null"
  | JBool true => "true"
  | JBool false => "false"
  | JInt z => decimal_z z
  | JFloat lit => lit
  | JStr s => quote s
  | JArr l => "[" ++ join_comma (map write l) ++ "]"
  | JObj m =>
      "{" ++ join_comma (map (fun kv => let '(k, v) := kv in quote k ++ ":" ++ write v) m) ++ "}"
  end.

(** src/interchange/cjson/mod.rs 318-323 [canonicalize] and 207-209
    [Json::canonicalize]. *)
Definition canonicalize (j : json) : result bytes := let? j' := convert j in Ok (write j').

(** serde_json's pretty printer ([PrettyFormatter], two spaces), used by
    src/interchange/cjson/pretty.rs 120-129 [JsonPretty::to_writer]. *)
Fixpoint spaces (n : nat) : string := match n with O => "" | S n => "  " ++ spaces n end.
(** serde_json's [PrettyFormatter], used in src/interchange/cjson/pretty.rs 120-129. *)
Definition newline : string := String "010" "".
(** serde_json's [PrettyFormatter], used in src/interchange/cjson/pretty.rs 120-129. *)
Fixpoint join_comma_nl (ind : string) (l : list string) : string :=
  match l with
  | [] => ""
  | [s] => s
  | s :: r => s ++ "," ++ newline ++ ind ++ join_comma_nl ind r
  end.
(** serde_json's [to_writer_pretty], called in src/interchange/cjson/pretty.rs 120-129. *)
Fixpoint pretty (depth : nat) (j : json) : string :=
  match j with
  | JArr [] => "[]"
  | JObj [] => "{}"
  | JArr l =>
      "[" ++ newline ++ spaces (S depth)
          ++ join_comma_nl (spaces (S depth)) (map (pretty (S depth)) l)
          ++ newline ++ spaces depth ++ "]"
  | JObj m =>
      "{" ++ newline ++ spaces (S depth)
          ++ join_comma_nl (spaces (S depth))
               (map (fun kv => let '(k, v) := kv in quote k ++ ": " ++ pretty (S depth) v) m)
          ++ newline ++ spaces depth ++ "}"
  | _ => write j
  end.

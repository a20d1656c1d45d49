(** * Paths: src/metadata.rs 21-146, 179-223, 886-962, 1371-1524 *)
From Coq Require Import String Ascii List NArith Bool.
From Verif Require Import Base Metadata.
Import ListNotations.
Open Scope string_scope.

(** Rust's [str::split('/')]: always at least one piece.
    As in src/metadata.rs 124, 944 and 1505. *)
Fixpoint split_slash (s : string) : list string :=
  match s with
  | EmptyString => [""]
  | String c r =>
      if Ascii.eqb c "/"%char then "" :: split_slash r
      else match split_slash r with
           | [] => [String c ""]      (* cannot happen *)
           | p :: ps => String c p :: ps
           end
  end.

(** Rust's [[String]::join("/")].
    As in src/metadata.rs 1514-1523 and src/repository/http.rs 181. *)
Fixpoint join_slash (l : list string) : string :=
  match l with
  | [] => ""
  | [s] => s
  | s :: r => s ++ "/" ++ join_slash r
  end.

(** Rust's [str::contains] for a one-character pattern.
    As in src/metadata.rs 116. *)
Fixpoint contains_char (c : ascii) (s : string) : bool :=
  match s with EmptyString => false | String d r => Ascii.eqb c d || contains_char c r end.

(** Rust's [str::starts_with].
    As in src/metadata.rs 111. *)
Definition starts_with (p s : string) : bool := String.prefix p s.

(** Rust's [str::ends_with('/')].
    As in src/metadata.rs 1423. *)
Fixpoint ends_with_slash (s : string) : bool :=
  match s with
  | EmptyString => false
  | String c EmptyString => Ascii.eqb c "/"%char
  | String _ r => ends_with_slash r
  end.

(** src/metadata.rs 22-26 [PATH_ILLEGAL_COMPONENTS]. *)
Definition path_illegal_components : list string := ["."; ".."].

(** src/metadata.rs 29-58 [PATH_ILLEGAL_COMPONENTS_CASE_INSENSITIVE]. *)
Definition path_illegal_components_case_insensitive : list string :=
  ["CON"; "PRN"; "AUX"; "NUL"; "COM1"; "COM2"; "COM3"; "COM4"; "COM5"; "COM6"; "COM7"; "COM8";
   "COM9"; "LPT1"; "LPT2"; "LPT3"; "LPT4"; "LPT5"; "LPT6"; "LPT7"; "LPT8"; "LPT9"; "KEYBD$";
   "CLOCK$"; "SCREEN$"; "$IDLE$"; "CONFIG$"].

(** src/metadata.rs 61-104 [PATH_ILLEGAL_STRINGS]; every entry is one ASCII
    character, given here by its code. *)
Definition path_illegal_chars : list ascii :=
  map ascii_of_N
    [58; 92; 60; 62; 34; 124; 63; 42;
     0; 1; 2; 3; 4; 5; 6; 7; 8; 9; 10; 11; 12; 13; 14; 15;
     16; 17; 18; 19; 20; 21; 22; 23; 24; 25; 26; 27; 28; 29; 30; 31; 127]%N.

(** Rust's [str::to_lowercase] on ASCII; bytes of non-ASCII characters are kept
    (simplification: full Unicode lower-casing never produces an upper-case ASCII
    letter either, which is all that matters for the comparison below).
    As in src/metadata.rs 134. *)
Definition lower_char (c : ascii) : ascii :=
  let n := N_of_ascii c in
  if (65 <=? n)%N && (n <=? 90)%N then ascii_of_N (n + 32) else c.
(** [str::to_lowercase], as in src/metadata.rs 134. *)
Fixpoint to_lowercase (s : string) : string :=
  match s with EmptyString => "" | String c r => String (lower_char c) (to_lowercase r) end.

(** src/metadata.rs 106-146 [safe_path]. *)
Definition safe_path (path : string) : result unit :=
  if String.eqb path "" then Err IllegalArgument
  else if starts_with "/" path then Err IllegalArgument
  else if existsb (fun c => contains_char c path) path_illegal_chars then Err IllegalArgument
  else if existsb (fun component =>
            existsb (fun bad => String.eqb component bad) path_illegal_components
            || existsb (fun bad => String.eqb (to_lowercase component) bad)
                       path_illegal_components_case_insensitive)
            (split_slash path)
       then Err IllegalArgument
  else Ok tt.

(** src/metadata.rs 903-907 [MetadataPath::new], 1387-1390
    [VirtualTargetPath::new], 1491-1494 [TargetPath::new]: the path itself. *)
Definition path_new (path : string) : result string := let? _ := safe_path path in Ok path.

(** src/metadata.rs 922-924 [MetadataPath::from_role] (its [unwrap] succeeds, see
    [from_role_ok] in PathProofs.v). *)
Definition from_role (r : role) : string := role_name r.

(** Decimal printing of [u32] as done by Rust's [format!("{}", x)].
    As in src/metadata.rs 221. *)
Fixpoint decimal_aux (fuel : nat) (n : N) (acc : string) : string :=
  match fuel with
  | O => acc
  | S f =>
      let acc := String (ascii_of_N (48 + n mod 10)) acc in
      if (n / 10 =? 0)%N then acc else decimal_aux f (n / 10) acc
  end.
(** [format!("{}", x)], as in src/metadata.rs 221. *)
Definition decimal (n : N) : string := decimal_aux (S (N.to_nat (N.log2 n))) n "".

(** src/metadata.rs 218-223 [MetadataVersion::prefix]. *)
Definition version_prefix (v : meta_version) : string :=
  match v with VNone => "" | VNumber x => decimal x ++ "." end.

(** Replace the last element of a (non-empty) list: [buf[len - 1] = ...].
    As in src/metadata.rs 940-948 and 1514-1523. *)
Definition map_last (f : string -> string) (l : list string) : list string :=
  match rev l with
  | [] => []
  | x :: r => rev (f x :: r)
  end.

(** src/metadata.rs 940-948 [MetadataPath::components]. *)
Definition metadata_components (ext : string) (path : string) (v : meta_version) : list string :=
  map_last (fun last => version_prefix v ++ last ++ "." ++ ext) (split_slash path).

(** src/metadata.rs 1400-1402 and 1504-1506 [components]. *)
Definition target_components (path : string) : list string := split_slash path.

(** Lower-case hexadecimal: src/format_hex.rs, data_encoding's [HEXLOWER]. *)
Definition hex_digit (n : N) : ascii :=
  ascii_of_N (if (n <? 10)%N then 48 + n else 87 + n).
(** [HEXLOWER.encode], as in src/crypto.rs 166 and 887-891. *)
Fixpoint hex_encode (s : bytes) : string :=
  match s with
  | EmptyString => ""
  | String c r =>
      let n := N_of_ascii c in
      String (hex_digit (n / 16)) (String (hex_digit (n mod 16)) (hex_encode r))
  end.

(** src/metadata.rs 1514-1523 [TargetPath::with_hash_prefix]; [HashValue] prints
    as lower-case hex, src/crypto.rs 887-891. *)
Definition with_hash_prefix (path : string) (hash : bytes) : result string :=
  path_new (join_slash (map_last (fun file_name => hex_encode hash ++ "." ++ file_name)
                                 (target_components path))).

(** src/metadata.rs 1422-1428 [VirtualTargetPath::is_child]. *)
Definition is_child (path parent : string) : bool :=
  if negb (ends_with_slash parent) then false else starts_with parent path.

(** src/metadata.rs 1435-1458 [VirtualTargetPath::matches_chain]; the recursion
    shortens the list of groups by one each time, [n] is its length. *)
Fixpoint matches_chain_aux (n : nat) (path : string) (parents : list (list string)) : bool :=
  match parents with
  | [] => false
  | [g] => existsb (fun p => String.eqb p path || is_child path p) g
  | g :: rest =>
      match n with
      | O => false
      | S n =>
          matches_chain_aux n path
            (map (filter (fun parent => existsb (fun p => is_child parent p || String.eqb parent p) g)) rest)
      end
  end.
(** src/metadata.rs 1435-1458 [matches_chain]. *)
Definition matches_chain (path : string) (parents : list (list string)) : bool :=
  matches_chain_aux (length parents) path parents.

(** src/metadata.rs 179-188 [Role::fuzzy_matches_path]. *)
Definition fuzzy_matches_path (r : role) (path : string) : bool :=
  match r with
  | Root => String.eqb path "root"
  | Snapshot => String.eqb path "snapshot"
  | Timestamp => String.eqb path "timestamp"
  | Targets => String.eqb path "targets" || negb (mem path ["root"; "snapshot"; "targets"])
  end.

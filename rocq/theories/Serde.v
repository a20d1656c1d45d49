(** * How serde reads Rust types out of JSON

    The code serde_derive generates for the structs and enums of the library and the
    impls of serde for the standard types, over a parsed JSON tree.  The two
    deserializers of serde_json (over text, [from_slice], and over a [Value],
    [from_value]) treat a tree alike, except that a [Value] has no repeated member
    names any more; so one function serves both.  Every failure is serde_json's
    [Error], i.e. [Error::Encoding] (src/error.rs 83-87), hence [option]. *)
From Coq Require Import String List NArith ZArith Bool.
From Verif Require Import Base JsonValue JsonText.
Import ListNotations.
Open Scope string_scope.

(** An implementation of [Deserialize], as derived in src/interchange/cjson/shims.rs 30-497. *)
Definition decoder (A : Type) := json -> option A.

(** [?] in code derived in src/interchange/cjson/shims.rs 30-497. *)
Definition obind {A B} (x : option A) (f : A -> option B) : option B :=
  match x with Some a => f a | None => None end.
Notation "'have' x ':=' e 'in' k" := (obind e (fun x => k))
  (at level 200, x pattern, e at level 100, k at level 200, right associativity).

(** [String]
    As in the structs of src/interchange/cjson/shims.rs 30-497. *)
Definition d_str : decoder string :=
  fun j => match j with JStr s => Some s | _ => None end.

(** [bool]
    As in the structs of src/interchange/cjson/shims.rs 30-497. *)
Definition d_bool : decoder bool :=
  fun j => match j with JBool b => Some b | _ => None end.

(** [u32], [u64], [usize] (64 bits): only integers, only in range.
    As in the structs of src/interchange/cjson/shims.rs 30-497. *)
Definition d_uint (max : N) : decoder N :=
  fun j => match j with
  | JInt z => if (Z.leb 0 z && Z.leb z (Z.of_N max))%bool then Some (Z.to_N z) else None
  | _ => None
  end.

(** [Option<T>]: null is [None].
    As in the structs of src/interchange/cjson/shims.rs 30-497. *)
Definition d_opt {A} (d : decoder A) : decoder (option A) :=
  fun j => match j with JNull => Some None | _ => have a := d j in Some (Some a) end.

(** Collecting [Option]s, for [Vec<T>], src/interchange/cjson/shims.rs 30-497. *)
Fixpoint all_some {A B} (f : A -> option B) (l : list A) : option (list B) :=
  match l with
  | [] => Some []
  | a :: r => have b := f a in have rest := all_some f r in Some (b :: rest)
  end.

(** [Vec<T>]
    As in the structs of src/interchange/cjson/shims.rs 30-497. *)
Definition d_vec {A} (d : decoder A) : decoder (list A) :=
  fun j => match j with JArr l => all_some d l | _ => None end.

(** The entries of a map, in the order of the text.  [k] reads a member name.
    As in the structs of src/interchange/cjson/shims.rs 30-497. *)
Definition d_entries {K A} (k : string -> option K) (d : decoder A) : decoder (list (K * A)) :=
  fun j => match j with
  | JObj m => all_some (fun nv => have n := k (fst nv) in have v := d (snd nv) in Some (n, v)) m
  | _ => None
  end.

(** [BTreeMap<K, V>] with [K] a string type: a later entry replaces an earlier one.
    The library turns these into [HashMap]s; the model keeps them in key order.
    As in the structs of src/interchange/cjson/shims.rs 30-497. *)
Definition d_map {A} (k : string -> option string) (d : decoder A) : decoder (list (string * A)) :=
  fun j => have es := d_entries k d j in Some (btree es).

(** The check of src/interchange/cjson/shims.rs 500-546, and derived code's "duplicate field". *)
Fixpoint no_repeats {A} `{EqDec A} (l : list A) : bool :=
  match l with [] => true | x :: r => negb (mem x r) && no_repeats r end.

(** src/interchange/cjson/shims.rs 499-546 [deserialize_reject_duplicates]. *)
Definition d_map_unique {A} (k : string -> option string) (d : decoder A) : decoder (list (string * A)) :=
  fun j => have es := d_entries k d j in
           if no_repeats (map fst es) then Some (btree es) else None.

(** The fields of a derived struct, in declaration order: from an object, where a
    known name may not be repeated and unknown names are ignored (or, with
    [deny_unknown_fields], refused); or from an array with one element per field
    ([optional] last ones, those with [serde(default)], may be missing).
    As in the structs of src/interchange/cjson/shims.rs 30-497. *)
Definition d_fields (names : list string) (deny : bool) (optional : nat) : decoder (list (option json)) :=
  fun j => match j with
  | JObj m =>
      if forallb (fun n => Nat.leb (length (filter (String.eqb n) (map fst m))) 1) names
         && (negb deny || forallb (fun n => mem n names) (map fst m))
      then Some (map (fun n => lookup n m) names)
      else None
  | JArr l =>
      if Nat.leb (length l) (length names) && Nat.leb (length names) (length l + optional)
      then Some (map Some l ++ repeat None (length names - length l))%list
      else None
  | _ => None
  end.

(** A field that must be present.
    As in the structs of src/interchange/cjson/shims.rs 30-497. *)
Definition d_required {A} (d : decoder A) (f : option json) : option A := have j := f in d j.

(** A field of type [Option<T>]: may be missing.
    As in the structs of src/interchange/cjson/shims.rs 30-497. *)
Definition d_optional {A} (d : decoder A) (f : option json) : option (option A) :=
  match f with None => Some None | Some j => d_opt d j end.

(** A derived enum: the name of a variant without data (or an object with that one
    name and null), or an object with the name of a variant and its data.  [unit]
    and [data] give the variants.
    As in src/metadata.rs 148 and src/crypto.rs 209, 836. *)
Definition d_enum {A} (unit : string -> option A) (data : string -> option (decoder A)) : decoder A :=
  fun j => match j with
  | JStr s => unit s
  | JObj [(n, JNull)] =>
      match unit n with
      | Some a => Some a
      | None => have d := data n in d JNull
      end
  | JObj [(n, v)] => have d := data n in d v
  | _ => None
  end.

(** Optional members of a derived [Serialize] with [skip_serializing_if].
    As in src/interchange/cjson/shims.rs 280 and 455. *)
Definition opt_member {A} (n : string) (e : A -> json) (o : option A) : list (string * json) :=
  match o with Some a => [(n, e a)] | None => [] end.

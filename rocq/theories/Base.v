(** * Basic data types of the model

    No code of the library is modelled here except [role] and [error]; the rest
    is the vocabulary (maps, results) the other files use. *)

From Coq Require Import String Ascii List NArith ZArith Bool.
Import ListNotations.
Open Scope string_scope.
Open Scope list_scope.

(** Byte strings.  Rust's [String] and [Vec<u8>] both become Coq [string]s, i.e.
    sequences of 8-bit characters; a Rust [String] is its UTF-8 encoding. *)
Notation bytes := string (only parsing).

(** src/metadata.rs 148-163 [enum Role]. *)
Inductive role := Root | Snapshot | Targets | Timestamp.

(** src/metadata.rs 191-198 [Role::name]. *)
Definition role_name (r : role) : string :=
  match r with
  | Root => "root" | Snapshot => "snapshot" | Targets => "targets" | Timestamp => "timestamp"
  end.

(** src/error.rs [enum Error]; the message strings some variants carry are
    dropped, the roles and status codes are kept. *)
Inductive error :=
| BadSignature
| Encoding
| ExpiredMetadata (r : role)
| IllegalArgument
| HttpError
| BadHttpStatus (code : N)
| HyperError
| MissingMetadata (r : role)
| NoSupportedHashAlgorithm
| NotFound
| Opaque
| Programming
| TargetUnavailable
| UnknownKeyType
| VerificationFailure.

(** src/lib.rs [type Result<T> = std::result::Result<T, Error>]. *)
Inductive result (A : Type) :=
| Ok (a : A)
| Err (e : error).
Arguments Ok {A} a.
Arguments Err {A} e.

(** The [?] operator, as in src/tuf.rs 763-765. *)
Definition rbind {A B} (r : result A) (f : A -> result B) : result B :=
  match r with Ok a => f a | Err e => Err e end.
Notation "'let?' x ':=' r 'in' k" := (rbind r (fun x => k))
  (at level 200, x pattern, r at level 100, k at level 200, right associativity).

(** Whether a call succeeded; for histories of calls of src/tuf.rs 155-760. *)
Definition is_ok {A} (r : result A) : bool :=
  match r with Ok _ => true | Err _ => false end.

(** Decidable equality on the types used as map keys.
    The derived [Eq] of keys, src/crypto.rs 176, 836 and src/metadata.rs 149, 208. *)
Class EqDec (A : Type) := { eqb : A -> A -> bool; eqb_eq : forall x y, eqb x y = true <-> x = y }.

#[export] Instance EqDec_string : EqDec string := {| eqb := String.eqb; eqb_eq := String.eqb_eq |}.
#[export] Instance EqDec_N : EqDec N := {| eqb := N.eqb; eqb_eq := N.eqb_eq |}.

(** Finite maps ([HashMap], [BTreeMap]): association lists.  [insert] replaces,
    like the Rust method.  The list order stands for the iteration order, which
    no theorem relies on unless it says so. *)
Section Maps.
  Context {K V : Type} `{EqDec K}.

  (** [HashMap::get], as in src/crypto.rs 69. *)
  Fixpoint lookup (k : K) (m : list (K * V)) : option V :=
    match m with
    | [] => None
    | (k', v) :: r => if eqb k k' then Some v else lookup k r
    end.

  (** [HashMap::remove], as in src/tuf.rs 510. *)
  Definition remove (k : K) (m : list (K * V)) : list (K * V) :=
    filter (fun kv => negb (eqb k (fst kv))) m.

  (** [HashMap::insert], as in src/metadata.rs 1265 and 1806. *)
  Definition insert (k : K) (v : V) (m : list (K * V)) : list (K * V) :=
    (k, v) :: remove k m.

  (** [iter().collect::<HashMap<_,_>>()]: inserts one by one, so the last entry
      for a key wins.
      As in src/verify.rs 82-85 and 110-113. *)
  Definition collect (l : list (K * V)) : list (K * V) :=
    fold_left (fun m kv => insert (fst kv) (snd kv) m) l [].

  (** The keys of the entries, as in src/tuf.rs 494. *)
  Definition keys_of (m : list (K * V)) : list K := map fst m.
End Maps.

(** [HashSet::contains] and [slice::contains], as in src/metadata.rs 716 and src/tuf.rs 781. *)
Fixpoint mem {A} `{EqDec A} (x : A) (l : list A) : bool :=
  match l with [] => false | y :: r => eqb x y || mem x r end.

(** [iter().collect::<HashSet<_>>()].
    As in src/metadata.rs 451-455. *)
Fixpoint dedup {A} `{EqDec A} (l : list A) : list A :=
  match l with [] => [] | x :: r => if mem x r then dedup r else x :: dedup r end.

(** [Option::unwrap_or], as in src/repository.rs 273 and src/tuf.rs 126-152. *)
Definition option_get {A} (d : A) (o : option A) : A :=
  match o with Some a => a | None => d end.

(** [u32::max_value()] and [u64::max_value()].
    The largest version, for the additions of src/tuf.rs 155-245 and src/client.rs 428-560. *)
Definition u32_max : N := 4294967295%N.
(** [u64::max_value()], [usize::max_value()] on 64 bits, as in src/repository.rs 273. *)
Definition u64_max : N := 18446744073709551615%N.

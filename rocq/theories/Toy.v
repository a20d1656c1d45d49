(** * A small concrete environment for the examples

    Documents are looked up by name in a table; the canonical bytes of a document
    are its name, a signature is the signer's name in front of them.  The general
    theorems quantify over all environments; this one only serves to show that
    their hypotheses can be met and to exhibit counterexamples, none of which
    depends on the details of the encoding. *)
From Coq Require Import String List NArith ZArith Bool.
From Verif Require Import Base Metadata Verify Paths Tuf.
Import ListNotations.
Open Scope string_scope.
Open Scope list_scope.

Inductive toydoc :=
| DRoot (m : root_metadata) | DSnapshot (m : snapshot_metadata)
| DTargets (m : targets_metadata) | DTimestamp (m : timestamp_metadata).

Definition toydb := list (string * (list string * toydoc)).

Definition toy_decode (r : role) (d : toydoc) : result (metadata_of r) :=
  match r, d return result (metadata_of r) with
  | Root, DRoot m => Ok m
  | Snapshot, DSnapshot m => Ok m
  | Targets, DTargets m => Ok m
  | Timestamp, DTimestamp m => Ok m
  | _, _ => Err Encoding
  end.

Definition toy_key (name : string) : public_key := mkKey KtEd25519 name Ed25519 None name.
Definition toy_sign (name msg : string) : signature := mkSig name (name ++ "!" ++ msg)%string.

Definition toy_crypto : crypto :=
  mkCrypto (fun _ key msg sig => String.eqb sig (key ++ "!" ++ msg)%string)
           (fun a b => match a with Sha256 => "2" ++ b | _ => "5" ++ b end)%string.

Definition id_order : hash_order := mkOrder (fun l => l) (fun l => Permutation.Permutation_refl l).
Definition rev_order : hash_order := mkOrder (fun l => rev l) (fun l => Permutation.Permutation_rev l).

Definition toy_ic (db : toydb) : interchange :=
  mkInterchange string
    (fun raw => match lookup raw db with
                | Some (signers, _) => Ok (map (fun s => toy_sign s raw) signers, raw)
                | None => Err Encoding end)
    (fun raw => Ok raw)
    (fun r raw => match lookup raw db with Some (_, d) => toy_decode r d | None => Err Encoding end)
    (fun r raw => match lookup raw db with Some (_, d) => toy_decode r d | None => Err Encoding end)
    "json".

Definition toy_env (db : toydb) : env := mkEnv toy_crypto id_order (toy_ic db).

(** All clock readings at the same instant. *)
Definition now (n : Z) : clock := mkClock n n n n n (fun _ => n).

(** ** A repository *)

Definition keys_of_names (l : list string) : list (string * public_key) :=
  map (fun n => (n, toy_key n)) l.

Definition rd (t : N) (l : list string) : role_def := mkRoleDef t l.

(** Root keys kr1, kr2 (threshold 2), and one key for each other role. *)
Definition root1 : root_metadata :=
  mkRoot 1 1000 false (keys_of_names ["kr1"; "kr2"; "ks"; "kg"; "kt"])
         (rd 2 ["kr1"; "kr2"]) (rd 1 ["ks"]) (rd 1 ["kg"]) (rd 1 ["kt"]).
(** The next root replaces kr1 by kr3. *)
Definition root2 : root_metadata :=
  mkRoot 2 1000 false (keys_of_names ["kr2"; "kr3"; "ks"; "kg"; "kt"])
         (rd 2 ["kr2"; "kr3"]) (rd 1 ["ks"]) (rd 1 ["kg"]) (rd 1 ["kt"]).

Definition desc (v : N) : meta_desc := mkMetaDesc v 10 [(Sha256, "h")].
Definition tdesc (n : N) : target_desc := mkTargetDesc n [(Sha256, "t")] None.

Definition deleg (r : string) (term : bool) (ks paths : list string) : delegation :=
  mkDelegation r term 1 ks paths.

Definition targets1 : targets_metadata :=
  mkTargets 1 500 [("top", tdesc 1)]
    (Some (mkDelegations (keys_of_names ["kd"]) [deleg "alice" false ["kd"] ["a/"]])).
(** Version 2 hands the delegation over to another key. *)
Definition targets2 : targets_metadata :=
  mkTargets 2 500 [("top", tdesc 2)]
    (Some (mkDelegations (keys_of_names ["ke"]) [deleg "alice" false ["ke"] ["a/"]])).
Definition alice1 : targets_metadata :=
  mkTargets 1 400 [("a/x", tdesc 3); ("b/y", tdesc 4)] None.

Definition repo : toydb :=
  [ ("root1", (["kr1"; "kr2"], DRoot root1));
    ("root2", (["kr1"; "kr2"; "kr3"], DRoot root2));
    ("root2-unsigned", (["kr2"; "kr3"], DRoot root2));
    ("ts1", (["kt"], DTimestamp (mkTimestamp 1 300 (desc 1))));
    ("ts2", (["kt"], DTimestamp (mkTimestamp 2 300 (desc 2))));
    ("ts3-back", (["kt"], DTimestamp (mkTimestamp 3 300 (desc 1))));
    ("ts4-expired", (["kt"], DTimestamp (mkTimestamp 4 10 (desc 9))));
    ("ts5", (["kt"], DTimestamp (mkTimestamp 5 300 (desc 3))));
    ("snap1", (["ks"], DSnapshot (mkSnapshot 1 600 [("targets", desc 1); ("alice", desc 1)])));
    ("snap2", (["ks"], DSnapshot (mkSnapshot 2 600 [("targets", desc 2); ("alice", desc 1)])));
    ("snap3", (["ks"], DSnapshot (mkSnapshot 3 600 [("targets", desc 1)])));
    ("targets1", (["kg"], DTargets targets1));
    ("targets2", (["kg"], DTargets targets2));
    ("targets2-expired", (["kg"], DTargets (mkTargets 2 10 [] None)));
    ("alice1", (["kd"], DTargets alice1)) ].

Definition E0 : env := toy_env repo.

Definition t0 : tuf := tuf_of_root root1.
Definition c50 : clock := now 50.

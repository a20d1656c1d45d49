(** * A small repository in real JSON, for the examples *)
From Coq Require Import String Ascii List NArith ZArith Bool.
From Verif Require Import Base JsonValue JsonText Metadata Codec Dates Serde Keys Shims KeyToy Toy.
Import ListNotations.
Open Scope string_scope.
Open Scope N_scope.

Definition day (s : string) : Z := match parse_datetime s with Ok z => z | Err _ => 0%Z end.
Definition new_year : Z := day "2030-01-01T00:00:00Z".

Definition key_r := ed_key "R". Definition key_t := ed_key "T". Definition key_s := ed_key "S".
Definition key_g := ed_key "G". Definition key_d := ed_key "D".

Definition key_table (l : list public_key) : list (string * public_key) := btree (map (fun k => (pk_id k, k)) l).
Definition ids (l : list public_key) : list string := map pk_id l.

(** The file for a document with signatures of [keys]. *)
Definition publish (keys : list public_key) (j : json) : bytes :=
  match canonicalize j with
  | Ok msg => write (e_signed (map (fun k => sign_with k msg) keys) j)
  | Err _ => ""
  end.
Definition tree (o : option json) : json := match o with Some j => j | None => JNull end.
Definition publish_metadata (r : role) (keys : list public_key) (m : metadata_of r) : bytes :=
  publish keys (tree (e_metadata r m)).

Definition json_env : env := mkEnv checksums id_order (json_interchange checksums).

Definition jroot : root_metadata :=
  mkRoot 1 new_year false (key_table [key_r; key_s; key_g; key_t])
    (mkRoleDef 1 (ids [key_r])) (mkRoleDef 1 (ids [key_s])) (mkRoleDef 1 (ids [key_g])) (mkRoleDef 1 (ids [key_t])).

Definition jdelegation : delegation := mkDelegation "alice" false 1 (ids [key_d]) ["lib"; "src/a.txt"].
Definition jtargets : targets_metadata :=
  mkTargets 3 new_year
    [("bin/tool", mkTargetDesc 5 [(Sha256, digest 1 "hello"); (Sha512, digest 2 "hello")]
                    (Some [("size", JInt 5); ("tags", JArr [JStr "x"; JNull])]))]
    (Some (mkDelegations (key_table [key_d]) [jdelegation])).
Definition desc_of (v : N) (b : bytes) : meta_desc :=
  mkMetaDesc v (N.of_nat (String.length b)) [(Sha256, digest 1 b)].
Definition jsnapshot : snapshot_metadata :=
  mkSnapshot 2 new_year [("targets", desc_of 3 (publish_metadata Targets [key_g] jtargets))].
Definition jtimestamp : timestamp_metadata :=
  mkTimestamp 7 new_year (desc_of 2 (publish_metadata Snapshot [key_s] jsnapshot)).

(** * Members the library does not know (C108)

    Which objects of a document have a fixed set of members, and what it means to add
    further ones.  Written after the structs of src/interchange/cjson/shims.rs 30-497,
    src/metadata.rs 341-351 and src/crypto.rs 814-821, without any decoder. *)
From Coq Require Import String List.
From Verif Require Import Base JsonValue Metadata.
Import ListNotations.
Open Scope string_scope.

(** How a part of a document is made.
    - [Leaf]: nothing may be added;
    - [Struct]: an object with these members, to which others may be added;
    - [Closed]: an object with exactly these members;
    - [Named]: an object with any names, all the members of one shape;
    - [Sequence]: an array of parts of one shape. *)
Inductive shape :=
| Leaf
| Struct (members : list (string * shape))
| Closed (members : list (string * shape))
| Named (s : shape)
| Sequence (s : shape).

(** [grown s j j']: [j'] is [j] with further members, in the objects of shape [Struct],
    under names that are not those of the shape; any number of them, anywhere. *)
Inductive grown : shape -> json -> json -> Prop :=
| grown_not s j : grown s j j
| grown_twice s j k l : grown s j k -> grown s k l -> grown s j l
| grown_here fs n v a b : ~ In n (map fst fs) ->
    grown (Struct fs) (JObj (a ++ b)) (JObj (a ++ (n, v) :: b))
| grown_below fs n s a b j j' : In (n, s) fs -> grown s j j' ->
    grown (Struct fs) (JObj (a ++ (n, j) :: b)) (JObj (a ++ (n, j') :: b))
| grown_below_closed fs n s a b j j' : In (n, s) fs -> grown s j j' ->
    grown (Closed fs) (JObj (a ++ (n, j) :: b)) (JObj (a ++ (n, j') :: b))
| grown_named s n a b j j' : grown s j j' ->
    grown (Named s) (JObj (a ++ (n, j) :: b)) (JObj (a ++ (n, j') :: b))
| grown_element s a b j j' : grown s j j' ->
    grown (Sequence s) (JArr (a ++ j :: b)) (JArr (a ++ j' :: b)).

Definition leaves (l : list string) : list (string * shape) := map (fun n => (n, Leaf)) l.

(** shims.rs 323-330, 364-367. *)
Definition key_shape : shape :=
  Struct (leaves ["keytype"; "scheme"; "keyid_hash_algorithms"] ++ [("keyval", Struct (leaves ["public"]))])%list.
(** shims.rs 482-497. *)
Definition description_shape : shape := Struct (leaves ["version"; "length"; "hashes"]).
(** shims.rs 450-457. *)
Definition target_shape : shape := Struct (leaves ["length"; "hashes"; "custom"]).
(** shims.rs 110-115. *)
Definition role_shape : shape := Struct (leaves ["threshold"; "keyids"]).
(** shims.rs 369-377. *)
Definition delegation_shape : shape := Struct (leaves ["role"; "terminating"; "threshold"; "keyids"; "paths"]).
(** shims.rs 426-431. *)
Definition delegations_shape : shape := Struct [("keys", Named key_shape); ("roles", Sequence delegation_shape)].

(** shims.rs 30-41, 154-169, 207-216, 271-281.  The member [meta] of a timestamp is the
    one object that may not grow. *)
Definition metadata_shape (r : role) : shape :=
  Struct (leaves ["_type"; "spec_version"; "version"; "expires"] ++
    match r with
    | Root => [("consistent_snapshot", Leaf); ("keys", Named key_shape);
               ("roles", Struct [("root", role_shape); ("snapshot", role_shape);
                                 ("targets", role_shape); ("timestamp", role_shape)])]
    | Timestamp => [("meta", Closed [("snapshot.json", description_shape)])]
    | Snapshot => [("meta", Named description_shape)]
    | Targets => [("targets", Named target_shape); ("delegations", delegations_shape)]
    end)%list.

(** src/metadata.rs 341-351 and src/crypto.rs 814-821; what is signed is left as it is. *)
Definition envelope_shape : shape :=
  Struct [("signatures", Sequence (Struct (leaves ["keyid"; "sig"]))); ("signed", Leaf)].

(** * Specification of what an update hands to the local repository: C107 *)
From Coq Require Import String List NArith ZArith Bool.
From Verif Require Import Base Metadata Tuf Reader Repo Client SpecClient.
Import ListNotations.
Open Scope string_scope.
Open Scope list_scope.

(** [t'] trusts metadata of this role that [t] does not. *)
Definition newly (r : role) (t t' : tuf) : Prop :=
  match r with
  | Root => t_root t' <> t_root t
  | Timestamp => t_timestamp t' <> None /\ t_timestamp t' <> t_timestamp t
  | Snapshot => t_snapshot t' <> None /\ t_snapshot t' <> t_snapshot t
  | Targets => t_targets t' <> None /\ t_targets t' <> t_targets t
  end.

Definition file_of (r : role) : string :=
  match r with Root => "root" | Timestamp => "timestamp" | Snapshot => "snapshot" | Targets => "targets" end.

(** After events [h] of a call that began with the trusted metadata [t], a document has to
    be stored under this name: metadata of a role have just become trusted, or a root has
    been stored under its name and is still to be stored under its number. *)
Inductive to_store (t : tuf) (h : list event) : string -> meta_version -> Prop :=
| just_trusted h0 r t' : h = h0 ++ [EvPut t'] -> newly r (tuf_after t h0) t' -> to_store t h (file_of r) VNone
| root_number h0 t' raw : h = h0 ++ [EvPut t'; EvStoreMeta "root" VNone raw (Ok tt)] ->
    to_store t h "root" (VNumber (rm_version (t_root t'))).

Definition no_fetch (e : event) : Prop := match e with EvFetchMeta _ _ _ _ _ _ => False | _ => True end.

(** The last document fetched. *)
Definition received (h : list event) (raw : bytes) : Prop :=
  exists h1 s path v max hash ans rest,
    h = h1 ++ EvFetchMeta s path v max hash ans :: rest /\ Forall no_fetch rest /\ answered ans raw.

(** An event that is in order after events [h]: nothing follows a store that failed; a
    document is stored when, and only when, one has to be, and it is that document. *)
Definition stores_in_order (t : tuf) (h : list event) (e : event) : Prop :=
  (forall h0 path v raw er, h <> h0 ++ [EvStoreMeta path v raw (Err er)]) /\
  match e with
  | EvStoreMeta path v raw _ => to_store t h path v /\ received h raw /\
      (forall path' v', to_store t h path' v' -> path' = path /\ v' = v)
  | _ => forall path v, ~ to_store t h path v
  end.

(** A local repository in memory whose stores of metadata may fail, which leaves it as it is. *)
Inductive unreliable : ephemeral -> list event -> ephemeral -> Prop :=
| unreliable_nil e : unreliable e [] e
| unreliable_works e ev e' tr e'' : in_memory_step e ev e' -> unreliable e' tr e'' -> unreliable e (ev :: tr) e''
| unreliable_fails e path v data er tr e'' :
    unreliable e tr e'' -> unreliable e (EvStoreMeta path v data (Err er) :: tr) e''.

(** * Specification of what each method touches: C106

    In terms of events only. *)
From Coq Require Import String List NArith ZArith Bool.
From Verif Require Import Base Metadata Tuf Reader Repo Client.
Import ListNotations.
Open Scope string_scope.
Open Scope list_scope.

Definition top_level : list string := ["root"; "timestamp"; "snapshot"; "targets"].

(** Root, timestamp, snapshot and targets metadata are the same in both; delegated
    metadata may differ. *)
Definition same_top (t t' : tuf) : Prop :=
  t_root t' = t_root t /\ t_timestamp t' = t_timestamp t /\ t_snapshot t' = t_snapshot t /\ t_targets t' = t_targets t.

(** Making a client reads the metadata in the local repository and the clock. *)
Definition reads_local (e : event) : Prop :=
  match e with
  | EvFetchMeta Local path _ _ _ _ => In path top_level
  | EvNow _ | EvPut _ => True
  | _ => False
  end.

(** Made from keys, it may take the first root out of the remote repository. *)
Definition first_root (v : meta_version) (e : event) : Prop :=
  match e with
  | EvFetchMeta _ path v' _ _ _ => path = "root" /\ v' = v
  | EvStoreMeta path (VNumber _) _ _ => path = "root"
  | EvPut _ => True
  | _ => False
  end.

(** An update asks the remote repository, and stores the top-level metadata under their
    names; only roots also with their numbers. *)
Definition updates (e : event) : Prop :=
  match e with
  | EvFetchMeta Remote path _ _ _ _ => In path top_level
  | EvStoreMeta path v _ _ => In path top_level /\ (path <> "root" -> v = VNone)
  | EvNow _ | EvPut _ => True
  | _ => False
  end.

(** Looking for a target leaves the top-level metadata as they are in [t]; what it asks for
    has a length and a hash; it stores metadata without a number, and neither roots nor
    snapshots; it touches no targets. *)
Definition searches (t : tuf) (e : event) : Prop :=
  match e with
  | EvFetchMeta _ path _ max hash _ => max <> None /\ hash <> None /\ path <> "root" /\ path <> "snapshot"
  | EvStoreMeta path v _ _ => v = VNone /\ path <> "root" /\ path <> "snapshot"
  | EvPut t' => same_top t t'
  | EvNow _ => True
  | _ => False
  end.

(** Then a download asks for one target, once. *)
Inductive one_target (target : string) : list event -> Prop :=
| nothing_asked : one_target target []
| asked path d ans : one_target target [EvFetchTarget path d ans]
| asked_and_stored path d ans rs ans' : one_target target [EvFetchTarget path d ans; EvStoreTarget target rs ans'].

Definition is_write (e : event) : Prop := match e with EvWrite _ _ => True | _ => False end.
Inductive one_written : list event -> Prop :=
| no_writer : one_written []
| written_out path d ans ws : Forall is_write ws -> one_written (EvFetchTarget path d ans :: ws).

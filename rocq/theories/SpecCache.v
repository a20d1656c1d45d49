(** * Specification of a local repository in a directory, across restarts: C88 *)
From Coq Require Import String List NArith Bool.
From Verif Require Import Base Metadata Paths SpecPaths Reader Repo SpecRepo Http SpecHttp Files SpecFiles Client SpecClient SpecRestart.
Import ListNotations.
Open Scope string_scope.
Open Scope list_scope.
Open Scope N_scope.

(** The events of a client whose local repository is the directory of [r]; its disk is
    [d] before and [d'] afterwards.  Nobody else writes to the disk.  Targets are stored
    under [TargetPath]s, i.e. acceptable paths (C28). *)
Definition on_disk_step (r : fs_repo) (d : disk) (ev : event) (d' : disk) : Prop :=
  match ev with
  | EvFetchMeta Local path v _ _ ans => ans = fs_fetch_metadata r d path v /\ d' = d
  | EvStoreMeta path v data ans => fs_store_metadata r d path v (cursor data) = (d', ans)
  | EvStoreTarget path rs ans => acceptable_path path /\ fs_store_target r d path rs = (d', ans)
  | _ => d' = d
  end.
Inductive on_disk (r : fs_repo) : disk -> list event -> disk -> Prop :=
| on_disk_nil d : on_disk r d [] d
| on_disk_cons d ev d' tr d'' : on_disk_step r d ev d' -> on_disk r d' tr d'' -> on_disk r d (ev :: tr) d''.

(** The files of the top-level metadata. *)
Definition cache_file (f : string) : Prop :=
  In f ["root.json"; "timestamp.json"; "snapshot.json"; "targets.json"] \/
  exists n, f = file_of (VNumber n) "root".

(** The name of a delegated role whose file is not one of these, nor in a directory of
    such a name. *)
Definition harmless (name : string) : Prop :=
  acceptable_path name /\
  forall names, metadata_names name VNone names -> ~ cache_file (hd "" names).

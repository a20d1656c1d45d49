(** * Specification of a deployed client that was there before: C95

    As C94 (SpecDeployed.v), but the client's directory may hold anything. *)
From Coq Require Import String Ascii List NArith ZArith Bool.
From Verif Require Import Base Metadata Verify Paths SpecPaths Tuf SpecVerify SpecTuf StringFacts Reader SpecReader Repo SpecRepo Http SpecHttp
     Files SpecFiles Client SpecClient Shims SpecMeta Builders SpecBuilders SpecCache SpecEndToEnd SpecDeployed.
Import ListNotations.
Open Scope string_scope.
Open Scope list_scope.
Open Scope N_scope.

(** The client's directory: no directories in the places of the files of the top-level
    metadata, and nothing in the way of the target. *)
Definition tidy (dl : disk) (local : file_name) (path : string) : Prop :=
  (forall f, cache_file f -> ~ directory dl (f :: "metadata" :: local)) /\
  acceptable_path path /\ (forall a, path <> (a ++ "/")%string) /\
  free_way dl (walk ("targets" :: local) (split_slash path)).

(** A file is not ahead of the edition: if it is signed as the next root after one of the
    edition, then it is a root of the edition; if it is signed as the current root demands,
    then it is not newer than the timestamp of the edition, and a version stands for one
    document only.  (Files that are not signed may be anything.) *)
Definition file_ok (E : env) (d : edition) (b : bytes) : Prop :=
  (forall m s m', In (m, s) (ed_roots d) -> root_step E m b m' -> exists s', In (m', s') (ed_roots d)) /\
  (forall ts, trusted_by E (ed_root d) Timestamp b ts -> tm_version ts <= tm_version (ed_timestamp d) /\
     (tm_version ts = tm_version (ed_timestamp d) -> ts = ed_timestamp d)) /\
  (forall s, trusted_by E (ed_root d) Snapshot b s -> sm_version s = sm_version (ed_snapshot d) -> s = ed_snapshot d) /\
  (forall g, trusted_by E (ed_root d) Targets b g -> tg_version g = tg_version (ed_targets d) -> g = ed_targets d).
Definition not_newer (E : env) (d : edition) (dl : disk) (local : file_name) : Prop :=
  forall f b, cache_file f -> content dl (f :: "metadata" :: local) = Some b -> file_ok E d b.

(** The client trusts the edition. *)
Definition trusts (d : edition) (t : tuf) : Prop :=
  t_root t = ed_root d /\ t_timestamp t = Some (ed_timestamp d) /\
  t_snapshot t = Some (ed_snapshot d) /\ t_targets t = Some (ed_targets d).

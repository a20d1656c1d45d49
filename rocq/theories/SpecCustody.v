(** * Specification of the chain of custody: C116

    Which bytes the trusted metadata came from, and who said so.  Only the data types, the
    events and the specifications of signatures, descriptions and key holders are used. *)
From Coq Require Import String List NArith ZArith Bool.
From Verif Require Import Base Metadata SpecVerify Tuf SpecTuf Reader SpecReader Repo Client SpecClient SpecAttack.
Import ListNotations.
Open Scope string_scope.
Open Scope list_scope.
Open Scope N_scope.

(** What a file says, whoever signed it. *)
Definition content (E : env) (r : role) (raw : bytes) (m : metadata_of r) : Prop :=
  exists sigs signed msg,
    ic_envelope (e_ic E) raw = Ok (sigs, signed) /\ ic_canonicalize (e_ic E) signed = Ok msg /\
    ic_from_slice (e_ic E) r msg = Ok m.

(** A repository has answered with these bytes. *)
Definition fetched (tr : list event) (raw : bytes) : Prop :=
  exists s path v max hash ans, In (EvFetchMeta s path v max hash ans) tr /\ answered ans raw.

(** The snapshot was read from fetched bytes that a timestamp describes; both are signed
    as the root demands. *)
Definition snapshot_custody (E : env) (tr : list event) (root : root_metadata) (s : snapshot_metadata) : Prop :=
  exists raw raw' ts, fetched tr raw /\ trusted_by E root Snapshot raw s /\ trusted_by E root Timestamp raw' ts /\
    as_described (e_crypto E) (tm_snapshot ts) raw.

(** The metadata of a role were read from fetched bytes that such a snapshot describes
    under the name of the role. *)
Definition role_custody (E : env) (tr : list event) (root : root_metadata) (name : string) (g : targets_metadata) : Prop :=
  exists raw s d, fetched tr raw /\ content E Targets raw g /\ snapshot_custody E tr root s /\
    lookup name (sm_meta s) = Some d /\ as_described (e_crypto E) d raw.

(** Files that are published: those of snapshots, and those of targets and delegated
    roles under their names. *)
Record published := mkPublished { snapshot_files : bytes -> Prop; role_files : string -> bytes -> Prop }.

Definition published_snapshot (E : env) (p : published) (s : snapshot_metadata) : Prop :=
  exists raw, snapshot_files p raw /\ content E Snapshot raw s.
Definition published_role (E : env) (p : published) (name : string) (g : targets_metadata) : Prop :=
  exists raw, role_files p name raw /\ content E Targets raw g.

(** Published snapshots describe published files. *)
Definition described_files (E : env) (p : published) : Prop :=
  forall s name d, published_snapshot E p s -> lookup name (sm_meta s) = Some d ->
    exists raw, role_files p name raw /\ as_described (e_crypto E) d raw.

(** Timestamps that describe published snapshots. *)
Definition describes_snapshot (E : env) (p : published) (ts : timestamp_metadata) : Prop :=
  exists raw, snapshot_files p raw /\ as_described (e_crypto E) (tm_snapshot ts) raw.

(** Among the fetched and the published files there are two with the same digest. *)
Definition collision_found (E : env) (p : published) (tr : list event) : Prop :=
  exists alg b b', fetched tr b /\ (snapshot_files p b' \/ exists name, role_files p name b') /\
    collision (e_crypto E) alg b b'.

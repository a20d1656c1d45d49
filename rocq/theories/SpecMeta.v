(** * What decoded metadata looks like

    Nothing here uses Shims.v.  Maps are lists in the order of their names and sets
    increasing lists (the metadata types of Metadata.v leave the order open). *)
From Coq Require Import String List NArith ZArith Bool Sorted.
From Verif Require Import Base JsonValue SpecJson Metadata SpecPaths SpecDates SpecKeys.
Import ListNotations.
Open Scope nat_scope.
Open Scope string_scope.

Definition increasing (l : list string) : Prop := StronglySorted (fun a b => String.compare a b = Lt) l.
Definition id_like (s : string) : Prop := String.length s = 64.
Definition version_ok (v : N) : Prop := (1 <= v <= 4294967295)%N.
Definition size_ok (n : N) : Prop := (n <= 18446744073709551615)%N.

(** A threshold that the listed keys can reach. *)
Definition threshold_ok (t : N) (ids : list string) : Prop :=
  (1 <= t <= N.of_nat (length ids))%N /\ (t <= 4294967295)%N /\ NoDup ids /\ Forall id_like ids.

Definition wf_role_def (d : role_def) : Prop := threshold_ok (rd_threshold d) (rd_key_ids d).

(** A table of keys that can be written and read, each with its own id. *)
Definition wf_keys (C : crypto) (keys : list (string * public_key)) : Prop :=
  increasing (map fst keys) /\
  Forall (fun ik => id_like (fst ik) /\ own_id C (snd ik) /\ portable (snd ik)) keys.

Definition wf_root (C : crypto) (m : root_metadata) : Prop :=
  version_ok (rm_version m) /\ nameable (rm_expires m) /\ wf_keys C (rm_keys m) /\
  Forall (fun ik => fst ik = pk_id (snd ik)) (rm_keys m) /\
  wf_role_def (rm_root m) /\ wf_role_def (rm_snapshot m) /\ wf_role_def (rm_targets m) /\ wf_role_def (rm_timestamp m).

(** At least one hash, of the two known kinds. *)
Inductive wf_hashes : list (hash_alg * bytes) -> Prop :=
| wh_256 a : wf_hashes [(Sha256, a)]
| wh_512 b : wf_hashes [(Sha512, b)]
| wh_both a b : wf_hashes [(Sha256, a); (Sha512, b)].

Definition wf_desc (d : meta_desc) : Prop :=
  version_ok (md_version d) /\ size_ok (md_length d) /\ wf_hashes (md_hashes d).

Definition wf_custom (c : list (string * json)) : Prop :=
  increasing (map fst c) /\ Forall (fun kv => in_order (snd kv)) c.

Definition wf_target (d : target_desc) : Prop :=
  size_ok (td_length d) /\ wf_hashes (td_hashes d) /\
  match td_custom d with None => True | Some c => wf_custom c end.

Definition wf_delegation (d : delegation) : Prop :=
  acceptable_path (dg_role d) /\ threshold_ok (dg_threshold d) (dg_key_ids d) /\ increasing (dg_key_ids d) /\
  dg_paths d <> [] /\ increasing (dg_paths d) /\ Forall acceptable_path (dg_paths d).

Definition wf_delegations (C : crypto) (d : delegations) : Prop :=
  dgs_keys d <> [] /\ wf_keys C (dgs_keys d) /\
  dgs_roles d <> [] /\ NoDup (map dg_role (dgs_roles d)) /\ Forall wf_delegation (dgs_roles d).

Definition wf_targets (C : crypto) (m : targets_metadata) : Prop :=
  version_ok (tg_version m) /\ nameable (tg_expires m) /\
  increasing (map fst (tg_targets m)) /\
  Forall (fun pd => acceptable_path (fst pd) /\ wf_target (snd pd)) (tg_targets m) /\
  match tg_delegations m with None => True | Some d => wf_delegations C d end.

Definition wf_snapshot (m : snapshot_metadata) : Prop :=
  version_ok (sm_version m) /\ nameable (sm_expires m) /\
  increasing (map (fun pd => fst pd ++ ".json") (sm_meta m)) /\
  Forall (fun pd => acceptable_path (fst pd) /\ wf_desc (snd pd)) (sm_meta m).

Definition wf_timestamp (m : timestamp_metadata) : Prop :=
  version_ok (tm_version m) /\ nameable (tm_expires m) /\ wf_desc (tm_snapshot m).

Definition wf_metadata (C : crypto) (r : role) : metadata_of r -> Prop :=
  match r with
  | Root => wf_root C
  | Snapshot => wf_snapshot
  | Targets => wf_targets C
  | Timestamp => wf_timestamp
  end.

Definition expiry (r : role) : metadata_of r -> Z :=
  match r with
  | Root => rm_expires
  | Snapshot => sm_expires
  | Targets => tg_expires
  | Timestamp => tm_expires
  end.

(** Only the custom data of targets can hold numbers that are not integers. *)
Definition custom_floats (r : role) : metadata_of r -> Prop :=
  match r with
  | Targets => fun m => exists p d c n v, In (p, d) (tg_targets m) /\ td_custom d = Some c /\ In (n, v) c /\ has_float v
  | _ => fun _ => False
  end.

(** * Specification of the trusted-metadata state machine

    Uses the data types, the specification of signatures ([SpecVerify]) and plain
    arithmetic only; none of the functions of [Tuf] except the record fields. *)
From Coq Require Import String List NArith ZArith Bool.
From Verif Require Import Base Metadata SpecVerify Tuf.
Import ListNotations.
Open Scope string_scope.
Open Scope list_scope.

(** The part of the root that defines a role. *)
Definition role_def_of (root : root_metadata) (r : role) : role_def :=
  match r with
  | Root => rm_root root | Snapshot => rm_snapshot root
  | Targets => rm_targets root | Timestamp => rm_timestamp root
  end.

(** The keys of a key table that are listed under one of the ids. *)
Fixpoint listed_keys (table : list (string * public_key)) (ids : list string) : list public_key :=
  match table with
  | [] => []
  | (i, k) :: rest => if in_dec string_dec i ids then k :: listed_keys rest ids else listed_keys rest ids
  end.

(** [raw] carries the threshold of signatures that [root] demands for role [r],
    and its content is [m]. *)
Definition trusted_by (E : env) (root : root_metadata) (r : role) (raw : bytes) (m : metadata_of r) : Prop :=
  authentic E r raw (rd_threshold (role_def_of root r))
            (listed_keys (rm_keys root) (rd_key_ids (role_def_of root r))) m.

(** One legitimate step from one root to the next. *)
Definition root_step (E : env) (old : root_metadata) (raw : bytes) (new : root_metadata) : Prop :=
  trusted_by E old Root raw new /\ trusted_by E new Root raw new /\
  rm_version new = (rm_version old + 1)%N /\ (rm_version old < u32_max)%N.

(** A chain of [n] legitimate root steps. *)
Inductive root_chain (E : env) : nat -> root_metadata -> root_metadata -> Prop :=
| chain_refl r : root_chain E 0 r r
| chain_step n r1 r2 r3 raw : root_chain E n r1 r2 -> root_step E r2 raw r3 -> root_chain E (S n) r1 r3.

(** Version of optional metadata, 0 if there is none. *)
Definition ver {A} (version : A -> N) (o : option A) : N :=
  match o with Some a => version a | None => 0%N end.

Definition timestamp_version (t : tuf) : N := ver tm_version (t_timestamp t).
Definition snapshot_version (t : tuf) : N := ver sm_version (t_snapshot t).
Definition targets_version (t : tuf) : N := ver tg_version (t_targets t).
Definition delegation_version (t : tuf) (r : string) : N := ver tg_version (lookup r (t_delegations t)).

(** Not expired: the expiry date lies strictly after the clock reading. *)
Definition fresh (expires now : Z) : Prop := (now < expires)%Z.

(** When a new timestamp is accepted. *)
Definition timestamp_acceptable (E : env) (t : tuf) (c : clock) (raw : bytes) (new : timestamp_metadata) : Prop :=
  trusted_by E (t_root t) Timestamp raw new /\
  (timestamp_version t < tm_version new)%N /\
  fresh (tm_expires new) (at_new c).

(** When a new snapshot is accepted. *)
Definition snapshot_acceptable (E : env) (t : tuf) (c : clock) (raw : bytes) (new : snapshot_metadata) : Prop :=
  fresh (rm_expires (t_root t)) (at_root c) /\
  exists ts, t_timestamp t = Some ts /\ fresh (tm_expires ts) (at_timestamp c) /\
    (snapshot_version t < md_version (tm_snapshot ts))%N /\
    trusted_by E (t_root t) Snapshot raw new /\
    sm_version new = md_version (tm_snapshot ts).

(** When new top-level targets metadata is accepted. *)
Definition targets_acceptable (E : env) (t : tuf) (c : clock) (raw : bytes) (new : targets_metadata) : Prop :=
  fresh (rm_expires (t_root t)) (at_root c) /\
  exists s desc, t_snapshot t = Some s /\ fresh (sm_expires s) (at_snapshot c) /\
    lookup "targets" (sm_meta s) = Some desc /\
    (targets_version t < md_version desc)%N /\
    trusted_by E (t_root t) Targets raw new /\
    tg_version new = md_version desc /\
    fresh (tg_expires new) (at_new c).

(** The trusted metadata known under a parent role name. *)
Definition trusted_parent (t : tuf) (parent : string) (p : targets_metadata) : Prop :=
  (parent = "targets" /\ t_targets t = Some p) \/
  (parent <> "targets" /\ lookup parent (t_delegations t) = Some p).

(** [d] is the first delegation to role [r] in the list. *)
Definition first_delegation (roles : list delegation) (r : string) (d : delegation) : Prop :=
  exists l1 l2, roles = l1 ++ d :: l2 /\ dg_role d = r /\ forall d', In d' l1 -> dg_role d' <> r.

(** [raw] is signed as parent metadata [p] demands for role [r]. *)
Definition delegated_by (E : env) (p : targets_metadata) (r : string) (raw : bytes) (m : targets_metadata) : Prop :=
  exists ds d, tg_delegations p = Some ds /\ first_delegation (dgs_roles ds) r d /\
    authentic E Targets raw (dg_threshold d) (listed_keys (dgs_keys ds) (dg_key_ids d)) m.

(** The conditions common to accepting and re-checking a delegation. *)
Definition delegation_context (E : env) (t : tuf) (c : clock) (parent r : string) (raw : bytes)
           (new : targets_metadata) (desc : meta_desc) : Prop :=
  fresh (rm_expires (t_root t)) (at_root c) /\
  exists s g p, t_snapshot t = Some s /\ fresh (sm_expires s) (at_snapshot c) /\
    t_targets t = Some g /\ fresh (tg_expires g) (at_targets c) /\
    tg_delegations g <> None /\
    lookup r (sm_meta s) = Some desc /\
    trusted_parent t parent p /\ delegated_by E p r raw new.

(** When a new delegation is accepted. *)
Definition delegation_acceptable (E : env) (t : tuf) (c : clock) (parent r : string) (raw : bytes)
           (new : targets_metadata) : Prop :=
  exists desc, delegation_context E t c parent r raw new desc /\
    (delegation_version t r < md_version desc)%N /\
    tg_version new = md_version desc /\
    fresh (tg_expires new) (at_new c).

(** ** States that the API can produce *)

Definition initial (E : env) (t : tuf) : Prop :=
  (exists raw th keys, from_root_with_trusted_keys E raw th keys = Ok t) \/
  (exists raw, from_trusted_root E raw = Ok t).

Definition reachable (E : env) (t : tuf) : Prop :=
  exists t0 ops, initial E t0 /\ t = run E t0 ops.

(** Versions of the trusted documents fit together. *)
Definition versions_fit (t : tuf) : Prop :=
  (forall s, t_snapshot t = Some s ->
     exists ts, t_timestamp t = Some ts /\ sm_version s = md_version (tm_snapshot ts)) /\
  (forall s g, t_snapshot t = Some s -> t_targets t = Some g ->
     exists desc, lookup "targets" (sm_meta s) = Some desc /\ tg_version g = md_version desc) /\
  (forall s r d desc, t_snapshot t = Some s -> lookup r (t_delegations t) = Some d ->
     lookup r (sm_meta s) = Some desc -> (tg_version d <= md_version desc)%N).

(** Every trusted top-level document is signed as the current root demands. *)
Definition signed_under_root (E : env) (t : tuf) : Prop :=
  (forall ts, t_timestamp t = Some ts -> exists raw, trusted_by E (t_root t) Timestamp raw ts) /\
  (forall s, t_snapshot t = Some s -> exists raw, trusted_by E (t_root t) Snapshot raw s) /\
  (forall g, t_targets t = Some g -> exists raw, trusted_by E (t_root t) Targets raw g).

(** Decoding the canonical bytes of what came out of a file gives what decoding the raw
    data gives; Props_Json.v shows this for the JSON interchange. *)
Definition faithful (I : interchange) : Prop :=
  forall r b sigs raw msg, ic_envelope I b = Ok (sigs, raw) -> ic_canonicalize I raw = Ok msg ->
  ic_from_slice I r msg = ic_deserialize I r raw.

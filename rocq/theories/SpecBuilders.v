(** * Specification of the builders

    Histories of signed documents, and what is asked of signing keys. *)
From Coq Require Import String List NArith ZArith Bool.
From Verif Require Import Base JsonValue JsonText SpecJson Metadata SpecVerify SpecDates SpecKeys SpecMeta SpecPaths SpecReader Shims Builders.
Import ListNotations.
Open Scope nat_scope.
Open Scope string_scope.

(** Signed documents with content [raw] that the API can make (without reading them from
    somewhere), with the private keys that were used on the way. *)
Inductive building (C : crypto) (r : role) (raw : json) : list private_key -> signed_builder -> Prop :=
| bu_metadata m b : json_serialize (e_metadata r m) = Ok raw -> sb_from_metadata C r m = Ok b ->
    building C r raw [] b
| bu_raw b : in_order raw -> sb_from_raw C r raw = Ok b -> building C r raw [] b
| bu_sign ks b k rnd b' : building C r raw ks b -> sb_sign b k rnd = Ok b' -> building C r raw (k :: ks) b'.
Inductive made (C : crypto) (r : role) (raw : json) : list private_key -> signed_metadata -> Prop :=
| ma_new m k rnd s : json_serialize (e_metadata r m) = Ok raw -> signed_new r m k rnd = Ok s ->
    made C r raw [k] s
| ma_build ks b : building C r raw ks b -> made C r raw ks (sb_build b)
| ma_add ks s k rnd s' : made C r raw ks s -> add_signature s k rnd = (s', Ok tt) -> made C r raw (k :: ks) s'
| ma_add_failed ks s k rnd s' e : made C r raw ks s -> add_signature s k rnd = (s', Err e) -> made C r raw ks s'
| ma_merge ks s raw' ks' other s' res : made C r raw ks s -> made C r raw' ks' other ->
    merge_signatures s other = (s', res) -> made C r raw (if is_ok res then ks ++ ks' else ks)%list s'.

(** A private key of the library: its public key has its own id, and what it signs
    verifies. *)
Definition working_key (C : crypto) (k : private_key) : Prop :=
  let p := sk_public k in
  own_id C p /\ id_like (pk_id p) /\ (forall x, pk_scheme p <> SchemeUnknown x) /\
  forall rnd msg v, sk_sign k rnd msg = Ok v -> ring_verify C (pk_scheme p) (pk_value p) msg v = true.

(** [t] different ids of keys among [keys], each the public part of a key in [ks]. *)
Definition enough_signers (t : N) (keys : list public_key) (ks : list private_key) : Prop :=
  exists ids, NoDup ids /\ N.of_nat (length ids) = t /\
    forall i, In i ids -> exists k, In k ks /\ pk_id (sk_public k) = i /\ In (sk_public k) keys.

(** The ids tell the trusted keys from the others. *)
Definition ids_identify (keys : list public_key) (ks : list private_key) : Prop :=
  forall k p, In k ks -> In p keys -> pk_id p = pk_id (sk_public k) -> p = sk_public k.

(** The content of a file: UTF-8 texts, 64-bit numbers, nested less than serde_json's
    limit of 128 (with the envelope around it). *)
Definition writable (raw : json) : Prop := holds_in_value raw /\ depth raw <= 126.

(** The last whole second before an instant. *)
Definition second_of (z z' : Z) : Prop := (2000000000 | z')%Z /\ (z' <= z < z' + 2000000000)%Z.
Definition set_expiry (r : role) (z : Z) : metadata_of r -> metadata_of r :=
  match r with
  | Root => fun m => mkRoot (rm_version m) z (rm_consistent m) (rm_keys m) (rm_root m) (rm_snapshot m) (rm_targets m)
                       (rm_timestamp m)
  | Snapshot => fun m => mkSnapshot (sm_version m) z (sm_meta m)
  | Targets => fun m => mkTargets (tg_version m) z (tg_targets m) (tg_delegations m)
  | Timestamp => fun m => mkTimestamp (tm_version m) z (tm_snapshot m)
  end.
(** [m'] is [m] with its expiry date cut to a second that a file can express. *)
Definition as_written (r : role) (m m' : metadata_of r) : Prop :=
  exists z, second_of (expiry r m) z /\ plain_time z /\ m' = set_expiry r z m.

(** A description fits some bytes. *)
Definition describes (C : crypto) (b : bytes) (algs : list hash_alg) (len : N) (hashes : list (hash_alg * bytes)) : Prop :=
  len = N.of_nat (String.length b) /\
  forall a, lookup a hashes = if mem a algs then Some (ring_digest C a b) else None.

(** Arguments that the Rust types allow: 32-bit numbers, paths made with their
    constructors, keys made by the library, descriptions and delegations that are well
    formed. *)
Definition good_key (C : crypto) (k : public_key) : Prop := own_id C k /\ portable k /\ id_like (pk_id k).
Definition good_root_op (C : crypto) (o : root_op) : Prop :=
  match o with
  | RoVersion v => (v <= 4294967295)%N
  | RoThreshold _ t => (t <= 4294967295)%N
  | RoKey _ k => good_key C k
  | RoExpires _ | RoConsistent _ => True
  end.
Definition good_timestamp_op (o : timestamp_op) : Prop :=
  match o with ToVersion v => (v <= 4294967295)%N | ToExpires _ => True end.
Definition good_snapshot_op (o : snapshot_op) : Prop :=
  match o with
  | NoVersion v => (v <= 4294967295)%N
  | NoDescription p d => acceptable_path p /\ wf_desc d
  | NoExpires _ | NoInsert _ _ _ _ | NoInsertPath _ _ _ _ => True
  end.
Definition good_targets_op (C : crypto) (o : targets_op) : Prop :=
  match o with
  | GoVersion v => (v <= 4294967295)%N
  | GoExpires _ => True
  | GoReader p rs _ => acceptable_path p /\
      exists b e, contains rs b e /\ size_ok (N.of_nat (String.length b))
  | GoDescription p d => acceptable_path p /\ wf_target d
  | GoDelegations d => wf_delegations C d
  end.

(** No role of the root lists a key twice. *)
Definition distinct_keys (m : root_metadata) : Prop :=
  NoDup (rd_key_ids (rm_root m)) /\ NoDup (rd_key_ids (rm_snapshot m)) /\
  NoDup (rd_key_ids (rm_targets m)) /\ NoDup (rd_key_ids (rm_timestamp m)).

(** [s] is a document the API made by signing, with [ks], metadata that reads as [m]. *)
Definition published (C : crypto) (r : role) (m : metadata_of r) (ks : list private_key) (s : signed_metadata) : Prop :=
  exists m0 raw, as_written r m0 m /\ wf_metadata C r m /\ json_serialize (e_metadata r m0) = Ok raw /\
    writable raw /\ Forall (working_key C) ks /\ made C r raw ks s.
(** The signers suffice for a role with these keys. *)
Definition sufficient (t : N) (keys : list public_key) (ks : list private_key) : Prop :=
  (1 <= t)%N /\ enough_signers t keys ks /\ ids_identify keys ks.

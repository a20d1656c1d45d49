(** * Metadata and key types *)
From Coq Require Import String List NArith ZArith Bool Permutation.
From Verif Require Import Base JsonValue.
Import ListNotations.

(** ** src/crypto.rs *)

(** src/crypto.rs 836-846 [enum HashAlgorithm]. *)
Inductive hash_alg := Sha256 | Sha512 | HashUnknown (s : string).

(** The derived [PartialEq], src/crypto.rs 836-844. *)
Definition hash_alg_eqb (a b : hash_alg) : bool :=
  match a, b with
  | Sha256, Sha256 | Sha512, Sha512 => true
  | HashUnknown s, HashUnknown t => String.eqb s t
  | _, _ => false
  end.

Lemma hash_alg_eqb_eq a b : hash_alg_eqb a b = true <-> a = b.
Proof.
  destruct a, b; cbn; split; intros H; try discriminate; try reflexivity.
  - apply String.eqb_eq in H. congruence.
  - apply String.eqb_eq. congruence.
Qed.

#[export] Instance EqDec_hash_alg : EqDec hash_alg := {| eqb := hash_alg_eqb; eqb_eq := hash_alg_eqb_eq |}.

(** src/crypto.rs 209-223 [enum SignatureScheme]. *)
Inductive scheme := Ed25519 | RsaSsaPssSha256 | RsaSsaPssSha512 | SchemeUnknown (s : string).

(** src/crypto.rs 258-267 [enum KeyType]. *)
Inductive key_type := KtEd25519 | KtRsa | KtUnknown (s : string).

(** src/crypto.rs 556-564 [struct PublicKey]; key ids (177) are their strings. *)
Record public_key := mkKey {
  pk_typ : key_type;
  pk_id : string;
  pk_scheme : scheme;
  pk_kha : option (list string);
  pk_value : bytes
}.

(** src/crypto.rs 814-821 [struct Signature]. *)
Record signature := mkSig { sig_keyid : string; sig_value : bytes }.

(** The primitives of the [ring] crate: signature verification for the three
    known schemes (src/crypto.rs 679-693: key bytes, message, signature) and the
    SHA-2 digests (src/crypto.rs 851-860, 163-166).  Arbitrary total functions. *)
Record crypto := mkCrypto {
  ring_verify : scheme -> bytes -> bytes -> bytes -> bool;
  ring_digest : hash_alg -> bytes -> bytes
}.

(** src/crypto.rs 678-694 [PublicKey::verify]. *)
Definition pk_verify (C : crypto) (k : public_key) (msg : bytes) (s : signature) : result unit :=
  match pk_scheme k with
  | SchemeUnknown _ => Err IllegalArgument
  | sch => if ring_verify C sch (pk_value k) msg (sig_value s) then Ok tt else Err BadSignature
  end.

(** src/crypto.rs 28 and 65-75 [HASH_ALG_PREFS], [hash_preference]. *)
Definition hash_alg_prefs : list hash_alg := [Sha512; Sha256].

(** The loop of src/crypto.rs 68-73. *)
Fixpoint hash_preference_loop (prefs : list hash_alg) (hashes : list (hash_alg * bytes))
  : result (hash_alg * bytes) :=
  match prefs with
  | [] => Err NoSupportedHashAlgorithm
  | alg :: rest =>
      match lookup alg hashes with
      | Some v => Ok (alg, v)
      | None => hash_preference_loop rest hashes
      end
  end.

(** src/crypto.rs 65-75 [hash_preference]. *)
Definition hash_preference (hashes : list (hash_alg * bytes)) : result (hash_alg * bytes) :=
  hash_preference_loop hash_alg_prefs hashes.

(** ** src/metadata.rs *)

(** src/metadata.rs 208-214 [enum MetadataVersion]. *)
Inductive meta_version := VNone | VNumber (n : N).

(** src/metadata.rs 812-815 [struct RoleDefinition]. *)
Record role_def := mkRoleDef { rd_threshold : N; rd_key_ids : list string }.

(** src/metadata.rs 660-669 [struct RootMetadata].  Expiry dates are instants on
    an integer time line. *)
Record root_metadata := mkRoot {
  rm_version : N;
  rm_expires : Z;
  rm_consistent : bool;
  rm_keys : list (string * public_key);
  rm_root : role_def;
  rm_snapshot : role_def;
  rm_targets : role_def;
  rm_timestamp : role_def
}.

(** src/metadata.rs 1106-1110 [struct MetadataDescription]. *)
Record meta_desc := mkMetaDesc {
  md_version : N;
  md_length : N;
  md_hashes : list (hash_alg * bytes)
}.

(** src/metadata.rs 1039-1043 [struct TimestampMetadata]. *)
Record timestamp_metadata := mkTimestamp {
  tm_version : N;
  tm_expires : Z;
  tm_snapshot : meta_desc
}.

(** src/metadata.rs 1304-1308 [struct SnapshotMetadata]. *)
Record snapshot_metadata := mkSnapshot {
  sm_version : N;
  sm_expires : Z;
  sm_meta : list (string * meta_desc)
}.

(** src/metadata.rs 1528-1532 [struct TargetDescription]. *)
Record target_desc := mkTargetDesc {
  td_length : N;
  td_hashes : list (hash_alg * bytes);
  td_custom : option (list (string * json))
}.

(** src/metadata.rs 1905-1911 [struct Delegation]; the two [HashSet]s are lists. *)
Record delegation := mkDelegation {
  dg_role : string;
  dg_terminating : bool;
  dg_threshold : N;
  dg_key_ids : list string;
  dg_paths : list string
}.

(** src/metadata.rs 1841-1844 [struct Delegations]. *)
Record delegations := mkDelegations {
  dgs_keys : list (string * public_key);
  dgs_roles : list delegation
}.

(** src/metadata.rs 1679-1684 [struct TargetsMetadata]. *)
Record targets_metadata := mkTargets {
  tg_version : N;
  tg_expires : Z;
  tg_targets : list (string * target_desc);
  tg_delegations : option delegations
}.

(** The metadata type of a role: the [impl Metadata for ...] with [ROLE],
    src/metadata.rs 778-788, 1072-1082, 1337-1347, 1720-1730. *)
Definition metadata_of (r : role) : Type :=
  match r with
  | Root => root_metadata
  | Snapshot => snapshot_metadata
  | Targets => targets_metadata
  | Timestamp => timestamp_metadata
  end.

(** Keys of a map whose map key is among the given ids:
    src/metadata.rs 714-755 [root_keys] ... [timestamp_keys], also
    src/tuf.rs 49-55 and 647-657. *)
Definition select_keys (keys : list (string * public_key)) (ids : list string) : list public_key :=
  map snd (filter (fun kv => mem (fst kv) ids) keys).

(** src/metadata.rs 714-722 [root_keys]. *)
Definition root_keys (r : root_metadata) := select_keys (rm_keys r) (rd_key_ids (rm_root r)).
(** src/metadata.rs 725-733 [snapshot_keys]. *)
Definition snapshot_keys (r : root_metadata) := select_keys (rm_keys r) (rd_key_ids (rm_snapshot r)).
(** src/metadata.rs 736-744 [targets_keys]. *)
Definition targets_keys (r : root_metadata) := select_keys (rm_keys r) (rd_key_ids (rm_targets r)).
(** src/metadata.rs 747-755 [timestamp_keys]. *)
Definition timestamp_keys (r : root_metadata) := select_keys (rm_keys r) (rd_key_ids (rm_timestamp r)).

(** ** Data interchange: src/interchange/mod.rs, [trait DataInterchange].
    Only the functions the verification code calls, as arbitrary total
    functions; [Shims.v] gives the concrete JSON instance. *)
Record interchange := mkInterchange {
  ic_raw : Type;
  (** [D::from_slice::<SignedMetadata<D>>] (src/verify.rs 89-95 and
      src/metadata.rs 268-270): signatures and raw signed part. *)
  ic_envelope : bytes -> result (list signature * ic_raw);
  (** [D::canonicalize] *)
  ic_canonicalize : ic_raw -> result bytes;
  (** [D::from_slice::<M>] on canonical bytes (src/verify.rs 152) *)
  ic_from_slice : forall r : role, bytes -> result (metadata_of r);
  (** [D::deserialize::<M>] of raw data (src/metadata.rs 491-493) *)
  ic_deserialize : forall r : role, ic_raw -> result (metadata_of r);
  (** [D::extension] *)
  ic_extension : string
}.

(** Iteration order of a [HashMap<&KeyId, &Signature>] (src/verify.rs 110-115):
    any permutation of its entries. *)
Record hash_order := mkOrder {
  ho_fun : list (string * signature) -> list (string * signature);
  ho_perm : forall l, Permutation l (ho_fun l)
}.

(** Everything the verification code depends on from outside.
    The parameters of src/verify.rs 66-155. *)
Record env := mkEnv {
  e_crypto : crypto;
  e_order : hash_order;
  e_ic : interchange
}.

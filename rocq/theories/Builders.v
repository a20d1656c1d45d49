(** * Making and signing metadata

    The builders of src/metadata.rs and [SignedMetadata], for the two interchanges of
    the library.  [HashMap]s are kept in the order in which Shims.v keeps them. *)
From Coq Require Import String Ascii List NArith ZArith Bool.
From Verif Require Import Base JsonValue JsonText Metadata Paths Codec Dates Reader Serde Keys Shims.
Import ListNotations.
Open Scope string_scope.

(** ** Signing *)

(** src/crypto.rs 331-337 [trait PrivateKey], as the two implementations of the library
    (429-443, 530-554) have it: the signature carries the id of the public key.  RSA-PSS
    signing is randomised and may fail; the [N] stands for the randomness of one call. *)
Record private_key := mkPrivate {
  sk_public : public_key;
  sk_sign : N -> bytes -> result bytes
}.
(** src/crypto.rs 430-438, 531-549. *)
Definition sign (k : private_key) (rnd : N) (msg : bytes) : result signature :=
  let? v := sk_sign k rnd msg in Ok (mkSig (pk_id (sk_public k)) v).

(** src/metadata.rs 341-351 [struct SignedMetadata]. *)
Record signed_metadata := mkSigned { sg_sigs : list signature; sg_raw : json }.

(** [PartialEq] of [serde_json::Value]: numbers that are not integers are compared by
    their text.
    As src/metadata.rs 445 compares. *)
Fixpoint json_eqb (a b : json) {struct a} : bool :=
  match a, b with
  | JNull, JNull => true
  | JBool x, JBool y => Bool.eqb x y
  | JInt x, JInt y => Z.eqb x y
  | JFloat x, JFloat y => String.eqb x y
  | JStr x, JStr y => String.eqb x y
  | JArr x, JArr y =>
      (fix go (x y : list json) : bool :=
         match x, y with
         | [], [] => true
         | a :: x, b :: y => json_eqb a b && go x y
         | _, _ => false
         end) x y
  | JObj x, JObj y =>
      (fix go (x y : list (string * json)) : bool :=
         match x, y with
         | [], [] => true
         | (n, a) :: x, (m, b) :: y => String.eqb n m && json_eqb a b && go x y
         | _, _ => false
         end) x y
  | _, _ => false
  end.

(** src/metadata.rs 373-382 [SignedMetadata::new]. *)
Definition signed_new (r : role) (m : metadata_of r) (k : private_key) (rnd : N) : result signed_metadata :=
  let? raw := json_serialize (e_metadata r m) in
  let? bytes := canonicalize raw in
  let? sig := sign k rnd bytes in
  Ok (mkSigned [sig] raw).

(** src/metadata.rs 396-399 [to_raw]; the same for both interchanges. *)
Definition to_raw (s : signed_metadata) : result bytes :=
  let? v := json_serialize (Some (e_signed (sg_sigs s) (sg_raw s))) in canonicalize v.

(** src/metadata.rs 432-439 [add_signature]. *)
Definition add_signature (s : signed_metadata) (k : private_key) (rnd : N) : signed_metadata * result unit :=
  match (let? bytes := canonicalize (sg_raw s) in sign k rnd bytes) with
  | Ok sig => (mkSigned (filter (fun x => negb (String.eqb (sig_keyid x) (pk_id (sk_public k)))) (sg_sigs s) ++ [sig])
                 (sg_raw s), Ok tt)
  | Err e => (s, Err e)
  end.

(** src/metadata.rs 444-466 [merge_signatures]. *)
Definition merge_signatures (s other : signed_metadata) : signed_metadata * result unit :=
  if json_eqb (sg_raw s) (sg_raw other)
  then (mkSigned (sg_sigs s ++ filter (fun x => negb (mem (sig_keyid x) (map sig_keyid (sg_sigs s)))) (sg_sigs other))
          (sg_raw s), Ok tt)
  else (s, Err IllegalArgument).

(** src/metadata.rs 478-486 [parse_version_untrusted]. *)
Definition d_version : decoder N :=
  fun j => match d_fields ["version"] false 0 j with
  | Some [v] => d_required (d_uint u32_max) v
  | _ => None
  end.
(** src/metadata.rs 478-486 [parse_version_untrusted]. *)
Definition parse_version_untrusted (s : signed_metadata) : result N := json_deserialize d_version (sg_raw s).

(** src/metadata.rs 491-493 [assume_valid]. *)
Definition assume_valid (C : crypto) (r : role) (s : signed_metadata) : result (metadata_of r) :=
  json_deserialize (d_metadata C r) (sg_raw s).

(** ** src/metadata.rs 273-340 [SignedMetadataBuilder] *)
Record signed_builder := mkSB { sb_sigs : list (string * signature); sb_raw : json; sb_bytes : bytes }.

(** src/metadata.rs 298-307 [from_raw_metadata]. *)
Definition sb_from_raw (C : crypto) (r : role) (raw : json) : result signed_builder :=
  let? _ := json_deserialize (d_metadata C r) raw in
  let? bytes := canonicalize raw in
  Ok (mkSB [] raw bytes).
(** src/metadata.rs 291-294 [from_metadata]. *)
Definition sb_from_metadata (C : crypto) (r : role) (m : metadata_of r) : result signed_builder :=
  let? raw := json_serialize (e_metadata r m) in sb_from_raw C r raw.
(** src/metadata.rs 316-320 [sign]. *)
Definition sb_sign (b : signed_builder) (k : private_key) (rnd : N) : result signed_builder :=
  let? sig := sign k rnd (sb_bytes b) in
  Ok (mkSB (bt_insert (sig_keyid sig) sig (sb_sigs b)) (sb_raw b) (sb_bytes b)).
(** src/metadata.rs 324-337 [build]: the values of the map in the order of the ids. *)
Definition sb_build (b : signed_builder) : signed_metadata := mkSigned (map snd (sb_sigs b)) (sb_raw b).

(** ** Descriptions of signed metadata *)

(** The two implementations of [DataInterchange].
    src/interchange/cjson/mod.rs 186 and src/interchange/cjson/pretty.rs 12-15. *)
Inductive format := FJson | FPretty.
(** [D::to_writer] of a [SignedMetadata].
    src/interchange/cjson/mod.rs 280-288 and pretty.rs 120-129, as called in src/metadata.rs 985. *)
Definition write_signed (f : format) (s : signed_metadata) : result bytes :=
  let e := Some (e_signed (sg_sigs s) (sg_raw s)) in
  match f with FJson => json_to_writer e | FPretty => pretty_to_writer e end.

(** [impl Read for &[u8]] in one piece (the chunks do not matter, C68).
    As in src/metadata.rs 985-990. *)
Definition slice_stream (b : bytes) : stream := match b with "" => [Ready ""] | _ => [Ready b; Ready ""] end.

(** A map from algorithms to hashes, in the order of the algorithms.  Only these two
    come out of [calculate_hashes].
    For src/metadata.rs 1114-1138. *)
Definition by_algorithm (l : list (hash_alg * bytes)) : list (hash_alg * bytes) :=
  let pick a := match lookup a l with Some v => [(a, v)] | None => [] end in
  (pick Sha256 ++ pick Sha512)%list.

(** [MetadataDescription::from_reader] over a byte slice.
    src/metadata.rs 1114-1138, as called in src/metadata.rs 986-990. *)
Definition describe (C : crypto) (b : bytes) (version : N) (algs : list hash_alg) : result meta_desc :=
  let? d := meta_from_reader C (slice_stream b) version algs in
  Ok (mkMetaDesc (md_version d) (md_length d) (by_algorithm (md_hashes d))).

(** The common part of src/metadata.rs 984-990 and 1248-1254. *)
Definition describe_signed (C : crypto) (f : format) (s : signed_metadata) (algs : list hash_alg) : result meta_desc :=
  let? bytes := write_signed f s in
  let? version := parse_version_untrusted s in
  describe C bytes version algs.

(** [Duration::days].
    As in src/metadata.rs 522, 1003, 1206, 1768. *)
Definition days (n : Z) : Z := (n * 86400 * ticks_per_second)%Z.

(** src/metadata.rs 965-1023 [TimestampMetadataBuilder]. *)
Record timestamp_builder := mkTB { tb_version : N; tb_expires : Z; tb_snapshot : meta_desc }.
(** src/metadata.rs 1000-1006 [from_metadata_description]. *)
Definition tb_from_description (now : Z) (d : meta_desc) : timestamp_builder := mkTB 1 (now + days 1) d.
(** src/metadata.rs 976-993 [from_snapshot]. *)
Definition tb_from_snapshot (C : crypto) (f : format) (now : Z) (s : signed_metadata) (algs : list hash_alg)
  : result timestamp_builder :=
  let? d := describe_signed C f s algs in Ok (tb_from_description now d).
(** Calls of src/metadata.rs 1009-1018. *)
Inductive timestamp_op := ToVersion (v : N) | ToExpires (z : Z).
(** src/metadata.rs 1009-1018, one call. *)
Definition tb_apply (b : timestamp_builder) (o : timestamp_op) : timestamp_builder :=
  match o with
  | ToVersion v => mkTB v (tb_expires b) (tb_snapshot b)
  | ToExpires z => mkTB (tb_version b) z (tb_snapshot b)
  end.
(** src/metadata.rs 1021-1023 [build]. *)
Definition tb_build (b : timestamp_builder) : result timestamp_metadata :=
  timestamp_new (tb_version b) (tb_expires b) (tb_snapshot b).

(** src/metadata.rs 1192-1272 [SnapshotMetadataBuilder]; [meta] in the order of the
    names with ".json". *)
Record snapshot_builder := mkNB { nb_version : N; nb_expires : Z; nb_meta : list (string * meta_desc) }.
(** src/metadata.rs 1203-1209 [new]. *)
Definition nb_new (now : Z) : snapshot_builder := mkNB 1 (now + days 7) [].
(** [HashMap::insert], as in src/metadata.rs 1265. *)
Definition meta_insert (p : string) (d : meta_desc) (m : list (string * meta_desc)) : list (string * meta_desc) :=
  map snd (bt_insert (p ++ ".json") (p, d) (map (fun pd => (fst pd ++ ".json", pd)) m)).
(** src/metadata.rs 1260-1267 [insert_metadata_description]. *)
Definition nb_insert_description (b : snapshot_builder) (p : string) (d : meta_desc) : snapshot_builder :=
  mkNB (nb_version b) (nb_expires b) (meta_insert p d (nb_meta b)).
(** src/metadata.rs 1237-1257 [insert_metadata_with_path]. *)
Definition nb_insert_with_path (C : crypto) (f : format) (b : snapshot_builder) (p : string) (s : signed_metadata)
    (algs : list hash_alg) : result snapshot_builder :=
  let? d := describe_signed C f s algs in
  let? p := path_new p in
  Ok (nb_insert_description b p d).
(** src/metadata.rs 1224-1234: under the name of the role. *)
Definition nb_insert (C : crypto) (f : format) (b : snapshot_builder) (r : role) (s : signed_metadata)
    (algs : list hash_alg) : result snapshot_builder :=
  nb_insert_with_path C f b (role_name r) s algs.
(** Calls of src/metadata.rs 1212-1267. *)
Inductive snapshot_op :=
| NoVersion (v : N)
| NoExpires (z : Z)
| NoInsert (f : format) (r : role) (s : signed_metadata) (algs : list hash_alg)
| NoInsertPath (f : format) (p : string) (s : signed_metadata) (algs : list hash_alg)
| NoDescription (p : string) (d : meta_desc).
(** src/metadata.rs 1212-1267, one call. *)
Definition nb_apply (C : crypto) (b : snapshot_builder) (o : snapshot_op) : result snapshot_builder :=
  match o with
  | NoVersion v => Ok (mkNB v (nb_expires b) (nb_meta b))
  | NoExpires z => Ok (mkNB (nb_version b) z (nb_meta b))
  | NoInsert f r s algs => nb_insert C f b r s algs
  | NoInsertPath f p s algs => nb_insert_with_path C f b p s algs
  | NoDescription p d => Ok (nb_insert_description b p d)
  end.
(** A sequence of calls of src/metadata.rs 1212-1267. *)
Fixpoint nb_run (C : crypto) (b : snapshot_builder) (ops : list snapshot_op) : result snapshot_builder :=
  match ops with [] => Ok b | o :: ops => let? b := nb_apply C b o in nb_run C b ops end.
(** src/metadata.rs 1270-1272 [build]. *)
Definition nb_build (b : snapshot_builder) : result snapshot_metadata :=
  snapshot_new (nb_version b) (nb_expires b) (nb_meta b).
(** src/metadata.rs 1292-1300 [From<SnapshotMetadata>]. *)
Definition nb_from (m : snapshot_metadata) : snapshot_builder := mkNB (sm_version m) (sm_expires m) (sm_meta m).

(** src/metadata.rs 1753-1819 [TargetsMetadataBuilder]. *)
Record targets_builder := mkGB {
  gb_version : N; gb_expires : Z; gb_targets : list (string * target_desc); gb_delegations : option delegations }.
(** src/metadata.rs 1765-1772 [new]. *)
Definition gb_new (now : Z) : targets_builder := mkGB 1 (now + days 90) [] None.
(** src/metadata.rs 1801-1808 [insert_target_description]. *)
Definition gb_insert_description (b : targets_builder) (p : string) (d : target_desc) : targets_builder :=
  mkGB (gb_version b) (gb_expires b) (bt_insert p d (gb_targets b)) (gb_delegations b).
(** src/metadata.rs 1787-1798 [insert_target_from_reader]. *)
Definition gb_insert_from_reader (C : crypto) (b : targets_builder) (p : string) (rs : stream) (algs : list hash_alg)
  : result targets_builder :=
  let? d := target_from_reader C rs algs in
  Ok (gb_insert_description b p (mkTargetDesc (td_length d) (by_algorithm (td_hashes d)) (td_custom d))).
(** Calls of src/metadata.rs 1775-1814. *)
Inductive targets_op :=
| GoVersion (v : N)
| GoExpires (z : Z)
| GoReader (p : string) (rs : stream) (algs : list hash_alg)
| GoDescription (p : string) (d : target_desc)
| GoDelegations (d : delegations).
(** src/metadata.rs 1775-1814, one call. *)
Definition gb_apply (C : crypto) (b : targets_builder) (o : targets_op) : result targets_builder :=
  match o with
  | GoVersion v => Ok (mkGB v (gb_expires b) (gb_targets b) (gb_delegations b))
  | GoExpires z => Ok (mkGB (gb_version b) z (gb_targets b) (gb_delegations b))
  | GoReader p rs algs => gb_insert_from_reader C b p rs algs
  | GoDescription p d => Ok (gb_insert_description b p d)
  | GoDelegations d => Ok (mkGB (gb_version b) (gb_expires b) (gb_targets b) (Some d))
  end.
(** A sequence of calls of src/metadata.rs 1775-1814. *)
Fixpoint gb_run (C : crypto) (b : targets_builder) (ops : list targets_op) : result targets_builder :=
  match ops with [] => Ok b | o :: ops => let? b := gb_apply C b o in gb_run C b ops end.
(** src/metadata.rs 1817-1819 [build]. *)
Definition gb_build (b : targets_builder) : result targets_metadata :=
  targets_new (gb_version b) (gb_expires b) (gb_targets b) (gb_delegations b).

(** ** src/metadata.rs 497-656 [RootMetadataBuilder] *)
Record role_builder := mkRB { ro_threshold : N; ro_ids : list string }.
(** src/metadata.rs 497-510 [struct RootMetadataBuilder], the four roles as a function. *)
Record root_builder := mkRoot' {
  rb_version : N; rb_expires : Z; rb_consistent : bool; rb_keys : list (string * public_key);
  rb_roles : role -> role_builder
}.
(** Assignment to a field of src/metadata.rs 497-510. *)
Definition set_role (f : role -> role_builder) (r : role) (b : role_builder) : role -> role_builder :=
  fun r' => if role_eqb r' r then b else f r'.
(** Calls of src/metadata.rs 537-608. *)
Inductive root_op :=
| RoVersion (v : N)
| RoExpires (z : Z)
| RoConsistent (b : bool)
| RoThreshold (r : role) (t : N)      (* root_threshold, snapshot_threshold, ... *)
| RoKey (r : role) (k : public_key).  (* root_key, snapshot_key, ... *)
(** src/metadata.rs 519-534 [new]. *)
Definition rb_new (now : Z) : root_builder := mkRoot' 1 (now + days 365) false [] (fun _ => mkRB 1 []).
(** src/metadata.rs 537-608, one call. *)
Definition rb_apply (b : root_builder) (o : root_op) : root_builder :=
  match o with
  | RoVersion v => mkRoot' v (rb_expires b) (rb_consistent b) (rb_keys b) (rb_roles b)
  | RoExpires z => mkRoot' (rb_version b) z (rb_consistent b) (rb_keys b) (rb_roles b)
  | RoConsistent c => mkRoot' (rb_version b) (rb_expires b) c (rb_keys b) (rb_roles b)
  | RoThreshold r t =>
      mkRoot' (rb_version b) (rb_expires b) (rb_consistent b) (rb_keys b)
        (set_role (rb_roles b) r (mkRB t (ro_ids (rb_roles b r))))
  | RoKey r k =>
      mkRoot' (rb_version b) (rb_expires b) (rb_consistent b) (bt_insert (pk_id k) k (rb_keys b))
        (set_role (rb_roles b) r (mkRB (ro_threshold (rb_roles b r)) (ro_ids (rb_roles b r) ++ [pk_id k])))
  end.
(** src/metadata.rs 611-622 [build]. *)
Definition rb_build (b : root_builder) : result root_metadata :=
  let def r := role_def_new (ro_threshold (rb_roles b r)) (ro_ids (rb_roles b r)) in
  let? root := def Root in
  let? snapshot := def Snapshot in
  let? targets := def Targets in
  let? timestamp := def Timestamp in
  root_new (rb_version b) (rb_expires b) (rb_consistent b) (rb_keys b) root snapshot targets timestamp.
(** src/metadata.rs 639-656 [From<RootMetadata>]. *)
Definition rb_from (m : root_metadata) : root_builder :=
  let of d := mkRB (rd_threshold d) (rd_key_ids d) in
  mkRoot' (rm_version m) (rm_expires m) (rm_consistent m) (rm_keys m)
    (fun r => match r with
              | Root => of (rm_root m) | Snapshot => of (rm_snapshot m)
              | Targets => of (rm_targets m) | Timestamp => of (rm_timestamp m)
              end).

(** * The JSON form of the metadata

    src/interchange/cjson/shims.rs and the constructors of src/metadata.rs it calls.
    Maps are kept in key order and sets as increasing lists; where the Rust value is
    a [HashMap] or [HashSet] that order means nothing. *)
From Coq Require Import String Ascii List NArith ZArith Bool.
From Verif Require Import Base JsonValue JsonText Metadata Paths Codec Dates Serde Keys.
Import ListNotations.
Open Scope string_scope.

(** ** Constructors of src/metadata.rs *)

(** src/metadata.rs 818-839 [RoleDefinition::new]. *)
Definition role_def_new (threshold : N) (ids : list string) : result role_def :=
  if (threshold <? 1)%N then Err IllegalArgument
  else match ids with
  | [] => Err IllegalArgument
  | _ => if (N.of_nat (length ids) <? threshold)%N then Err IllegalArgument
         else Ok (mkRoleDef threshold ids)
  end.

(** src/metadata.rs 673-700 [RootMetadata::new]. *)
Definition root_new (version : N) (expires : Z) (consistent : bool) (keys : list (string * public_key))
    (root snapshot targets timestamp : role_def) : result root_metadata :=
  if (version <? 1)%N then Err IllegalArgument
  else Ok (mkRoot version expires consistent keys root snapshot targets timestamp).

(** src/metadata.rs 1047-1064 [TimestampMetadata::new]. *)
Definition timestamp_new (version : N) (expires : Z) (d : meta_desc) : result timestamp_metadata :=
  if (version <? 1)%N then Err IllegalArgument else Ok (mkTimestamp version expires d).

(** src/metadata.rs 1141-1164 [MetadataDescription::new]. *)
Definition meta_desc_new (version len : N) (hashes : list (hash_alg * bytes)) : result meta_desc :=
  if (version <? 1)%N then Err IllegalArgument
  else match hashes with
  | [] => Err IllegalArgument
  | _ => Ok (mkMetaDesc version len hashes)
  end.

(** src/metadata.rs 1312-1329 [SnapshotMetadata::new]. *)
Definition snapshot_new (version : N) (expires : Z) (meta : list (string * meta_desc)) : result snapshot_metadata :=
  if (version <? 1)%N then Err IllegalArgument else Ok (mkSnapshot version expires meta).

(** src/metadata.rs 1539-1555 [TargetDescription::new]. *)
Definition target_desc_new (len : N) (hashes : list (hash_alg * bytes)) (custom : option (list (string * json)))
  : result target_desc :=
  match hashes with
  | [] => Err IllegalArgument
  | _ => Ok (mkTargetDesc len hashes custom)
  end.

(** src/metadata.rs 1688-1707 [TargetsMetadata::new]. *)
Definition targets_new (version : N) (expires : Z) (targets : list (string * target_desc))
    (dgs : option delegations) : result targets_metadata :=
  if (version <? 1)%N then Err IllegalArgument else Ok (mkTargets version expires targets dgs).

(** src/metadata.rs 1850-1873 [Delegations::new]. *)
Definition delegations_new (keys : list (string * public_key)) (roles : list delegation) : result delegations :=
  match keys, roles with
  | [], _ => Err IllegalArgument
  | _, [] => Err IllegalArgument
  | _, _ => if no_repeats (map dg_role roles) then Ok (mkDelegations keys roles) else Err IllegalArgument
  end.

(** src/metadata.rs 1915-1947 [Delegation::new]; the sets are lists without
    repetitions. *)
Definition delegation_new (role : string) (terminating : bool) (threshold : N) (ids paths : list string)
  : result delegation :=
  match ids, paths with
  | [], _ => Err IllegalArgument
  | _, [] => Err IllegalArgument
  | _, _ => if (threshold <? 1)%N then Err IllegalArgument
            else if (N.of_nat (length ids) <? threshold)%N then Err IllegalArgument
            else Ok (mkDelegation role terminating threshold ids paths)
  end.

(** ** Decoding *)

(** src/metadata.rs 148-163, derived [Deserialize] of [Role]. *)
Definition role_of_name (s : string) : option role :=
  if String.eqb s "root" then Some Root
  else if String.eqb s "snapshot" then Some Snapshot
  else if String.eqb s "targets" then Some Targets
  else if String.eqb s "timestamp" then Some Timestamp
  else None.
(** The derived [Deserialize] of [Role], src/metadata.rs 148-163. *)
Definition d_role : decoder role := d_enum role_of_name (fun _ => None).

(** The derived [PartialEq] of [Role], src/metadata.rs 148-163. *)
Definition role_eqb (a b : role) : bool :=
  match a, b with
  | Root, Root | Snapshot, Snapshot | Targets, Targets | Timestamp, Timestamp => true
  | _, _ => false
  end.

(** shims.rs 11 [SPEC_VERSION]. *)
Definition spec_version : string := "1.0".

(** src/metadata.rs 957-962 and 1472-1477: [MetadataPath] and [VirtualTargetPath]
    check the path. *)
Definition path_of_string (s : string) : option string := get_ok (path_new s).
(** The [Deserialize] of paths, src/metadata.rs 957-962 and 1472-1477. *)
Definition d_path : decoder string := fun j => have s := d_str j in path_of_string s.

(** src/crypto.rs 864-865 [HashValue], 226-227 [SignatureValue] with
    src/format_hex.rs 12-20. *)
Definition d_hex : decoder bytes := fun j => have s := d_str j in hex_decode s.

(** src/crypto.rs 836-846, derived [Deserialize] of [HashAlgorithm], as a member
    name: only the variants without data. *)
Definition hash_alg_of_name (s : string) : option hash_alg :=
  if String.eqb s "sha256" then Some Sha256
  else if String.eqb s "sha512" then Some Sha512
  else None.

(** [BTreeMap<HashAlgorithm, HashValue>]: the last entry for each algorithm, in the
    derived order of [HashAlgorithm].
    As in src/interchange/cjson/shims.rs 451-497. *)
Definition hash_map (l : list (hash_alg * bytes)) : list (hash_alg * bytes) :=
  let pick a := match lookup a (rev l) with Some v => [(a, v)] | None => [] end in
  (pick Sha256 ++ pick Sha512)%list.
(** The field [hashes], src/interchange/cjson/shims.rs 451-497. *)
Definition d_hashes : decoder (list (hash_alg * bytes)) :=
  fun j => have es := d_entries hash_alg_of_name d_hex j in Some (hash_map es).

(** shims.rs 482-497 [MetadataDescription] and src/metadata.rs 1182-1190; [usize] is
    64 bits. *)
Definition d_meta_desc : decoder meta_desc :=
  fun j => match d_fields ["version"; "length"; "hashes"] false 0 j with
  | Some [v; l; h] =>
      have v := d_required (d_uint u32_max) v in
      have l := d_required (d_uint u64_max) l in
      have h := d_required d_hashes h in
      get_ok (meta_desc_new v l h)
  | _ => None
  end.

(** shims.rs 450-480 [TargetDescription]; the values of [custom] are [Value]s. *)
Definition d_custom : decoder (list (string * json)) := d_map Some (fun j => Some (to_value j)).
(** src/interchange/cjson/shims.rs 451-480 [TargetDescription], with src/metadata.rs 1668-1675. *)
Definition d_target_desc : decoder target_desc :=
  fun j => match d_fields ["length"; "hashes"; "custom"] false 1 j with
  | Some [l; h; c] =>
      have l := d_required (d_uint u64_max) l in
      have h := d_required d_hashes h in
      have c := d_optional d_custom c in
      get_ok (target_desc_new l h c)
  | _ => None
  end.

(** shims.rs 110-152 [RoleDefinition]. *)
Definition d_role_def : decoder role_def :=
  fun j => match d_fields ["threshold"; "keyids"] false 0 j with
  | Some [t; k] =>
      have t := d_required (d_uint u32_max) t in
      have k := d_required (d_vec d_key_id) k in
      match k with
      | [] => None
      | _ => if no_repeats k then get_ok (role_def_new t k) else None
      end
  | _ => None
  end.

(** shims.rs 102-108 [RoleDefinitions]: root, snapshot, targets, timestamp. *)
Definition d_role_defs : decoder (role_def * role_def * role_def * role_def) :=
  fun j => match d_fields ["root"; "snapshot"; "targets"; "timestamp"] false 0 j with
  | Some [r; s; t; m] =>
      have r := d_required d_role_def r in
      have s := d_required d_role_def s in
      have t := d_required d_role_def t in
      have m := d_required d_role_def m in
      Some (r, s, t, m)
  | _ => None
  end.

(** A set, as an increasing list.
    As in src/metadata.rs 1970 and src/interchange/cjson/shims.rs 403-424. *)
Definition set_of (l : list string) : list string := map fst (btree (map (fun s => (s, tt)) l)).

(** The label and format checks at the beginning of every [try_into].
    As in src/interchange/cjson/shims.rs 66-78. *)
Definition labelled (r : role) (t : role) (spec : string) : bool :=
  role_eqb t r && String.eqb spec spec_version.

Section Keys.
  (** The hash function the key ids are made with. *)
  Variable C : crypto.

  (** shims.rs 30-100 [RootMetadata]. *)
  Definition d_root : decoder root_metadata :=
    fun j => match d_fields ["_type"; "spec_version"; "version"; "consistent_snapshot"; "expires"; "keys"; "roles"]
                      false 0 j with
    | Some [t; sv; v; c; e; k; r] =>
        have t := d_required d_role t in
        have sv := d_required d_str sv in
        have v := d_required (d_uint u32_max) v in
        have c := d_required d_bool c in
        have e := d_required d_str e in
        have k := d_required (d_map_unique key_id_of_string (d_key C)) k in
        have rs := d_required d_role_defs r in
        let '(root, snapshot, targets, timestamp) := rs in
        if labelled Root t sv then
          have e := get_ok (parse_datetime e) in
          get_ok (root_new v e c (filter (fun ik => String.eqb (fst ik) (pk_id (snd ik))) k)
                    root snapshot targets timestamp)
        else None
    | _ => None
    end.

  (** shims.rs 369-424 [Delegation]. *)
  Definition d_delegation : decoder delegation :=
    fun j => match d_fields ["role"; "terminating"; "threshold"; "keyids"; "paths"] false 0 j with
    | Some [r; tm; th; k; p] =>
        have r := d_required d_path r in
        have tm := d_required d_bool tm in
        have th := d_required (d_uint u32_max) th in
        have k := d_required (d_vec d_key_id) k in
        have p := d_required (d_vec d_path) p in
        if no_repeats p && no_repeats k then get_ok (delegation_new r tm th (set_of k) (set_of p)) else None
    | _ => None
    end.

  (** shims.rs 426-448 [Delegations].  Unlike the keys of a root, these may be listed
      under any id. *)
  Definition d_delegations : decoder delegations :=
    fun j => match d_fields ["keys"; "roles"] false 0 j with
    | Some [k; r] =>
        have k := d_required (d_map_unique key_id_of_string (d_key C)) k in
        have r := d_required (d_vec d_delegation) r in
        get_ok (delegations_new k r)
    | _ => None
    end.

  (** shims.rs 271-321 [TargetsMetadata]. *)
  Definition d_targets : decoder targets_metadata :=
    fun j => match d_fields ["_type"; "spec_version"; "version"; "expires"; "targets"; "delegations"] false 0 j with
    | Some [t; sv; v; e; ts; ds] =>
        have t := d_required d_role t in
        have sv := d_required d_str sv in
        have v := d_required (d_uint u32_max) v in
        have e := d_required d_str e in
        have ts := d_required (d_map path_of_string d_target_desc) ts in
        have ds := d_optional d_delegations ds in
        if labelled Targets t sv then
          have e := get_ok (parse_datetime e) in get_ok (targets_new v e ts ds)
        else None
    | _ => None
    end.
End Keys.

(** shims.rs 154-205 [TimestampMetadata], [TimestampMeta]. *)
Definition d_timestamp_meta : decoder meta_desc :=
  fun j => match d_fields ["snapshot.json"] true 0 j with
  | Some [s] => d_required d_meta_desc s
  | _ => None
  end.
(** src/interchange/cjson/shims.rs 155-205, with src/metadata.rs 1095-1101. *)
Definition d_timestamp : decoder timestamp_metadata :=
  fun j => match d_fields ["_type"; "spec_version"; "version"; "expires"; "meta"] false 0 j with
  | Some [t; sv; v; e; m] =>
      have t := d_required d_role t in
      have sv := d_required d_str sv in
      have v := d_required (d_uint u32_max) v in
      have e := d_required d_str e in
      have m := d_required d_timestamp_meta m in
      if labelled Timestamp t sv then
        have e := get_ok (parse_datetime e) in get_ok (timestamp_new v e m)
      else None
  | _ => None
  end.

(** [p.ends_with(".json")] and [split_at] in shims.rs 254-261. *)
Fixpoint strip_json (s : string) : option string :=
  if String.eqb s ".json" then Some ""
  else match s with
  | EmptyString => None
  | String c r => have t := strip_json r in Some (String c t)
  end.

(** shims.rs 207-269 [SnapshotMetadata]; the resulting map stays in the order of the
    names with ".json". *)
Definition d_snapshot : decoder snapshot_metadata :=
  fun j => match d_fields ["_type"; "spec_version"; "version"; "expires"; "meta"] false 0 j with
  | Some [t; sv; v; e; m] =>
      have t := d_required d_role t in
      have sv := d_required d_str sv in
      have v := d_required (d_uint u32_max) v in
      have e := d_required d_str e in
      have m := d_required (d_map_unique Some d_meta_desc) m in
      if labelled Snapshot t sv then
        have e := get_ok (parse_datetime e) in
        have m := all_some (fun pd => have p := strip_json (fst pd) in
                                      have p := path_of_string p in Some (p, snd pd)) m in
        get_ok (snapshot_new v e m)
      else None
  | _ => None
  end.

(** [Deserialize] of the four metadata types: src/metadata.rs 802-809, 1096-1103,
    1361-1368, 1744-1751. *)
Definition d_metadata (C : crypto) (r : role) : decoder (metadata_of r) :=
  match r with
  | Root => d_root C
  | Snapshot => d_snapshot
  | Targets => d_targets C
  | Timestamp => d_timestamp
  end.

(** src/crypto.rs 814-821, derived [Deserialize] of [Signature]. *)
Definition d_signature : decoder signature :=
  fun j => match d_fields ["keyid"; "sig"] false 0 j with
  | Some [k; s] =>
      have k := d_required d_key_id k in
      have s := d_required d_hex s in
      Some (mkSig k s)
  | _ => None
  end.

(** src/metadata.rs 341-351, derived [Deserialize] of [SignedMetadata]. *)
Definition d_signed : decoder (list signature * json) :=
  fun j => match d_fields ["signatures"; "signed"] false 0 j with
  | Some [s; m] =>
      have s := d_required (d_vec d_signature) s in
      have m := d_required (fun j => Some (to_value j)) m in
      Some (s, m)
  | _ => None
  end.

(** ** Encoding: the derived [Serialize]s, in declaration order *)

(** [Serialize] of [u32] and [u64] in src/interchange/cjson/shims.rs 30-497. *)
Definition e_uint (n : N) : json := JInt (Z.of_N n).
(** [Serialize] of a [Vec] of strings in src/interchange/cjson/shims.rs 30-497. *)
Definition e_strings (l : list string) : json := JArr (map JStr l).

(** src/crypto.rs 836-846: an unknown algorithm cannot be a member name ("key must be
    a string"). *)
Definition hash_alg_name (a : hash_alg) : option string :=
  match a with Sha256 => Some "sha256" | Sha512 => Some "sha512" | HashUnknown _ => None end.
(** The field [hashes], src/interchange/cjson/shims.rs 451-497, with src/format_hex.rs 5-10. *)
Definition e_hashes (l : list (hash_alg * bytes)) : option json :=
  have m := all_some (fun ah => have n := hash_alg_name (fst ah) in Some (n, JStr (hex_encode (snd ah)))) l in
  Some (JObj m).

(** src/metadata.rs 1105-1110, derived [Serialize] of [MetadataDescription]. *)
Definition e_meta_desc (d : meta_desc) : option json :=
  have h := e_hashes (md_hashes d) in
  Some (JObj [("version", e_uint (md_version d)); ("length", e_uint (md_length d)); ("hashes", h)]).

(** shims.rs 458-471. *)
Definition e_target_desc (d : target_desc) : option json :=
  have h := e_hashes (td_hashes d) in
  Some (JObj ([("length", e_uint (td_length d)); ("hashes", h)]
              ++ opt_member "custom" (fun c => JObj c) (td_custom d))%list).

(** shims.rs 117-125. *)
Definition e_role_def (d : role_def) : json :=
  JObj [("threshold", e_uint (rd_threshold d)); ("keyids", e_strings (rd_key_ids d))].

(** A map: [BTreeMap]s and [HashMap]s become objects.
    As in src/interchange/cjson/shims.rs 30-497. *)
Definition e_map {A} (e : A -> option json) (m : list (string * A)) : option json :=
  have m := all_some (fun nv => have v := e (snd nv) in Some (fst nv, v)) m in Some (JObj m).

(** shims.rs 43-63. *)
Definition e_root (m : root_metadata) : option json :=
  have k := e_map e_key (rm_keys m) in
  Some (JObj [("_type", JStr (role_name Root)); ("spec_version", JStr spec_version);
              ("version", e_uint (rm_version m)); ("consistent_snapshot", JBool (rm_consistent m));
              ("expires", JStr (format_datetime (rm_expires m))); ("keys", k);
              ("roles", JObj [("root", e_role_def (rm_root m)); ("snapshot", e_role_def (rm_snapshot m));
                              ("targets", e_role_def (rm_targets m));
                              ("timestamp", e_role_def (rm_timestamp m))])]).

(** shims.rs 171-182. *)
Definition e_timestamp (m : timestamp_metadata) : option json :=
  have d := e_meta_desc (tm_snapshot m) in
  Some (JObj [("_type", JStr (role_name Timestamp)); ("spec_version", JStr spec_version);
              ("version", e_uint (tm_version m)); ("expires", JStr (format_datetime (tm_expires m)));
              ("meta", JObj [("snapshot.json", d)])]).

(** shims.rs 218-231. *)
Definition e_snapshot (m : snapshot_metadata) : option json :=
  have d := e_map e_meta_desc (map (fun pd => (fst pd ++ ".json", snd pd)) (sm_meta m)) in
  Some (JObj [("_type", JStr (role_name Snapshot)); ("spec_version", JStr spec_version);
              ("version", e_uint (sm_version m)); ("expires", JStr (format_datetime (sm_expires m)));
              ("meta", d)]).

(** shims.rs 379-401: paths and ids sorted. *)
Definition e_delegation (d : delegation) : json :=
  JObj [("role", JStr (dg_role d)); ("terminating", JBool (dg_terminating d));
        ("threshold", e_uint (dg_threshold d)); ("keyids", e_strings (set_of (dg_key_ids d)));
        ("paths", e_strings (set_of (dg_paths d)))].

(** shims.rs 433-443. *)
Definition e_delegations (d : delegations) : option json :=
  have k := e_map e_key (dgs_keys d) in
  Some (JObj [("keys", k); ("roles", JArr (map e_delegation (dgs_roles d)))]).

(** shims.rs 283-297. *)
Definition e_targets (m : targets_metadata) : option json :=
  have ts := e_map e_target_desc (tg_targets m) in
  have ds := match tg_delegations m with
             | None => Some None
             | Some d => have j := e_delegations d in Some (Some j)
             end in
  Some (JObj ([("_type", JStr (role_name Targets)); ("spec_version", JStr spec_version);
               ("version", e_uint (tg_version m)); ("expires", JStr (format_datetime (tg_expires m)));
               ("targets", ts)] ++ opt_member "delegations" (fun j => j) ds)%list).

(** [Serialize] of the four metadata types: src/metadata.rs 790-800, 1084-1094,
    1349-1359, 1732-1742. *)
Definition e_metadata (r : role) : metadata_of r -> option json :=
  match r with
  | Root => e_root
  | Snapshot => e_snapshot
  | Targets => e_targets
  | Timestamp => e_timestamp
  end.

(** src/crypto.rs 814-821 and src/metadata.rs 341-351, derived [Serialize]s. *)
Definition e_signature (s : signature) : json :=
  JObj [("keyid", JStr (sig_keyid s)); ("sig", JStr (hex_encode (sig_value s)))].
(** [Serialize] of [SignedMetadata], src/metadata.rs 341-351. *)
Definition e_signed (sigs : list signature) (raw : json) : json :=
  JObj [("signatures", JArr (map e_signature sigs)); ("signed", raw)].

(** ** src/interchange/cjson/mod.rs 188-316, [impl DataInterchange for Json] *)

(** [D::deserialize] and [D::from_slice], src/interchange/cjson/mod.rs 228-234 and 310-315. *)
Definition decoded {A} (o : option A) : result A := match o with Some a => Ok a | None => Err Encoding end.

(** [Json::deserialize] (228-233). *)
Definition json_deserialize {A} (d : decoder A) (raw : json) : result A := decoded (d raw).

(** [Json::from_slice] (310-315): serde_json reads the text straight into the type. *)
Definition json_from_slice {A} (d : decoder A) (s : bytes) : result A :=
  let? j := parse s in decoded (d j).

(** [Json::serialize] (252-257): to a [Value]. *)
Definition json_serialize (e : option json) : result json :=
  match e with Some j => Ok (to_value j) | None => Err Encoding end.

(** [Json::to_writer] (280-287): canonical bytes.  Writing to a [Vec] cannot fail. *)
Definition json_to_writer (e : option json) : result bytes :=
  let? j := json_serialize e in canonicalize j.

(** src/interchange/cjson/pretty.rs 120-129 [JsonPretty::to_writer]; the rest of
    [JsonPretty] is [Json]. *)
Definition pretty_to_writer (e : option json) : result bytes :=
  let? j := json_serialize e in Ok (pretty 0 j).

(** src/interchange/cjson/mod.rs 186-316 [impl DataInterchange for Json]. *)
Definition json_interchange (C : crypto) : interchange := {|
  ic_raw := json;
  ic_envelope := json_from_slice d_signed;
  ic_canonicalize := canonicalize;
  ic_from_slice r := json_from_slice (d_metadata C r);
  ic_deserialize r := json_deserialize (d_metadata C r);
  ic_extension := "json"
|}.

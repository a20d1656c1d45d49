(** * Where the names in the requests of a client come from *)
From Coq Require Import String List NArith Bool.
From Verif Require Import Base Metadata Paths SpecPaths Tuf SpecTuf Reader Repo Client SpecReader SpecClient.
Import ListNotations.
Open Scope string_scope.
Open Scope list_scope.
Open Scope N_scope.

(** Targets metadata trusted at some time during the events has a delegation to [role]. *)
Definition delegated_to (tr : list event) (role : string) : Prop :=
  exists t tg ds d, In (EvPut t) tr /\
    (t_targets t = Some tg \/ exists r, lookup r (t_delegations t) = Some tg) /\
    tg_delegations tg = Some ds /\ In d (dgs_roles ds) /\ dg_role d = role.

(** [t] describes the metadata [path] as [d]. *)
Definition listed_as (t : tuf) (tr : list event) (path : string) (d : meta_desc) : Prop :=
  (path = "snapshot" /\ exists ts, t_timestamp t = Some ts /\ d = tm_snapshot ts) \/
  ((path = "targets" \/ delegated_to tr path) /\
   exists sn, t_snapshot t = Some sn /\ lookup path (sm_meta sn) = Some d).

(** What may be asked for after the events: the path, version, limit and digest. *)
Inductive asks (cfg : config) (c : ctor) (tr : list event)
  : string -> meta_version -> option N -> option (hash_alg * bytes) -> Prop :=
| asks_first_root : trusted_at tr = None -> c = FromLocal -> asks cfg c tr "root" (VNumber 1) (cf_max_root cfg) None
| asks_given_root v th keys : trusted_at tr = None -> c = FromKeys v th keys -> asks cfg c tr "root" v (cf_max_root cfg) None
| asks_next_root t : trusted_at tr = Some t ->
    asks cfg c tr "root" (VNumber (rm_version (t_root t) + 1)) (cf_max_root cfg) None
| asks_timestamp t : trusted_at tr = Some t -> asks cfg c tr "timestamp" VNone (cf_max_timestamp cfg) None
| asks_described t path d v alg value :
    trusted_at tr = Some t -> listed_as t tr path d ->
    (v = VNone \/ rm_consistent (t_root t) = true /\ v = VNumber (md_version d)) ->
    preferred (md_hashes d) alg value ->
    asks cfg c tr path v (Some (md_length d)) (Some (alg, value)).

(** Where metadata may be stored after the events. *)
Inductive keeps (tr : list event) : string -> meta_version -> Prop :=
| keeps_plain path : In path ["root"; "timestamp"; "snapshot"; "targets"] -> keeps tr path VNone
| keeps_delegated path : delegated_to tr path -> keeps tr path VNone
| keeps_root t : trusted_at tr = Some t -> keeps tr "root" (VNumber (rm_version (t_root t))).

(** The path of the target in the call, if any. *)
Definition wanted (k : call) : option string :=
  match k with
  | CallTarget p | CallTargetToWriter p => Some p
  | CallUpdate | CallDescription _ => None
  end.

(** Below any directory, wherever the components lead. *)
Definition strictly_below (components : list string) : Prop :=
  forall dir, exists sub, sub <> [] /\ walk dir components = sub ++ dir.

(** The files of an event, in a repository of JSON files. *)
Definition file_inside (e : event) : Prop :=
  match e with
  | EvFetchMeta _ path v _ _ _ | EvStoreMeta path v _ _ => strictly_below (metadata_components "json" path v)
  | EvFetchTarget path _ _ | EvStoreTarget path _ _ => strictly_below (target_components path)
  | EvWrite _ _ | EvNow _ | EvPut _ => True
  end.

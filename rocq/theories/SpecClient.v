(** * Specification of the client *)
From Coq Require Import String List NArith ZArith Bool.
From Verif Require Import Base Metadata Paths Tuf SpecTuf Reader SpecReader Repo Client.
Import ListNotations.
Open Scope string_scope.
Open Scope list_scope.
Open Scope N_scope.

(** The trusted metadata after some events, if there is a client yet: the last value
    assigned. *)
Definition trusted_at (tr : list event) : option tuf :=
  fold_left (fun o e => match e with EvPut t => Some t | _ => o end) tr None.

(** A repository answered with these bytes. *)
Definition answered (ans : result stream) (raw : bytes) : Prop :=
  exists rs, ans = Ok rs /\ contains rs raw None.

(** The hash a description is checked by: SHA-512 if listed, otherwise SHA-256. *)
Definition preferred (hashes : list (hash_alg * bytes)) (alg : hash_alg) (value : bytes) : Prop :=
  (alg = Sha512 /\ lookup Sha512 hashes = Some value) \/
  (alg = Sha256 /\ lookup Sha512 hashes = None /\ lookup Sha256 hashes = Some value).

(** A document is as described. *)
Definition fits_length (max : option N) (raw : bytes) : Prop :=
  forall m, max = Some m -> length_ok m raw.
Definition as_described (C : crypto) (d : meta_desc) (raw : bytes) : Prop :=
  length_ok (md_length d) raw /\
  exists alg value, preferred (md_hashes d) alg value /\ ring_digest C alg raw = value.

(** The document of an update. *)
Definition op_raw (o : op) : bytes :=
  match o with
  | OpRoot raw | OpTimestamp _ raw | OpSnapshot _ raw | OpTargets _ raw | OpDelegation _ _ _ raw => raw
  end.

(** The description of the document that the trusted metadata contain: what the
    timestamp says of the snapshot and the snapshot of the rest. *)
Definition described (t : tuf) (o : op) (d : meta_desc) : Prop :=
  match o with
  | OpRoot _ | OpTimestamp _ _ => False
  | OpSnapshot _ _ => exists ts, t_timestamp t = Some ts /\ d = tm_snapshot ts
  | OpTargets _ _ => exists s, t_snapshot t = Some s /\ lookup "targets" (sm_meta s) = Some d
  | OpDelegation _ _ r _ => exists s, t_snapshot t = Some s /\ lookup r (sm_meta s) = Some d
  end.

(** The limits an update of the trusted metadata [t] has to obey. *)
Definition within_limits (C : crypto) (cfg : config) (t : tuf) (o : op) : Prop :=
  match o with
  | OpRoot raw => fits_length (cf_max_root cfg) raw
  | OpTimestamp _ raw => fits_length (cf_max_timestamp cfg) raw
  | _ => exists d, described t o d /\ as_described C d (op_raw o)
  end.

(** Where the document of an update is asked for. *)
Definition asked_for (t : tuf) (o : op) (path : string) (v : meta_version) : Prop :=
  match o with
  | OpRoot _ => path = "root" /\ v = VNumber (rm_version (t_root t) + 1)
  | OpTimestamp _ _ => path = "timestamp" /\ v = VNone
  | OpSnapshot _ _ => path = "snapshot" /\
      exists d, described t o d /\ (v = VNone \/ rm_consistent (t_root t) = true /\ v = VNumber (md_version d))
  | OpTargets _ _ => path = "targets" /\
      exists d, described t o d /\ (v = VNone \/ rm_consistent (t_root t) = true /\ v = VNumber (md_version d))
  | OpDelegation _ _ r _ => path = r /\
      exists d, described t o d /\ (v = VNone \/ rm_consistent (t_root t) = true /\ v = VNumber (md_version d))
  end.

(** Where it is stored, [t'] being the new trusted metadata. *)
Definition kept_at (t' : tuf) (o : op) (path : string) (v : meta_version) : Prop :=
  match o with
  | OpRoot _ => path = "root" /\ (v = VNone \/ v = VNumber (rm_version (t_root t')))
  | OpTimestamp _ _ => path = "timestamp" /\ v = VNone
  | OpSnapshot _ _ => path = "snapshot" /\ v = VNone
  | OpTargets _ _ => path = "targets" /\ v = VNone
  | OpDelegation _ _ r _ => path = r /\ v = VNone
  end.

(** The events ending in a fetch that delivered [raw], then at most a look at the clock. *)
Definition just_fetched (tr : list event) (path : string) (v : meta_version) (raw : bytes) : Prop :=
  exists tr1 s max hash ans rest,
    tr = tr1 ++ EvFetchMeta s path v max hash ans :: rest /\ answered ans raw /\
    (rest = [] \/ exists c, rest = [EvNow c]).

(** The last of the events is a look at the clock. *)
Definition just_read (tr : list event) (c : clock) : Prop := exists tr1, tr = tr1 ++ [EvNow c].

(** The time by which the document is judged. *)
Definition op_clock (o : op) : option clock :=
  match o with
  | OpRoot _ => None
  | OpTimestamp c _ | OpSnapshot c _ | OpTargets c _ | OpDelegation c _ _ _ => Some c
  end.

(** The first trusted metadata: a root that verified on its own or with the given keys. *)
Definition first_trust (E : env) (c : ctor) (raw : bytes) (t : tuf) : Prop :=
  match c with
  | FromLocal => from_trusted_root E raw = Ok t
  | FromRoot raw' => raw = raw' /\ from_trusted_root E raw = Ok t
  | FromKeys _ th keys => from_root_with_trusted_keys E raw th keys = Ok t
  end.

Definition is_store (e : event) : Prop := match e with EvStoreMeta _ _ _ _ => True | _ => False end.

(** How the trusted metadata may change after events [tr]: by verifying the document
    [raw], which has just been fetched within the limits, at the current time; [res] is
    the verdict, [place]
    tells where the document may be stored. *)
Inductive changes (E : env) (cfg : config) (c : ctor) (tr : list event)
  : bytes -> tuf -> result bool -> (string -> meta_version -> Prop) -> Prop :=
| first_change raw t' :
    trusted_at tr = None -> first_trust E c raw t' ->
    match c with
    | FromLocal => just_fetched tr "root" (VNumber 1) raw /\ fits_length (cf_max_root cfg) raw
    | FromRoot _ => tr = []
    | FromKeys v _ _ => just_fetched tr "root" v raw /\ fits_length (cf_max_root cfg) raw
    end ->
    changes E cfg c tr raw t' (Ok true) (fun p v => p = "root" /\ v = VNumber (rm_version (t_root t')))
| next_change t o t' res path v :
    trusted_at tr = Some t -> step E t o = (t', res) ->
    within_limits (e_crypto E) cfg t o -> asked_for t o path v -> just_fetched tr path v (op_raw o) ->
    (forall cl, op_clock o = Some cl -> just_read tr cl) ->
    changes E cfg c tr (op_raw o) t' res (kept_at t' o).

(** Everything that can be observed of a client so far, also while it is being
    constructed or if that failed. *)
Inductive history (E : env) (cfg : config) (fuel : nat) (c : ctor) : list event -> Prop :=
| history_new tr q : exec (construct E cfg fuel c) tr q -> history E cfg fuel c tr
| history_call tr t k tr' q :
    life E cfg fuel c tr t -> exec (call_prog E cfg fuel t k) tr' q -> history E cfg fuel c (tr ++ tr').

(** The requests for root metadata among some events. *)
Fixpoint root_requests (tr : list event) : list meta_version :=
  match tr with
  | [] => []
  | EvFetchMeta _ path v _ _ _ :: rest =>
      if string_dec path "root" then v :: root_requests rest else root_requests rest
  | _ :: rest => root_requests rest
  end.

(** [first], [first + 1], ..., [n] numbers. *)
Fixpoint consecutive (first : N) (n : nat) : list meta_version :=
  match n with O => [] | S n => VNumber first :: consecutive (first + 1) n end.

(** [meta] is the metadata of a role [n] delegations away from the top-level targets
    metadata of [t], by what was trusted then or during the events. *)
Inductive leads_to (t : tuf) (tr : list event) : N -> string -> targets_metadata -> Prop :=
| leads_top tg : t_targets t = Some tg -> leads_to t tr 0 "targets" tg
| leads_step n r tg ds d t' tg' :
    leads_to t tr n r tg -> tg_delegations tg = Some ds -> In d (dgs_roles ds) ->
    In (EvPut t') tr -> lookup (dg_role d) (t_delegations t') = Some tg' ->
    leads_to t tr (n + 1) (dg_role d) tg'.

(** Every description a snapshot can list has a version of at least 1.  Props_Json.v
    shows this for the JSON interchange. *)
Definition positive_versions (I : interchange) : Prop :=
  forall b s r d, ic_from_slice I Snapshot b = Ok s -> lookup r (sm_meta s) = Some d -> 1 <= md_version d.

(** What was written successfully. *)
Fixpoint written (tr : list event) : bytes :=
  match tr with
  | [] => ""
  | EvWrite b None :: rest => b ++ written rest
  | _ :: rest => written rest
  end.

(** A request that the search for [target] may make: for a role that somebody at most
    [depth] delegations away from the top-level targets delegates paths containing
    [target] to, by what is known at that time. *)
Definition walk_request (t : tuf) (tr : list event) (depth : N) (target path : string) : Prop :=
  exists n r tg ds d p, leads_to t tr n r tg /\ n <= depth /\
    tg_delegations tg = Some ds /\ In d (dgs_roles ds) /\ path = dg_role d /\
    In p (dg_paths d) /\ is_child target p = true.

(** The top-level targets metadata lists [path], translated, with description [d]. *)
Definition listed (cfg : config) (t : tuf) (path : string) (d : target_desc) : Prop :=
  exists tg virt, t_targets t = Some tg /\ cf_translate cfg path = Ok virt /\ lookup virt (tg_targets tg) = Some d.

(** The data are those described. *)
Definition target_authentic (C : crypto) (d : target_desc) (data : bytes) : Prop :=
  length_ok (td_length d) data /\
  exists alg value, preferred (td_hashes d) alg value /\ ring_digest C alg data = value.

(** Where a target is asked for. *)
Definition target_place (t : tuf) (path : string) (d : target_desc) (path' : string) : Prop :=
  if rm_consistent (t_root t)
  then exists alg value, preferred (td_hashes d) alg value /\ with_hash_prefix path value = Ok path'
  else path' = path.

(** The events, if the local repository is in memory and nobody else uses it. *)
Definition in_memory_step (e : ephemeral) (ev : event) (e' : ephemeral) : Prop :=
  match ev with
  | EvFetchMeta Local path v _ _ ans => ans = ephemeral_fetch_metadata e path v /\ e' = e
  | EvStoreMeta path v data ans => ephemeral_store_metadata e path v (cursor data) = (e', ans)
  | EvStoreTarget path rs ans => ephemeral_store_target e path rs = (e', ans)
  | _ => e' = e
  end.
Inductive in_memory : ephemeral -> list event -> ephemeral -> Prop :=
| in_memory_nil e : in_memory e [] e
| in_memory_cons e ev e' tr e'' : in_memory_step e ev e' -> in_memory e' tr e'' -> in_memory e (ev :: tr) e''.

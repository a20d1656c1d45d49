(** * Specification of a deployed system: C94

    The publisher stores the documents made with the builders in a directory
    ([FileSystemRepository]); web servers serve the directory; the client fetches over HTTP
    ([HttpRepository]) and keeps its files in a directory of its own. *)
From Coq Require Import String Ascii List NArith ZArith Bool.
From Verif Require Import Base Metadata Verify Paths SpecPaths Tuf SpecVerify SpecTuf StringFacts Reader SpecReader Repo SpecRepo Http SpecHttp
     Files SpecFiles Client SpecClient Shims SpecMeta Builders SpecBuilders SpecCache SpecEndToEnd.
Import ListNotations.
Open Scope string_scope.
Open Scope list_scope.
Open Scope N_scope.

(** According to the results of the stores, [b] is the last that was stored as [n]. *)
Definition last_at (r : fs_repo) (log : list (ephemeral_op * result unit)) (n : file_name) (b : bytes) : Prop :=
  exists pre o post, log = pre ++ (o, Ok tt) :: post /\ place r o n /\ contains (input o) b None /\
    forall o', In (o', Ok tt) post -> ~ place r o' n.
(** A document is stored under a name in the directory for metadata. *)
Definition filed_as (r : fs_repo) (log : list (ephemeral_op * result unit)) (f : string) (s : signed_metadata) : Prop :=
  exists b, to_raw s = Ok b /\ last_at r log (f :: fr_metadata r) b.

(** The stores that publish an edition on the disk [disk0]. *)
Record filed_edition (d : edition) (disk0 : disk) (r : fs_repo) (log : list (ephemeral_op * result unit)) : Prop := {
  fe_roots : forall m s, In (m, s) (ed_roots d) -> filed_as r log (decimal (rm_version m) ++ ".root.json")%string s;
  fe_no_others : forall n, (forall m s, In (m, s) (ed_roots d) -> rm_version m <> n) ->
    let f := (decimal n ++ ".root.json")%string :: fr_metadata r in
    content disk0 f = None /\ forall o, In (o, Ok tt) log -> ~ place r o f;
  fe_timestamp : filed_as r log "timestamp.json" (ed_timestamp_doc d);
  fe_snapshot : filed_as r log
    (if rm_consistent (ed_root d) then (decimal (sm_version (ed_snapshot d)) ++ ".snapshot.json")%string else "snapshot.json")
    (ed_snapshot_doc d);
  fe_targets : filed_as r log
    (if rm_consistent (ed_root d) then (decimal (tg_version (ed_targets d)) ++ ".targets.json")%string else "targets.json")
    (ed_targets_doc d)
}.

(** A target, as in [offered_target], but in the directory for targets, under a name that
    means the same to the web server. *)
Definition filed_target (C : crypto) (cfg : config) (d : edition) (r : fs_repo) (log : list (ephemeral_op * result unit))
           (path : string) (data : bytes) : Prop :=
  exists virt desc algs rs name,
    cf_translate cfg path = Ok virt /\ lookup virt (tg_targets (ed_targets d)) = Some desc /\
    contains rs data None /\ target_from_reader C rs algs = Ok desc /\ length_ok u64_max data /\
    (if rm_consistent (ed_root d)
     then exists alg, preferred (td_hashes desc) alg (ring_digest C alg data) /\
            with_hash_prefix path (ring_digest C alg data) = Ok name
     else name = path) /\
    ~ has_char "%" name /\ last_at r log (walk (fr_targets r) (split_slash name)) data.

(** One event: requests go to some server of the directory, and nothing has expired. *)
Definition deployed (d : edition) (serving : (request -> option response) -> Prop) (h : http_repo) (e : event) : Prop :=
  match e with
  | EvFetchMeta Remote path v _ _ ans => exists server, serving server /\ ans = snd (http_fetch_metadata server h path v)
  | EvFetchTarget path _ ans => exists server, serving server /\ ans = snd (http_fetch_target server h path)
  | EvWrite _ ans => ans = None
  | EvNow c => forall now, In now [at_root c; at_snapshot c; at_targets c; at_timestamp c; at_new c] ->
      fresh (rm_expires (ed_root d)) now /\ fresh (tm_expires (ed_timestamp d)) now /\
      fresh (sm_expires (ed_snapshot d)) now /\ fresh (tg_expires (ed_targets d)) now
  | _ => True
  end.

(** The client's directory: no top-level metadata in it, and nothing in the way of the target. *)
Definition clean (dl : disk) (local : file_name) (path : string) : Prop :=
  (forall f, cache_file f -> content dl (f :: "metadata" :: local) = None /\ ~ directory dl (f :: "metadata" :: local)) /\
  acceptable_path path /\ (forall a, path <> (a ++ "/")%string) /\
  free_way dl (walk ("targets" :: local) (split_slash path)).

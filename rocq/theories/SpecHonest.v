(** * Specification of honest repositories: C74, C75, C76 *)
From Coq Require Import String List NArith ZArith Bool.
From Verif Require Import Base Metadata Paths Tuf SpecVerify SpecTuf Reader SpecReader Repo Client SpecClient.
Import ListNotations.
Open Scope string_scope.
Open Scope list_scope.
Open Scope N_scope.

(** What a repository offers: the root metadata there has been, oldest first, and one
    document of each of the other top-level roles; with the contents. *)
Record publication := mkPublication {
  pb_roots : list (bytes * root_metadata);
  pb_root : root_metadata;
  pb_timestamp : bytes;  pb_ts : timestamp_metadata;
  pb_snapshot : bytes;   pb_sn : snapshot_metadata;
  pb_targets : bytes;    pb_tg : targets_metadata
}.

(** Each root is signed as it and the one before demand, and numbered one higher. *)
Inductive root_line (E : env) : list (bytes * root_metadata) -> root_metadata -> Prop :=
| line_first raw r : root_line E [(raw, r)] r
| line_next l r raw r' : root_line E l r -> root_step E r raw r' -> root_line E (l ++ [(raw, r')]) r'.

(** A document can be fetched within a limit. *)
Definition fetchable (max : option N) (raw : bytes) : Prop := fits_length max raw /\ length_ok u64_max raw.

(** The repository is in order: the roots lead to the current one, everything is signed as
    the current root demands, the timestamp describes the snapshot and the snapshot the
    targets, and the documents are not longer than the client is prepared to read. *)
Record in_order (E : env) (cfg : config) (p : publication) : Prop := {
  io_roots : root_line E (pb_roots p) (pb_root p);
  io_root_length : forall raw r, In (raw, r) (pb_roots p) -> fetchable (cf_max_root cfg) raw;
  io_root_version : rm_version (pb_root p) < u32_max;
  io_timestamp : trusted_by E (pb_root p) Timestamp (pb_timestamp p) (pb_ts p);
  io_timestamp_length : fetchable (cf_max_timestamp cfg) (pb_timestamp p);
  io_timestamp_version : 1 <= tm_version (pb_ts p);
  io_snapshot : trusted_by E (pb_root p) Snapshot (pb_snapshot p) (pb_sn p);
  io_snapshot_length : length_ok u64_max (pb_snapshot p);
  io_snapshot_version : 1 <= sm_version (pb_sn p);
  io_snapshot_described : md_version (tm_snapshot (pb_ts p)) = sm_version (pb_sn p) /\
    as_described (e_crypto E) (tm_snapshot (pb_ts p)) (pb_snapshot p);
  io_targets : trusted_by E (pb_root p) Targets (pb_targets p) (pb_tg p);
  io_targets_length : length_ok u64_max (pb_targets p);
  io_targets_version : 1 <= tg_version (pb_tg p);
  io_targets_described : exists d, lookup "targets" (sm_meta (pb_sn p)) = Some d /\
    md_version d = tg_version (pb_tg p) /\ as_described (e_crypto E) d (pb_targets p)
}.

(** The name under which a document of version [n] is published: with its number if
    the root asks for consistent snapshots. *)
Definition published_as (p : publication) (n : N) : meta_version :=
  if rm_consistent (pb_root p) then VNumber n else VNone.

(** The repository answers with what it has: nothing but the roots is missing, and those
    it does not have are reported as not found.  About requests for other names nothing
    is said. *)
Definition offers (p : publication) (path : string) (v : meta_version) (ans : result stream) : Prop :=
  (forall n, path = "root" -> v = VNumber n ->
     (exists raw r, In (raw, r) (pb_roots p) /\ rm_version r = n /\ answered ans raw) \/
     ((forall raw r, In (raw, r) (pb_roots p) -> rm_version r <> n) /\ ans = Err NotFound)) /\
  (path = "timestamp" -> v = VNone -> answered ans (pb_timestamp p)) /\
  (path = "snapshot" -> v = published_as p (sm_version (pb_sn p)) -> answered ans (pb_snapshot p)) /\
  (path = "targets" -> v = published_as p (tg_version (pb_tg p)) -> answered ans (pb_targets p)).

(** None of the current documents has expired. *)
Definition current (p : publication) (c : clock) : Prop :=
  forall now, In now [at_root c; at_snapshot c; at_targets c; at_timestamp c; at_new c] ->
  fresh (rm_expires (pb_root p)) now /\ fresh (tm_expires (pb_ts p)) now /\
  fresh (sm_expires (pb_sn p)) now /\ fresh (tg_expires (pb_tg p)) now.

(** One event, if the remote repository offers [p], the local one stores what it is
    given, and the clock is right. *)
Definition good_event (p : publication) (e : event) : Prop :=
  match e with
  | EvFetchMeta Remote path v _ _ ans => offers p path v ans
  | EvStoreMeta _ _ _ ans => ans = Ok tt
  | EvNow c => current p c
  | _ => True
  end.

(** The client is not ahead of the repository: its root is one of the published ones; if
    it is the current one, then there is no newer timestamp, and a version stands for one
    document only. *)
Definition not_ahead (p : publication) (t : tuf) : Prop :=
  (exists raw, In (raw, t_root t) (pb_roots p)) /\
  (t_root t = pb_root p ->
   (forall ts, t_timestamp t = Some ts -> tm_version ts <= tm_version (pb_ts p) /\
      (tm_version ts = tm_version (pb_ts p) -> ts = pb_ts p)) /\
   (forall s, t_snapshot t = Some s -> sm_version s = sm_version (pb_sn p) -> s = pb_sn p) /\
   (forall g, t_targets t = Some g -> tg_version g = tg_version (pb_tg p) -> g = pb_tg p)).

(** The client trusts what the repository offers. *)
Definition up_to_date (p : publication) (t : tuf) : Prop :=
  t_root t = pb_root p /\ t_timestamp t = Some (pb_ts p) /\
  t_snapshot t = Some (pb_sn p) /\ t_targets t = Some (pb_tg p).

(** Nobody else can sign for the published roots: the next root is a published one, and
    what verifies under the current root is not newer than the published timestamp, and
    is the published document if the version is the same.  (Nothing is said about the
    other keys of former roots: they may be in wrong hands.) *)
Definition nobody_else_signs (E : env) (p : publication) : Prop :=
  (forall raw r raw' r', In (raw, r) (pb_roots p) -> root_step E r raw' r' -> exists raw'', In (raw'', r') (pb_roots p)) /\
  (forall raw ts, trusted_by E (pb_root p) Timestamp raw ts -> tm_version ts <= tm_version (pb_ts p) /\
     (tm_version ts = tm_version (pb_ts p) -> ts = pb_ts p)) /\
  (forall raw s, trusted_by E (pb_root p) Snapshot raw s -> sm_version s = sm_version (pb_sn p) -> s = pb_sn p) /\
  (forall raw g, trusted_by E (pb_root p) Targets raw g -> tg_version g = tg_version (pb_tg p) -> g = pb_tg p).

(** One event of a download, if the data are at [path] in the remote repository, the
    local one stores what can be read to its end, and the writer takes what it is given. *)
Definition good_download (path : string) (data : bytes) (e : event) : Prop :=
  match e with
  | EvFetchTarget path' _ ans => path' = path -> answered ans data
  | EvStoreTarget _ rs ans => (exists b, contains rs b None) -> ans = Ok tt
  | EvWrite _ ans => ans = None
  | _ => True
  end.

(** An answer that says that there is no such document. *)
Definition no_such (ans : result stream) : Prop := ans = Err NotFound.
(** The client also takes a document that breaks off with an error of kind "not found"
    for a missing one. *)
Definition broken_off (ans : result stream) : Prop :=
  exists rs b, ans = Ok rs /\ contains rs b (Some IoNotFound).

(** What went well in an event: a request was answered with a document, or it was the one
    for the root after the last one and [stop] holds of the answer; a document was stored. *)
Definition went_well (stop : result stream -> Prop) (last : root_metadata) (e : event) : Prop :=
  match e with
  | EvFetchMeta _ path w _ _ ans =>
      (exists raw, answered ans raw) \/ (path = "root" /\ w = VNumber (rm_version last + 1) /\ stop ans)
  | EvStoreMeta _ _ _ ans => ans = Ok tt
  | _ => True
  end.

(** The client has all top-level metadata, in the versions that the others list. *)
Definition complete (t : tuf) : Prop :=
  exists ts s g d, t_timestamp t = Some ts /\ t_snapshot t = Some s /\ t_targets t = Some g /\
    sm_version s = md_version (tm_snapshot ts) /\
    lookup "targets" (sm_meta s) = Some d /\ tg_version g = md_version d.

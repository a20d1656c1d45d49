(** * Specification of a deployed system that goes on: C97

    As C95 (SpecResumed.v), but the publisher goes on storing files while the client runs.
    Time is counted in stores. *)
From Coq Require Import String Ascii List Arith NArith ZArith Bool.
From Verif Require Import Base Metadata Verify Paths SpecPaths Tuf SpecVerify SpecTuf StringFacts Reader SpecReader Repo SpecRepo Http SpecHttp
     Files SpecFiles Client SpecClient Shims SpecMeta Builders SpecBuilders SpecCache SpecEndToEnd SpecDeployed SpecLive.
Import ListNotations.
Open Scope string_scope.
Open Scope list_scope.
Open Scope nat_scope.

(** The disk and the results after the first [k] stores. *)
Definition disk_at (r : fs_repo) (disk0 : disk) (ops : list ephemeral_op) (k : nat) : disk := fst (fs_run r disk0 (firstn k ops)).
Definition log_at (r : fs_repo) (disk0 : disk) (ops : list ephemeral_op) (k : nat) : list (ephemeral_op * result unit) :=
  snd (fs_run r disk0 (firstn k ops)).

(** The roots of one edition and the other documents of another. *)
Definition blended (d d' : edition) : edition :=
  mkEdition (ed_roots d) (ed_root d) (ed_timestamp d') (ed_timestamp_doc d') (ed_snapshot d') (ed_snapshot_doc d') (ed_targets d') (ed_targets_doc d').

(** As in [filed_target]: what does not depend on the time. *)
Definition described_target (C : crypto) (cfg : config) (d : edition) (path : string) (data : bytes) (name : string) : Prop :=
  exists virt desc algs rs,
    cf_translate cfg path = Ok virt /\ lookup virt (tg_targets (ed_targets d)) = Some desc /\
    contains rs data None /\ target_from_reader C rs algs = Ok desc /\ length_ok u64_max data /\
    (exists alg, preferred (td_hashes desc) alg (ring_digest C alg data) /\
       with_hash_prefix path (ring_digest C alg data) = Ok name) /\
    ~ has_char "%" name.

(** From time [from] to time [upto] the publisher keeps the directory in order: at each
    time there is a current edition, [eds k]; its documents are made with the builders,
    also for clients that have not yet seen the last roots; and all numbered files, and
    the targets under their hashes, stay as they are. *)
Record kept_in_order (C : crypto) (cfg : config) (eds : nat -> edition) (disk0 : disk) (r : fs_repo) (ops : list ephemeral_op)
       (from upto : nat) (path : string) (data : nat -> bytes) : Prop := {
  ko_roots : forall i j, from <= i -> i <= j -> j <= upto -> exists more, ed_roots (eds j) = ed_roots (eds i) ++ more;
  ko_consistent : forall i, from <= i -> i <= upto -> rm_consistent (ed_root (eds i)) = true;
  ko_made : forall i j, from <= i -> i <= j -> j <= upto -> well_made C (blended (eds i) (eds j)) /\ readable cfg (blended (eds i) (eds j));
  ko_filed : forall k, from <= k -> k <= upto -> filed_edition (eds k) disk0 r (log_at r disk0 ops k);
  ko_kept : forall j k, from <= j -> j <= k -> k <= upto ->
    filed_as r (log_at r disk0 ops k) (decimal (sm_version (ed_snapshot (eds j))) ++ ".snapshot.json") (ed_snapshot_doc (eds j)) /\
    filed_as r (log_at r disk0 ops k) (decimal (tg_version (ed_targets (eds j))) ++ ".targets.json") (ed_targets_doc (eds j));
  ko_target : forall j, from <= j -> j <= upto -> exists name, described_target C cfg (eds j) path (data j) name /\
    forall k, j <= k -> k <= upto -> last_at r (log_at r disk0 ops k) (walk (fr_targets r) (split_slash name)) (data j)
}.

(** One event at time [k]: requests go to some server of the directory as it is then. *)
Definition served_at (serving : nat -> (request -> option response) -> Prop) (h : http_repo) (k : nat) (e : event) : Prop :=
  match e with
  | EvFetchMeta Remote path v _ _ ans =>
      exists server, serving k server /\ ans = snd (http_fetch_metadata server h path v)
  | EvFetchTarget path _ ans =>
      exists server, serving k server /\ ans = snd (http_fetch_target server h path)
  | EvWrite _ ans => ans = None
  | _ => True
  end.

(** The clock shows a time at which none of the documents has expired. *)
Definition unexpired (eds : nat -> edition) (from upto : nat) (c : clock) : Prop :=
  forall k now, from <= k -> k <= upto -> In now [at_root c; at_snapshot c; at_targets c; at_timestamp c; at_new c] ->
  fresh (rm_expires (ed_root (eds k))) now /\ fresh (tm_expires (ed_timestamp (eds k))) now /\
  fresh (sm_expires (ed_snapshot (eds k))) now /\ fresh (tg_expires (ed_targets (eds k))) now.

(** ** How to keep a directory in order *)

(** As [f] up to time [n], and [x] then. *)
Definition and_then {A} (n : nat) (f : nat -> A) (x : A) : nat -> A := fun k => if Nat.leb k n then f k else x.

(** The places of the numbered files of the editions so far and of their targets. *)
Definition in_use (r : fs_repo) (eds : nat -> edition) (names : nat -> string) (from upto : nat) (n : file_name) : Prop :=
  exists j, from <= j /\ j <= upto /\
    (n = (decimal (sm_version (ed_snapshot (eds j))) ++ ".snapshot.json")%string :: fr_metadata r \/
     n = (decimal (tg_version (ed_targets (eds j))) ++ ".targets.json")%string :: fr_metadata r \/
     n = walk (fr_targets r) (split_slash (names j))).

(** A publisher that takes care, store by store: what is in use is left alone; the files that
    a new timestamp leads to are there before it; a new root is signed as the last one
    demands, and the other documents are still signed as it demands. *)
Inductive careful (C : crypto) (cfg : config) (disk0 : disk) (r : fs_repo) (from : nat) (path : string) :
  list ephemeral_op -> (nat -> edition) -> (nat -> bytes) -> (nat -> string) -> Prop :=
| careful_start ops d data name :
    length ops = from -> rm_consistent (ed_root d) = true -> well_made C d -> readable cfg d ->
    filed_edition d disk0 r (snd (fs_run r disk0 ops)) ->
    described_target C cfg d path data name -> last_at r (snd (fs_run r disk0 ops)) (walk (fr_targets r) (split_slash name)) data ->
    careful C cfg disk0 r from path ops (fun _ => d) (fun _ => data) (fun _ => name)
| careful_failed ops eds data names x :
    careful C cfg disk0 r from path ops eds data names ->
    snd (fs_step r (fst (fs_run r disk0 ops)) x) <> Ok tt ->
    careful C cfg disk0 r from path (ops ++ [x]) (and_then (length ops) eds (eds (length ops)))
      (and_then (length ops) data (data (length ops))) (and_then (length ops) names (names (length ops)))
| careful_other ops eds data names x :
    careful C cfg disk0 r from path ops eds data names ->
    (forall n, place r x n -> ~ in_use r eds names from (length ops) n /\ n <> "timestamp.json" :: fr_metadata r /\
       forall v, n <> (decimal v ++ ".root.json")%string :: fr_metadata r) ->
    careful C cfg disk0 r from path (ops ++ [x]) (and_then (length ops) eds (eds (length ops)))
      (and_then (length ops) data (data (length ops))) (and_then (length ops) names (names (length ops)))
| careful_timestamp ops eds data names d' data' name' rs b :
    careful C cfg disk0 r from path ops eds data names ->
    ed_roots d' = ed_roots (eds (length ops)) -> ed_root d' = ed_root (eds (length ops)) ->
    (forall i, from <= i -> i <= length ops -> well_made C (blended (eds i) d') /\ readable cfg (blended (eds i) d')) ->
    filed_as r (snd (fs_run r disk0 ops)) (decimal (sm_version (ed_snapshot d')) ++ ".snapshot.json") (ed_snapshot_doc d') ->
    filed_as r (snd (fs_run r disk0 ops)) (decimal (tg_version (ed_targets d')) ++ ".targets.json") (ed_targets_doc d') ->
    described_target C cfg d' path data' name' -> last_at r (snd (fs_run r disk0 ops)) (walk (fr_targets r) (split_slash name')) data' ->
    to_raw (ed_timestamp_doc d') = Ok b -> contains rs b None ->
    let x := EpMetadata "timestamp" VNone rs in
    snd (fs_step r (fst (fs_run r disk0 ops)) x) = Ok tt ->
    (forall j, from <= j -> j <= length ops -> walk (fr_targets r) (split_slash (names j)) <> "timestamp.json" :: fr_metadata r) ->
    walk (fr_targets r) (split_slash name') <> "timestamp.json" :: fr_metadata r ->
    careful C cfg disk0 r from path (ops ++ [x]) (and_then (length ops) eds d') (and_then (length ops) data data') (and_then (length ops) names name')
| careful_root ops eds data names m s rs b :
    careful C cfg disk0 r from path ops eds data names ->
    let d := eds (length ops) in
    let d' := mkEdition (ed_roots d ++ [(m, s)]) m (ed_timestamp d) (ed_timestamp_doc d) (ed_snapshot d) (ed_snapshot_doc d)
                (ed_targets d) (ed_targets_doc d) in
    rm_consistent m = true -> well_made C d' -> readable cfg d' ->
    to_raw s = Ok b -> contains rs b None ->
    let x := EpMetadata "root" (VNumber (rm_version m)) rs in
    snd (fs_step r (fst (fs_run r disk0 ops)) x) = Ok tt ->
    (forall j, from <= j -> j <= length ops ->
       walk (fr_targets r) (split_slash (names j)) <> (decimal (rm_version m) ++ ".root.json")%string :: fr_metadata r) ->
    careful C cfg disk0 r from path (ops ++ [x]) (and_then (length ops) eds d')
      (and_then (length ops) data (data (length ops))) (and_then (length ops) names (names (length ops))).

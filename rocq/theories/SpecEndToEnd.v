(** * Specification of a whole supply chain: C90

    A publisher makes documents with the builders, signs them and stores them in an
    in-memory repository; a client that knows the first root follows. *)
From Coq Require Import String List NArith ZArith Bool.
From Verif Require Import Base Metadata Verify Paths Tuf SpecVerify SpecTuf Reader SpecReader Repo SpecRepo Client SpecClient
     Shims SpecMeta Builders SpecBuilders.
Import ListNotations.
Open Scope string_scope.
Open Scope list_scope.
Open Scope N_scope.

(** The signers suffice for a role of a root. *)
Definition signers_for (root : root_metadata) (r : role) (ks : list private_key) : Prop :=
  let d := role_def_of root r in sufficient (rd_threshold d) (listed_keys (rm_keys root) (rd_key_ids d)) ks.

(** Some roots, oldest first: the first is signed as it demands, each other one as it and the
    one before demand, and numbered one higher.  The last is [m]. *)
Inductive signed_line (C : crypto) : list (root_metadata * signed_metadata) -> root_metadata -> Prop :=
| signed_first m ks s : published C Root m ks s -> signers_for m Root ks -> signed_line C [(m, s)] m
| signed_next l m m' ks s : signed_line C l m ->
    published C Root m' ks s -> signers_for m Root ks -> signers_for m' Root ks ->
    rm_version m' = rm_version m + 1 -> signed_line C (l ++ [(m', s)]) m'.

(** What the publisher has: all roots, the current one, and the current documents of the
    other top-level roles. *)
Record edition := mkEdition {
  ed_roots : list (root_metadata * signed_metadata);
  ed_root : root_metadata;
  ed_timestamp : timestamp_metadata;  ed_timestamp_doc : signed_metadata;
  ed_snapshot : snapshot_metadata;    ed_snapshot_doc : signed_metadata;
  ed_targets : targets_metadata;      ed_targets_doc : signed_metadata
}.

(** Made with the builders: signed as the current root demands, the snapshot described in
    the timestamp and the targets in the snapshot. *)
Record well_made (C : crypto) (d : edition) : Prop := {
  wm_roots : signed_line C (ed_roots d) (ed_root d);
  wm_timestamp : exists ks, published C Timestamp (ed_timestamp d) ks (ed_timestamp_doc d) /\ signers_for (ed_root d) Timestamp ks;
  wm_snapshot : exists ks, published C Snapshot (ed_snapshot d) ks (ed_snapshot_doc d) /\ signers_for (ed_root d) Snapshot ks;
  wm_targets : exists ks, published C Targets (ed_targets d) ks (ed_targets_doc d) /\ signers_for (ed_root d) Targets ks;
  wm_snapshot_described : exists algs, describe_signed C FJson (ed_snapshot_doc d) algs = Ok (tm_snapshot (ed_timestamp d));
  wm_targets_described : exists algs desc, describe_signed C FJson (ed_targets_doc d) algs = Ok desc /\
    lookup "targets" (sm_meta (ed_snapshot d)) = Some desc
}.

(** After some stores, a document is what a name stands for. *)
Definition stored_as (ops : list ephemeral_op) (path : string) (v : meta_version) (s : signed_metadata) : Prop :=
  exists b, to_raw s = Ok b /\ last_metadata ops path v b.

(** The stores that publish an edition, in any order, possibly replacing other documents:
    every root under its number, and no other root; the timestamp under its plain name; the
    others with their numbers if the root asks for consistent snapshots. *)
Record stored_edition (d : edition) (ops : list ephemeral_op) : Prop := {
  se_roots : forall m s, In (m, s) (ed_roots d) -> stored_as ops "root" (VNumber (rm_version m)) s;
  se_no_others : forall n, (forall m s, In (m, s) (ed_roots d) -> rm_version m <> n) -> no_metadata ops "root" (VNumber n);
  se_timestamp : stored_as ops "timestamp" VNone (ed_timestamp_doc d);
  se_snapshot : stored_as ops "snapshot"
    (if rm_consistent (ed_root d) then VNumber (sm_version (ed_snapshot d)) else VNone) (ed_snapshot_doc d);
  se_targets : stored_as ops "targets"
    (if rm_consistent (ed_root d) then VNumber (tg_version (ed_targets d)) else VNone) (ed_targets_doc d)
}.

(** The client is prepared to read documents of this size, and can ask for the next root. *)
Record readable (cfg : config) (d : edition) : Prop := {
  rd_root : forall m s b, In (m, s) (ed_roots d) -> to_raw s = Ok b ->
    fits_length (cf_max_root cfg) b /\ length_ok u64_max b;
  rd_timestamp : forall b, to_raw (ed_timestamp_doc d) = Ok b ->
    fits_length (cf_max_timestamp cfg) b /\ length_ok u64_max b;
  rd_next : rm_version (ed_root d) < u32_max
}.

(** A target: described from its data by the publisher, listed under the client's name for
    [path], stored under [path], or with the hash in front of its last part. *)
Definition offered_target (C : crypto) (cfg : config) (d : edition) (ops : list ephemeral_op) (path : string) (data : bytes) : Prop :=
  exists virt desc algs rs place,
    cf_translate cfg path = Ok virt /\ lookup virt (tg_targets (ed_targets d)) = Some desc /\
    contains rs data None /\ target_from_reader C rs algs = Ok desc /\ length_ok u64_max data /\
    (if rm_consistent (ed_root d)
     then exists alg, preferred (td_hashes desc) alg (ring_digest C alg data) /\
            with_hash_prefix path (ring_digest C alg data) = Ok place
     else place = path) /\
    last_target ops place data.

(** One event: the remote repository holds what the stores left there, nothing has expired. *)
Definition in_world (d : edition) (ops : list ephemeral_op) (e : event) : Prop :=
  let remote := ephemeral_run ephemeral_new ops in
  match e with
  | EvFetchMeta Remote path v _ _ ans => ans = ephemeral_fetch_metadata remote path v
  | EvFetchTarget path _ ans => ans = ephemeral_fetch_target remote path
  | EvWrite _ ans => ans = None
  | EvNow c => forall now, In now [at_root c; at_snapshot c; at_targets c; at_timestamp c; at_new c] ->
      fresh (rm_expires (ed_root d)) now /\ fresh (tm_expires (ed_timestamp d)) now /\
      fresh (sm_expires (ed_snapshot d)) now /\ fresh (tg_expires (ed_targets d)) now
  | _ => True
  end.

(** The user's program: make a client from the first root, update, and get a target. *)
Definition get_target (E : env) (cfg : config) (fuel : nat) (root : bytes) (path : string) (to_writer : bool)
  : prog (result (bool * tuf)) :=
  do made <- construct E cfg fuel (FromRoot root) in
  match made with
  | Err e => Ret (Err e)
  | Ok t =>
      do (t, changed) <- update E cfg fuel t in
      match changed with
      | Err e => Ret (Err e)
      | Ok changed =>
          do (t, got) <- (if to_writer then fetch_target_to_writer E cfg fuel t path else fetch_target E cfg fuel t path) in
          match got with Err e => Ret (Err e) | Ok _ => Ret (Ok (changed, t)) end
      end
  end.

(** * Specification of attackers: C85, C86, C87

    The attacker runs the remote repository and the network, and may have changed the
    local repository: a [history] says nothing about the answers.  What the attacker
    lacks is keys.  Only the data types and the specification of signatures are used. *)
From Coq Require Import String List NArith ZArith Bool.
From Verif Require Import Base Metadata SpecVerify Tuf SpecTuf Reader SpecReader Repo Client SpecClient.
Import ListNotations.
Open Scope string_scope.
Open Scope list_scope.
Open Scope N_scope.

(** Who can sign: the secret keys in wrong hands, and what the rightful holders signed
    with theirs.  A key pair is known by its scheme and its public half. *)
Record holders := mkHolders {
  stolen : scheme -> bytes -> Prop;
  signed : scheme -> bytes -> bytes -> Prop
}.

(** Signatures cannot be forged: what verifies was signed by the holder, or the key is
    in wrong hands. *)
Definition unforgeable (C : crypto) (w : holders) : Prop :=
  forall sch value msg sg, ring_verify C sch value msg sg = true -> stolen w sch value \/ signed w sch value msg.

(** Fewer than [th] of the keys are in wrong hands, counted by their ids (C05: one key
    pair can be listed under two). *)
Definition outnumbered (w : holders) (th : N) (keys : list public_key) : Prop :=
  forall ids, NoDup ids ->
    (forall i, In i ids -> exists k, In k keys /\ pk_id k = i /\ stolen w (pk_scheme k) (pk_value k)) ->
    N.of_nat (length ids) < th.

(** The keys are kept well: too few of them are in wrong hands, and the holders sign, of
    the documents that can be read as role [r], only those that are to be published. *)
Definition kept (E : env) (w : holders) (r : role) (publish : metadata_of r -> Prop) (th : N)
           (keys : list public_key) : Prop :=
  outnumbered w th keys /\
  forall k msg m, In k keys -> signed w (pk_scheme k) (pk_value k) msg -> ic_from_slice (e_ic E) r msg = Ok m -> publish m.

(** The keys that a root lists for a role are kept well. *)
Definition kept_role (E : env) (w : holders) (root : root_metadata) (r : role) (publish : metadata_of r -> Prop) : Prop :=
  kept E w r publish (rd_threshold (role_def_of root r)) (listed_keys (rm_keys root) (rd_key_ids (role_def_of root r))).

(** All keys that published targets metadata, of whatever role, list for the roles they
    delegate to are kept well. *)
Definition kept_delegations (E : env) (w : holders) (publish : string -> targets_metadata -> Prop) : Prop :=
  forall r g ds d, publish r g -> tg_delegations g = Some ds -> In d (dgs_roles ds) ->
    kept E w Targets (publish (dg_role d)) (dg_threshold d) (listed_keys (dgs_keys ds) (dg_key_ids d)).

(** The client starts with a published root, or with keys that are kept well. *)
Definition good_start (E : env) (w : holders) (publish : root_metadata -> Prop) (c : ctor) (tr : list event) : Prop :=
  match c with
  | FromRoot raw => forall t, from_trusted_root E raw = Ok t -> publish (t_root t)
  | FromKeys _ th keys => kept E w Root publish th keys
  | FromLocal => forall pre t post, tr = pre ++ EvPut t :: post -> trusted_at pre = None -> publish (t_root t)
  end.

(** The trusted document of a role. *)
Definition trusted_document (t : tuf) (r : role) : option (metadata_of r) :=
  match r return option (metadata_of r) with
  | Root => Some (t_root t)
  | Timestamp => t_timestamp t
  | Snapshot => t_snapshot t
  | Targets => t_targets t
  end.

(** Two different data with the same digest. *)
Definition collision (C : crypto) (alg : hash_alg) (b b' : bytes) : Prop :=
  b <> b' /\ ring_digest C alg b = ring_digest C alg b'.

(** Publishing in order: a newer timestamp does not list an older snapshot, and a newer
    snapshot no older targets metadata. *)
Definition timestamps_in_order (publish : timestamp_metadata -> Prop) : Prop :=
  forall ts ts', publish ts -> publish ts' -> tm_version ts <= tm_version ts' ->
  md_version (tm_snapshot ts) <= md_version (tm_snapshot ts').
Definition snapshots_in_order (publish : snapshot_metadata -> Prop) : Prop :=
  forall s s' r d d', publish s -> publish s' -> sm_version s <= sm_version s' ->
  lookup r (sm_meta s) = Some d -> lookup r (sm_meta s') = Some d' -> md_version d <= md_version d'.

(** A version number stands for one document. *)
Definition one_per_version {A} (version : A -> N) (publish : A -> Prop) : Prop :=
  forall a b, publish a -> publish b -> version a = version b -> a = b.

(** [released ts s g]: these were published together.  Every published timestamp
    belongs to such a release, made of the documents it and the snapshot list. *)
Definition releases (publish_ts : timestamp_metadata -> Prop) (publish_s : snapshot_metadata -> Prop)
           (publish_g : targets_metadata -> Prop)
           (released : timestamp_metadata -> snapshot_metadata -> targets_metadata -> Prop) : Prop :=
  forall ts, publish_ts ts -> exists s g d, released ts s g /\ publish_s s /\ publish_g g /\
    sm_version s = md_version (tm_snapshot ts) /\
    lookup "targets" (sm_meta s) = Some d /\ tg_version g = md_version d.

(** ** C87 *)

(** One event, if the remote repository has no newer root, answers requests for the
    timestamp with [raw], and the trusted root has not expired. *)
Definition replay (t : tuf) (raw : bytes) (e : event) : Prop :=
  match e with
  | EvFetchMeta Remote path v _ _ ans =>
      (path = "root" -> v = VNumber (rm_version (t_root t) + 1) -> ans = Err NotFound) /\
      (path = "timestamp" -> v = VNone -> answered ans raw)
  | EvNow c => fresh (rm_expires (t_root t)) (at_root c)
  | _ => True
  end.

(** None of the top-level metadata has expired. *)
Definition nothing_expired (t : tuf) (now : Z) : Prop :=
  fresh (rm_expires (t_root t)) now /\
  (forall ts, t_timestamp t = Some ts -> fresh (tm_expires ts) now) /\
  (forall s, t_snapshot t = Some s -> fresh (sm_expires s) now) /\
  (forall g, t_targets t = Some g -> fresh (tg_expires g) now).

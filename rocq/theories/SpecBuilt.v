(** * Specification of what the builders build

    A builder is told things one after the other.  The document has, in each place, what
    was said last, or the default if nothing was said. *)
From Coq Require Import String List NArith ZArith Bool.
From Verif Require Import Base JsonValue Metadata Reader SpecReader SpecPaths SpecMeta Shims Builders SpecBuilders.
Import ListNotations.
Open Scope string_scope.

(** [f] tells what a call says about something.  [w] is the last such thing. *)
Definition last_word {O A} (f : O -> option A) (ops : list O) (w : option A) : Prop :=
  match w with
  | None => forall o, In o ops -> f o = None
  | Some a => exists before o after, ops = (before ++ o :: after)%list /\ f o = Some a /\
                forall o', In o' after -> f o' = None
  end.
Definition said {O A} (f : O -> option A) (ops : list O) (default a : A) : Prop :=
  exists w, last_word f ops w /\ a = match w with Some a => a | None => default end.

Definition in_days (now n : Z) : Z := (now + n * 86400 * 2000000000)%Z.

(** ** Roots *)
Definition about_version (o : root_op) : option N := match o with RoVersion v => Some v | _ => None end.
Definition about_expires (o : root_op) : option Z := match o with RoExpires z => Some z | _ => None end.
Definition about_consistent (o : root_op) : option bool := match o with RoConsistent c => Some c | _ => None end.
Definition about_threshold (r : role) (o : root_op) : option N :=
  match r, o with
  | Root, RoThreshold Root t | Snapshot, RoThreshold Snapshot t
  | Targets, RoThreshold Targets t | Timestamp, RoThreshold Timestamp t => Some t
  | _, _ => None
  end.
(** The key with this id, whichever role it was given to. *)
Definition about_key (i : string) (o : root_op) : option public_key :=
  match o with RoKey _ k => if String.eqb (pk_id k) i then Some k else None | _ => None end.
Definition given_key (r : role) (o : root_op) : list public_key :=
  match r, o with
  | Root, RoKey Root k | Snapshot, RoKey Snapshot k | Targets, RoKey Targets k | Timestamp, RoKey Timestamp k => [k]
  | _, _ => []
  end.
(** The keys that a role was given, in order. *)
Definition given_keys (r : role) (ops : list root_op) : list public_key := flat_map (given_key r) ops.

Definition definition_of (m : root_metadata) (r : role) : role_def :=
  match r with Root => rm_root m | Snapshot => rm_snapshot m | Targets => rm_targets m | Timestamp => rm_timestamp m end.

(** Where a builder starts: with the defaults of [new], or with a document. *)
Record root_base := mkBase {
  ba_version : N; ba_expires : Z; ba_consistent : bool;
  ba_threshold : role -> N; ba_ids : role -> list string; ba_key : string -> option public_key
}.
Inductive root_start : root_builder -> root_base -> Prop :=
| rs_new now : root_start (rb_new now)
    (mkBase 1 (in_days now 365) false (fun _ => 1%N) (fun _ => []) (fun _ => None))
| rs_from m : increasing (map fst (rm_keys m)) -> root_start (rb_from m)
    (mkBase (rm_version m) (rm_expires m) (rm_consistent m) (fun r => rd_threshold (definition_of m r))
       (fun r => rd_key_ids (definition_of m r)) (fun i => lookup i (rm_keys m))).

Definition root_as_told (base : root_base) (ops : list root_op) (res : result root_metadata) : Prop :=
  exists v z c (t : role -> N),
    said about_version ops (ba_version base) v /\ said about_expires ops (ba_expires base) z /\
    said about_consistent ops (ba_consistent base) c /\
    (forall r, said (about_threshold r) ops (ba_threshold base r) (t r)) /\
    let ids r := (ba_ids base r ++ map pk_id (given_keys r ops))%list in
    match res with
    | Ok m =>
        (1 <= v)%N /\ (forall r, 1 <= t r <= N.of_nat (length (ids r)))%N /\
        rm_version m = v /\ rm_expires m = z /\ rm_consistent m = c /\
        (forall r, definition_of m r = mkRoleDef (t r) (ids r)) /\
        (forall i, exists w, last_word (about_key i) ops w /\
           lookup i (rm_keys m) = match w with Some k => Some k | None => ba_key base i end)
    | Err e => e = IllegalArgument /\ (v = 0%N \/ exists r, t r = 0%N \/ (N.of_nat (length (ids r)) < t r)%N)
    end.

(** ** Timestamps *)
Definition about_version_t (o : timestamp_op) : option N := match o with ToVersion v => Some v | _ => None end.
Definition about_expires_t (o : timestamp_op) : option Z := match o with ToExpires z => Some z | _ => None end.

(** ** Snapshots *)
Definition about_version_n (o : snapshot_op) : option N := match o with NoVersion v => Some v | _ => None end.
Definition about_expires_n (o : snapshot_op) : option Z := match o with NoExpires z => Some z | _ => None end.
Definition text_of (r : role) : string :=
  match r with Root => "root" | Snapshot => "snapshot" | Targets => "targets" | Timestamp => "timestamp" end.
Definition about_meta (p : string) (o : snapshot_op) : option snapshot_op :=
  match o with
  | NoInsert _ r _ _ => if String.eqb (text_of r) p then Some o else None
  | NoInsertPath _ q _ _ | NoDescription q _ => if String.eqb q p then Some o else None
  | _ => None
  end.
(** [d] is the description that a call hands over or makes. *)
Definition describes_meta (C : crypto) (o : snapshot_op) (d : meta_desc) : Prop :=
  match o with
  | NoDescription _ d' => d = d'
  | NoInsert f _ s algs | NoInsertPath f _ s algs =>
      exists b, write_signed f s = Ok b /\ parse_version_untrusted s = Ok (md_version d) /\
        describes C b algs (md_length d) (md_hashes d)
  | _ => False
  end.
(** Some hash algorithms, all of them known. *)
Definition usable (algs : list hash_alg) : Prop := algs <> [] /\ forall x, ~ In (HashUnknown x) algs.
(** The document can be written, has a version, and its text has a length. *)
Definition describable (f : format) (s : signed_metadata) (algs : list hash_alg) : Prop :=
  usable algs /\
  exists b v, write_signed f s = Ok b /\ size_ok (N.of_nat (String.length b)) /\ parse_version_untrusted s = Ok v /\ (1 <= v)%N.
Definition possible_n (o : snapshot_op) : Prop :=
  match o with
  | NoInsert f _ s algs => describable f s algs
  | NoInsertPath f p s algs => acceptable_path p /\ describable f s algs
  | _ => True
  end.
Inductive snapshot_start : snapshot_builder -> N -> Z -> (string -> option meta_desc) -> Prop :=
| ss_new now : snapshot_start (nb_new now) 1 (in_days now 7) (fun _ => None)
| ss_from m : increasing (map (fun pd => fst pd ++ ".json") (sm_meta m)) ->
    snapshot_start (nb_from m) (sm_version m) (sm_expires m) (fun p => lookup p (sm_meta m)).

(** ** Targets *)
Definition about_version_g (o : targets_op) : option N := match o with GoVersion v => Some v | _ => None end.
Definition about_expires_g (o : targets_op) : option Z := match o with GoExpires z => Some z | _ => None end.
Definition about_delegations (o : targets_op) : option (option delegations) :=
  match o with GoDelegations d => Some (Some d) | _ => None end.
Definition about_target (p : string) (o : targets_op) : option targets_op :=
  match o with
  | GoReader q _ _ | GoDescription q _ => if String.eqb q p then Some o else None
  | _ => None
  end.
Definition describes_target (C : crypto) (o : targets_op) (d : target_desc) : Prop :=
  match o with
  | GoDescription _ d' => d = d'
  | GoReader _ rs algs => td_custom d = None /\
      exists b, contains rs b None /\ describes C b algs (td_length d) (td_hashes d)
  | _ => False
  end.
(** The reader comes to its end. *)
Definition possible_g (o : targets_op) : Prop :=
  match o with GoReader _ rs algs => usable algs /\ exists b, contains rs b None | _ => True end.

(** * Specification of what differs between hash maps with other orders: C112

    In Rust the order of a [HashMap] or [HashSet] differs between two maps with the same
    entries.  Here two pieces of metadata are the same if they agree up to the order of all
    their maps and sets; lists that are [Vec]s in the code keep their order. *)
From Coq Require Import String List NArith ZArith Bool.
From Verif Require Import Base JsonValue Metadata Tuf Reader Repo Client.
Import ListNotations.
Open Scope list_scope.

Definition opt_rel {A B} (R : A -> B -> Prop) (o : option A) (o' : option B) : Prop :=
  match o, o' with Some a, Some b => R a b | None, None => True | _, _ => False end.
(** The same error, or values in [R]. *)
Definition res_rel {A B} (R : A -> B -> Prop) (r : result A) (r' : result B) : Prop :=
  match r, r' with Ok a, Ok b => R a b | Err e, Err e' => e = e' | _, _ => False end.

Definition same_set {A} (l l' : list A) : Prop := forall x, In x l <-> In x l'.
(** No key twice, the same keys, values in [R]. *)
Definition same_map {K V} `{EqDec K} (R : V -> V -> Prop) (m m' : list (K * V)) : Prop :=
  NoDup (map fst m) /\ NoDup (map fst m') /\ forall k, opt_rel R (lookup k m) (lookup k m').

(** Maps of keys.  Only maps in which different keys have different ids may have different
    orders ([C112_colliding_ids_refuted] has what happens otherwise). *)
Definition distinct_ids (m : list (string * public_key)) : Prop :=
  forall i j k k', In (i, k) m -> In (j, k') m -> pk_id k = pk_id k' -> k = k'.
Definition same_keys (m m' : list (string * public_key)) : Prop :=
  same_map eq m m' /\ (m = m' \/ distinct_ids m).

Definition same_desc (d d' : meta_desc) : Prop :=
  md_version d = md_version d' /\ md_length d = md_length d' /\ same_map eq (md_hashes d) (md_hashes d').
Definition same_target (d d' : target_desc) : Prop :=
  td_length d = td_length d' /\ same_map eq (td_hashes d) (td_hashes d') /\ opt_rel (same_map eq) (td_custom d) (td_custom d').
Definition same_delegation (d d' : delegation) : Prop :=
  dg_role d = dg_role d' /\ dg_terminating d = dg_terminating d' /\ dg_threshold d = dg_threshold d' /\
  same_set (dg_key_ids d) (dg_key_ids d') /\ same_set (dg_paths d) (dg_paths d').
Definition same_delegations (d d' : delegations) : Prop :=
  same_keys (dgs_keys d) (dgs_keys d') /\ Forall2 same_delegation (dgs_roles d) (dgs_roles d').

Definition same_root (m m' : root_metadata) : Prop :=
  rm_version m = rm_version m' /\ rm_expires m = rm_expires m' /\ rm_consistent m = rm_consistent m' /\
  same_keys (rm_keys m) (rm_keys m') /\ rm_root m = rm_root m' /\ rm_snapshot m = rm_snapshot m' /\
  rm_targets m = rm_targets m' /\ rm_timestamp m = rm_timestamp m'.
Definition same_timestamp (m m' : timestamp_metadata) : Prop :=
  tm_version m = tm_version m' /\ tm_expires m = tm_expires m' /\ same_desc (tm_snapshot m) (tm_snapshot m').
Definition same_snapshot (m m' : snapshot_metadata) : Prop :=
  sm_version m = sm_version m' /\ sm_expires m = sm_expires m' /\ same_map same_desc (sm_meta m) (sm_meta m').
Definition same_targets (m m' : targets_metadata) : Prop :=
  tg_version m = tg_version m' /\ tg_expires m = tg_expires m' /\ same_map same_target (tg_targets m) (tg_targets m') /\
  opt_rel same_delegations (tg_delegations m) (tg_delegations m').
Definition same_metadata (r : role) : metadata_of r -> metadata_of r -> Prop :=
  match r with Root => same_root | Snapshot => same_snapshot | Targets => same_targets | Timestamp => same_timestamp end.

Definition same_tuf (t t' : tuf) : Prop :=
  same_root (t_root t) (t_root t') /\ opt_rel same_snapshot (t_snapshot t) (t_snapshot t') /\
  opt_rel same_targets (t_targets t) (t_targets t') /\ opt_rel same_timestamp (t_timestamp t) (t_timestamp t') /\
  same_map same_targets (t_delegations t) (t_delegations t').

(** Two environments that read the same from all documents, up to the order of maps, and go
    through signatures in orders of their own. *)
Definition same_env (E E' : env) : Prop :=
  e_crypto E = e_crypto E' /\
  exists R : ic_raw (e_ic E) -> ic_raw (e_ic E') -> Prop,
    (forall raw, res_rel (fun p p' => fst p = fst p' /\ R (snd p) (snd p')) (ic_envelope (e_ic E) raw) (ic_envelope (e_ic E') raw)) /\
    (forall x x', R x x' -> ic_canonicalize (e_ic E) x = ic_canonicalize (e_ic E') x' /\
       forall r, res_rel (same_metadata r) (ic_deserialize (e_ic E) r x) (ic_deserialize (e_ic E') r x')) /\
    (forall r b, res_rel (same_metadata r) (ic_from_slice (e_ic E) r b) (ic_from_slice (e_ic E') r b)).

(** ** What a client does *)

(** The same requests with the same answers; the trusted metadata the same up to orders. *)
Definition same_event (e e' : event) : Prop :=
  match e, e' with
  | EvPut t, EvPut t' => same_tuf t t'
  | EvFetchTarget path d ans, EvFetchTarget path' d' ans' => path = path' /\ same_target d d' /\ ans = ans'
  | EvPut _, _ | _, EvPut _ | EvFetchTarget _ _ _, _ | _, EvFetchTarget _ _ _ => False
  | _, _ => e = e'
  end.
(** Both have returned, with values in [R], or both have panicked, or both go on. *)
Definition same_end {A} (R : A -> A -> Prop) (p p' : prog A) : Prop :=
  match p, p' with
  | Ret a, Ret a' => R a a'
  | Panic, Panic | OutOfFuel, OutOfFuel => True
  | Ret _, _ | _, Ret _ | Panic, _ | _, Panic | OutOfFuel, _ | _, OutOfFuel => False
  | _, _ => True
  end.
(** Whatever one does the other does, given the same answers. *)
Definition same_behaviour {A} (R : A -> A -> Prop) (p p' : prog A) : Prop :=
  (forall tr q, exec p tr q -> exists tr' q', exec p' tr' q' /\ Forall2 same_event tr tr' /\ same_end R q q') /\
  (forall tr' q', exec p' tr' q' -> exists tr q, exec p tr q /\ Forall2 same_event tr tr' /\ same_end R q q').
(** The trusted metadata and the result of a call of the client. *)
Definition same_outcome {A} (R : A -> A -> Prop) (x x' : tuf * result A) : Prop :=
  same_tuf (fst x) (fst x') /\ res_rel R (snd x) (snd x').

(** ** Calls, each with orders of its own *)
Fixpoint calls (t : tuf) (l : list (env * op)) : tuf * list (result bool) :=
  match l with
  | [] => (t, [])
  | (E, o) :: rest => let (t1, r) := step E t o in let (t2, rs) := calls t1 rest in (t2, r :: rs)
  end.

(** ** A reader that puts the maps of what it has read into some other order *)
Definition shuffled (I : interchange) (f : forall r, bytes -> metadata_of r -> metadata_of r)
    (g : forall r, ic_raw I -> metadata_of r -> metadata_of r) : interchange := {|
  ic_raw := ic_raw I;
  ic_envelope := ic_envelope I;
  ic_canonicalize := ic_canonicalize I;
  ic_from_slice r b := match ic_from_slice I r b with Ok m => Ok (f r b m) | Err e => Err e end;
  ic_deserialize r x := match ic_deserialize I r x with Ok m => Ok (g r x m) | Err e => Err e end;
  ic_extension := ic_extension I
|}.
(** It changes orders only. *)
Definition shuffles {A} (f : forall r : role, A -> metadata_of r -> metadata_of r) : Prop :=
  forall r x m, same_metadata r m m -> same_metadata r m (f r x m).

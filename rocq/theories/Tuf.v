(** * src/tuf.rs: the trusted metadata and its updates *)
From Coq Require Import String List NArith ZArith Bool.
From Verif Require Import Base Metadata Verify Paths.
Import ListNotations.
Open Scope string_scope.

(** src/tuf.rs 20-27 [struct Tuf]. *)
Record tuf := mkTuf {
  t_root : root_metadata;
  t_snapshot : option snapshot_metadata;
  t_targets : option targets_metadata;
  t_timestamp : option timestamp_metadata;
  t_delegations : list (string * targets_metadata)
}.

(** Field updates ([self.field = value]).
    Of [Tuf], src/tuf.rs 20-27. *)
Definition set_snapshot (s : option snapshot_metadata) (t : tuf) : tuf :=
  mkTuf (t_root t) s (t_targets t) (t_timestamp t) (t_delegations t).
(** Of [Tuf], src/tuf.rs 20-27. *)
Definition set_targets (g : option targets_metadata) (t : tuf) : tuf :=
  mkTuf (t_root t) (t_snapshot t) g (t_timestamp t) (t_delegations t).
(** Of [Tuf], src/tuf.rs 20-27. *)
Definition set_timestamp (ts : option timestamp_metadata) (t : tuf) : tuf :=
  mkTuf (t_root t) (t_snapshot t) (t_targets t) ts (t_delegations t).
(** Of [Tuf], src/tuf.rs 20-27. *)
Definition set_delegations (d : list (string * targets_metadata)) (t : tuf) : tuf :=
  mkTuf (t_root t) (t_snapshot t) (t_targets t) (t_timestamp t) d.
(** Of [Tuf], src/tuf.rs 20-27. *)
Definition set_root (r : root_metadata) (t : tuf) : tuf :=
  mkTuf r (t_snapshot t) (t_targets t) (t_timestamp t) (t_delegations t).

(** The readings of [Utc::now()] one call makes, one per place where the code
    reads the clock (src/tuf.rs 329, 608, 745, 798, 848, 857, 869, 880).  They
    need not be equal nor increasing. *)
Record clock := mkClock {
  at_root : Z;          (* trusted_root_unexpired, 848 *)
  at_snapshot : Z;      (* trusted_snapshot_unexpired, 857 *)
  at_targets : Z;       (* trusted_targets_unexpired, 869 *)
  at_timestamp : Z;     (* trusted_timestamp_unexpired, 880 *)
  at_new : Z;           (* the check of the new document, 329, 608, 745 *)
  at_deleg : string -> Z  (* target_description, 798, per delegated role *)
}.

(** [expires <= now], e.g. src/tuf.rs 329. *)
Definition expired (expires now : Z) : bool := (expires <=? now)%Z.

(** src/tuf.rs 126-131 *)
Definition trusted_timestamp_version (t : tuf) : N :=
  match t_timestamp t with Some m => tm_version m | None => 0%N end.
(** src/tuf.rs 133-138 *)
Definition trusted_snapshot_version (t : tuf) : N :=
  match t_snapshot t with Some m => sm_version m | None => 0%N end.
(** src/tuf.rs 140-145 *)
Definition trusted_targets_version (t : tuf) : N :=
  match t_targets t with Some m => tg_version m | None => 0%N end.
(** src/tuf.rs 147-152 *)
Definition trusted_delegation_version (t : tuf) (r : string) : N :=
  match lookup r (t_delegations t) with Some m => tg_version m | None => 0%N end.

(** src/tuf.rs 846-852 *)
Definition trusted_root_unexpired (c : clock) (t : tuf) : result root_metadata :=
  if expired (rm_expires (t_root t)) (at_root c) then Err (ExpiredMetadata Root) else Ok (t_root t).
(** src/tuf.rs 854-864 *)
Definition trusted_snapshot_unexpired (c : clock) (t : tuf) : result snapshot_metadata :=
  match t_snapshot t with
  | Some s => if expired (sm_expires s) (at_snapshot c) then Err (ExpiredMetadata Snapshot) else Ok s
  | None => Err (MissingMetadata Snapshot)
  end.
(** src/tuf.rs 866-876 *)
Definition trusted_targets_unexpired (c : clock) (t : tuf) : result targets_metadata :=
  match t_targets t with
  | Some s => if expired (tg_expires s) (at_targets c) then Err (ExpiredMetadata Targets) else Ok s
  | None => Err (MissingMetadata Targets)
  end.
(** src/tuf.rs 877-887 *)
Definition trusted_timestamp_unexpired (c : clock) (t : tuf) : result timestamp_metadata :=
  match t_timestamp t with
  | Some s => if expired (tm_expires s) (at_timestamp c) then Err (ExpiredMetadata Timestamp) else Ok s
  | None => Err (MissingMetadata Timestamp)
  end.

(** src/tuf.rs 839-844 [purge_metadata]. *)
Definition purge_metadata (t : tuf) : tuf := mkTuf (t_root t) None None None [].

(** A fresh [Tuf] around a verified root, src/tuf.rs 61-68 and 91-98. *)
Definition tuf_of_root (r : root_metadata) : tuf := mkTuf r None None None [].

Section Ops.
  Variable E : env.

  (** src/tuf.rs 33-69 [Tuf::from_root_with_trusted_keys]. *)
  Definition from_root_with_trusted_keys (raw : bytes) (threshold : N) (keys : list public_key)
    : result tuf :=
    let? new_root := verify_signatures E Root raw threshold keys in
    let? verified := verify_signatures E Root raw (rd_threshold (rm_root new_root))
                       (select_keys (rm_keys new_root) (rd_key_ids (rm_root new_root))) in
    Ok (tuf_of_root verified).

  (** src/tuf.rs 75-99 [Tuf::from_trusted_root]. *)
  Definition from_trusted_root (raw : bytes) : result tuf :=
    let? (_, signed) := ic_envelope (e_ic E) raw in
    let? unverified := ic_deserialize (e_ic E) Root signed in
    let? verified := verify_signatures E Root raw (rd_threshold (rm_root unverified))
                       (root_keys unverified) in
    Ok (tuf_of_root verified).

  (** src/tuf.rs 155-246 [update_root]; all [update_*] return the new [self] and
      the Rust result. *)
  Definition update_root (t : tuf) (raw : bytes) : tuf * result unit :=
    match
      (let? new_root := verify_signatures E Root raw (rd_threshold (rm_root (t_root t)))
                          (root_keys (t_root t)) in
       let? new_root := verify_signatures E Root raw (rd_threshold (rm_root new_root))
                          (root_keys new_root) in
       (* checked_add(1), 193-195 *)
       if (u32_max <=? rm_version (t_root t))%N then Err VerificationFailure
       else if negb (rm_version new_root =? rm_version (t_root t) + 1)%N then Err VerificationFailure
       else Ok new_root)
    with
    | Ok verified => (set_root verified (purge_metadata t), Ok tt)
    | Err e => (t, Err e)
    end.

  (** src/tuf.rs 251-338 [update_timestamp]; the reference to the stored metadata
      is returned as the metadata itself. *)
  Definition update_timestamp (t : tuf) (c : clock) (raw : bytes)
    : tuf * result (option timestamp_metadata) :=
    match verify_signatures E Timestamp raw (rd_threshold (rm_timestamp (t_root t)))
            (timestamp_keys (t_root t)) with
    | Err e => (t, Err e)
    | Ok new =>
        match (tm_version new ?= trusted_timestamp_version t)%N with
        | Lt => (t, Err VerificationFailure)
        | Eq => (t, Ok None)
        | Gt =>
            let t1 := if negb (trusted_snapshot_version t =? md_version (tm_snapshot new))%N
                      then set_snapshot None t else t in
            if expired (tm_expires new) (at_new c)
            then (t1, Err (ExpiredMetadata Timestamp))
            else (set_timestamp (Some new) t1, Ok (Some new))
        end
    end.

  (** src/tuf.rs 487-512 [purge_delegations]: the roles the snapshot lists with a
      lower version than the trusted delegation are removed. *)
  Definition purge_delegations (t : tuf) : tuf :=
    match t_snapshot t with
    | None => t
    | Some s =>
        let purge :=
          flat_map (fun '(r, def) =>
                      match lookup r (t_delegations t) with
                      | Some d => if (md_version def <? tg_version d)%N then [r] else []
                      | None => []
                      end) (sm_meta s) in
        set_delegations (fold_left (fun m r => remove r m) purge (t_delegations t)) t
    end.

  (** src/tuf.rs 341-485 [update_snapshot]. *)
  Definition update_snapshot (t : tuf) (c : clock) (raw : bytes) : tuf * result bool :=
    match
      (let? root := trusted_root_unexpired c t in
       let? ts := trusted_timestamp_unexpired c t in
       let trusted := trusted_snapshot_version t in
       match (md_version (tm_snapshot ts) ?= trusted)%N with
       | Lt => Err VerificationFailure
       | Eq => Ok None
       | Gt =>
           let? new := verify_signatures E Snapshot raw (rd_threshold (rm_snapshot root))
                         (snapshot_keys root) in
           if negb (sm_version new =? md_version (tm_snapshot ts))%N then Err VerificationFailure
           else if (sm_version new <? trusted)%N then Err VerificationFailure
           else Ok (Some new)
       end)
    with
    | Err e => (t, Err e)
    | Ok None => (t, Ok false)
    | Ok (Some verified) =>
        let listed := match lookup (from_role Targets) (sm_meta verified) with
                      | Some m => md_version m | None => 0%N end in
        let t1 := if negb (trusted_targets_version t =? listed)%N then set_targets None t else t in
        let t2 := set_snapshot (Some verified) t1 in
        (purge_delegations t2, Ok true)
    end.

  (** src/tuf.rs 515-617 [update_targets]. *)
  Definition update_targets (t : tuf) (c : clock) (raw : bytes) : tuf * result bool :=
    match
      (let? root := trusted_root_unexpired c t in
       let? snap := trusted_snapshot_unexpired c t in
       match lookup (from_role Targets) (sm_meta snap) with
       | None => Err VerificationFailure
       | Some desc =>
           match (md_version desc ?= trusted_targets_version t)%N with
           | Lt => Err VerificationFailure
           | Eq => Ok None
           | Gt =>
               let? new := verify_signatures E Targets raw (rd_threshold (rm_targets root))
                             (targets_keys root) in
               if negb (tg_version new =? md_version desc)%N then Err VerificationFailure
               else if expired (tg_expires new) (at_new c) then Err (ExpiredMetadata Snapshot)
               else Ok (Some new)
           end
       end)
    with
    | Err e => (t, Err e)
    | Ok None => (t, Ok false)
    | Ok (Some verified) => (set_targets (Some verified) t, Ok true)
    end.

  (** src/tuf.rs 641-660: the first delegation in the list for the role. *)
  Definition find_role (ds : delegations) (r : string) : option delegation :=
    find (fun d => String.eqb (dg_role d) r) (dgs_roles ds).

  (** src/tuf.rs 621-663 [find_delegation_threshold_and_keys]. *)
  Definition find_delegation_threshold_and_keys (t : tuf) (parent r : string)
    : option (N * list public_key) :=
    let trusted_parent :=
      if String.eqb parent (from_role Targets) then t_targets t else lookup parent (t_delegations t) in
    match trusted_parent with
    | None => None
    | Some p =>
        match tg_delegations p with
        | None => None
        | Some ds =>
            match find_role ds r with
            | None => None
            | Some d => Some (dg_threshold d, select_keys (dgs_keys ds) (dg_key_ids d))
            end
        end
    end.

  (** src/tuf.rs 666-756 [update_delegation]. *)
  Definition update_delegation (t : tuf) (c : clock) (parent r : string) (raw : bytes)
    : tuf * result bool :=
    match
      (let? _ := trusted_root_unexpired c t in
       let? snap := trusted_snapshot_unexpired c t in
       let? targets := trusted_targets_unexpired c t in
       match tg_delegations targets with
       | None => Err VerificationFailure
       | Some _ =>
           match lookup r (sm_meta snap) with
           | None => Err VerificationFailure
           | Some desc =>
               let trusted := trusted_delegation_version t r in
               if (md_version desc <? trusted)%N then Err VerificationFailure
               else
                 match find_delegation_threshold_and_keys t parent r with
                 | None => Err VerificationFailure
                 | Some (threshold, keys) =>
                     let? new := verify_signatures E Targets raw threshold keys in
                     if (trusted =? md_version desc)%N then Ok None
                     else if negb (tg_version new =? md_version desc)%N then Err VerificationFailure
                     else if expired (tg_expires new) (at_new c) then Err (ExpiredMetadata Targets)
                     else Ok (Some new)
                 end
           end
       end)
    with
    | Err e => (t, Err e)
    | Ok None => (t, Ok false)
    | Ok (Some verified) => (set_delegations (insert r verified (t_delegations t)) t, Ok true)
    end.
End Ops.

(** ** Target lookup, src/tuf.rs 762-837 *)

(** The result of the inner [lookup]: its return value and the [visited] set.
    [None] as a whole means the model ran out of fuel, which
    [lookup_fuel_suffices] (LookupProofs.v) rules out.
    src/tuf.rs 771-826. *)
Definition lookup_result : Type := option ((bool * option target_desc) * list string).

(** src/tuf.rs 771-826, the loop over [delegations.roles()] (780-824); the
    recursive call for a child (809-817) is the argument [recur]. *)
Fixpoint lookup_loop (recur : bool -> N -> delegations -> list (list string) -> list string -> lookup_result)
         (t : tuf) (c : clock) (default_terminate : bool) (depth : N) (target : string)
         (parents : list (list string)) (roles : list delegation) (visited : list string)
  : lookup_result :=
  match roles with
  | [] => Some ((default_terminate, None), visited)
  | d :: rest =>
      if mem (dg_role d) visited then Some ((dg_terminating d, None), visited)
      else
        let visited := dg_role d :: visited in
        if (0 <? depth)%N && negb (matches_chain target parents)
        then Some ((dg_terminating d, None), visited)
        else
          match lookup (dg_role d) (t_delegations t) with
          | None => Some ((dg_terminating d, None), visited)
          | Some td =>
              if expired (tg_expires td) (at_deleg c (dg_role d))
              then Some ((dg_terminating d, None), visited)
              else
                match lookup target (tg_targets td) with
                | Some desc => Some ((dg_terminating d, Some desc), visited)
                | None =>
                    match tg_delegations td with
                    | Some child =>
                        match recur (dg_terminating d) (depth + 1)%N child
                                    (parents ++ [dg_paths d])%list visited with
                        | None => None
                        | Some ((term, res), visited) =>
                            if term then Some ((true, res), visited)
                            else match res with
                                 | Some _ => Some ((term, res), visited)
                                 | None => lookup_loop recur t c default_terminate depth target
                                             parents rest visited
                                 end
                        end
                    | None => lookup_loop recur t c default_terminate depth target parents rest visited
                    end
                end
          end
  end.

(** src/tuf.rs 771-826 [lookup]; every recursive call has just marked one more
    trusted delegation as visited, so the number of trusted delegations plus one
    bounds the recursion depth. *)
Fixpoint lookup_rec (fuel : nat) (t : tuf) (c : clock) (target : string) (default_terminate : bool)
         (depth : N) (ds : delegations) (parents : list (list string)) (visited : list string)
  : lookup_result :=
  match fuel with
  | O => None
  | S f =>
      lookup_loop (fun dt dep child ps vis => lookup_rec f t c target dt dep child ps vis)
                  t c default_terminate depth target parents (dgs_roles ds) visited
  end.

(** Enough for the recursion of src/tuf.rs 771-826, which visits each role at most once. *)
Definition lookup_fuel (t : tuf) : nat := S (length (t_delegations t)).

(** src/tuf.rs 762-837 [target_description]; [None] only if out of fuel. *)
Definition target_description (t : tuf) (c : clock) (target : string) : option (result target_desc) :=
  match
    (let? _ := trusted_root_unexpired c t in
     let? _ := trusted_snapshot_unexpired c t in
     trusted_targets_unexpired c t)
  with
  | Err e => Some (Err e)
  | Ok targets =>
      match lookup target (tg_targets targets) with
      | Some d => Some (Ok d)
      | None =>
          match tg_delegations targets with
          | None => Some (Err TargetUnavailable)
          | Some ds =>
              match lookup_rec (lookup_fuel t) t c target false 0 ds [] [] with
              | None => None
              | Some ((_, Some d), _) => Some (Ok d)
              | Some ((_, None), _) => Some (Err TargetUnavailable)
              end
          end
      end
  end.

(** ** Histories: sequences of calls of the public [update_*] methods *)

(** Calls of src/tuf.rs 155-760. *)
Inductive op :=
| OpRoot (raw : bytes)
| OpTimestamp (c : clock) (raw : bytes)
| OpSnapshot (c : clock) (raw : bytes)
| OpTargets (c : clock) (raw : bytes)
| OpDelegation (c : clock) (parent r : string) (raw : bytes).

(** What a call returned, with the payload of [Ok] dropped to "changed / not".
    Of src/tuf.rs 155-760. *)
Definition step (E : env) (t : tuf) (o : op) : tuf * result bool :=
  match o with
  | OpRoot raw =>
      let (t', r) := update_root E t raw in
      (t', match r with Ok _ => Ok true | Err e => Err e end)
  | OpTimestamp c raw =>
      let (t', r) := update_timestamp E t c raw in
      (t', match r with Ok (Some _) => Ok true | Ok None => Ok false | Err e => Err e end)
  | OpSnapshot c raw => update_snapshot E t c raw
  | OpTargets c raw => update_targets E t c raw
  | OpDelegation c p r raw => update_delegation E t c p r raw
  end.

(** A sequence of calls of src/tuf.rs 155-760. *)
Definition run (E : env) (t : tuf) (ops : list op) : tuf :=
  fold_left (fun t o => fst (step E t o)) ops t.

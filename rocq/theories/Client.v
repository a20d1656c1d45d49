(** * src/client.rs

    Asynchronous functions are programs of [prog]: trees of calls to the outside
    world (the two repositories, the clock, a writer), of writes to the client's
    [tuf] field, and of return values.  [exec] runs a program against arbitrary
    answers; a run that stops before [Ret] is a future that was dropped (or has not
    finished yet). *)
From Coq Require Import String List NArith ZArith Bool.
From Verif Require Import Base Metadata Verify Paths Tuf Reader Repo.
Import ListNotations.
Open Scope string_scope.
Open Scope list_scope.
Open Scope N_scope.

(** The fields [local] and [remote] of a client, src/client.rs 127-128. *)
Inductive side := Local | Remote.

(** [Panic] is a panic of the code, [OutOfFuel] an artefact of the model which
    [C46_root_loop_terminates] and [C54_walk_is_bounded] (Props_Client.v) rule out.
    For the async functions of src/client.rs 195-1028. *)
Inductive prog (A : Type) :=
| Ret (a : A)
| Panic
| OutOfFuel
(* [RepositoryProvider::fetch_metadata] of one of the repositories *)
| FetchMeta (s : side) (path : string) (v : meta_version) (max : option N)
            (hash : option (hash_alg * bytes)) (k : result stream -> prog A)
(* [RepositoryStorage::store_metadata] of the local repository *)
| StoreMeta (path : string) (v : meta_version) (data : bytes) (k : result unit -> prog A)
(* [RepositoryProvider::fetch_target] of the remote repository *)
| FetchTarget (path : string) (d : target_desc) (k : result stream -> prog A)
(* [RepositoryStorage::store_target] of the local repository, which reads the stream *)
| StoreTarget (path : string) (data : stream) (k : result unit -> prog A)
(* one [write_all] to the caller's writer; [Some] is an [io::Error] *)
| Write (data : bytes) (k : option io_kind -> prog A)
(* [Utc::now()] *)
| Now (k : clock -> prog A)
(* assignment to [self.tuf] *)
| Put (t : tuf) (p : prog A).
Arguments Ret {A} a.
Arguments Panic {A}.
Arguments OutOfFuel {A}.
Arguments FetchMeta {A} s path v max hash k.
Arguments StoreMeta {A} path v data k.
Arguments FetchTarget {A} path d k.
Arguments StoreTarget {A} path data k.
Arguments Write {A} data k.
Arguments Now {A} k.
Arguments Put {A} t p.

(** [.await] followed by the rest.
    As everywhere in src/client.rs 195-1028. *)
Fixpoint bind {A B} (p : prog A) (f : A -> prog B) : prog B :=
  match p with
  | Ret a => f a
  | Panic => Panic
  | OutOfFuel => OutOfFuel
  | FetchMeta s path v max hash k => FetchMeta s path v max hash (fun r => bind (k r) f)
  | StoreMeta path v b k => StoreMeta path v b (fun r => bind (k r) f)
  | FetchTarget path d k => FetchTarget path d (fun r => bind (k r) f)
  | StoreTarget path rs k => StoreTarget path rs (fun r => bind (k r) f)
  | Write b k => Write b (fun r => bind (k r) f)
  | Now k => Now (fun c => bind (k c) f)
  | Put t q => Put t (bind q f)
  end.
Notation "'do' x <- p 'in' k" := (bind p (fun x => k))
  (at level 200, x pattern, p at level 100, k at level 200, right associativity).

(** What the outside world sees.
    Of src/client.rs 195-1028. *)
Inductive event :=
| EvFetchMeta (s : side) (path : string) (v : meta_version) (max : option N)
              (hash : option (hash_alg * bytes)) (ans : result stream)
| EvStoreMeta (path : string) (v : meta_version) (data : bytes) (ans : result unit)
| EvFetchTarget (path : string) (d : target_desc) (ans : result stream)
| EvStoreTarget (path : string) (data : stream) (ans : result unit)
| EvWrite (data : bytes) (ans : option io_kind)
| EvNow (c : clock)
| EvPut (t : tuf).

(** Running a program: the events, oldest first, and what is left to run.
    Of the async functions in src/client.rs 195-1028. *)
Inductive exec {A} : prog A -> list event -> prog A -> Prop :=
| exec_here p : exec p [] p
| exec_fetch_meta s path v max hash k ans tr q :
    exec (k ans) tr q -> exec (FetchMeta s path v max hash k) (EvFetchMeta s path v max hash ans :: tr) q
| exec_store_meta path v b k ans tr q :
    exec (k ans) tr q -> exec (StoreMeta path v b k) (EvStoreMeta path v b ans :: tr) q
| exec_fetch_target path d k ans tr q :
    exec (k ans) tr q -> exec (FetchTarget path d k) (EvFetchTarget path d ans :: tr) q
| exec_store_target path rs k ans tr q :
    exec (k ans) tr q -> exec (StoreTarget path rs k) (EvStoreTarget path rs ans :: tr) q
| exec_write b k ans tr q :
    exec (k ans) tr q -> exec (Write b k) (EvWrite b ans :: tr) q
| exec_now k c tr q :
    exec (k c) tr q -> exec (Now k) (EvNow c :: tr) q
| exec_put t p tr q :
    exec p tr q -> exec (Put t p) (EvPut t :: tr) q.

(** The value of [self.tuf] after some events, [t] before.
    The field of src/client.rs 125. *)
Fixpoint tuf_after (t : tuf) (tr : list event) : tuf :=
  match tr with
  | [] => t
  | EvPut t' :: rest => tuf_after t' rest
  | _ :: rest => tuf_after t rest
  end.

(** src/client.rs 87-93 [trait PathTranslator]; only [real_to_virtual] is ever
    called. *)
Definition translator := string -> result string.

(** src/client.rs 95-114 [DefaultTranslator]. *)
Definition default_real_to_virtual : translator := fun path => path_new path.
(** src/client.rs 111-113 [virtual_to_real]. *)
Definition default_virtual_to_real : translator := fun path => path_new path.

(** src/client.rs 1078-1087 [struct Config]. *)
Record config := mkConfig {
  cf_max_root : option N;
  cf_max_timestamp : option N;
  cf_max_depth : N;
  cf_translate : translator
}.

(** src/client.rs 1121-1130 [Config::default], also what [Config::build] starts from. *)
Definition default_config : config :=
  mkConfig (Some (1024 * 1024)) (Some (32 * 1024)) 8 default_real_to_virtual.

Section Client.
  Variable E : env.
  Variable cfg : config.

  Notation C := (e_crypto E).

  (** ** Calls of [Repository] (Repo.v) as programs *)

  (** src/repository.rs 255-281 [Repository::fetch_metadata]. *)
  Definition fetch_metadata (s : side) (r : role) (path : string) (v : meta_version) (max : option N)
             (hash : option (hash_alg * bytes)) : prog (result bytes) :=
    match repo_check r path with
    | Err e => Ret (Err e)
    | Ok _ => FetchMeta s path v max hash (fun ans => Ret (read_metadata C max hash ans))
    end.

  (** src/repository.rs 313-327 [Repository::store_metadata]. *)
  Definition store_metadata (r : role) (path : string) (v : meta_version) (data : bytes)
    : prog (result unit) :=
    match repo_check r path with
    | Err e => Ret (Err e)
    | Ok _ => StoreMeta path v data (fun ans => Ret ans)
    end.

  (** src/repository.rs 290-301 [Repository::fetch_target]. *)
  Definition fetch_target_stream (path : string) (d : target_desc) : prog (result stream) :=
    match hash_preference (td_hashes d) with
    | Err e => Ret (Err e)
    | Ok hash => FetchTarget path d (fun ans => Ret (checked_target C (td_length d) hash ans))
    end.

  (** ** Updates.  They take and return the trusted metadata; [s] is the repository
      passed as [remote], [persist] tells whether [local] is [Some]. *)

  (** src/client.rs 494-554, the loop: [Ok updated] after [break].  [version + 1] panics
      on overflow (with overflow checks; without them it wraps to 0).  Each round raises
      the version by one, so [fuel] bounds the number of rounds. *)
  Fixpoint root_loop (fuel : nat) (s : side) (persist : bool) (t : tuf) (updated : bool)
    : prog (tuf * result bool) :=
    match fuel with
    | O => OutOfFuel
    | S f =>
        if u32_max <=? rm_version (t_root t) then Panic else
        let next := VNumber (rm_version (t_root t) + 1) in
        do res <- fetch_metadata s Root (from_role Root) next (cf_max_root cfg) None in
        match res with
        | Err NotFound => Ret (t, Ok updated)
        | Err e => Ret (t, Err e)
        | Ok raw =>
            let (t', r) := update_root E t raw in
            Put t'
              match r with
              | Err e => Ret (t', Err e)
              | Ok _ =>
                  if persist then
                    do r1 <- store_metadata Root (from_role Root) VNone raw in
                    match r1 with
                    | Err e => Ret (t', Err e)
                    | Ok _ =>
                        do r2 <- store_metadata Root (from_role Root) next raw in
                        match r2 with
                        | Err e => Ret (t', Err e)
                        | Ok _ => root_loop f s persist t' true
                        end
                    end
                  else root_loop f s persist t' true
              end
        end
    end.

  (** src/client.rs 483-579 [update_root_with_repos]. *)
  Definition update_root_with_repos (fuel : nat) (s : side) (persist : bool) (t : tuf)
    : prog (tuf * result bool) :=
    do (t, r) <- root_loop fuel s persist t false in
    match r with
    | Err e => Ret (t, Err e)
    | Ok updated =>
        Now (fun c =>
          if expired (rm_expires (t_root t)) (at_root c)
          then Ret (t, Err (ExpiredMetadata Root))
          else Ret (t, Ok updated))
    end.

  (** src/client.rs 592-641 [update_timestamp_with_repos]. *)
  Definition update_timestamp_with_repos (s : side) (persist : bool) (t : tuf)
    : prog (tuf * result bool) :=
    do res <- fetch_metadata s Timestamp (from_role Timestamp) VNone (cf_max_timestamp cfg) None in
    match res with
    | Err e => Ret (t, Err e)
    | Ok raw =>
        Now (fun c =>
          let (t', r) := update_timestamp E t c raw in
          Put t'
            match r with
            | Err e => Ret (t', Err e)
            | Ok None => Ret (t', Ok false)
            | Ok (Some _) =>
                if persist then
                  do r1 <- store_metadata Timestamp (from_role Timestamp) VNone raw in
                  match r1 with Err e => Ret (t', Err e) | Ok _ => Ret (t', Ok true) end
                else Ret (t', Ok true)
            end)
    end.

  (** src/client.rs 655-716 [update_snapshot_with_repos]. *)
  Definition update_snapshot_with_repos (s : side) (persist consistent : bool) (t : tuf)
    : prog (tuf * result bool) :=
    match t_timestamp t with
    | None => Ret (t, Err (MissingMetadata Timestamp))
    | Some ts =>
        let desc := tm_snapshot ts in
        if md_version desc <=? match t_snapshot t with Some m => sm_version m | None => 0 end
        then Ret (t, Ok false)
        else
          match hash_preference (md_hashes desc) with
          | Err e => Ret (t, Err e)
          | Ok hash =>
              let version := if consistent then VNumber (md_version desc) else VNone in
              do res <- fetch_metadata s Snapshot (from_role Snapshot) version
                          (Some (md_length desc)) (Some hash) in
              match res with
              | Err e => Ret (t, Err e)
              | Ok raw =>
                  Now (fun c =>
                    let (t', r) := update_snapshot E t c raw in
                    Put t'
                      match r with
                      | Err e => Ret (t', Err e)
                      | Ok false => Ret (t', Ok false)
                      | Ok true =>
                          if persist then
                            do r1 <- store_metadata Snapshot (from_role Snapshot) VNone raw in
                            match r1 with Err e => Ret (t', Err e) | Ok _ => Ret (t', Ok true) end
                          else Ret (t', Ok true)
                      end)
              end
          end
    end.

  (** src/client.rs 730-794 [update_targets_with_repos]. *)
  Definition update_targets_with_repos (s : side) (persist consistent : bool) (t : tuf)
    : prog (tuf * result bool) :=
    match t_snapshot t with
    | None => Ret (t, Err (MissingMetadata Snapshot))
    | Some sn =>
        match lookup (from_role Targets) (sm_meta sn) with
        | None => Ret (t, Err VerificationFailure)
        | Some desc =>
            if md_version desc <=? match t_targets t with Some m => tg_version m | None => 0 end
            then Ret (t, Ok false)
            else
              match hash_preference (md_hashes desc) with
              | Err e => Ret (t, Err e)
              | Ok hash =>
                  let version := if consistent then VNumber (md_version desc) else VNone in
                  do res <- fetch_metadata s Targets (from_role Targets) version
                              (Some (md_length desc)) (Some hash) in
                  match res with
                  | Err e => Ret (t, Err e)
                  | Ok raw =>
                      Now (fun c =>
                        let (t', r) := update_targets E t c raw in
                        Put t'
                          match r with
                          | Err e => Ret (t', Err e)
                          | Ok false => Ret (t', Ok false)
                          | Ok true =>
                              if persist then
                                do r1 <- store_metadata Targets (from_role Targets) VNone raw in
                                match r1 with Err e => Ret (t', Err e) | Ok _ => Ret (t', Ok true) end
                              else Ret (t', Ok true)
                          end)
                  end
              end
        end
    end.

  (** src/client.rs 478-481, 581-590, 643-653, 718-728, 418-425: [update_root],
      [update_timestamp], [update_snapshot], [update_targets], [update]. *)
  Definition update (fuel : nat) (t : tuf) : prog (tuf * result bool) :=
    do (t, r) <- update_root_with_repos fuel Remote true t in
    match r with Err e => Ret (t, Err e) | Ok r =>
    do (t, ts) <- update_timestamp_with_repos Remote true t in
    match ts with Err e => Ret (t, Err e) | Ok ts =>
    do (t, sn) <- update_snapshot_with_repos Remote true (rm_consistent (t_root t)) t in
    match sn with Err e => Ret (t, Err e) | Ok sn =>
    do (t, ta) <- update_targets_with_repos Remote true (rm_consistent (t_root t)) t in
    match ta with Err e => Ret (t, Err e) | Ok ta =>
    Ret (t, Ok (r || ts || sn || ta))
    end end end end.

  (** ** Construction *)

  (** src/client.rs 384-413 [new]: loads what the local repository has; the result of
      the inner block only decides about a warning.  The [Put]s of the constructors are
      assignments to the variable [tuf] that becomes the field. *)
  Definition client_new (fuel : nat) (t : tuf) : prog (result tuf) :=
    do (t, r) <- update_root_with_repos fuel Local false t in
    match r with Err _ => Ret (Ok t) | Ok _ =>
    do (t, ts) <- update_timestamp_with_repos Local false t in
    match ts with Err _ => Ret (Ok t) | Ok _ =>
    do (t, sn) <- update_snapshot_with_repos Local false false t in
    match sn with Err _ => Ret (Ok t) | Ok _ =>
    do (t, _) <- update_targets_with_repos Local false false t in
    Ret (Ok t)
    end end end.

  (** src/client.rs 195-209 [with_trusted_local]. *)
  Definition with_trusted_local (fuel : nat) : prog (result tuf) :=
    do res <- fetch_metadata Local Root (from_role Root) (VNumber 1) (cf_max_root cfg) None in
    match res with
    | Err e => Ret (Err e)
    | Ok raw =>
        match from_trusted_root E raw with
        | Err e => Ret (Err e)
        | Ok t => Put t (client_new fuel t)
        end
    end.

  (** src/client.rs 260-270 [with_trusted_root]. *)
  Definition with_trusted_root (fuel : nat) (raw : bytes) : prog (result tuf) :=
    match from_trusted_root E raw with
    | Err e => Ret (Err e)
    | Ok t => Put t (client_new fuel t)
    end.

  (** src/client.rs 1033-1060 [fetch_metadata_from_local_or_else_remote]. *)
  Definition fetch_metadata_from_local_or_else_remote (r : role) (path : string) (v : meta_version)
             (max : option N) (hash : option (hash_alg * bytes)) : prog (result (bool * bytes)) :=
    do res <- fetch_metadata Local r path v max hash in
    match res with
    | Ok raw => Ret (Ok (false, raw))
    | Err NotFound =>
        do res <- fetch_metadata Remote r path v max hash in
        match res with Ok raw => Ret (Ok (true, raw)) | Err e => Ret (Err e) end
    | Err e => Ret (Err e)
    end.

  (** src/client.rs 331-382 [with_trusted_root_keys]. *)
  Definition with_trusted_root_keys (fuel : nat) (v : meta_version) (threshold : N)
             (keys : list public_key) : prog (result tuf) :=
    do res <- fetch_metadata_from_local_or_else_remote Root (from_role Root) v (cf_max_root cfg) None in
    match res with
    | Err e => Ret (Err e)
    | Ok (fetched, raw) =>
        match from_root_with_trusted_keys E raw threshold keys with
        | Err e => Ret (Err e)
        | Ok t =>
            Put t
              (if fetched : bool then
                 do r1 <- store_metadata Root (from_role Root) (VNumber (rm_version (t_root t))) raw in
                 match r1 with Err e => Ret (Err e) | Ok _ => client_new fuel t end
               else client_new fuel t)
        end
    end.

  (** ** Targets *)

  (** src/client.rs 896-1027, the loop of [lookup_target_description]; the recursive
      call (1006-1014) is [recur], [targets_role] the role whose delegations these are.
      [current_depth + 1] panics on overflow. *)
  Fixpoint walk_loop
           (recur : tuf -> bool -> N -> option (targets_metadata * string) ->
                    prog (tuf * (bool * result target_desc)))
           (default_terminate : bool) (depth : N) (target : string) (snapshot : snapshot_metadata)
           (targets_role : string) (roles : list delegation) (t : tuf)
    : prog (tuf * (bool * result target_desc)) :=
    match roles with
    | [] => Ret (t, (default_terminate, Err NotFound))
    | d :: rest =>
        let continue t := walk_loop recur default_terminate depth target snapshot targets_role rest t in
        if negb (existsb (fun p => is_child target p) (dg_paths d)) then
          if dg_terminating d then Ret (t, (true, Err NotFound)) else continue t
        else
          match lookup (dg_role d) (sm_meta snapshot) with
          | None => if dg_terminating d then Ret (t, (true, Err NotFound)) else continue t
          | Some desc =>
              match hash_preference (md_hashes desc) with
              | Err e => Ret (t, (dg_terminating d, Err e))
              | Ok hash =>
                  let version := if rm_consistent (t_root t) then VNumber (md_version desc) else VNone in
                  do res <- fetch_metadata Local Targets (dg_role d) VNone (Some (md_length desc)) (Some hash) in
                  do res <- match res with
                            | Ok raw => Ret (Ok raw)
                            | Err _ => fetch_metadata Remote Targets (dg_role d) version
                                         (Some (md_length desc)) (Some hash)
                            end in
                  match res with
                  | Err e => if dg_terminating d then Ret (t, (true, Err e)) else continue t
                  | Ok raw =>
                      Now (fun c =>
                        let (t', r) := update_delegation E t c targets_role (dg_role d) raw in
                        Put t'
                          match r with
                          | Err e => if dg_terminating d then Ret (t', (true, Err e)) else continue t'
                          | Ok _ =>
                              do _ <- store_metadata Targets (dg_role d) VNone raw in
                              match lookup (dg_role d) (t_delegations t') with
                              | None => Panic
                              | Some meta =>
                                  if u32_max <=? depth then Panic else
                                  do (t'', (term, res)) <-
                                     recur t' (dg_terminating d) (depth + 1) (Some (meta, dg_role d)) in
                                  if term && negb (is_ok res) then Ret (t'', (true, res))
                                  else continue t''
                              end
                          end)
                  end
              end
          end
    end.

  (** src/client.rs 856-1028 [lookup_target_description]; the depth limit bounds the
      recursion, [fuel] stands for it. *)
  Fixpoint lookup_target_description (fuel : nat) (t : tuf) (default_terminate : bool) (depth : N)
           (target : string) (snapshot : snapshot_metadata) (targets : option (targets_metadata * string))
    : prog (tuf * (bool * result target_desc)) :=
    match fuel with
    | O => OutOfFuel
    | S f =>
        if cf_max_depth cfg <? depth then Ret (t, (default_terminate, Err NotFound))
        else
          match match targets with
                | Some x => Some x
                | None => match t_targets t with
                          | Some tg => Some (tg, from_role Targets)
                          | None => None
                          end
                end with
          | None => Ret (t, (default_terminate, Err (MissingMetadata Targets)))
          | Some (tg, targets_role) =>
              match lookup target (tg_targets tg) with
              | Some d => Ret (t, (default_terminate, Ok d))
              | None =>
                  match tg_delegations tg with
                  | None => Ret (t, (default_terminate, Err NotFound))
                  | Some ds =>
                      walk_loop
                        (fun t dt dep tgs => lookup_target_description f t dt dep target snapshot tgs)
                        default_terminate depth target snapshot targets_role (dgs_roles ds) t
                  end
              end
          end
    end.

  (** src/client.rs 821-836 [fetch_target_description]. *)
  Definition fetch_target_description (fuel : nat) (t : tuf) (target : string)
    : prog (tuf * result target_desc) :=
    match cf_translate cfg target with
    | Err e => Ret (t, Err e)
    | Ok virt =>
        match t_snapshot t with
        | None => Ret (t, Err (MissingMetadata Snapshot))
        | Some snapshot =>
            do (t, (_, res)) <- lookup_target_description fuel t false 0 virt snapshot None in
            Ret (t, res)
        end
    end.

  (** src/client.rs 839-854 [_fetch_target]. *)
  Definition fetch_target_reader (fuel : nat) (t : tuf) (target : string) : prog (tuf * result stream) :=
    do (t, res) <- fetch_target_description fuel t target in
    match res with
    | Err e => Ret (t, Err e)
    | Ok d =>
        if rm_consistent (t_root t) then
          match (let? (_, value) := hash_preference (td_hashes d) in with_hash_prefix target value) with
          | Err e => Ret (t, Err e)
          | Ok prefixed => do res <- fetch_target_stream prefixed d in Ret (t, res)
          end
        else do res <- fetch_target_stream target d in Ret (t, res)
    end.

  (** src/client.rs 797-800 [fetch_target]. *)
  Definition fetch_target (fuel : nat) (t : tuf) (target : string) : prog (tuf * result unit) :=
    do (t, res) <- fetch_target_reader fuel t target in
    match res with
    | Err e => Ret (t, Err e)
    | Ok rs => StoreTarget target rs (fun ans => Ret (t, ans))
    end.

  (** [futures::io::copy] to a writer: writes each chunk, stops at the end, or at the
      first error of either side.  (Simplification: a write takes everything or fails, and
      there is no flush.  Copy.v has all answers of a writer, C101 compares.)
      As in src/client.rs 816. *)
  Fixpoint copy_to_writer (rs : stream) : prog (result unit) :=
    match rs with
    | [] => Ret (Ok tt)
    | Pending :: rest => copy_to_writer rest
    | Failed k :: _ => Ret (Err (of_io k))
    | Ready data :: rest =>
        if byte_length data =? 0 then Ret (Ok tt)
        else Write data (fun ans => match ans with
                                    | Some k => Ret (Err (of_io k))
                                    | None => copy_to_writer rest
                                    end)
    end.

  (** src/client.rs 807-818 [fetch_target_to_writer]. *)
  Definition fetch_target_to_writer (fuel : nat) (t : tuf) (target : string) : prog (tuf * result unit) :=
    do (t, res) <- fetch_target_reader fuel t target in
    match res with
    | Err e => Ret (t, Err e)
    | Ok rs => do res <- copy_to_writer rs in Ret (t, res)
    end.
End Client.

(** ** The life of a client *)

(** The public constructors.
    src/client.rs 195-382. *)
Inductive ctor :=
| FromLocal
| FromRoot (raw : bytes)
| FromKeys (v : meta_version) (threshold : N) (keys : list public_key).

(** src/client.rs 195-382, any of the constructors. *)
Definition construct (E : env) (cfg : config) (fuel : nat) (c : ctor) : prog (result tuf) :=
  match c with
  | FromLocal => with_trusted_local E cfg fuel
  | FromRoot raw => with_trusted_root E cfg fuel raw
  | FromKeys v th keys => with_trusted_root_keys E cfg fuel v th keys
  end.

(** The public methods that take [&mut self]; the result only says which way it went.
    src/client.rs 418-425 and 797-854. *)
Inductive call := CallUpdate | CallDescription (p : string) | CallTarget (p : string) | CallTargetToWriter (p : string).

(** The result of a call, src/client.rs 418-425 and 797-854, without its value. *)
Definition forget {A} (p : prog (tuf * result A)) : prog (tuf * result unit) :=
  do (t, r) <- p in Ret (t, match r with Ok _ => Ok tt | Err e => Err e end).

(** src/client.rs 418-425 and 797-854, any of the methods. *)
Definition call_prog (E : env) (cfg : config) (fuel : nat) (t : tuf) (c : call) : prog (tuf * result unit) :=
  match c with
  | CallUpdate => forget (update E cfg fuel t)
  | CallDescription p => forget (fetch_target_description E cfg fuel t p)
  | CallTarget p => fetch_target E cfg fuel t p
  | CallTargetToWriter p => fetch_target_to_writer E cfg fuel t p
  end.

(** A client that has been constructed, and then used by calls each of which was run to
    some point; the events so far and the trusted metadata now.
    Of src/client.rs 118-854. *)
Inductive life (E : env) (cfg : config) (fuel : nat) (c : ctor) : list event -> tuf -> Prop :=
| life_new tr t : exec (construct E cfg fuel c) tr (Ret (Ok t)) -> life E cfg fuel c tr t
| life_call tr t k tr' q :
    life E cfg fuel c tr t -> exec (call_prog E cfg fuel t k) tr' q ->
    life E cfg fuel c (tr ++ tr') (tuf_after t tr').

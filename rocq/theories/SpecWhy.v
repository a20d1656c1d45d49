(** * Specification of why a client cannot be started and why a target cannot be had: C114 *)
From Coq Require Import String List NArith ZArith Bool.
From Verif Require Import Base Metadata Verify SpecVerify Tuf SpecPaths SpecTuf Reader SpecReader Repo Client SpecClient SpecErrors.
Import ListNotations.
Open Scope string_scope.
Open Scope list_scope.

(** ** Starting *)

(** The root with which a client may start. *)
Definition first_root (E : env) (c : ctor) (raw : bytes) (root : root_metadata) : Prop :=
  trusted_by E root Root raw root /\ match c with FromKeys _ th keys => authentic E Root raw th keys root | _ => True end.

(** The root has been read: it is given, or stands in the local repository, or, if there is
    none, in the remote one ([fetched]). *)
Inductive root_read (C : crypto) (cfg : config) : ctor -> list event -> bool -> bytes -> Prop :=
| read_given raw : root_read C cfg (FromRoot raw) [] false raw
| read_local ans raw : answered ans raw ->
    root_read C cfg FromLocal [EvFetchMeta Local "root" (VNumber 1) (cf_max_root cfg) None ans] false raw
| read_stored v th keys ans raw : answered ans raw ->
    root_read C cfg (FromKeys v th keys) [EvFetchMeta Local "root" v (cf_max_root cfg) None ans] false raw
| read_remote v th keys ans0 ans raw :
    fails_with C (EvFetchMeta Local "root" v (cf_max_root cfg) None ans0) NotFound -> answered ans raw ->
    root_read C cfg (FromKeys v th keys) [EvFetchMeta Local "root" v (cf_max_root cfg) None ans0;
                                          EvFetchMeta Remote "root" v (cf_max_root cfg) None ans] true raw.

Inductive not_started (E : env) (cfg : config) : ctor -> list event -> error -> Prop :=
(** There is no root, or it cannot be read. *)
| no_root ans er : let e := EvFetchMeta Local "root" (VNumber 1) (cf_max_root cfg) None ans in
    fails_with (e_crypto E) e er -> not_started E cfg FromLocal [e] er
| no_stored_root v th keys ans er : let e := EvFetchMeta Local "root" v (cf_max_root cfg) None ans in
    fails_with (e_crypto E) e er -> er <> NotFound -> not_started E cfg (FromKeys v th keys) [e] er
| no_remote_root v th keys ans0 ans er :
    let e0 := EvFetchMeta Local "root" v (cf_max_root cfg) None ans0 in
    let e := EvFetchMeta Remote "root" v (cf_max_root cfg) None ans in
    fails_with (e_crypto E) e0 NotFound -> fails_with (e_crypto E) e er -> not_started E cfg (FromKeys v th keys) [e0; e] er
(** It is refused. *)
| root_refused c tr b raw er : root_read (e_crypto E) cfg c tr b raw -> about_document er ->
    (forall root, ~ first_root E c raw root) -> not_started E cfg c tr er
(** It is new and cannot be stored. *)
| root_not_stored c tr raw root er : root_read (e_crypto E) cfg c tr true raw -> first_root E c raw root ->
    not_started E cfg c (tr ++ [EvPut (mkTuf root None None None []);
                                EvStoreMeta "root" (VNumber (rm_version root)) raw (Err er)]) er.

(** ** The description of a target *)

(** The delegation [d] stands in metadata for [parent] trusted at some time in [h]. *)
Definition stands (t : tuf) (h : list event) (parent : string) (d : delegation) : Prop :=
  exists pre post m ds, h = pre ++ post /\
    (parent = "targets" /\ t_targets (tuf_after t pre) = Some m \/ lookup parent (t_delegations (tuf_after t pre)) = Some m) /\
    tg_delegations m = Some ds /\ In d (dgs_roles ds).

(** The metadata of a delegated role are refused with this error. *)
Inductive refused_delegation (E : env) (t : tuf) (c : clock) (parent r : string) (raw : bytes) : error -> Prop :=
| refused_delegated e : about_document e -> (forall new, ~ delegation_acceptable E t c parent r raw new) ->
    refused_delegation E t c parent r raw e
| root_too_old : ~ fresh (rm_expires (t_root t)) (at_root c) -> refused_delegation E t c parent r raw (ExpiredMetadata Root)
| snapshot_too_old s : t_snapshot t = Some s -> ~ fresh (sm_expires s) (at_snapshot c) ->
    refused_delegation E t c parent r raw (ExpiredMetadata Snapshot)
| targets_too_old g : t_targets t = Some g -> ~ fresh (tg_expires g) (at_targets c) ->
    refused_delegation E t c parent r raw (ExpiredMetadata Targets)
| delegated_too_old new desc : delegation_context E t c parent r raw new desc -> ~ fresh (tg_expires new) (at_new c) ->
    refused_delegation E t c parent r raw (ExpiredMetadata Targets).

(** How a delegation [d] fails, at the end of the events. *)
Inductive delegation_fails (E : env) (t : tuf) (s : snapshot_metadata) (parent : string) (d : delegation) : list event -> error -> Prop :=
(** Its name is that of another role; nobody is asked. *)
| reserved_name h : dg_role d = "root" \/ dg_role d = "snapshot" -> delegation_fails E t s parent d h IllegalArgument
(** Neither repository has the metadata as the snapshot describes them. *)
| not_obtained h desc a x v ans0 ans er0 er : lookup (dg_role d) (sm_meta s) = Some desc -> preferred (md_hashes desc) a x ->
    let e0 := EvFetchMeta Local (dg_role d) VNone (Some (md_length desc)) (Some (a, x)) ans0 in
    let e := EvFetchMeta Remote (dg_role d) v (Some (md_length desc)) (Some (a, x)) ans in
    fails_with (e_crypto E) e0 er0 -> fails_with (e_crypto E) e er ->
    delegation_fails E t s parent d (h ++ [e0; e]) er
(** They are refused. *)
| not_accepted h0 asked side v max hash ans raw c t' er :
    asked = EvFetchMeta side (dg_role d) v max hash ans -> answered ans raw ->
    refused_delegation E (tuf_after t h0) c parent (dg_role d) raw er ->
    delegation_fails E t s parent d (h0 ++ [asked; EvNow c; EvPut t']) er.

Inductive not_described (E : env) (cfg : config) (t : tuf) (target : string) : list event -> error -> Prop :=
| untranslated er : cf_translate cfg target = Err er -> not_described E cfg t target [] er
| no_snapshot : t_snapshot t = None -> not_described E cfg t target [] (MissingMetadata Snapshot)
| no_targets : t_targets t = None -> not_described E cfg t target [] (MissingMetadata Targets)
| not_listed tr virt g : cf_translate cfg target = Ok virt -> t_targets t = Some g -> lookup virt (tg_targets g) = None ->
    not_described E cfg t target tr NotFound
(** A terminating delegation for the target fails. *)
| delegation_failed tr virt s parent d p er : cf_translate cfg target = Ok virt -> t_snapshot t = Some s ->
    stands t tr parent d -> dg_terminating d = true -> In p (dg_paths d) -> child_of virt p ->
    delegation_fails E t s parent d tr er -> not_described E cfg t target tr er.

(** ** Targets *)

(** What is asked for: a description that the trusted top-level targets list. *)
Definition described (cfg : config) (t : tuf) (target : string) (d : target_desc) : Prop :=
  exists virt g, cf_translate cfg target = Ok virt /\ t_targets t = Some g /\ lookup virt (tg_targets g) = Some d.

(** Reading what is sent as [d] describes breaks off with this error. *)
Inductive breaks_off (C : crypto) (d : target_desc) (rs : stream) : error -> Prop :=
| interrupted b k : contains rs b (Some k) -> length_ok (td_length d) b ->
    breaks_off C d rs (match k with IoNotFound => NotFound | _ => Opaque end)
| more_than_described b o : contains rs b o -> ~ length_ok (td_length d) b -> breaks_off C d rs Opaque
| not_as_described b a x : contains rs b None -> length_ok (td_length d) b -> preferred (td_hashes d) a x -> ~ hash_ok C (Some (a, x)) b ->
    breaks_off C d rs Opaque.

Definition written_well (e : event) : Prop := exists b, e = EvWrite b None.
Inductive not_fetched (E : env) (cfg : config) (t : tuf) (target : string) : call -> list event -> error -> Prop :=
| no_description k tr er : not_described E cfg t target tr er -> not_fetched E cfg t target k tr er
(** An empty digest and no name for the file to put it before. *)
| no_name k d a dir : described cfg t target d -> rm_consistent (t_root t) = true -> preferred (td_hashes d) a "" ->
    target = (dir ++ "/")%string -> not_fetched E cfg t target k [] IllegalArgument
| not_sent k d path er : described cfg t target d -> not_fetched E cfg t target k [EvFetchTarget path d (Err er)] er
| target_not_stored d path rs data er : described cfg t target d ->
    not_fetched E cfg t target (CallTarget target) [EvFetchTarget path d (Ok rs); EvStoreTarget target data (Err er)] er
| broken_off d path rs ws er : described cfg t target d -> Forall written_well ws -> breaks_off (e_crypto E) d rs er ->
    not_fetched E cfg t target (CallTargetToWriter target) (EvFetchTarget path d (Ok rs) :: ws) er
| not_written d path rs ws b k : described cfg t target d -> Forall written_well ws ->
    not_fetched E cfg t target (CallTargetToWriter target) (EvFetchTarget path d (Ok rs) :: ws ++ [EvWrite b (Some k)])
      (match k with IoNotFound => NotFound | _ => Opaque end).

(** A target has been had: nothing went wrong. *)
Inductive had (E : env) (cfg : config) (t : tuf) (target : string) : call -> list event -> Prop :=
| had_stored d path rs data : described cfg t target d ->
    had E cfg t target (CallTarget target) [EvFetchTarget path d (Ok rs); EvStoreTarget target data (Ok tt)]
| had_written d path rs ws : described cfg t target d -> Forall written_well ws -> (forall er, ~ breaks_off (e_crypto E) d rs er) ->
    had E cfg t target (CallTargetToWriter target) (EvFetchTarget path d (Ok rs) :: ws).

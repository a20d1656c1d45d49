(** * Specification of what the error of an update means: C109 *)
From Coq Require Import String List NArith ZArith Bool.
From Verif Require Import Base Metadata Verify Tuf SpecTuf Reader SpecReader Repo Client SpecClient.
Import ListNotations.
Open Scope string_scope.
Open Scope list_scope.

(** A call of a repository that did not work out, and the error that says so.  An answer
    that is longer than allowed or has another hash than demanded did not work out either. *)
Definition limit (max : option N) : N := match max with Some m => N.min m u64_max | None => u64_max end.
Inductive fails_with (C : crypto) : event -> error -> Prop :=
| no_answer s path v max hash e : fails_with C (EvFetchMeta s path v max hash (Err e)) e
| broke_off s path v max hash rs b k : contains rs b (Some k) -> length_ok (limit max) b ->
    fails_with C (EvFetchMeta s path v max hash (Ok rs)) (match k with IoNotFound => NotFound | _ => Opaque end)
| too_long s path v max hash rs b o : contains rs b o ->
    ~ length_ok (limit max) b ->
    fails_with C (EvFetchMeta s path v max hash (Ok rs)) Opaque
| other_hash s path v max hash rs b : contains rs b None -> length_ok (limit max) b -> ~ hash_ok C hash b ->
    fails_with C (EvFetchMeta s path v max hash (Ok rs)) Opaque
| not_stored path v raw e : fails_with C (EvStoreMeta path v raw (Err e)) e.

(** There is no such root: the end of the chain of roots, not an error. *)
Definition no_next_root (e : event) (er : error) : Prop :=
  er = NotFound /\ match e with EvFetchMeta _ path _ _ _ _ => path = "root" | _ => False end.

(** Errors about a document itself: not a document, not in canonical JSON, or not what is
    demanded. *)
Definition about_document (e : error) : Prop := e = Encoding \/ e = Opaque \/ e = VerificationFailure.

(** The document [raw] is refused with this error, as metadata of role [r] while [t] is
    trusted, at the time [c]. *)
Inductive refused (E : env) (t : tuf) (c : clock) (raw : bytes) : role -> error -> Prop :=
| refused_root e : about_document e -> (forall new, ~ root_step E (t_root t) raw new) -> refused E t c raw Root e
| refused_timestamp e : about_document e ->
    (forall new, trusted_by E (t_root t) Timestamp raw new -> (tm_version new < timestamp_version t)%N) ->
    refused E t c raw Timestamp e
| expired_timestamp new : trusted_by E (t_root t) Timestamp raw new -> (timestamp_version t < tm_version new)%N ->
    ~ fresh (tm_expires new) (at_new c) -> refused E t c raw Timestamp (ExpiredMetadata Timestamp)
| refused_snapshot e : about_document e -> (forall new, ~ snapshot_acceptable E t c raw new) -> refused E t c raw Snapshot e
| refused_targets e : about_document e -> (forall new, ~ targets_acceptable E t c raw new) -> refused E t c raw Targets e
| expired_targets new : trusted_by E (t_root t) Targets raw new -> ~ fresh (tg_expires new) (at_new c) ->
    refused E t c raw Targets (ExpiredMetadata Snapshot)
| under_expired_root r : r = Snapshot \/ r = Targets -> ~ fresh (rm_expires (t_root t)) (at_root c) ->
    refused E t c raw r (ExpiredMetadata Root)
| under_expired_timestamp ts : t_timestamp t = Some ts -> ~ fresh (tm_expires ts) (at_timestamp c) ->
    refused E t c raw Snapshot (ExpiredMetadata Timestamp)
| under_expired_snapshot s : t_snapshot t = Some s -> ~ fresh (sm_expires s) (at_snapshot c) ->
    refused E t c raw Targets (ExpiredMetadata Snapshot).

(** After the events [h] of a call that began with the trusted metadata [t], the document just
    received is refused with this error, under the metadata trusted then and, but for a root,
    at the time just read. *)
Definition refusal (E : env) (t : tuf) (h : list event) (er : error) : Prop :=
  exists h0 r v max hash ans raw c,
    h = h0 ++ EvFetchMeta Remote (role_name r) v max hash ans :: (match r with Root => [] | _ => [EvNow c] end) /\
    answered ans raw /\ refused E (tuf_after t h0) c raw r er.

(** Why such a call ended with this error after the events [h]: it is always the last thing
    that happened.  A refused document is followed by the assignment of what is trusted now. *)
Inductive cause (E : env) (t : tuf) (h : list event) (er : error) : Prop :=
| call_failed h0 e : h = h0 ++ [e] -> fails_with (e_crypto E) e er -> ~ no_next_root e er -> cause E t h er
| root_expired h0 c : h = h0 ++ [EvNow c] -> er = ExpiredMetadata Root ->
    ~ fresh (rm_expires (t_root (tuf_after t h0))) (at_root c) -> cause E t h er
| document_refused h0 t' : h = h0 ++ [EvPut t'] -> refusal E t h0 er -> cause E t h er
| targets_not_listed s : er = VerificationFailure -> t_snapshot (tuf_after t h) = Some s ->
    lookup "targets" (sm_meta s) = None -> cause E t h er.

(** Nothing went wrong in an event. *)
Definition went_well (C : crypto) (e : event) : Prop := forall er, fails_with C e er -> no_next_root e er.

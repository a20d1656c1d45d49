(** * Specification of restarts: C49 *)
From Coq Require Import String List NArith ZArith Bool.
From Verif Require Import Base Metadata Tuf SpecTuf Reader Repo Client SpecClient.
Import ListNotations.
Open Scope string_scope.
Open Scope list_scope.
Open Scope N_scope.

(** Clients that one after the other use the same local repository, which is [e0] in the
    beginning and [e] in the end, [runs] telling how it answers (e.g. [in_memory]).  All are
    made from the same root.  [update] is called as often as one likes and runs to its end,
    with success or without; the other calls may be dropped at any time.  The remote
    repository and the clock do what they like. *)
Inductive sessions {S} (runs : S -> list event -> S -> Prop) (E : env) (cfg : config) (fuel : nat) (raw : bytes) (e0 : S)
  : list event -> tuf -> S -> Prop :=
| session_first tr t e :
    exec (construct E cfg fuel (FromRoot raw)) tr (Ret (Ok t)) -> runs e0 tr e ->
    sessions runs E cfg fuel raw e0 tr t e
| session_update tr t e tr' t' r e' :
    sessions runs E cfg fuel raw e0 tr t e ->
    exec (update E cfg fuel t) tr' (Ret (t', r)) -> runs e tr' e' ->
    sessions runs E cfg fuel raw e0 (tr ++ tr') t' e'
| session_call tr t e k tr' q e' :
    sessions runs E cfg fuel raw e0 tr t e -> k <> CallUpdate ->
    exec (call_prog E cfg fuel t k) tr' q -> runs e tr' e' ->
    sessions runs E cfg fuel raw e0 (tr ++ tr') (tuf_after t tr') e'
| session_next tr t e tr' t' e' :
    sessions runs E cfg fuel raw e0 tr t e ->
    exec (construct E cfg fuel (FromRoot raw)) tr' (Ret (Ok t')) -> runs e tr' e' ->
    sessions runs E cfg fuel raw e0 (tr ++ tr') t' e'.

(** Further calls other than [update], each possibly dropped. *)
Inductive other_calls {S} (runs : S -> list event -> S -> Prop) (E : env) (cfg : config) (fuel : nat)
  : tuf -> S -> list event -> tuf -> S -> Prop :=
| no_calls t e : other_calls runs E cfg fuel t e [] t e
| one_call t e k tr q e1 tr' t' e' :
    k <> CallUpdate -> exec (call_prog E cfg fuel t k) tr q -> runs e tr e1 ->
    other_calls runs E cfg fuel (tuf_after t tr) e1 tr' t' e' ->
    other_calls runs E cfg fuel t e (tr ++ tr') t' e'.

(** Among the metadata that were ever trusted, a version of the snapshot (of the
    top-level targets) is always described in the same way. *)
Definition stable_descriptions (tr : list event) : Prop :=
  (forall t1 t2 ts1 ts2, In (EvPut t1) tr -> In (EvPut t2) tr ->
     t_timestamp t1 = Some ts1 -> t_timestamp t2 = Some ts2 ->
     md_version (tm_snapshot ts1) = md_version (tm_snapshot ts2) -> tm_snapshot ts1 = tm_snapshot ts2) /\
  (forall t1 t2 s1 s2 d1 d2, In (EvPut t1) tr -> In (EvPut t2) tr ->
     t_snapshot t1 = Some s1 -> t_snapshot t2 = Some s2 ->
     lookup "targets" (sm_meta s1) = Some d1 -> lookup "targets" (sm_meta s2) = Some d2 ->
     md_version d1 = md_version d2 -> d1 = d2).

(** The names of all roles that anybody who was ever trusted delegates to. *)
Definition every_role (ok : string -> Prop) (tr : list event) : Prop :=
  forall t tg ds d, In (EvPut t) tr ->
  (t_targets t = Some tg \/ exists r, lookup r (t_delegations t) = Some tg) ->
  tg_delegations tg = Some ds -> In d (dgs_roles ds) -> ok (dg_role d).

(** Nobody who was ever trusted delegates to a role of this name. *)
Definition no_role_named (name : string) (tr : list event) : Prop :=
  forall t tg ds d, In (EvPut t) tr ->
  (t_targets t = Some tg \/ exists r, lookup r (t_delegations t) = Some tg) ->
  tg_delegations tg = Some ds -> In d (dgs_roles ds) -> dg_role d <> name.

(** None of the top-level metadata has expired. *)
Definition before_expiry (t : tuf) (c : clock) : Prop :=
  forall now, In now [at_root c; at_snapshot c; at_targets c; at_timestamp c; at_new c] ->
  fresh (rm_expires (t_root t)) now /\
  (forall ts, t_timestamp t = Some ts -> fresh (tm_expires ts) now) /\
  (forall s, t_snapshot t = Some s -> fresh (sm_expires s) now) /\
  (forall g, t_targets t = Some g -> fresh (tg_expires g) now).

(** Neither the root nor the timestamp has. *)
Definition in_time (t : tuf) (c : clock) : Prop :=
  forall now, In now [at_root c; at_snapshot c; at_targets c; at_timestamp c; at_new c] ->
  fresh (rm_expires (t_root t)) now /\
  (forall ts, t_timestamp t = Some ts -> fresh (tm_expires ts) now).

(** The same top-level metadata. *)
Definition same_trust (t t' : tuf) : Prop :=
  t_root t' = t_root t /\ t_timestamp t' = t_timestamp t /\
  t_snapshot t' = t_snapshot t /\ t_targets t' = t_targets t.

(** * Specification of starting a client in different ways: C99 *)
From Coq Require Import String List NArith Bool.
From Verif Require Import Base Metadata Tuf SpecTuf Reader Repo Client SpecClient SpecRestart.
Import ListNotations.
Open Scope string_scope.
Open Scope list_scope.
Open Scope N_scope.

(** The ways of making a client that pin the root of [t0], which is the document [raw]:
    giving the document, or having it read from the local repository, where the first
    version is looked for or the one named, there together with keys that signed it. *)
Definition pins (E : env) (raw : bytes) (t0 : tuf) (c : ctor) : Prop :=
  match c with
  | FromRoot raw' => raw' = raw
  | FromLocal => rm_version (t_root t0) = 1
  | FromKeys v th keys =>
      v = VNumber (rm_version (t_root t0)) /\ from_root_with_trusted_keys E raw th keys = Ok t0
  end.

(** What is read before that root is trusted, the local repository holding it. *)
Definition looks_up (cfg : config) (raw : bytes) (t0 : tuf) (c : ctor) : list event :=
  match c with
  | FromRoot _ => []
  | _ => [EvFetchMeta Local "root" (VNumber (rm_version (t_root t0))) (cf_max_root cfg) None (Ok (cursor raw))]
  end.

(** Asking the remote repository for something, or storing something. *)
Definition local_reading (e : event) : Prop :=
  match e with
  | EvFetchMeta Local _ _ _ _ _ | EvNow _ | EvPut _ => True
  | _ => False
  end.

(** Clients that use the same local repository after one of them trusts [t]: further
    calls, and further clients made in any of the ways [cs].  As [sessions] of
    SpecRestart.v, where there is but one way. *)
Inductive goes_on {S} (runs : S -> list event -> S -> Prop) (E : env) (cfg : config) (fuel : nat) (cs : ctor -> Prop)
          (t0 : tuf) (e0 : S) : list event -> tuf -> S -> Prop :=
| on_here : goes_on runs E cfg fuel cs t0 e0 [] t0 e0
| on_update tr t e tr' t' r e' :
    goes_on runs E cfg fuel cs t0 e0 tr t e ->
    exec (update E cfg fuel t) tr' (Ret (t', r)) -> runs e tr' e' ->
    goes_on runs E cfg fuel cs t0 e0 (tr ++ tr') t' e'
| on_call tr t e k tr' q e' :
    goes_on runs E cfg fuel cs t0 e0 tr t e -> k <> CallUpdate ->
    exec (call_prog E cfg fuel t k) tr' q -> runs e tr' e' ->
    goes_on runs E cfg fuel cs t0 e0 (tr ++ tr') (tuf_after t tr') e'
| on_start tr t e c tr' t' e' :
    goes_on runs E cfg fuel cs t0 e0 tr t e -> cs c ->
    exec (construct E cfg fuel c) tr' (Ret (Ok t')) -> runs e tr' e' ->
    goes_on runs E cfg fuel cs t0 e0 (tr ++ tr') t' e'.

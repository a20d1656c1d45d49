(** * Specification of what a run depends on: C105 *)
From Coq Require Import String List NArith ZArith Bool.
From Verif Require Import Base Metadata Verify Tuf Reader Repo Client.
Import ListNotations.

(** What a client learns from outside in one event. *)
Inductive input :=
| Fetched (ans : result stream)
| Stored (ans : result unit)
| Wrote (ans : option io_kind)
| Time (c : clock).

Fixpoint inputs (tr : list event) : list input :=
  match tr with
  | [] => []
  | EvFetchMeta _ _ _ _ _ ans :: tr => Fetched ans :: inputs tr
  | EvStoreMeta _ _ _ ans :: tr => Stored ans :: inputs tr
  | EvFetchTarget _ _ ans :: tr => Fetched ans :: inputs tr
  | EvStoreTarget _ _ ans :: tr => Stored ans :: inputs tr
  | EvWrite _ ans :: tr => Wrote ans :: inputs tr
  | EvNow c :: tr => Time c :: inputs tr
  | EvPut _ :: tr => inputs tr
  end.

(** Two clients that differ in the order in which they go through hash maps and in the
    bounds of the model's loops, nothing else. *)
Definition alike (E E' : env) : Prop := e_crypto E = e_crypto E' /\ e_ic E = e_ic E'.

(** Whenever both are told the same, they ask and store the same, in the same order, trust
    the same in between, and end the same. *)
Definition agree {A} (p p' : prog A) : Prop :=
  forall tr tr' a a', exec p tr (Ret a) -> exec p' tr' (Ret a') -> inputs tr = inputs tr' -> tr = tr' /\ a = a'.

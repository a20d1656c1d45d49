(** * Specification of what downloads leave behind: C119

    Only the data types and the events are used, and [same_top], which compares root,
    timestamp, snapshot and targets metadata. *)
From Coq Require Import String List NArith ZArith Bool.
From Verif Require Import Base Metadata Tuf Reader Repo Client SpecFootprint.
Import ListNotations.
Open Scope list_scope.

(** A call of a method of [Tuf] other than [update_delegation]. *)
Definition about_top (o : op) : bool := match o with OpDelegation _ _ _ _ => false | _ => true end.

(** The same event: the same request, the same answer.  Where the client replaces its
    trusted metadata, the delegated metadata may differ. *)
Inductive same_event : event -> event -> Prop :=
| very_same e : same_event e e
| same_put t t' : same_top t t' -> same_event (EvPut t) (EvPut t').

(** A client that trusts [t], and then is used by these calls, each run to some point with
    these events; what it trusts at the end. *)
Inductive used_as (E : env) (cfg : config) (fuel : nat) (t : tuf) : list (call * list event) -> tuf -> Prop :=
| as_new : used_as E cfg fuel t [] t
| as_called l t1 k tr q :
    used_as E cfg fuel t l t1 -> exec (call_prog E cfg fuel t1 k) tr q -> used_as E cfg fuel t (l ++ [(k, tr)]) (tuf_after t1 tr).

(** The calls of [update] among them. *)
Definition is_update (c : call * list event) : bool := match fst c with CallUpdate => true | _ => false end.

(** The same calls, with the same events. *)
Definition same_call (c c' : call * list event) : Prop := fst c = fst c' /\ Forall2 same_event (snd c) (snd c').

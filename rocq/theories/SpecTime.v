(** * Specification of what depends on the time: C110 *)
From Coq Require Import String List NArith ZArith Bool.
From Verif Require Import Base Metadata Tuf SpecTuf Reader Repo Client.
Import ListNotations.
Open Scope list_scope.

(** All readings of the first clock are no later than those of the second. *)
Definition no_later (c c' : clock) : Prop :=
  (at_root c <= at_root c')%Z /\ (at_snapshot c <= at_snapshot c')%Z /\ (at_targets c <= at_targets c')%Z /\
  (at_timestamp c <= at_timestamp c')%Z /\ (at_new c <= at_new c')%Z /\ forall r, (at_deleg c r <= at_deleg c' r)%Z.

(** The same call of a method of [Tuf], at a time no later. *)
Inductive earlier_call : op -> op -> Prop :=
| earlier_root raw : earlier_call (OpRoot raw) (OpRoot raw)
| earlier_timestamp c c' raw : no_later c c' -> earlier_call (OpTimestamp c raw) (OpTimestamp c' raw)
| earlier_snapshot c c' raw : no_later c c' -> earlier_call (OpSnapshot c raw) (OpSnapshot c' raw)
| earlier_targets c c' raw : no_later c c' -> earlier_call (OpTargets c raw) (OpTargets c' raw)
| earlier_delegation c c' p r raw : no_later c c' -> earlier_call (OpDelegation c p r raw) (OpDelegation c' p r raw).

(** Calls that all succeed. *)
Inductive succeed (E : env) : tuf -> list op -> tuf -> Prop :=
| succeed_nil t : succeed E t [] t
| succeed_cons t o b t' rest t'' : step E t o = (t', Ok b) -> succeed E t' rest t'' -> succeed E t (o :: rest) t''.

(** The same events, but the clock was read no later. *)
Definition earlier (tr tr' : list event) : Prop :=
  Forall2 (fun e e' => match e, e' with EvNow c, EvNow c' => no_later c c' | _, _ => e = e' end) tr tr'.

(** No trusted delegated role expires between the two readings. *)
Definition none_expires (t : tuf) (c c' : clock) : Prop :=
  forall r g, lookup r (t_delegations t) = Some g ->
  fresh (tg_expires g) (at_deleg c' r) \/ ~ fresh (tg_expires g) (at_deleg c r).

(** * Specification of repeated and reordered calls: C118 *)
From Coq Require Import String List NArith ZArith Bool.
From Verif Require Import Base Metadata Tuf.
Import ListNotations.
Open Scope string_scope.
Open Scope list_scope.

(** The same method with the same file, at whatever time; delegated metadata for the same
    role, from whatever parent. *)
Inductive repeats : op -> op -> Prop :=
| rep_root b : repeats (OpRoot b) (OpRoot b)
| rep_timestamp c c' b : repeats (OpTimestamp c b) (OpTimestamp c' b)
| rep_snapshot c c' b : repeats (OpSnapshot c b) (OpSnapshot c' b)
| rep_targets c c' b : repeats (OpTargets c b) (OpTargets c' b)
| rep_delegation c c' p p' r b : repeats (OpDelegation c p r b) (OpDelegation c' p' r b).

(** The same trusted metadata; delegated metadata are a map from names. *)
Definition same_trust (t t' : tuf) : Prop :=
  t_root t = t_root t' /\ t_timestamp t = t_timestamp t' /\ t_snapshot t = t_snapshot t' /\ t_targets t = t_targets t' /\
  forall r, lookup r (t_delegations t) = lookup r (t_delegations t').

(** The metadata of the parent [p] do not depend on an update of the role [r]. *)
Definition apart (p r : string) : Prop := p = "targets" \/ p <> r.

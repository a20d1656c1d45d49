(** * Specification of the search for a target through delegations *)
From Coq Require Import String List NArith ZArith Bool.
From Verif Require Import Base Metadata Tuf SpecTuf SpecPaths.
Import ListNotations.

(** The route [ds], starting from a list of delegations, leads to [last]: every
    role on it is trusted and unexpired, and each next delegation is declared by
    the metadata of the role before. *)
Inductive route (t : tuf) (now : string -> Z) : delegations -> list delegation -> targets_metadata -> Prop :=
| route_here ds d td :
    In d (dgs_roles ds) -> lookup (dg_role d) (t_delegations t) = Some td ->
    fresh (tg_expires td) (now (dg_role d)) -> route t now ds [d] td
| route_next ds d td child rest last :
    In d (dgs_roles ds) -> lookup (dg_role d) (t_delegations t) = Some td ->
    fresh (tg_expires td) (now (dg_role d)) -> tg_delegations td = Some child ->
    route t now child rest last -> route t now ds (d :: rest) last.

(** The delegation's own list of paths covers the target. *)
Definition permits (d : delegation) (target : string) : Prop :=
  exists p, In p (dg_paths d) /\ below target p.

(** The delegation's role is trusted and unexpired but has nothing on the target and
    delegates no further. *)
Definition barren (t : tuf) (now : string -> Z) (target : string) (d : delegation) : Prop :=
  exists td, lookup (dg_role d) (t_delegations t) = Some td /\ fresh (tg_expires td) (now (dg_role d)) /\
    lookup target (tg_targets td) = None /\ tg_delegations td = None.

(** The delegation's role is trusted, unexpired and describes the target. *)
Definition describes (t : tuf) (now : string -> Z) (target : string) (d : delegation) (desc : target_desc) : Prop :=
  exists td, lookup (dg_role d) (t_delegations t) = Some td /\ fresh (tg_expires td) (now (dg_role d)) /\
    lookup target (tg_targets td) = Some desc.

(** The delegation's role is not trusted, or expired. *)
Definition unusable (t : tuf) (now : string -> Z) (d : delegation) : Prop :=
  forall td, lookup (dg_role d) (t_delegations t) = Some td -> ~ fresh (tg_expires td) (now (dg_role d)).

(** The state has unexpired root, snapshot and targets, and these are the targets. *)
Definition usable_targets (t : tuf) (c : clock) (g : targets_metadata) : Prop :=
  t_targets t = Some g /\ fresh (tg_expires g) (at_targets c) /\ fresh (rm_expires (t_root t)) (at_root c) /\
  exists s, t_snapshot t = Some s /\ fresh (sm_expires s) (at_snapshot c).

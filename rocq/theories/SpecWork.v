(** * Specification of how much a call of the client asks for and writes: C100 *)
From Coq Require Import String List NArith Bool.
From Verif Require Import Base Metadata Tuf Reader Repo Client.
Import ListNotations.
Open Scope string_scope.
Open Scope list_scope.
Open Scope N_scope.

(** How often the repositories were asked for something. *)
Fixpoint requests (tr : list event) : N :=
  match tr with
  | [] => 0
  | EvFetchMeta _ _ _ _ _ _ :: rest | EvFetchTarget _ _ _ :: rest => 1 + requests rest
  | _ :: rest => requests rest
  end.
(** How often the local repository was told to store something. *)
Fixpoint stores (tr : list event) : N :=
  match tr with
  | [] => 0
  | EvStoreMeta _ _ _ _ :: rest | EvStoreTarget _ _ _ :: rest => 1 + stores rest
  | _ :: rest => stores rest
  end.

(** The first metadata that a constructor trusts. *)
Fixpoint first_trusted (tr : list event) : option tuf :=
  match tr with
  | [] => None
  | EvPut t :: _ => Some t
  | _ :: rest => first_trusted rest
  end.

(** No role of [t] has more than [w] delegations. *)
Definition at_most (w : nat) (g : targets_metadata) : Prop :=
  match tg_delegations g with Some ds => (length (dgs_roles ds) <= w)%nat | None => True end.
Definition narrow (w : nat) (t : tuf) : Prop :=
  (forall g, t_targets t = Some g -> at_most w g) /\
  (forall r g, lookup r (t_delegations t) = Some g -> at_most w g).

(** The delegations form a tree: each role is delegated to by one role only, its parent, and
    once; [rank] is lower for the parent, so that there are no rings. *)
Definition grows (parent : string -> string) (rank : string -> nat) (r : string) (g : targets_metadata) : Prop :=
  match tg_delegations g with
  | None => True
  | Some ds => NoDup (map dg_role (dgs_roles ds)) /\
      forall d, In d (dgs_roles ds) -> parent (dg_role d) = r /\ (rank r < rank (dg_role d))%nat
  end.
Definition tree_shaped (parent : string -> string) (rank : string -> nat) (t : tuf) : Prop :=
  (forall g, t_targets t = Some g -> grows parent rank "targets" g) /\
  (forall r g, lookup r (t_delegations t) = Some g -> grows parent rank r g).

(** A request for the metadata of role [r]. *)
Definition asks_for (s : side) (r : string) (e : event) : Prop :=
  match e with EvFetchMeta s' p _ _ _ _ => s' = s /\ p = r | _ => False end.

(** [a] for each node of a tree of [k] levels in which every node has [w] children, the
    root not counted. *)
Fixpoint spread (a w : N) (k : nat) : N :=
  match k with
  | O => 0
  | S k => w * (a + spread a w k)
  end.

(** Where a constructor looks for the root it starts from: nowhere if it is given, in the
    local repository, or in both; in the last case it may be stored. *)
Definition looked_up (c : ctor) : N := match c with FromRoot _ => 0 | FromLocal => 1 | FromKeys _ _ _ => 2 end.
Definition kept_root (c : ctor) : N := match c with FromKeys _ _ _ => 1 | _ => 0 end.

(** The calls that ask for a target, and the one that stores it. *)
Definition downloads (k : call) : N := match k with CallTarget _ | CallTargetToWriter _ => 1 | _ => 0 end.
Definition saves (k : call) : N := match k with CallTarget _ => 1 | _ => 0 end.

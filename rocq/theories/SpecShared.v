(** * Specification of clients that share a local repository: C102

    Repositories can be shared by reference (src/repository.rs 114-159).  Any
    number of clients runs at the same time, each of their steps at any time. *)
From Coq Require Import String List Arith NArith Bool.
From Verif Require Import Base Metadata Tuf Reader Repo Client SpecClient.
Import ListNotations.
Open Scope string_scope.
Open Scope list_scope.
Open Scope nat_scope.

(** The events of one of the clients. *)
Fixpoint of_client (i : nat) (tr : list (nat * event)) : list event :=
  match tr with
  | [] => []
  | (j, e) :: rest => if Nat.eq_dec j i then e :: of_client i rest else of_client i rest
  end.

(** What all the clients do, in the order in which they do it; a client without events has
    not been made yet.  The local repository is in memory. *)
Definition clients (E : env) (cfg : nat -> config) (fuel : nat -> nat) (c : nat -> ctor) (tr : list (nat * event)) : Prop :=
  forall i, history E (cfg i) (fuel i) (c i) (of_client i tr).
Definition sharing (e : ephemeral) (tr : list (nat * event)) (e' : ephemeral) : Prop := in_memory e (map snd tr) e'.

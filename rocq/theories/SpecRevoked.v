(** * Specification of what revoked keys can do: C117

    Only the data types, the events and [content], what a file says, are used. *)
From Coq Require Import String List NArith ZArith Bool.
From Verif Require Import Base Metadata Tuf Reader SpecReader Repo Client SpecClient SpecCustody.
Import ListNotations.
Open Scope string_scope.
Open Scope list_scope.
Open Scope N_scope.

(** Some keys, for instance those that have been revoked, are in none of the lists of keys
    of a root, of the delegations of targets metadata, of all trusted metadata, of a file. *)
Definition not_in (K : public_key -> Prop) (keys : list (string * public_key)) : Prop := forall i k, In (i, k) keys -> ~ K k.
Definition root_without (K : public_key -> Prop) (m : root_metadata) : Prop := not_in K (rm_keys m).
Definition targets_without (K : public_key -> Prop) (g : targets_metadata) : Prop :=
  forall ds, tg_delegations g = Some ds -> not_in K (dgs_keys ds).
Definition trusted_without (K : public_key -> Prop) (t : tuf) : Prop :=
  root_without K (t_root t) /\ (forall g, t_targets t = Some g -> targets_without K g) /\
  (forall r g, lookup r (t_delegations t) = Some g -> targets_without K g).
Definition file_without (E : env) (K : public_key -> Prop) (raw : bytes) : Prop :=
  (forall m, content E Root raw m -> root_without K m) /\ (forall g, content E Targets raw g -> targets_without K g).

(** Two worlds that differ only in which signatures of these keys are valid: in one
    their owner has signed nothing, in the other whatever a thief likes. *)
Record differ_in (K : public_key -> Prop) (E E' : env) : Prop := {
  d_signatures : forall k msg sg, ~ K k ->
    ring_verify (e_crypto E) (pk_scheme k) (pk_value k) msg sg = ring_verify (e_crypto E') (pk_scheme k) (pk_value k) msg sg;
  d_digests : forall alg b, ring_digest (e_crypto E) alg b = ring_digest (e_crypto E') alg b;
  d_order : e_order E = e_order E';
  d_documents : e_ic E = e_ic E' }.

(** The file of a call of a method of [Tuf]. *)
Definition file_of (o : op) : bytes :=
  match o with OpRoot b | OpTimestamp _ b | OpSnapshot _ b | OpTargets _ b | OpDelegation _ _ _ b => b end.

(** A client that trusts [t], and then is used by calls each of which is run to some
    point: the events and the trusted metadata at the end. *)
Inductive used (E : env) (cfg : config) (fuel : nat) (t : tuf) : list event -> tuf -> Prop :=
| used_not : used E cfg fuel t [] t
| used_call tr t1 k tr' q :
    used E cfg fuel t tr t1 -> exec (call_prog E cfg fuel t1 k) tr' q -> used E cfg fuel t (tr ++ tr') (tuf_after t1 tr').

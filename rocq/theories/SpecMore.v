(** * Specification of documents with more signatures, of more keys and lower thresholds: C111 *)
From Coq Require Import String List NArith Bool.
From Verif Require Import Base Metadata SpecVerify Tuf.
Import ListNotations.

(** Whatever counts for an id in [l] counts for it in [l'], too; [l'] may have more. *)
Definition at_least {A} (id : A -> string) (l l' : list A) : Prop :=
  forall i x, last_with id i l x -> last_with id i l' x.

(** The same content with at least the same signatures. *)
Definition more_signed (E : env) (raw raw' : bytes) : Prop :=
  exists sigs sigs' signed, ic_envelope (e_ic E) raw = Ok (sigs, signed) /\ ic_envelope (e_ic E) raw' = Ok (sigs', signed) /\
  at_least sig_keyid sigs sigs'.

(** The same call with a document that has more signatures. *)
Inductive more_signed_call (E : env) : op -> op -> Prop :=
| more_root raw raw' : more_signed E raw raw' -> more_signed_call E (OpRoot raw) (OpRoot raw')
| more_timestamp c raw raw' : more_signed E raw raw' -> more_signed_call E (OpTimestamp c raw) (OpTimestamp c raw')
| more_snapshot c raw raw' : more_signed E raw raw' -> more_signed_call E (OpSnapshot c raw) (OpSnapshot c raw')
| more_targets c raw raw' : more_signed E raw raw' -> more_signed_call E (OpTargets c raw) (OpTargets c raw')
| more_delegation c p r raw raw' : more_signed E raw raw' -> more_signed_call E (OpDelegation c p r raw) (OpDelegation c p r raw').

(** * Specification of signature verification

    Stated over the inputs only: the list of signatures of the document, the list
    of keys that were passed in, the bytes that were signed.  None of the maps or
    counters of src/verify.rs occur here. *)
From Coq Require Import String List NArith Bool.
From Verif Require Import Base Metadata.
Import ListNotations.

(** [x] is the last element of [l] with id [i]. *)
Definition last_with {A} (id : A -> string) (i : string) (l : list A) (x : A) : Prop :=
  exists l1 l2, l = l1 ++ x :: l2 /\ id x = i /\ forall y, In y l2 -> id y <> i.

(** The signature verifies under the key's scheme, key bytes and this message. *)
Definition valid_under (C : crypto) (k : public_key) (msg : bytes) (s : signature) : Prop :=
  (forall x, pk_scheme k <> SchemeUnknown x) /\
  ring_verify C (pk_scheme k) (pk_value k) msg (sig_value s) = true.

(** Key id [i] belongs to one of [keys] and carries a valid signature.  If several
    keys (signatures) have the same id, the last one of the list counts. *)
Definition good_id (C : crypto) (keys : list public_key) (sigs : list signature) (msg : bytes)
           (i : string) : Prop :=
  exists k s, last_with pk_id i keys k /\ last_with sig_keyid i sigs s /\ valid_under C k msg s.

(** At least [t] pairwise different key ids are good. *)
Definition threshold_met (C : crypto) (keys : list public_key) (sigs : list signature) (msg : bytes)
           (t : N) : Prop :=
  exists ids : list string, NoDup ids /\ N.of_nat (length ids) = t /\
                            forall i, In i ids -> good_id C keys sigs msg i.

(** [raw] is a document of role [r] with content [m] that carries a threshold [t]
    of signatures by [keys] over its canonical bytes. *)
Definition authentic (E : env) (r : role) (raw : bytes) (t : N) (keys : list public_key)
           (m : metadata_of r) : Prop :=
  (1 <= t)%N /\
  exists sigs signed msg,
    ic_envelope (e_ic E) raw = Ok (sigs, signed) /\
    ic_canonicalize (e_ic E) signed = Ok msg /\
    threshold_met (e_crypto E) keys sigs msg t /\
    ic_from_slice (e_ic E) r msg = Ok m.

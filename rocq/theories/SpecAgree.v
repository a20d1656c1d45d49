(** * Specification of agreement between clients: C115

    Two clients, two histories; the repositories, the network and the clock of one need
    have nothing to do with those of the other.  What they share are the keys.  Only the
    data types, the specification of signatures and of who holds which key are used. *)
From Coq Require Import String List NArith ZArith Bool.
From Verif Require Import Base Metadata SpecVerify Tuf SpecTuf Client SpecClient SpecAttack.
Import ListNotations.
Open Scope string_scope.
Open Scope list_scope.
Open Scope N_scope.

(** The version of a document. *)
Definition document_version (r : role) : metadata_of r -> N :=
  match r return metadata_of r -> N with
  | Root => rm_version | Timestamp => tm_version | Snapshot => sm_version | Targets => tg_version
  end.

(** Nobody who still has a key to themselves signs with it two different documents of one
    role and version. *)
Definition careful (E : env) (w : holders) (r : role) (keys : list public_key) : Prop :=
  forall k, In k keys -> ~ stolen w (pk_scheme k) (pk_value k) ->
  forall msg msg' m m',
    signed w (pk_scheme k) (pk_value k) msg -> signed w (pk_scheme k) (pk_value k) msg' ->
    ic_from_slice (e_ic E) r msg = Ok m -> ic_from_slice (e_ic E) r msg' = Ok m' ->
    document_version r m = document_version r m' -> m = m'.

(** Of [n] key ids, [f] of them in wrong hands, the threshold is more than half of
    [n + f]. *)
Definition majority (w : holders) (th : N) (keys : list public_key) : Prop :=
  exists bad : list string,
    (forall k, In k keys -> stolen w (pk_scheme k) (pk_value k) -> In (pk_id k) bad) /\
    N.of_nat (length (nodup string_dec (map pk_id keys))) + N.of_nat (length bad) < 2 * th.

Definition undivided (E : env) (w : holders) (root : root_metadata) (r : role) : Prop :=
  let keys := listed_keys (rm_keys root) (rd_key_ids (role_def_of root r)) in
  careful E w r keys /\ majority w (rd_threshold (role_def_of root r)) keys.

(** The root a client began with. *)
Definition began_with (tr : list event) (root : root_metadata) : Prop :=
  exists pre t post, tr = pre ++ EvPut t :: post /\ trusted_at pre = None /\ t_root t = root.

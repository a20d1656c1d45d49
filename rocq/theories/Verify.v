(** * src/verify.rs *)
From Coq Require Import String List NArith Bool.
From Verif Require Import Base Metadata.
Import ListNotations.
Open Scope N_scope.

Section Verify.
  Variable E : env.

  (** src/verify.rs 107, 115-136: the signature loop.  [needed] is
      [signatures_needed]; it starts above zero and the loop leaves as soon as it
      reaches zero, so the [u32] decrement cannot underflow. *)
  Fixpoint signature_loop (authorized : list (string * public_key)) (msg : bytes)
           (needed : N) (sigs : list (string * signature)) : N :=
    match sigs with
    | [] => needed
    | (key_id, sig) :: rest =>
        let needed :=
          match lookup key_id authorized with
          | Some pub_key =>
              match pk_verify (e_crypto E) pub_key msg sig with
              | Ok _ => needed - 1
              | Err _ => needed
              end
          | None => needed
          end in
        if needed =? 0 then needed else signature_loop authorized msg needed rest
    end.

  (** src/verify.rs 66-155 [verify_signatures]; the wrapper [Verified] (13-33) is
      dropped. *)
  Definition verify_signatures (r : role) (raw : bytes) (threshold : N)
             (authorized_keys : list public_key) : result (metadata_of r) :=
    if threshold <? 1 then Err VerificationFailure else
    let authorized := collect (map (fun k => (pk_id k, k)) authorized_keys) in
    let? (signatures, signed) := ic_envelope (e_ic E) raw in
    match signatures with
    | [] => Err VerificationFailure
    | _ =>
        let? canonical_bytes := ic_canonicalize (e_ic E) signed in
        let sigmap := collect (map (fun s => (sig_keyid s, s)) signatures) in
        let needed := signature_loop authorized canonical_bytes threshold (ho_fun (e_order E) sigmap) in
        if 0 <? needed then Err VerificationFailure
        else ic_from_slice (e_ic E) r canonical_bytes
    end.
End Verify.

(** * C01-C04: signature verification *)
From Coq Require Import String List NArith Bool.
From Verif Require Import Base Metadata Verify SpecVerify VerifyProofs Toy.
Import ListNotations.
Open Scope N_scope.
Open Scope string_scope.

(** C01 *)
Theorem C01_threshold_soundness :
  forall (E : env) (r : role) (raw : bytes) (t : N) (keys : list public_key) (m : metadata_of r),
  verify_signatures E r raw t keys = Ok m ->
  1 <= t /\
  exists sigs signed msg ids,
    ic_envelope (e_ic E) raw = Ok (sigs, signed) /\
    ic_canonicalize (e_ic E) signed = Ok msg /\
    NoDup ids /\ N.of_nat (length ids) = t /\
    forall i, In i ids ->
      exists k s, In k keys /\ pk_id k = i /\ In s sigs /\ sig_keyid s = i /\
        (forall x, pk_scheme k <> SchemeUnknown x) /\
        ring_verify (e_crypto E) (pk_scheme k) (pk_value k) msg (sig_value s) = true.
Proof.
  intros E r raw t keys m H. apply verify_signatures_iff in H
    as (H1 & sigs & signed & msg & H2 & H3 & (ids & ND & L & G) & H4).
  split; auto. exists sigs, signed, msg, ids. repeat (split; auto).
  intros i I. destruct (G i I) as (k & s & (k1 & k2 & -> & Ek & _) & (s1 & s2 & -> & Es & _) & V1 & V2).
  exists k, s. repeat (split; auto); apply in_or_app; right; now left.
Qed.
Print Assumptions C01_threshold_soundness.

(** Two of three keys, an extra unauthorised signature and a duplicate entry. *)
Definition db_c01 : toydb := [("doc", (["mallory"; "k1"; "k3"; "k1"], DRoot root1))].
Example C01_case :
  verify_signatures (toy_env db_c01) Root "doc" 2 (map toy_key ["k1"; "k2"; "k3"]) = Ok root1.
Proof. vm_compute. reflexivity. Qed.
Example C01_case_duplicates_do_not_count :
  verify_signatures (toy_env [("doc", (["k1"; "k1"; "k1"], DRoot root1))]) Root "doc" 2
    (map toy_key ["k1"; "k2"; "k3"]) = Err VerificationFailure.
Proof. vm_compute. reflexivity. Qed.

(** C02 *)
Theorem C02_exact_acceptance :
  forall (E : env) (r : role) (raw : bytes) (t : N) (keys : list public_key),
  (forall m, verify_signatures E r raw t keys = Ok m <-> authentic E r raw t keys m) /\
  ((forall m, ~ authentic E r raw t keys m) <-> exists e, verify_signatures E r raw t keys = Err e).
Proof.
  intros. split; [intros; apply verify_signatures_iff|]. split.
  - intros H. destruct (verify_signatures E r raw t keys) as [m|e] eqn:V; eauto.
    exfalso. apply (H m). now apply verify_signatures_iff.
  - intros (e & H) m A. apply verify_signatures_iff in A. congruence.
Qed.
Print Assumptions C02_exact_acceptance.

Example C02_case_accept : authentic (toy_env db_c01) Root "doc" 2 (map toy_key ["k1"; "k2"; "k3"]) root1.
Proof. apply C02_exact_acceptance. vm_compute. reflexivity. Qed.
Example C02_case_reject : forall m, ~ authentic (toy_env db_c01) Root "doc" 3 (map toy_key ["k1"; "k2"; "k3"]) m.
Proof. apply C02_exact_acceptance. exists VerificationFailure. vm_compute. reflexivity. Qed.

(** C03: two environments that differ in the iteration order only. *)
Theorem C03_order_independence :
  forall (C : crypto) (o1 o2 : hash_order) (I : interchange) (r : role) (raw : bytes) (t : N)
         (keys : list public_key),
  verify_signatures (mkEnv C o1 I) r raw t keys = verify_signatures (mkEnv C o2 I) r raw t keys.
Proof. exact verify_signatures_order. Qed.
Print Assumptions C03_order_independence.

Example C03_case :
  verify_signatures (mkEnv toy_crypto id_order (toy_ic db_c01)) Root "doc" 2 (map toy_key ["k1"; "k2"; "k3"]) = Ok root1 /\
  verify_signatures (mkEnv toy_crypto rev_order (toy_ic db_c01)) Root "doc" 2 (map toy_key ["k1"; "k2"; "k3"]) = Ok root1.
Proof. vm_compute. split; reflexivity. Qed.

(** C04 *)
Theorem C04_only_signed_content :
  forall (E : env) (r : role) raw1 raw2 t1 t2 keys1 keys2 m1 m2 sigs1 sigs2 signed1 signed2,
  ic_envelope (e_ic E) raw1 = Ok (sigs1, signed1) ->
  ic_envelope (e_ic E) raw2 = Ok (sigs2, signed2) ->
  ic_canonicalize (e_ic E) signed1 = ic_canonicalize (e_ic E) signed2 ->
  verify_signatures E r raw1 t1 keys1 = Ok m1 ->
  verify_signatures E r raw2 t2 keys2 = Ok m2 ->
  m1 = m2.
Proof.
  intros E r raw1 raw2 t1 t2 keys1 keys2 m1 m2 s1 s2 g1 g2 E1 E2 C V1 V2.
  apply verify_signatures_iff in V1 as (_ & a & b & c & A1 & A2 & _ & A3).
  apply verify_signatures_iff in V2 as (_ & a' & b' & c' & B1 & B2 & _ & B3).
  rewrite E1 in A1. rewrite E2 in B1. inversion A1; inversion B1; subst. congruence.
Qed.
Print Assumptions C04_only_signed_content.

(** Two files around the same signed part, with different signatures on it. *)
Definition two_files : interchange :=
  mkInterchange string
    (fun raw => if String.eqb raw "a" then Ok ([toy_sign "k1" "doc"], "doc")
                else if String.eqb raw "b" then Ok ([toy_sign "k2" "doc"; toy_sign "k3" "x"], "doc") else Err Encoding)
    (fun s => Ok s) (fun r _ => toy_decode r (DRoot root1)) (fun r _ => toy_decode r (DRoot root2)) "json".
Example C04_case :
  let E := mkEnv toy_crypto id_order two_files in
  verify_signatures E Root "a" 1 [toy_key "k1"] = Ok root1 /\
  verify_signatures E Root "b" 1 [toy_key "k2"] = Ok root1.
Proof. vm_compute. split; reflexivity. Qed.

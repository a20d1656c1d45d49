(** * A small ring for the examples about private keys

    It loads the key files of the repository's tests and one more, an RSA key with a
    modulus of 2047 bits (ring's documented minimum).  Signatures are the checksums of
    KeyToy.v, digests are SHA-256. *)
From Coq Require Import String Ascii List NArith Bool Lia.
From Verif Require Import Base BaseFacts StringFacts Metadata Paths Codec SpecCodec CodecProofs Keys KeyToy
     PrivateKeys SpecPrivate PrivateProofs Sha256 TestVectors.
Import ListNotations.
Open Scope string_scope.

Definition toy_pair (p : bytes) : ed25519_pair := mkEd p (fun m => digest 7 (p ++ m)).
Definition toy_rsa (v : bytes) (len : N) : rsa_pair :=
  mkRsa len (fun _ _ buf m => if (buf =? len)%N then Some (digest 7 (v ++ m)) else None).

(** 2^2046 + 1, as an RSA modulus with exponent 65537. *)
Definition weak_n : bytes := of_hex ("40" ++ String.concat "" (repeat "00" 254) ++ "01").
Definition exponent : bytes := of_hex "010001".
Definition weak_pk8 : bytes := der_tlv tag_sequence (file_body "" weak_n exponent "").
Definition weak_pkcs1 : bytes := write_pkcs1 weak_n exponent.

(** The file of the tests in its parts. *)
Definition test_n : bytes := substring 38 256 rsa_2048_pk8.
Definition test_rest : bytes := substring 299 (String.length rsa_2048_pk8 - 299) rsa_2048_pk8.

Definition test_ring : ring_keys := mkRing
  (fun s p => if String.eqb (s ++ p) ed25519_1 && Nat.eqb (String.length p) 32 then Some (toy_pair p) else None)
  (fun d => if String.eqb d ed25519_1_pk8 then Some (toy_pair ed25519_1_pub) else None)
  (fun d => if String.eqb d rsa_2048_pk8 then Some (toy_rsa rsa_2048_pkcs1 256)
            else if String.eqb d weak_pk8 then Some (toy_rsa weak_pkcs1 256) else None).

Lemma big_endian_length k : forall n acc, String.length (big_endian k n acc) = k + String.length acc.
Proof. induction k as [|k IH]; intros n acc; [reflexivity|]. cbn [big_endian]. rewrite IH. cbn [String.length]. lia. Qed.
Lemma round_length st kw : length st = 8 -> length (one_round st kw) = 8.
Proof. intros L. destruct st as [|a [|b [|c [|d [|e [|f [|g [|h [|i st]]]]]]]]]; try discriminate. reflexivity. Qed.
Lemma rounds_length l : forall st, length st = 8 -> length (fold_left one_round l st) = 8.
Proof. induction l as [|x l IH]; intros st L; [exact L|]. cbn [fold_left]. apply IH, round_length, L. Qed.
Lemma block_length st w : length st = 8 -> length (block st w) = 8.
Proof. intros L. unfold block. cbv zeta. rewrite map_length, combine_length, L, rounds_length by exact L. reflexivity. Qed.
Lemma blocks_length k : forall st w, length st = 8 -> length (blocks k st w) = 8.
Proof. induction k as [|k IH]; intros st w L; [exact L|]. cbn [blocks]. apply IH, block_length, L. Qed.
Lemma sha256_length b : String.length (sha256 b) = 32.
Proof.
  unfold sha256. cbv zeta. set (st := blocks _ _ _). assert (L : length st = 8) by (apply blocks_length; reflexivity).
  assert (G : forall l, String.length (fold_right (fun w acc => big_endian 4 w acc) "" l) = 4 * length l).
  { induction l as [|x l IH]; [reflexivity|]. cbn [fold_right length]. rewrite big_endian_length, IH. lia. }
  rewrite G, L. reflexivity.
Qed.

(** One file: its parts are what they are. *)
Lemma file_parts x n e rest d xr nb eb rb : leads nb -> leads eb -> (0 < be_value nb)%N -> (0 < be_value eb)%N ->
  (blen nb <= 65536)%N -> (blen eb <= 65536)%N ->
  short d -> d = der_tlv tag_sequence (file_body xr nb eb rb) -> rsa_file x n e rest d ->
  n = be_value nb /\ forall v, rsa_public_key n e v -> v = write_pkcs1 nb eb.
Proof.
  intros Ln Le Pn Pe Bn Be S E F.
  assert (F' : rsa_file xr (be_value nb) (be_value eb) rb d) by (apply file_written; [exact Pn|exact Pe|exact S|]; eauto 10).
  destruct (rsa_file_unique _ _ _ _ _ _ _ _ _ F F' S) as (-> & -> & _). split; [reflexivity|]. intros v V.
  now apply public_written in V.
Qed.
Definition fine (d nb eb rb v : bytes) : Prop :=
  leads nb /\ leads eb /\ (0 < be_value eb)%N /\ (blen nb <= 65536)%N /\ (blen eb <= 65536)%N /\ short d /\
  d = der_tlv tag_sequence (file_body "" nb eb rb) /\ v = write_pkcs1 nb eb /\ (256 ^ 255 <= be_value nb < 256 ^ 256)%N.
Lemma fine_parts x n e rest d nb eb rb v : fine d nb eb rb v -> rsa_file x n e rest d ->
  bytes_needed n 256 /\ forall w, rsa_public_key n e w -> w = v.
Proof.
  intros (Ln & Le & Pe & Bn & Be & S & E & -> & B) F.
  assert (P : (0 < 256 ^ 255)%N) by reflexivity.
  destruct (file_parts x n e rest d "" nb eb rb) as [-> G]; auto; [lia|].
  split; [|exact G]. split; [reflexivity|]. exact B.
Qed.
Lemma test_fine : fine rsa_2048_pk8 test_n exponent test_rest rsa_2048_pkcs1.
Proof.
  split; [vm_compute; intuition discriminate|]. split; [vm_compute; intuition discriminate|]. split; [reflexivity|].
  split; [vm_compute; discriminate|]. split; [vm_compute; discriminate|]. split; [vm_compute; discriminate|].
  split; [vm_compute; reflexivity|]. split; [vm_compute; reflexivity|]. split; [vm_compute; discriminate|vm_compute; reflexivity].
Qed.
Lemma weak_fine : fine weak_pk8 weak_n exponent "" weak_pkcs1.
Proof.
  split; [vm_compute; intuition discriminate|]. split; [vm_compute; intuition discriminate|]. split; [reflexivity|].
  split; [vm_compute; discriminate|]. split; [vm_compute; discriminate|]. split; [vm_compute; discriminate|].
  split; [reflexivity|]. split; [reflexivity|]. split; [vm_compute; discriminate|vm_compute; reflexivity].
Qed.

Lemma rsa_test d k : ring_rsa_pkcs8 test_ring d = Some k ->
  exists nb eb rb v, fine d nb eb rb v /\ k = toy_rsa v 256.
Proof.
  cbn [ring_rsa_pkcs8 test_ring]. destruct (String.eqb_spec d rsa_2048_pk8) as [-> |_].
  - intros H. exists test_n, exponent, test_rest, rsa_2048_pkcs1. split; [exact test_fine|]. congruence.
  - destruct (String.eqb_spec d weak_pk8) as [-> |_]; [|discriminate].
    intros H. exists weak_n, exponent, "", weak_pkcs1. split; [exact weak_fine|]. congruence.
Qed.
Lemma test_ring_works : working_ring real_sha256 test_ring.
Proof.
  split.
  - intros s p k. cbn [ring_ed_seed test_ring]. destruct (String.eqb _ _ && Nat.eqb _ _) eqn:E; [|discriminate].
    intros H. apply andb_true_iff in E as [_ E]. apply PeanoNat.Nat.eqb_eq in E. split; [|exact E]. now inversion H.
  - intros d k. cbn [ring_ed_pkcs8 test_ring]. destruct (String.eqb _ _); [|discriminate]. intros H.
    assert (k = toy_pair ed25519_1_pub) as -> by congruence. reflexivity.
  - assert (G : forall p m, ring_verify real_sha256 Ed25519 (ed_public (toy_pair p)) m (ed_sign (toy_pair p) m) = true).
    { intros p m. cbn [ring_verify real_sha256 checksums ed_public ed_sign toy_pair]. apply String.eqb_refl. }
    intros k m [(s & p & H)|(d & H)].
    + cbn [ring_ed_seed test_ring] in H. destruct (String.eqb _ _ && Nat.eqb _ _); [|discriminate]. assert (k = toy_pair p) as -> by congruence. apply G.
    + cbn [ring_ed_pkcs8 test_ring] in H. destruct (String.eqb _ _); [|discriminate]. assert (k = toy_pair ed25519_1_pub) as -> by congruence. apply G.
  - intros d k x n e rest v s rnd m sig K F V _ H. destruct (rsa_test d k K) as (nb & eb & rb & w & Fi & ->).
    destruct (fine_parts _ _ _ _ _ _ _ _ _ Fi F) as [_ U]. rewrite (U v V).
    cbn [rsa_sign rsa_modulus_len toy_rsa] in H. rewrite N.eqb_refl in H. inversion H; subst.
    cbn [ring_verify real_sha256 checksums]. apply String.eqb_refl.
  - intros d k x n e rest K F. destruct (rsa_test d k K) as (nb & eb & rb & w & Fi & ->).
    destruct (fine_parts _ _ _ _ _ _ _ _ _ Fi F) as [B _]. exact B.
  - intros b. exact (sha256_length b).
Qed.

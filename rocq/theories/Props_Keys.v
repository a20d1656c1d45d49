(** * C66: keys and their encodings *)
From Coq Require Import String Ascii List NArith ZArith Bool Lia.
From Verif Require Import Base BaseFacts StringFacts JsonValue JsonText SpecJson JsonProofs Metadata Paths
     Codec SpecCodec CodecProofs Serde SerdeProofs Keys SpecKeys KeyProofs KeyToy.
Import ListNotations.
Open Scope string_scope.

(** DER lengths: one spelling per number; the reader accepts exactly these, below 65536. *)
Theorem C66_der_lengths :
  (forall (n : N), (n <= u64_max)%N -> der_length n (der_len n)) /\
  (forall (n : N) (l : bytes), (n <= u64_max)%N -> der_length n l -> l = der_len n) /\
  (forall (n : N) (r : bytes), (n < 65536)%N -> der_read_len (der_len n ++ r) = Some (n, r)) /\
  (forall (s : bytes) (n : N) (r : bytes), der_read_len s = Some (n, r) -> s = der_len n ++ r /\ (n < 65536)%N).
Proof.
  split; [exact der_len_spec|]. split; [exact der_len_unique|]. split.
  - intros n r L. apply der_read_len_spec. exists (der_len n). split; [reflexivity|]. split; [apply der_len_spec; unfold u64_max; lia|exact L].
  - intros s n r H. apply der_read_len_spec in H as (l & -> & D & L). split; [|exact L].
    rewrite (der_len_unique n l) by (auto; unfold u64_max; lia). reflexivity.
Qed.
Print Assumptions C66_der_lengths.

Example C66_der_length_case :
  der_len 127 = String "127" "" /\ der_len 128 = String "129" (String "128" "") /\
  der_len 65535 = String "130" (String "255" (String "255" "")) /\
  der_read_len (String "129" (String "127" "")) = None (* not the shortest *) /\
  der_read_len (String "130" (String "001" (String "002" "rest"))) = Some (258%N, "rest").
Proof. vm_compute. repeat split; reflexivity. Qed.

(** What is written is the SubjectPublicKeyInfo of the key, and what is read is exactly that. *)
Theorem C66_spki_is_der :
  (forall (v : bytes) (t : key_type) (der : bytes), (N.of_nat (String.length v) <= 2 ^ 63)%N ->
     write_spki v t = Some der <-> spki_of t v der) /\
  (forall (der : bytes) (t : key_type) (v : bytes),
     read_spki der = Some (t, v) <-> spki_of t v der /\ (N.of_nat (String.length der) <= 65539)%N).
Proof.
  split.
  - intros v t der F. apply write_spki_iff. exact F.
  - intros der t v. rewrite read_spki_iff. split; [tauto|]. intros [S L]. split; [exact S|]. split; [|exact L].
    eapply spki_fits; eassumption.
Qed.
Print Assumptions C66_spki_is_der.

Lemma as_spki_fits k der : as_spki k = Ok der -> (N.of_nat (String.length der) <= 65539)%N -> fits (pk_value k).
Proof.
  intros H L. unfold as_spki in H. rewrite write_spki_eq in H. destruct (oid_of_key_type (pk_typ k)) as [o|]; [|discriminate].
  inversion H; subst. pose proof (blen_body_ge o (pk_value k)).
  unfold der_tlv in L. cbn [String.length] in L. rewrite slength_app in L. unfold fits, blen in *. lia.
Qed.

(** SPKI and back: type, bytes and, for a key with its own id, everything. *)
Theorem C66_spki_round_trip :
  forall (C : crypto) (k : public_key) (der : bytes),
  as_spki k = Ok der -> (N.of_nat (String.length der) <= 65539)%N ->
  read_spki der = Some (pk_typ k, pk_value k) /\
  (own_id C k -> from_spki_with C der (pk_scheme k) (pk_kha k) = Ok k).
Proof.
  intros C k der H L. pose proof (as_spki_fits k der H L) as F.
  assert (R : read_spki der = Some (pk_typ k, pk_value k)).
  { apply read_spki_iff. split; [|auto]. apply write_spki_iff; [exact F|]. unfold as_spki in H.
    destruct (write_spki _ _); congruence. }
  split; [exact R|]. intros O. unfold from_spki_with. rewrite R. apply key_new_iff; [exact F|].
  split; [destruct k; reflexivity|exact O].
Qed.
Print Assumptions C66_spki_round_trip.

(** The two constructors: exactly the key described, under its own id. *)
Theorem C66_constructed_keys :
  forall (C : crypto) (h : option (list string)) (k : public_key),
  (forall (der : bytes) (s : scheme),
     from_spki_with C der s h = Ok k <->
     spki_of (pk_typ k) (pk_value k) der /\ (N.of_nat (String.length der) <= 65539)%N /\
     pk_scheme k = s /\ pk_kha k = h /\ own_id C k) /\
  (forall (v : bytes),
     from_ed25519_with C v h = Ok k <->
     String.length v = 32 /\ pk_typ k = KtEd25519 /\ pk_scheme k = Ed25519 /\ pk_kha k = h /\ pk_value k = v /\ own_id C k).
Proof.
  intros C h k. split.
  - intros der s. unfold from_spki_with. split.
    + destruct (read_spki der) as [[t v]|] eqn:R; [|discriminate]. apply read_spki_iff in R as (S & F & L).
      intros H. apply key_new_iff in H as [E O]; [|exact F]. rewrite E. cbn. rewrite <- E. auto.
    + intros (S & L & <- & <- & O). pose proof (spki_fits _ _ _ S L) as F.
      rewrite (proj2 (read_spki_iff der (pk_typ k) (pk_value k))) by auto. apply key_new_iff; [exact F|].
      split; [destruct k; reflexivity|exact O].
  - intros v. unfold from_ed25519_with. split.
    + destruct (Nat.eqb_spec (String.length v) 32) as [L|]; [|discriminate]. intros H.
      apply key_new_iff in H as [E O]; [|unfold fits, blen; lia]. rewrite E. cbn. rewrite <- E. auto 10.
    + intros (L & T & S & H & V & O). rewrite L. cbn [Nat.eqb]. apply key_new_iff; [unfold fits, blen; lia|].
      split; [destruct k; cbn in *; congruence|exact O].
Qed.
Print Assumptions C66_constructed_keys.

(** The public ones: a key read from SPKI names the two hash algorithms of python-tuf,
    which go into its id; one made of 32 bytes names none. *)
Theorem C66_public_constructors :
  forall (C : crypto) (k : public_key),
  (forall (der : bytes) (s : scheme),
     from_spki C der s = Ok k <->
     spki_of (pk_typ k) (pk_value k) der /\ (N.of_nat (String.length der) <= 65539)%N /\
     pk_scheme k = s /\ pk_kha k = Some ["sha256"; "sha512"] /\ own_id C k) /\
  (forall (v : bytes),
     from_ed25519 C v = Ok k <->
     String.length v = 32 /\ pk_typ k = KtEd25519 /\ pk_scheme k = Ed25519 /\ pk_kha k = None /\ pk_value k = v /\ own_id C k).
Proof.
  intros C k. split; [exact (proj1 (C66_constructed_keys C _ k))|exact (proj2 (C66_constructed_keys C _ k))].
Qed.
Print Assumptions C66_public_constructors.

(** The id is determined by what the key consists of. *)
Theorem C66_one_id_per_key :
  forall (C : crypto) (k k' : public_key),
  own_id C k -> own_id C k' -> (N.of_nat (String.length (pk_value k)) <= 2 ^ 63)%N ->
  pk_typ k = pk_typ k' -> pk_scheme k = pk_scheme k' -> pk_kha k = pk_kha k' -> pk_value k = pk_value k' -> k = k'.
Proof. intros C k k' O O' F. now apply (own_id_unique C). Qed.
Print Assumptions C66_one_id_per_key.

(** Exactly the keys with their own id and a form metadata has room for can be read
    from metadata; each of these is written as the object described in SpecKeys.v, and
    that object - as it is or after going through a [Value] - reads back as the key. *)
Theorem C66_metadata_keys :
  forall (C : crypto) (k : public_key),
  ((exists j, d_key C j = Some k) <-> own_id C k /\ portable k) /\
  (own_id C k -> portable k ->
   exists j, e_key k = Some j /\ key_object k (to_value j) /\ d_key C j = Some k /\ d_key C (to_value j) = Some k).
Proof.
  intros C k.
  assert (A : own_id C k -> portable k ->
    exists j, e_key k = Some j /\ key_object k (to_value j) /\ d_key C j = Some k /\ d_key C (to_value j) = Some k).
  { intros O P. destruct (d_key_e C k O P) as (j & E & K & D). exists j. auto using (stable_key C). }
  split; [|exact A]. split.
  - intros (j & D). exact (d_key_sound C j k D).
  - intros [O P]. destruct (A O P) as (j & _ & _ & D & _). eauto.
Qed.
Print Assumptions C66_metadata_keys.

(** What the two constructors make, as far as metadata can carry it. *)
Theorem C66_keys_survive_metadata :
  forall (C : crypto) (der v : bytes) (s : scheme) (h : option (list string)) (k : public_key),
  (from_spki_with C der s h = Ok k /\ pk_typ k = KtRsa) \/
  (from_spki_with C der Ed25519 h = Ok k /\ String.length (pk_value k) = 32) \/
  from_ed25519_with C v h = Ok k ->
  exists j, e_key k = Some j /\ d_key C j = Some k /\ d_key C (to_value j) = Some k.
Proof.
  intros C der v s h k H.
  assert (P : own_id C k /\ portable k).
  { destruct (C66_constructed_keys C h k) as [A B]. destruct H as [[H T]|[[H L]|H]].
    - apply A in H as (S & L & _ & _ & O). split; [exact O|]. right. split; [exact T|]. exists der. rewrite T in S. auto.
    - apply A in H as (S & L' & Sc & _ & O). split; [exact O|]. destruct (pk_typ k) eqn:T.
      + left. auto.
      + right. split; [exact T|]. exists der. auto.
      + destruct S as (oid & Al & _). inversion Al.
    - apply B in H as (L & T & Sc & _ & V & O). split; [exact O|]. left. subst v. auto. }
  destruct (C66_metadata_keys C k) as [_ M]. destruct (M (proj1 P) (proj2 P)) as (j & E & _ & D & D'). eauto.
Qed.
Print Assumptions C66_keys_survive_metadata.

(** An RSA key long enough for two length bytes, and an ed25519 key. *)
Definition modulus : bytes := String.concat "" (repeat "0123456789abcdef" 20).
Definition rsa_der : bytes := match write_spki modulus KtRsa with Some d => d | None => "" end.
Example C66_case :
  (exists k j, from_spki checksums rsa_der RsaSsaPssSha256 = Ok k /\ pk_typ k = KtRsa /\ pk_value k = modulus /\
     e_key k = Some j /\ d_key checksums j = Some k /\ as_spki k = Ok rsa_der) /\
  (exists j, own_id checksums (ed_key "x") /\ e_key (ed_key "x") = Some j /\ d_key checksums j = Some (ed_key "x") /\
     write (to_value j) =
       "{""keytype"":""ed25519"",""keyval"":{""public"":""6162636465666768696a6b6c6d6e6f707172737475767778797a303132333478""},""scheme"":""ed25519""}" /\
     String.length (pk_id (ed_key "x")) = 64 /\ pk_id (ed_key "x") <> pk_id (ed_key "y")).
Proof.
  split.
  - eexists. eexists. split; [vm_compute; reflexivity|]. split; [reflexivity|]. split; [reflexivity|].
    split; [vm_compute; reflexivity|]. split; vm_compute; reflexivity.
  - eexists. split.
    { apply (key_new_iff checksums KtEd25519 Ed25519 None (material "x")); [vm_compute; discriminate|]. vm_compute. reflexivity. }
    split; [vm_compute; reflexivity|]. split; [vm_compute; reflexivity|]. split; [vm_compute; reflexivity|].
    split; [reflexivity|]. vm_compute. discriminate.
Qed.

(** Not every key [from_spki] makes can be read back from metadata: an ed25519 SPKI
    with another scheme, or of another length. *)
Theorem C66_every_spki_key_survives_metadata_refuted :
  exists (der der' : bytes) (k k' : public_key) (j j' : json),
  from_spki checksums der RsaSsaPssSha256 = Ok k /\ e_key k = Some j /\ d_key checksums j = None /\
  from_spki checksums der' Ed25519 = Ok k' /\ e_key k' = Some j' /\ d_key checksums j' = None.
Proof.
  exists (match write_spki (material "x") KtEd25519 with Some d => d | None => "" end).
  exists (match write_spki "short" KtEd25519 with Some d => d | None => "" end).
  do 4 eexists. split; [vm_compute; reflexivity|]. split; [vm_compute; reflexivity|]. split; [vm_compute; reflexivity|].
  split; [vm_compute; reflexivity|]. split; [vm_compute; reflexivity|]. vm_compute; reflexivity.
Qed.
Print Assumptions C66_every_spki_key_survives_metadata_refuted.

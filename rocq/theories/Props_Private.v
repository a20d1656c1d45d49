(** * C81 - C83: private keys, and public keys in collections *)
From Coq Require Import String Ascii List NArith ZArith Bool Lia.
From Verif Require Toy.
From Verif Require Import Base BaseFacts StringFacts JsonValue JsonText Utf8 SpecJson JsonProofs Metadata Verify SpecVerify VerifyProofs Paths
     Codec SpecCodec CodecProofs Reader Serde SerdeProofs Keys SpecKeys KeyProofs KeyToy SpecMeta Shims ShimsProofs TextProofs
     Builders SpecBuilders BuilderProofs PrivateKeys SpecPrivate PrivateProofs Sha256 TestVectors PrivateToy JsonToy.
Import ListNotations.
Open Scope nat_scope.
Open Scope string_scope.

(** ** C81: the public half of an RSA key file *)

(** What is found is the PKCS#1 form of the modulus and exponent in the file, exactly for
    RSA key files without attributes and below 64 KiB; file and form determine both numbers. *)
Theorem C81_rsa_public_half :
  (forall (der v : bytes),
     extract_rsa_pub der = Some v <->
     short der /\ exists x n e rest, (0 < n)%N /\ (0 < e)%N /\ rsa_file x n e rest der /\ rsa_public_key n e v) /\
  (forall (der x x' rest rest' : bytes) (n e n' e' : N),
     rsa_file x n e rest der -> rsa_file x' n' e' rest' der -> short der -> n = n' /\ e = e' /\ rest = rest') /\
  (forall (v : bytes) (n e n' e' : N), rsa_public_key n e v -> rsa_public_key n' e' v -> short v -> n = n' /\ e = e').
Proof.
  split; [exact extract_spec|]. split.
  - intros. eapply rsa_file_unique; eassumption.
  - intros. eapply rsa_public_key_unique; eassumption.
Qed.
Print Assumptions C81_rsa_public_half.

(** The files of the repository's tests. *)
Example C81_test_vectors :
  extract_rsa_pub rsa_2048_pk8 = Some rsa_2048_pkcs1 /\ extract_rsa_pub rsa_4096_pk8 = Some rsa_4096_pkcs1 /\
  read_spki rsa_2048_spki = Some (KtRsa, rsa_2048_pkcs1) /\ read_spki rsa_4096_spki = Some (KtRsa, rsa_4096_pkcs1) /\
  write_spki rsa_2048_pkcs1 KtRsa = Some rsa_2048_spki /\ write_spki rsa_4096_pkcs1 KtRsa = Some rsa_4096_spki /\
  read_spki ed25519_1_spki = Some (KtEd25519, ed25519_1_pub) /\
  extract_rsa_pub ed25519_1_pk8 = None /\ extract_rsa_pub rsa_2048_spki = None /\ extract_rsa_pub (rsa_2048_pk8 ++ "x") = None.
Proof.
  split; [vm_compute; reflexivity|]. split; [vm_compute; reflexivity|]. split; [vm_compute; reflexivity|].
  split; [vm_compute; reflexivity|]. split; [vm_compute; reflexivity|]. split; [vm_compute; reflexivity|].
  split; [vm_compute; reflexivity|]. split; [vm_compute; reflexivity|]. split; vm_compute; reflexivity.
Qed.

(** ** C81: what the constructors accept and make *)

Lemma ed_keypair_iff C p h k : fits (ed_public p) ->
  ed_from_keypair C p h = Ok k <-> ep_private k = p /\ consists_of C (ep_public k) KtEd25519 Ed25519 h (ed_public p).
Proof.
  intros F. unfold ed_from_keypair. split.
  - intros H. apply rbind_Ok in H as (q & H & E). inversion E; subst. cbn. split; [reflexivity|]. now apply key_new_consists in H.
  - intros [<- H]. apply key_new_consists in H; [|exact F]. rewrite H. cbn. now destruct k.
Qed.
Lemma ed_keypair_ok C p h : fits (ed_public p) -> exists k, ed_from_keypair C p h = Ok k.
Proof. intros F. unfold ed_from_keypair. destruct (key_new_ok C KtEd25519 Ed25519 h _ F) as (k & ->); [auto|]. cbn. eauto. Qed.
Lemma fits_32 v : String.length v = 32 -> fits v.
Proof. intros L. unfold fits, blen. lia. Qed.

Theorem C81_ed25519_keys :
  forall (C : crypto) (R : ring_keys), working_ring C R ->
  (* a key pair is 32 bytes of seed and 32 bytes of public key *)
  (forall (key : bytes) (k : ed25519_private),
     ed_from_ed25519 C R key = Ok k <->
     exists seed public, key = seed ++ public /\ String.length seed = 32 /\ String.length public = 32 /\
       ring_ed_seed R seed public = Some (ep_private k) /\
       consists_of C (ep_public k) KtEd25519 Ed25519 None public) /\
  (forall (der : bytes) (k : ed25519_private),
     ed_from_pkcs8 C R der = Ok k <->
     ring_ed_pkcs8 R der = Some (ep_private k) /\
     consists_of C (ep_public k) KtEd25519 Ed25519 (Some ["sha256"; "sha512"]) (ed_public (ep_private k))) /\
  (* one way to fail *)
  (forall (key : bytes) (e : error), ed_from_ed25519 C R key = Err e -> e = Encoding /\
     forall seed public, key = seed ++ public -> String.length seed = 32 -> String.length public = 32 ->
       ring_ed_seed R seed public = None) /\
  (forall (der : bytes) (e : error), ed_from_pkcs8 C R der = Err e -> e = Encoding /\ ring_ed_pkcs8 R der = None).
Proof.
  intros C R W.
  assert (Sp : forall s p, String.length s = 32 -> String.length p = 32 ->
            ed_from_ed25519 C R (s ++ p) = match ring_ed_seed R s p with Some q => ed_from_keypair C q None | None => Err Encoding end).
  { intros s p L L'. unfold ed_from_ed25519, ed_from_ed25519_with. rewrite slength_app, L, L'. cbn [negb Nat.eqb plus].
    destruct (split_at s p) as [E1 E2]. rewrite L in E1, E2. now rewrite E1, E2. }
  assert (Cut : forall key, String.length key = 64 -> exists s p, key = s ++ p /\ String.length s = 32 /\ String.length p = 32).
  { intros key L. destruct (slices 32 key) as (E & L1 & L2); [lia|]. exists (bytes_before 32 key), (bytes_from 32 key).
    split; [exact E|]. split; [exact L1|]. rewrite L2. lia. }
  split; [|split; [|split]].
  - intros key k. split.
    + intros H. destruct (Nat.eqb_spec (String.length key) 64) as [L|N].
      * destruct (Cut key L) as (s & p & -> & L1 & L2). rewrite Sp in H by auto. exists s, p.
        destruct (ring_ed_seed R s p) as [q|] eqn:Q; [|discriminate]. destruct (wr_seed C R W _ _ _ Q) as [V _].
        apply ed_keypair_iff in H as [<- H]; [|rewrite V; now apply fits_32]. rewrite V in H. auto 10.
      * unfold ed_from_ed25519, ed_from_ed25519_with in H. apply Nat.eqb_neq in N. rewrite N in H. discriminate.
    + intros (s & p & -> & L1 & L2 & Q & H). rewrite Sp, Q by auto. destruct (wr_seed C R W _ _ _ Q) as [V _].
      apply ed_keypair_iff; [rewrite V; now apply fits_32|]. rewrite V. auto.
  - intros der k. unfold ed_from_pkcs8, ed_from_pkcs8_with. split.
    + destruct (ring_ed_pkcs8 R der) as [q|] eqn:Q; [|discriminate]. intros H.
      apply ed_keypair_iff in H as [<- H]; [auto|]. apply fits_32. eapply (wr_ed_file C R W); exact Q.
    + intros [Q H]. rewrite Q. apply ed_keypair_iff; [|auto]. apply fits_32. eapply (wr_ed_file C R W); exact Q.
  - intros key e H. destruct (Nat.eqb_spec (String.length key) 64) as [L|N].
    + destruct (Cut key L) as (s & p & -> & L1 & L2). rewrite Sp in H by auto.
      destruct (ring_ed_seed R s p) as [q|] eqn:Q.
      * destruct (wr_seed C R W _ _ _ Q) as [V _]. destruct (ed_keypair_ok C q None) as (k & K); [rewrite V; now apply fits_32|congruence].
      * split; [congruence|]. intros s' p' E L1' L2'.
        destruct (split_at s p) as [A1 A2]. destruct (split_at s' p') as [B1 B2].
        rewrite L1, E in A1, A2. rewrite L1' in B1, B2. assert (s' = s) as -> by congruence. assert (p' = p) as -> by congruence. exact Q.
    + unfold ed_from_ed25519, ed_from_ed25519_with in H. pose proof N as N'. apply Nat.eqb_neq in N'. rewrite N' in H. cbn in H.
      split; [congruence|]. intros s p -> L1 L2. exfalso. apply N. rewrite slength_app. lia.
  - intros der e. unfold ed_from_pkcs8, ed_from_pkcs8_with. destruct (ring_ed_pkcs8 R der) as [q|] eqn:Q.
    + intros H. destruct (ed_keypair_ok C q python_algorithms) as (k & K); [|congruence]. apply fits_32. eapply (wr_ed_file C R W); exact Q.
    + intros H. split; congruence.
Qed.
Print Assumptions C81_ed25519_keys.

Theorem C81_rsa_keys :
  forall (C : crypto) (R : ring_keys) (der : bytes) (s : scheme),
  (forall (k : rsa_private),
     rsa_from_pkcs8 C R der s = Ok k <->
     pss s /\ ring_rsa_pkcs8 R der = Some (rp_private k) /\ (256 <= rsa_modulus_len (rp_private k))%N /\ short der /\
     exists x n e rest v, (0 < n)%N /\ (0 < e)%N /\ rsa_file x n e rest der /\ rsa_public_key n e v /\
       consists_of C (rp_public k) KtRsa s (Some ["sha256"; "sha512"]) v) /\
  (forall (e : error),
     rsa_from_pkcs8 C R der s = Err e <->
     (e = IllegalArgument /\ ~ pss s) \/
     (e = Encoding /\ pss s /\ ring_rsa_pkcs8 R der = None) \/
     (exists key, e = IllegalArgument /\ pss s /\ ring_rsa_pkcs8 R der = Some key /\ (rsa_modulus_len key < 256)%N) \/
     (exists key, e = Encoding /\ pss s /\ ring_rsa_pkcs8 R der = Some key /\ (256 <= rsa_modulus_len key)%N /\
        ~ (short der /\ exists x n e rest, (0 < n)%N /\ (0 < e)%N /\ rsa_file x n e rest der))).
Proof.
  intros C R der s.
  assert (P : pss s \/ (~ pss s /\ rsa_from_pkcs8 C R der s = Err IllegalArgument)).
  { unfold pss. destruct s; auto; right; (split; [intros [H|H]; discriminate|reflexivity]). }
  assert (U : pss s -> rsa_from_pkcs8 C R der s =
     match ring_rsa_pkcs8 R der with
     | None => Err Encoding
     | Some key => if (rsa_modulus_len key <? 256)%N then Err IllegalArgument
         else match extract_rsa_pub der with None => Err Encoding
              | Some v => let? k := key_new C KtRsa s python_algorithms v in Ok (mkRsaPrivate key k) end end).
  { intros [-> | ->]; reflexivity. }
  assert (Fi : forall v, extract_rsa_pub der = Some v -> fits v).
  { intros v H. destruct (extracted_spki der v H) as (spk & A & B). eapply short_fits; eassumption. }
  assert (No : extract_rsa_pub der = None <-> ~ (short der /\ exists x n e rest, (0 < n)%N /\ (0 < e)%N /\ rsa_file x n e rest der)).
  { split.
    - intros H (S & x & n & e & rest & Pn & Pe & F).
      destruct (proj1 (file_written x n e rest der Pn Pe S) F) as (n' & e' & Ln & Le & <- & <- & D).
      assert (B : (blen (file_body x n' e' rest) < 65536)%N).
      { eapply file_short; [exact D| |exact S]. unfold short in S. change (blen der <= 65539)%N in S. rewrite D in S.
        pose proof (blen_tlv_ge tag_sequence (file_body x n' e' rest)). unfold u64_max. lia. }
      assert (extract_rsa_pub der = Some (write_pkcs1 n' e')) by (apply extract_iff; exists x, n', e', rest; auto). congruence.
    - intros N. destruct (extract_rsa_pub der) as [v|] eqn:E; [|reflexivity]. exfalso. apply N.
      apply extract_spec in E as (S & x & n & e & rest & Pn & Pe & F & _). split; [exact S|]. exists x, n, e, rest. auto. }
  split.
  - intros k. split.
    + intros H. destruct P as [P|[_ P]]; [|congruence]. rewrite (U P) in H. split; [exact P|].
      destruct (ring_rsa_pkcs8 R der) as [key|] eqn:Q; [|discriminate]. destruct (N.ltb_spec (rsa_modulus_len key) 256); [discriminate|].
      destruct (extract_rsa_pub der) as [v|] eqn:E; [|discriminate]. apply rbind_Ok in H as (q & K & H). inversion H; subst. cbn.
      split; [reflexivity|]. split; [assumption|]. apply key_new_consists in K; [|now apply Fi].
      apply extract_spec in E as (S & x & n & e & rest & Pn & Pe & F & V). split; [exact S|]. exists x, n, e, rest, v. auto.
    + intros (Ps & Q & M & S & x & n & e & rest & v & Pn & Pe & F & V & K). rewrite (U Ps), Q.
      destruct (N.ltb_spec (rsa_modulus_len (rp_private k)) 256); [lia|].
      assert (E : extract_rsa_pub der = Some v). { apply extract_spec. split; [exact S|]. exists x, n, e, rest. auto. }
      rewrite E. apply key_new_consists in K; [|now apply Fi]. unfold python_algorithms. rewrite K. cbn. now destruct k.
  - intros e. split.
    + intros H. destruct P as [P|[N P]]; [|left; split; [congruence|exact N]]. rewrite (U P) in H. right.
      destruct (ring_rsa_pkcs8 R der) as [key|] eqn:Q; [|left; split; [congruence|auto]]. right.
      destruct (N.ltb_spec (rsa_modulus_len key) 256); [left; exists key; split; [congruence|auto]|]. right. exists key.
      destruct (extract_rsa_pub der) as [v|] eqn:E.
      * destruct (key_new_ok C KtRsa s python_algorithms v) as (k & K); [now apply Fi|auto|]. rewrite K in H. discriminate.
      * split; [congruence|]. split; [exact P|]. split; [reflexivity|]. split; [assumption|]. now apply No.
    + intros [(-> & N)|[(-> & Ps & Q)|[(key & -> & Ps & Q & M)|(key & -> & Ps & Q & M & N)]]].
      * destruct P as [P|[_ P]]; [contradiction|exact P].
      * now rewrite (U Ps), Q.
      * rewrite (U Ps), Q. destruct (N.ltb_spec (rsa_modulus_len key) 256); [reflexivity|lia].
      * rewrite (U Ps), Q. destruct (N.ltb_spec (rsa_modulus_len key) 256); [lia|]. now rewrite (proj2 No N).
Qed.
Print Assumptions C81_rsa_keys.

(** ** C81: signing *)

Lemma ed_signs (k : ed25519_private) : pk_scheme (ep_public k) = Ed25519 ->
  forall rnd m, ed_sign_message k m = Returns (sign (ed_signer k) rnd m).
Proof. intros H rnd m. unfold ed_sign_message. rewrite H. reflexivity. Qed.
Lemma rsa_signs (k : rsa_private) : pss (pk_scheme (rp_public k)) ->
  forall rnd m, rsa_sign_message k rnd m = Returns (sign (rsa_signer k) rnd m).
Proof.
  intros H rnd m. unfold rsa_sign_message, sign, rsa_signer. cbn [sk_public sk_sign].
  destruct H as [-> | ->]; destruct (rsa_sign _ _ _ _ _); reflexivity.
Qed.
Lemma digest_id C k : own_id C k -> (forall b, String.length (ring_digest C Sha256 b) = 32) -> id_like (pk_id k).
Proof.
  intros (j & b & _ & _ & H) D. unfold id_like.
  assert (G : forall t v, hex_text t v -> String.length t = 2 * String.length v) by (induction 1; cbn; lia).
  rewrite (G _ _ H), D. reflexivity.
Qed.
Lemma loaded_public C R k : working_ring C R -> loaded C R k ->
  exists t s h v, consists_of C (sk_public k) t s h v /\ (h = None \/ h = python_algorithms) /\
    ((t = KtEd25519 /\ s = Ed25519 /\ String.length v = 32) \/ (t = KtRsa /\ pss s /\ exists spk, spki_of KtRsa v spk /\ short spk)).
Proof.
  intros W L. destruct (C81_ed25519_keys C R W) as (E1 & E2 & _). destruct L as [key k H|der k H|der s k H].
  - apply E1 in H as (seed & p & _ & _ & Lp & _ & H). exists KtEd25519, Ed25519, None, p. auto 10.
  - apply E2 in H as [Q H]. exists KtEd25519, Ed25519, python_algorithms, (ed_public (ep_private k)). split; [exact H|]. split; [auto|].
    left. split; [reflexivity|]. split; [reflexivity|]. eapply (wr_ed_file C R W); exact Q.
  - apply (proj1 (C81_rsa_keys C R der s)) in H as (P & Q & _ & S & x & n & e & rest & v & Pn & Pe & F & V & H).
    exists KtRsa, s, python_algorithms, v. split; [exact H|]. split; [auto|]. right. split; [reflexivity|]. split; [exact P|].
    eapply extracted_spki. apply extract_spec. split; [exact S|]. exists x, n, e, rest. auto.
Qed.

(** Every private key of the library signs without panicking, under the id of its public
    key; its public key verifies what it signs, and metadata can carry it. *)
Theorem C81_private_keys_work :
  forall (C : crypto) (R : ring_keys), working_ring C R ->
  (forall (k : private_key), loaded C R k -> working_key C k /\ good_key C (sk_public k)) /\
  (forall (key : bytes) (k : ed25519_private), ed_from_ed25519 C R key = Ok k \/ ed_from_pkcs8 C R key = Ok k ->
     forall rnd msg, exists sg, ed_sign_message k msg = Returns (Ok sg) /\ sign (ed_signer k) rnd msg = Ok sg /\
       sig_keyid sg = pk_id (ep_public k) /\ pk_verify C (ep_public k) msg sg = Ok tt) /\
  (forall (der : bytes) (s : scheme) (k : rsa_private), rsa_from_pkcs8 C R der s = Ok k ->
     forall rnd msg,
       rsa_sign_message k rnd msg = Returns (sign (rsa_signer k) rnd msg) /\
       (rsa_sign_message k rnd msg = Returns (Err Opaque) \/
        exists sg, rsa_sign_message k rnd msg = Returns (Ok sg) /\
          sig_keyid sg = pk_id (rp_public k) /\ pk_verify C (rp_public k) msg sg = Ok tt)).
Proof.
  intros C R W. destruct (C81_ed25519_keys C R W) as (E1 & E2 & _).
  assert (Ed : forall key k, ed_from_ed25519 C R key = Ok k \/ ed_from_pkcs8 C R key = Ok k ->
     pk_scheme (ep_public k) = Ed25519 /\ forall m, ring_verify C Ed25519 (pk_value (ep_public k)) m (ed_sign (ep_private k) m) = true).
  { intros key k [H|H].
    - apply E1 in H as (seed & p & _ & _ & _ & Q & (_ & S & _ & V & _)). split; [exact S|]. intros m. rewrite V.
      destruct (wr_seed C R W _ _ _ Q) as [<- _]. apply (wr_ed_sign C R W). left. eauto.
    - apply E2 in H as [Q (_ & S & _ & V & _)]. split; [exact S|]. intros m. rewrite V. apply (wr_ed_sign C R W). right. eauto. }
  assert (Rs : forall der s k, rsa_from_pkcs8 C R der s = Ok k ->
     pk_scheme (rp_public k) = s /\ pss s /\ forall rnd m sig,
       rsa_sign (rp_private k) s rnd (rsa_modulus_len (rp_private k)) m = Some sig -> ring_verify C s (pk_value (rp_public k)) m sig = true).
  { intros der s k H. apply (proj1 (C81_rsa_keys C R der s)) in H as (P & Q & _ & S & x & n & e & rest & v & _ & _ & F & V & (_ & Sc & _ & Vv & _)).
    split; [exact Sc|]. split; [exact P|]. intros rnd m sig H. rewrite Vv. eapply (wr_rsa_sign C R W); eassumption. }
  split; [|split].
  - intros k L. pose proof (loaded_public C R k W L) as (t & s & h & v & (T & S & H & V & O) & _ & D).
    assert (I : id_like (pk_id (sk_public k))) by exact (digest_id C _ O (wr_digest C R W)).
    split.
    + split; [exact O|]. split; [exact I|]. split.
      * intros x X. destruct D as [(_ & E & _)|(_ & [E|E] & _)]; congruence.
      * destruct L as [key k L|der k L|der s' k L]; cbn [sk_public sk_sign ed_signer rsa_signer]; intros rnd m w E.
        -- destruct (Ed key k (or_introl L)) as [Sc G]. rewrite Sc. inversion E; subst. apply G.
        -- destruct (Ed der k (or_intror L)) as [Sc G]. rewrite Sc. inversion E; subst. apply G.
        -- destruct (Rs der s' k L) as (Sc & _ & G). rewrite Sc in *. destruct (rsa_sign _ _ _ _ _) eqn:Q; [|discriminate].
           inversion E; subst. eapply G; exact Q.
    + split; [exact O|]. split; [|exact I]. destruct D as [(E & E' & L')|(E & _ & spk & S' & L')].
      * left. split; [congruence|]. split; [congruence|]. now rewrite V.
      * right. split; [congruence|]. exists spk. rewrite V. auto.
  - intros key k H rnd msg. destruct (Ed key k H) as [Sc G].
    exists (mkSig (pk_id (ep_public k)) (ed_sign (ep_private k) msg)).
    split; [rewrite (ed_signs k Sc 0%N); reflexivity|]. split; [reflexivity|]. split; [reflexivity|].
    unfold pk_verify. rewrite Sc. cbn [sig_value]. now rewrite G.
  - intros der s k H rnd msg. destruct (Rs der s k H) as (Sc & P & G).
    split; [apply rsa_signs; now rewrite Sc|]. rewrite (rsa_signs k) by now rewrite Sc. unfold sign, rsa_signer. cbn [sk_public sk_sign].
    rewrite Sc. destruct (rsa_sign (rp_private k) s rnd (rsa_modulus_len (rp_private k)) msg) as [w|] eqn:Q; [|left; reflexivity].
    right. eexists. split; [reflexivity|]. split; [reflexivity|]. unfold pk_verify. rewrite Sc. cbn [sig_value]. pose proof (G _ _ _ Q) as V.
    destruct P as [-> | ->]; now rewrite V.
Qed.
Print Assumptions C81_private_keys_work.

(** The public halves are what the constructors of [PublicKey] make of the public files. *)
Theorem C81_public_halves :
  forall (C : crypto) (R : ring_keys), working_ring C R ->
  (forall (seed public : bytes) (k : ed25519_private),
     String.length seed = 32 -> ed_from_ed25519 C R (seed ++ public) = Ok k -> from_ed25519 C public = Ok (ep_public k)) /\
  (forall (der : bytes) (k : ed25519_private), ed_from_pkcs8 C R der = Ok k ->
     exists spk, as_spki (ep_public k) = Ok spk /\ from_spki C spk Ed25519 = Ok (ep_public k)) /\
  (forall (der : bytes) (s : scheme) (k : rsa_private), rsa_from_pkcs8 C R der s = Ok k ->
     exists spk, as_spki (rp_public k) = Ok spk /\ from_spki C spk s = Ok (rp_public k)).
Proof.
  intros C R W. destruct (C81_ed25519_keys C R W) as (E1 & E2 & _).
  assert (Sp : forall k t v spk, consists_of C k t (pk_scheme k) python_algorithms v -> spki_of t v spk -> short spk ->
            as_spki k = Ok spk /\ from_spki C spk (pk_scheme k) = Ok k).
  { intros k t v spk H S L. pose proof (short_fits _ _ _ S L) as F. pose proof H as (<- & _ & _ & <- & _). split.
    - unfold as_spki. apply (proj2 (write_spki_iff _ _ spk F)) in S. now rewrite S.
    - unfold from_spki, from_spki_with. rewrite (proj2 (read_spki_iff spk (pk_typ k) (pk_value k))) by auto.
      now apply key_new_consists. }
  split; [|split].
  - intros seed p k L H. apply E1 in H as (seed' & p' & E & L1 & L2 & _ & H).
    destruct (split_at seed p) as [A1 A2]. destruct (split_at seed' p') as [B1 B2]. rewrite L, E in A1, A2. rewrite L1 in B1, B2.
    assert (p' = p) as -> by congruence. unfold from_ed25519, from_ed25519_with. rewrite L2. cbn [Nat.eqb].
    apply key_new_consists; [now apply fits_32|exact H].
  - intros der k H. apply E2 in H as [Q H].
    destruct (ed_spki (ed_public (ep_private k))) as (spk & S & L); [eapply (wr_ed_file C R W); exact Q|].
    exists spk. pose proof H as (_ & Sc & _). rewrite <- Sc in H at 1. rewrite <- Sc. eapply Sp; eassumption.
  - intros der s k H. pose proof H as H'. apply (proj1 (C81_rsa_keys C R der s)) in H' as (P & Q & _ & S & x & n & e & rest & v & Pn & Pe & F & V & K).
    destruct (extracted_spki der v) as (spk & Sk & L).
    { apply extract_spec. split; [exact S|]. exists x, n, e, rest. auto. }
    exists spk. pose proof K as (_ & Sc & _). rewrite <- Sc in K |- *. eapply Sp; eassumption.
Qed.
Print Assumptions C81_public_halves.

(** ** Keys the library makes *)

Lemma library_of_spki C k t v spk : own_id C k -> pk_typ k = t -> pk_value k = v -> spki_of t v spk -> short spk -> text_key k -> library_key C k.
Proof. intros O <- <- S L T. split; [exact O|]. split; [exact T|]. eauto. Qed.
Lemma key_new_library C t s h v spk k : key_new C t s h v = Ok k -> spki_of t v spk -> short spk -> text_key k -> library_key C k.
Proof.
  intros K S L T. apply key_new_consists in K as (E1 & _ & _ & E2 & O); [|eapply short_fits; eassumption].
  eapply library_of_spki; eassumption.
Qed.
Lemma from_spki_library C der s h k : from_spki_with C der s h = Ok k -> text_key k -> library_key C k.
Proof.
  unfold from_spki_with. destruct (read_spki der) as [[t v]|] eqn:R; [|discriminate]. apply read_spki_iff in R as (S & _ & L).
  intros K T. exact (key_new_library C t s h v der k K S L T).
Qed.
Lemma from_ed25519_library C v h k : from_ed25519_with C v h = Ok k -> text_key k -> library_key C k.
Proof.
  unfold from_ed25519_with. destruct (Nat.eqb_spec (String.length v) 32) as [L|]; [|discriminate].
  destruct (ed_spki v L) as (spk & S & L'). intros K T. exact (key_new_library C _ _ h v spk k K S L' T).
Qed.
Lemma python_text : forall x, In x ["sha256"; "sha512"] -> utf8_valid x = true.
Proof. intros x [<- | [<- | []]]; reflexivity. Qed.
Lemma loaded_library C R k : working_ring C R -> loaded C R k -> library_key C (sk_public k).
Proof.
  intros W L. destruct (loaded_public C R k W L) as (t & s & h & v & (T & S & H & V & O) & Kh & D).
  assert (Tx : text_key (sk_public k)).
  { split.
    - intros u U. destruct D as [(_ & E & _)|(_ & [E|E] & _)]; congruence.
    - intros h' x E I. rewrite H in E. destruct Kh as [-> | ->]; [discriminate|]. inversion E; subst. now apply python_text. }
  destruct D as [(E & _ & Lv)|(E & _ & spk & Sp & Sh)].
  - destruct (ed_spki v Lv) as (spk & Sp & Sh). eapply library_of_spki; eauto. congruence.
  - eapply library_of_spki; eauto. congruence.
Qed.

(** ** C82: public keys in ordered and hashed collections *)

(** On the keys that the library makes, [Eq], [Ord] and [Hash] are as the collections of
    the standard library need them, as long as no two keys have different texts with the
    same SHA-256: equality is equality, the order is total and agrees with it, equal
    keys have the same hash. *)
Theorem C82_keys_in_collections :
  forall (C : crypto),
  (forall (P : public_key -> Prop),
     (forall k, P k -> library_key C k) -> (forall k k', P k -> P k' -> ~ collide C k k') ->
     lawful P key_eqb key_cmp) /\
  (forall (k k' : public_key), library_key C k -> library_key C k' ->
     (key_eqb k k' = true <-> k = k') /\
     (key_cmp k k' = Eq <-> pk_id k = pk_id k') /\
     (key_cmp k k' = Eq -> k = k' \/ collide C k k')) /\
  (forall (H : Type) (hasher : key_type * scheme * option (list string) * bytes -> H) (k k' : public_key),
     key_eqb k k' = true -> key_hash hasher k = key_hash hasher k').
Proof.
  intros C.
  assert (Cmp : forall a b, key_cmp a b = Eq <-> pk_id a = pk_id b).
  { intros a b. unfold key_cmp. split; [apply String.compare_eq_iff|]. intros ->. apply scompare_refl. }
  split; [|split].
  - intros P L N. split; [|split; [|split]].
    + intros a b A B. apply (key_eqb_eq C); auto.
    + intros a b A B. rewrite (key_eqb_eq C a b) by auto. rewrite Cmp. split; [|intros ->; reflexivity].
      intros E. destruct (id_inj C a b) as [|X]; auto. destruct (N a b A B X).
    + intros a b _ _. unfold key_cmp. now rewrite String.compare_antisym.
    + intros a b c _ _ _. unfold key_cmp. apply slt_trans.
  - intros k k' L L'. split; [apply (key_eqb_eq C); auto|]. split; [apply Cmp|].
    intros E. apply Cmp in E. now apply id_inj.
  - intros H hasher k k' E. apply key_eqb_iff in E as (E1 & E2 & E3 & E4). unfold key_hash. now rewrite E1, E2, E3, E4.
Qed.
Print Assumptions C82_keys_in_collections.

(** Every way to get a key gives one of these: the constructors, reading JSON, and the
    public halves of private keys. *)
Theorem C82_every_key :
  forall (C : crypto) (k : public_key), text_key k ->
  (exists der s h, from_spki_with C der s h = Ok k) \/
  (exists v h, from_ed25519_with C v h = Ok k) \/
  (exists j, d_key C j = Some k) \/
  (exists R p, working_ring C R /\ loaded C R p /\ k = sk_public p) ->
  library_key C k.
Proof.
  intros C k T [(der & s & h & H)|[(v & h & H)|[(j & H)|(R & p & W & L & ->)]]].
  - eapply from_spki_library; eassumption.
  - eapply from_ed25519_library; eassumption.
  - unfold d_key, obind in H. destruct (d_shim_key j) as [[[[t s] h] v]|]; [|discriminate].
    assert (G : forall r : result public_key, get_ok r = Some k -> r = Ok k) by (intros [?|?]; cbn; congruence).
    destruct t as [| |u].
    + destruct s; try discriminate. destruct (hex_decode v) as [b|]; [|discriminate].
      destruct (get_ok _) as [k'|] eqn:E; [|discriminate]. destruct (key_type_eqb _ _); inversion H; subst.
      apply G in E. eapply from_ed25519_library; eassumption.
    + destruct (b64_decode v) as [b|]; [|discriminate].
      destruct (get_ok _) as [k'|] eqn:E; [|discriminate]. destruct (key_type_eqb _ _); inversion H; subst.
      apply G in E. eapply from_spki_library; eassumption.
    + destruct (b64_decode v) as [b|]; [|discriminate].
      destruct (get_ok _) as [k'|] eqn:E; [|discriminate]. destruct (key_type_eqb _ _); inversion H; subst.
      apply G in E. eapply from_spki_library; eassumption.
  - eapply loaded_library; eassumption.
Qed.
Print Assumptions C82_every_key.

(** ** C81: who signed *)

(** A document made with private keys of the library and accepted with some keys: one of
    those keys belongs to a signer, or it has the id of one by a collision of SHA-256. *)
Theorem C81_accepted_has_a_signer :
  forall (C : crypto) (R : ring_keys) (o : hash_order) (r : role) (raw : json) (ks : list private_key)
         (s : signed_metadata) (b : bytes) (t : N) (keys : list public_key) (m : metadata_of r),
  working_ring C R -> Forall (loaded C R) ks -> Forall (library_key C) keys ->
  made C r raw ks s -> writable raw -> to_raw s = Ok b ->
  verify_signatures (mkEnv C o (json_interchange C)) r b t keys = Ok m ->
  exists p k, In p keys /\ In k ks /\ (p = sk_public k \/ collide C p (sk_public k)).
Proof.
  intros C R o r raw ks s b t keys m W Lo Li M Wr B V.
  assert (Wk : Forall (working_key C) ks).
  { eapply Forall_impl; [|exact Lo]. intros k L. apply (proj1 (C81_private_keys_work C R W) k L). }
  destruct (made_envelope _ _ _ _ _ M Wr Wk) as (b' & B' & E). assert (b' = b) as -> by congruence.
  apply made_inv in M as (_ & _ & _ & _ & G & _).
  apply verify_signatures_iff in V as (T & sigs & signed & msg & E' & _ & (ids & _ & L & I) & _). cbn in E'.
  rewrite E in E'. inversion E'; subst. destruct ids as [|i ids]; [cbn in T; lia|].
  destruct (I i (or_introl eq_refl)) as (p & x & P & X & _). apply last_In in P as [P1 P2]. apply last_In in X as [X1 X2].
  destruct (G x X1) as (k & _ & _ & Ik & Ek & _). exists p, k. split; [exact P1|]. split; [exact Ik|].
  rewrite Forall_forall in Lo, Li. apply id_inj; [auto|eapply loaded_library; eauto|congruence].
Qed.
Print Assumptions C81_accepted_has_a_signer.

(** The two ways to load an Ed25519 key pair give two different keys: different public
    keys, ids that agree only by a collision, and what one signs is not accepted for the
    other. *)
Theorem C81_two_identities :
  forall (C : crypto) (R : ring_keys) (key der : bytes) (k k' : ed25519_private),
  working_ring C R -> ed_from_ed25519 C R key = Ok k -> ed_from_pkcs8 C R der = Ok k' ->
  key_eqb (ep_public k) (ep_public k') = false /\
  (~ collide C (ep_public k) (ep_public k') ->
   pk_id (ep_public k) <> pk_id (ep_public k') /\
   forall (o : hash_order) (r : role) (raw : json) (s : signed_metadata) (b : bytes) (t : N),
     writable raw -> to_raw s = Ok b ->
     (made C r raw [ed_signer k] s ->
      forall m, verify_signatures (mkEnv C o (json_interchange C)) r b t [ep_public k'] <> Ok m) /\
     (made C r raw [ed_signer k'] s ->
      forall m, verify_signatures (mkEnv C o (json_interchange C)) r b t [ep_public k] <> Ok m)).
Proof.
  intros C R key der k k' W H H'. destruct (C81_ed25519_keys C R W) as (E1 & E2 & _).
  pose proof H as Q. apply E1 in Q as (sd & pb & _ & _ & _ & _ & (_ & _ & A & _)).
  pose proof H' as Q. apply E2 in Q as (_ & (_ & _ & A' & _)).
  assert (Lo := lo_pair C R key k H). assert (Lo' := lo_ed_file C R der k' H').
  assert (Li := loaded_library C R _ W Lo). assert (Li' := loaded_library C R _ W Lo'). cbn [sk_public ed_signer] in Li, Li'.
  assert (Ne : ep_public k <> ep_public k') by (intros E; rewrite E in A; congruence).
  assert (Sy : collide C (ep_public k') (ep_public k) -> collide C (ep_public k) (ep_public k')).
  { intros (j & b & j' & b' & K & B & K' & B' & N & D). exists j', b', j, b. auto 10. }
  split.
  - destruct (key_eqb (ep_public k) (ep_public k')) eqn:E; [|reflexivity]. apply (key_eqb_eq C) in E; auto. contradiction.
  - intros N. split.
    + intros E. destruct (id_inj C _ _ Li Li' E); contradiction.
    + intros o r raw s b t Wr B. split; intros M m V.
      * destruct (C81_accepted_has_a_signer C R o r raw [ed_signer k] s b t [ep_public k'] m) as (p & q & [<- | []] & [<- | []] & [X|X]); auto.
      * destruct (C81_accepted_has_a_signer C R o r raw [ed_signer k'] s b t [ep_public k] m) as (p & q & [<- | []] & [<- | []] & [X|X]); auto.
Qed.
Print Assumptions C81_two_identities.

(** The test files, with SHA-256 and a ring that takes them. *)
Definition failed_ed : ed25519_private := mkEdPrivate (toy_pair "") (some_key (Err Opaque)).
Definition ed_1 : ed25519_private := match ed_from_ed25519 real_sha256 test_ring ed25519_1 with Ok k => k | _ => failed_ed end.
Definition ed_1_file : ed25519_private := match ed_from_pkcs8 real_sha256 test_ring ed25519_1_pk8 with Ok k => k | _ => failed_ed end.
Definition jtimestamp_value : json := match json_serialize (e_metadata Timestamp jtimestamp) with Ok v => v | Err _ => JNull end.
Definition by_ed_1 : signed_metadata := match signed_new Timestamp jtimestamp (ed_signer ed_1) 0 with Ok s => s | Err _ => mkSigned [] JNull end.
Definition by_ed_1_text : bytes := match to_raw by_ed_1 with Ok b => b | Err _ => "" end.

Lemma ed_1_loaded : ed_from_ed25519 real_sha256 test_ring ed25519_1 = Ok ed_1.
Proof.
  assert (H : is_ok (ed_from_ed25519 real_sha256 test_ring ed25519_1) = true) by (vm_compute; reflexivity).
  unfold ed_1. revert H. generalize (ed_from_ed25519 real_sha256 test_ring ed25519_1). intros [k|e] H; [reflexivity|discriminate].
Qed.
Lemma ed_1_file_loaded : ed_from_pkcs8 real_sha256 test_ring ed25519_1_pk8 = Ok ed_1_file.
Proof.
  assert (H : is_ok (ed_from_pkcs8 real_sha256 test_ring ed25519_1_pk8) = true) by (vm_compute; reflexivity).
  unfold ed_1_file. revert H. generalize (ed_from_pkcs8 real_sha256 test_ring ed25519_1_pk8). intros [k|e] H; [reflexivity|discriminate].
Qed.
Lemma one_pair : ep_private ed_1 = toy_pair ed25519_1_pub /\ ep_private ed_1_file = toy_pair ed25519_1_pub.
Proof.
  destruct (C81_ed25519_keys _ _ test_ring_works) as (E1 & E2 & _). split.
  - destruct (proj1 (E1 _ _) ed_1_loaded) as (s & p & E & L & _ & Q & _). destruct (split_at s p) as [_ A]. rewrite <- E, L in A.
    cbn [ring_ed_seed test_ring] in Q. destruct (String.eqb _ _ && Nat.eqb _ _); [|discriminate].
    assert (B : bytes_from 32 ed25519_1 = ed25519_1_pub) by (vm_compute; reflexivity). rewrite <- B, A. congruence.
  - destruct (proj1 (E2 _ _) ed_1_file_loaded) as [Q _]. cbn [ring_ed_pkcs8 test_ring] in Q.
    destruct (String.eqb _ _); [congruence|discriminate].
Qed.

(** The ids are those of the repository's tests (src/crypto.rs 1000-1040), and the two
    keys do not collide. *)
Example C81_case :
  working_ring real_sha256 test_ring /\
  pk_id (ep_public ed_1) = "e0294a3f17cc8563c3ed5fceb3bd8d3f6bfeeaca499b5c9572729ae015566554" /\
  pk_id (ep_public ed_1_file) = "a9f3ebc9b138762563a9c27b6edd439959e559709babd123e8d449ba2c18c61a" /\
  from_ed25519 real_sha256 ed25519_1_pub = Ok (ep_public ed_1) /\
  from_spki real_sha256 ed25519_1_spki Ed25519 = Ok (ep_public ed_1_file) /\
  ~ collide real_sha256 (ep_public ed_1) (ep_public ed_1_file) /\
  ed_from_ed25519 real_sha256 test_ring ed25519_1_pub = Err Encoding /\
  (exists k, rsa_from_pkcs8 real_sha256 test_ring rsa_2048_pk8 RsaSsaPssSha256 = Ok k /\
     from_spki real_sha256 rsa_2048_spki RsaSsaPssSha256 = Ok (rp_public k)) /\
  rsa_from_pkcs8 real_sha256 test_ring rsa_2048_pk8 Ed25519 = Err IllegalArgument /\
  rsa_from_pkcs8 real_sha256 test_ring ed25519_1_pk8 RsaSsaPssSha256 = Err Encoding.
Proof.
  split; [exact test_ring_works|]. split; [vm_compute; reflexivity|]. split; [vm_compute; reflexivity|].
  split; [vm_compute; reflexivity|]. split; [vm_compute; reflexivity|].
  assert (I : pk_id (ep_public ed_1) <> pk_id (ep_public ed_1_file)) by (vm_compute; discriminate).
  split; [|split; [vm_compute; reflexivity|split; [|split; [reflexivity|vm_compute; reflexivity]]]].
  - pose proof (loaded_library _ _ _ test_ring_works (lo_pair _ _ _ _ ed_1_loaded)) as ((j0 & b0 & K0 & B0 & I0) & _ & (d0 & S0 & L0)).
    pose proof (loaded_library _ _ _ test_ring_works (lo_ed_file _ _ _ _ ed_1_file_loaded)) as ((j1 & b1 & K1 & B1 & I1) & _ & (d1 & S1 & L1)).
    cbn [sk_public ed_signer] in *. intros (j & b & j' & b' & K & B & K' & B' & N & D).
    assert (F0 : fits (pk_value (ep_public ed_1))) by (eapply short_fits; eassumption).
    assert (F1 : fits (pk_value (ep_public ed_1_file))) by (eapply short_fits; eassumption).
    assert (j = j0) by (eapply key_object_unique; eassumption). assert (j' = j1) by (eapply key_object_unique; eassumption). subst.
    assert (b = b0) by congruence. assert (b' = b1) by congruence. subst. rewrite D in I0.
    apply I. exact (hex_text_unique _ _ I0 _ I1).
  - assert (exists k, rsa_from_pkcs8 real_sha256 test_ring rsa_2048_pk8 RsaSsaPssSha256 = Ok k) as (k & K).
    { assert (H : is_ok (rsa_from_pkcs8 real_sha256 test_ring rsa_2048_pk8 RsaSsaPssSha256) = true) by (vm_compute; reflexivity).
      revert H. generalize (rsa_from_pkcs8 real_sha256 test_ring rsa_2048_pk8 RsaSsaPssSha256). intros [k|e] H; [eauto|discriminate]. }
    exists k. split; [exact K|]. destruct (proj2 (proj2 (C81_public_halves _ _ test_ring_works)) _ _ _ K) as (spk & A & F).
    enough (spk = rsa_2048_spki) as <- by exact F.
    apply (proj1 (C81_rsa_keys _ _ _ _)) in K as (_ & _ & _ & S & x & n & e & rest & v & Pn & Pe & Fi & V & (T & _ & _ & Vv & _)).
    assert (E : extract_rsa_pub rsa_2048_pk8 = Some v) by (apply extract_spec; split; [exact S|]; exists x, n, e, rest; auto).
    rewrite (proj1 C81_test_vectors) in E. unfold as_spki in A. rewrite T, Vv in A.
    assert (v = rsa_2048_pkcs1) as -> by congruence. rewrite (proj1 (proj2 (proj2 (proj2 (proj2 C81_test_vectors))))) in A. congruence.
Qed.

(** One key pair does not have one identity: signed with the pair loaded one way, not
    accepted for the pair loaded the other way. *)
Theorem C81_one_identity_refuted :
  exists (C : crypto) (R : ring_keys) (key der : bytes) (k k' : ed25519_private) (s : signed_metadata) (b : bytes),
    working_ring C R /\ ed_from_ed25519 C R key = Ok k /\ ed_from_pkcs8 C R der = Ok k' /\
    ep_private k = ep_private k' /\ pk_value (ep_public k) = pk_value (ep_public k') /\
    signed_new Timestamp jtimestamp (ed_signer k) 0 = Ok s /\ to_raw s = Ok b /\
    verify_signatures (mkEnv C Toy.id_order (json_interchange C)) Timestamp b 1 [ep_public k] = Ok jtimestamp /\
    verify_signatures (mkEnv C Toy.id_order (json_interchange C)) Timestamp b 1 [ep_public k'] = Err VerificationFailure.
Proof.
  exists real_sha256, test_ring, ed25519_1, ed25519_1_pk8, ed_1, ed_1_file, by_ed_1, by_ed_1_text.
  split; [exact test_ring_works|]. split; [exact ed_1_loaded|]. split; [exact ed_1_file_loaded|].
  destruct one_pair as [-> ->]. split; [reflexivity|]. split; [vm_compute; reflexivity|]. split; [vm_compute; reflexivity|].
  split; [vm_compute; reflexivity|]. split; vm_compute; reflexivity.
Qed.
Print Assumptions C81_one_identity_refuted.

(** The two keys in a collection. *)
Lemma collide_sym C k k' : collide C k k' -> collide C k' k.
Proof. intros (j & b & j' & b' & K & B & K' & B' & N & D). exists j', b', j, b. auto 10. Qed.
Lemma collide_irrefl C k : library_key C k -> ~ collide C k k.
Proof.
  intros L (j & b & j' & b' & K & B & K' & B' & N & D).
  assert (j = j') as <- by exact (key_object_unique k j j' K K' (library_key_fits C k L)). congruence.
Qed.
Example C82_case :
  lawful (fun k => k = ep_public ed_1 \/ k = ep_public ed_1_file) key_eqb key_cmp /\
  key_eqb (ep_public ed_1) (ep_public ed_1_file) = false /\ key_cmp (ep_public ed_1) (ep_public ed_1_file) = Gt.
Proof.
  assert (L := loaded_library _ _ _ test_ring_works (lo_pair _ _ _ _ ed_1_loaded)).
  assert (L' := loaded_library _ _ _ test_ring_works (lo_ed_file _ _ _ _ ed_1_file_loaded)). cbn [sk_public ed_signer] in L, L'.
  destruct C81_case as (_ & _ & _ & _ & _ & N & _).
  split; [|split; vm_compute; reflexivity].
  apply (proj1 (C82_keys_in_collections real_sha256)).
  - intros k [-> | ->]; assumption.
  - intros k k' [-> | ->] [-> | ->].
    + exact (collide_irrefl _ _ L).
    + exact N.
    + intros X. exact (N (collide_sym _ _ _ X)).
    + exact (collide_irrefl _ _ L').
Qed.

(** ** C81: the smallest modulus *)

Theorem C81_modulus_partial :
  forall (C : crypto) (R : ring_keys) (der : bytes) (s : scheme) (k : rsa_private) (x : bytes) (n e : N) (rest : bytes),
  working_ring C R -> rsa_from_pkcs8 C R der s = Ok k -> rsa_file x n e rest der -> (2 ^ 2040 <= n)%N.
Proof.
  intros C R der s k x n e rest W H F. apply (proj1 (C81_rsa_keys C R der s)) in H as (P & Q & L & _).
  destruct (wr_rsa_modulus C R W _ _ _ _ _ _ Q F) as (_ & B & _).
  etransitivity; [|exact B]. etransitivity; [|apply (N.pow_le_mono_r 256 255); lia].
  change 256%N with (2 ^ 8)%N. rewrite <- N.pow_mul_r. apply N.le_refl.
Qed.
Print Assumptions C81_modulus_partial.

(** "RSA public modulus must be 2048 or greater": bytes are counted, so 2047 bits pass
    (and 2041, if ring lets them). *)
Theorem C81_modulus_refuted :
  exists (C : crypto) (R : ring_keys) (der : bytes) (k : rsa_private) (x : bytes) (n e : N) (rest : bytes),
    working_ring C R /\ rsa_from_pkcs8 C R der RsaSsaPssSha256 = Ok k /\ rsa_file x n e rest der /\ (n < 2 ^ 2047)%N.
Proof.
  assert (exists k, rsa_from_pkcs8 real_sha256 test_ring weak_pk8 RsaSsaPssSha256 = Ok k) as (k & K).
  { assert (H : is_ok (rsa_from_pkcs8 real_sha256 test_ring weak_pk8 RsaSsaPssSha256) = true) by (vm_compute; reflexivity).
      revert H. generalize (rsa_from_pkcs8 real_sha256 test_ring weak_pk8 RsaSsaPssSha256). intros [k|e] H; [eauto|discriminate]. }
  exists real_sha256, test_ring, weak_pk8, k, "", (be_value weak_n), (be_value exponent), "".
  split; [exact test_ring_works|]. split; [exact K|]. destruct weak_fine as (Ln & Le & Pe & _ & _ & S & E & _).
  split; [|vm_compute; reflexivity]. apply file_written; [vm_compute; reflexivity|exact Pe|exact S|].
  exists weak_n, exponent. auto.
Qed.
Print Assumptions C81_modulus_refuted.

(** ** C83: making RSA keys *)

(** The result is what the second program printed, given what the first one printed, if
    both could be started and the second read its input. *)
Theorem C83_rsa_pkcs8_partial :
  forall (openssl : list string -> bytes -> result run) (b : bytes),
  rsa_pkcs8 openssl = Ok b <->
  exists gen pk8,
    openssl ["genpkey"; "-algorithm"; "RSA"; "-pkeyopt"; "rsa_keygen_bits:4096"; "-pkeyopt";
             "rsa_keygen_pubexp:65537"; "-outform"; "der"] "" = Ok gen /\
    openssl ["pkcs8"; "-inform"; "der"; "-topk8"; "-nocrypt"; "-outform"; "der"] (rn_stdout gen) = Ok pk8 /\
    rn_reads pk8 = true /\ b = rn_stdout pk8.
Proof.
  intros openssl b. unfold rsa_pkcs8. split.
  - intros H. apply rbind_Ok in H as (gen & G & H). apply rbind_Ok in H as (pk8 & P & H). destruct (rn_reads pk8) eqn:E; inversion H; subst. eauto 10.
  - intros (gen & pk8 & -> & P & E & ->). cbn [rbind]. rewrite P. cbn [rbind]. now rewrite E.
Qed.
Print Assumptions C83_rsa_pkcs8_partial.

(** The exit status is not looked at: two programs that fail without printing make the
    empty file. *)
Theorem C83_failure_reported_refuted :
  exists openssl : list string -> bytes -> result run,
    (forall args input, exists r, openssl args input = Ok r /\ rn_status r <> 0%N) /\ rsa_pkcs8 openssl = Ok "".
Proof.
  exists (fun _ _ => Ok (mkRun 1 "" true)). split; [|reflexivity]. intros args input. eexists. split; [reflexivity|]. discriminate.
Qed.
Print Assumptions C83_failure_reported_refuted.

Example C83_case :
  let openssl args input := Ok (mkRun 0 (if String.eqb input "" then "key" else input ++ ".pk8") true) in
  let absent (args : list string) (input : bytes) := @Err run NotFound in
  rsa_pkcs8 openssl = Ok "key.pk8" /\ rsa_pkcs8 absent = Err NotFound.
Proof. split; reflexivity. Qed.

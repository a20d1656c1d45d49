(** * Private keys: what the files are and what is asked of them

    DER integers from X.690, the two RSA structures from RFC 8017, the file around them
    from RFC 5208; the tables of SpecCodec.v, nothing of PrivateKeys.v. *)
From Coq Require Import String Ascii List NArith ZArith Bool.
From Verif Require Import Base JsonValue JsonText Utf8 SpecJson Metadata SpecCodec SpecKeys SpecMeta Builders PrivateKeys.
Import ListNotations.
Open Scope string_scope.

(** X.690, 8.3: a non-negative number in two's complement, in the fewest octets. *)
Inductive integer_content : N -> bytes -> Prop :=
| in_one c : (N_of_ascii c < 128)%N -> integer_content (N_of_ascii c) (String c "")
| in_more c d r : (N_of_ascii c < 128)%N -> (N_of_ascii c = 0%N -> (128 <= N_of_ascii d)%N) ->
    integer_content (be_value (String c (String d r))) (String c (String d r)).
Definition der_integer (n : N) (s : bytes) : Prop := exists v, integer_content n v /\ der_value 2 v s.

(** RFC 8017, A.1.1 [RSAPublicKey] and the beginning of A.1.2 [RSAPrivateKey]. *)
Definition rsa_public_key (n e : N) (s : bytes) : Prop :=
  exists a b, der_integer n a /\ der_integer e b /\ der_value 48 (a ++ b) s.
Definition rsa_private_key (n e : N) (rest s : bytes) : Prop :=
  exists z a b, der_integer 0 z /\ der_integer n a /\ der_integer e b /\ der_value 48 (z ++ a ++ b ++ rest) s.

(** RFC 5208 [PrivateKeyInfo] of an RSA key, without attributes.  [x] is the content of
    the NULL and should be empty. *)
Definition rsa_file (x : bytes) (n e : N) (rest s : bytes) : Prop :=
  exists version o o' nul alg key octs,
    der_integer 0 version /\ octets oid_rsa o /\ der_value 6 o o' /\ der_value 5 x nul /\
    der_value 48 (o' ++ nul) alg /\ rsa_private_key n e rest key /\ der_value 4 key octs /\
    der_value 48 (version ++ alg ++ octs) s.
Definition short (s : bytes) : Prop := (N.of_nat (String.length s) <= 65539)%N.

(** ** What ring promises

    The public bytes are those it was given, 32 of them; signatures verify, RSA ones if
    the buffer has the length of the modulus; SHA-256 has 32 bytes. *)
Definition pss (s : scheme) : Prop := s = RsaSsaPssSha256 \/ s = RsaSsaPssSha512.
Definition bytes_needed (n : N) (k : N) : Prop := (0 < k /\ 256 ^ (k - 1) <= n < 256 ^ k)%N.
Record working_ring (C : crypto) (R : ring_keys) : Prop := mkWorking {
  wr_seed : forall s p k, ring_ed_seed R s p = Some k -> ed_public k = p /\ String.length p = 32;
  wr_ed_file : forall d k, ring_ed_pkcs8 R d = Some k -> String.length (ed_public k) = 32;
  wr_ed_sign : forall k m, (exists s p, ring_ed_seed R s p = Some k) \/ (exists d, ring_ed_pkcs8 R d = Some k) ->
    ring_verify C Ed25519 (ed_public k) m (ed_sign k m) = true;
  wr_rsa_sign : forall d k x n e rest v s rnd m sig,
    ring_rsa_pkcs8 R d = Some k -> rsa_file x n e rest d -> rsa_public_key n e v -> pss s ->
    rsa_sign k s rnd (rsa_modulus_len k) m = Some sig -> ring_verify C s v m sig = true;
  wr_rsa_modulus : forall d k x n e rest,
    ring_rsa_pkcs8 R d = Some k -> rsa_file x n e rest d -> bytes_needed n (rsa_modulus_len k);
  wr_digest : forall b, String.length (ring_digest C Sha256 b) = 32
}.

(** ** Two keys with one id

    The canonical texts of two keys are different and have the same SHA-256. *)
Definition collide (C : crypto) (k k' : public_key) : Prop :=
  exists j b j' b', key_object k j /\ canonicalize j = Ok b /\ key_object k' j' /\ canonicalize j' = Ok b' /\
    b <> b' /\ ring_digest C Sha256 b = ring_digest C Sha256 b'.

(** Keys as Rust has them: their texts are UTF-8. *)
Definition text_key (k : public_key) : Prop :=
  (forall u, pk_scheme k = SchemeUnknown u -> utf8_valid u = true) /\
  (forall h x, pk_kha k = Some h -> In x h -> utf8_valid x = true).
Definition library_key (C : crypto) (k : public_key) : Prop :=
  own_id C k /\ text_key k /\ exists der, spki_of (pk_typ k) (pk_value k) der /\ short der.

(** [Eq], [Ord] and [Hash] as the collections of the standard library require them,
    on the values in [P]. *)
Definition lawful {A} (P : A -> Prop) (eqb : A -> A -> bool) (cmp : A -> A -> comparison) : Prop :=
  (forall a b, P a -> P b -> eqb a b = true <-> a = b) /\
  (forall a b, P a -> P b -> cmp a b = Eq <-> eqb a b = true) /\
  (forall a b, P a -> P b -> cmp b a = CompOpp (cmp a b)) /\
  (forall a b c, P a -> P b -> P c -> cmp a b = Lt -> cmp b c = Lt -> cmp a c = Lt).

(** ** Both kinds as signing keys

    [&dyn PrivateKey], the [private_key] of Builders.v; for keys whose [sign] does not
    panic. *)
Definition ed_signer (k : ed25519_private) : private_key :=
  mkPrivate (ep_public k) (fun _ m => Ok (ed_sign (ep_private k) m)).
Definition rsa_signer (k : rsa_private) : private_key :=
  mkPrivate (rp_public k)
    (fun rnd m => match rsa_sign (rp_private k) (pk_scheme (rp_public k)) rnd (rsa_modulus_len (rp_private k)) m with
                  | Some v => Ok v | None => Err Opaque end).

(** Private keys of the library: made by one of the three constructors. *)
Inductive loaded (C : crypto) (R : ring_keys) : private_key -> Prop :=
| lo_pair key k : ed_from_ed25519 C R key = Ok k -> loaded C R (ed_signer k)
| lo_ed_file der k : ed_from_pkcs8 C R der = Ok k -> loaded C R (ed_signer k)
| lo_rsa_file der s k : rsa_from_pkcs8 C R der s = Ok k -> loaded C R (rsa_signer k).

(** The key [k] has this type, scheme, list of algorithms and value, and its own id. *)
Definition consists_of (C : crypto) (k : public_key) (t : key_type) (s : scheme) (h : option (list string)) (v : bytes) : Prop :=
  pk_typ k = t /\ pk_scheme k = s /\ pk_kha k = h /\ pk_value k = v /\ own_id C k.

(** * Private keys

    [Ed25519PrivateKey] and [RsaPrivateKey] (src/crypto.rs 330-554), the RSA public key
    inside a PKCS#8 file (912-956), and [PublicKey] as a key of ordered and hashed
    collections (697-729). *)
From Coq Require Import String Ascii List NArith ZArith Bool.
From Verif Require Import Base JsonValue JsonText Metadata Paths Codec Serde Keys.
Import ListNotations.
Open Scope string_scope.

(** ** Key pairs of ring

    [Ed25519KeyPair] and [RsaKeyPair], as far as src/crypto.rs uses them: the public
    bytes or the length of the modulus, and signing.  The [scheme] of [rsa_sign] stands
    for [RSA_PSS_SHA256] or [RSA_PSS_SHA512], the first [N] for the randomness of the
    call, the second for the length of the buffer the signature is written to. *)
Record ed25519_pair := mkEd { ed_public : bytes; ed_sign : bytes -> bytes }.
(** [ring::signature::RsaKeyPair], as in src/crypto.rs 446-449. *)
Record rsa_pair := mkRsa { rsa_modulus_len : N; rsa_sign : scheme -> N -> N -> bytes -> option bytes }.

(** Loading them: [Ed25519KeyPair::from_seed_and_public_key], [Ed25519KeyPair::from_pkcs8]
    and [RsaKeyPair::from_pkcs8] (src/crypto.rs 372, 408, 506); [None] is [KeyRejected]. *)
Record ring_keys := mkRing {
  ring_ed_seed : bytes -> bytes -> option ed25519_pair;
  ring_ed_pkcs8 : bytes -> option ed25519_pair;
  ring_rsa_pkcs8 : bytes -> option rsa_pair
}.

(** What a call does if it can also panic.
    For src/crypto.rs 340-554. *)
Inductive outcome (A : Type) := Returns (r : result A) | Panics.
Arguments Returns {A} r.
Arguments Panics {A}.

(** src/crypto.rs 45-47 [python_tuf_compatibility_keyid_hash_algorithms]. *)
Definition python_algorithms : option (list string) := Some ["sha256"; "sha512"].

(** [&key[..n]] and [&key[n..]]; only used where [n] is within the slice.
    As in src/crypto.rs 369-370. *)
Definition bytes_before (n : nat) (b : bytes) : bytes := substring 0 n b.
(** As in src/crypto.rs 369-370. *)
Definition bytes_from (n : nat) (b : bytes) : bytes := substring n (String.length b - n) b.

(** ** Ed25519 *)

(** src/crypto.rs 339-343 [struct Ed25519PrivateKey]. *)
Record ed25519_private := mkEdPrivate { ep_private : ed25519_pair; ep_public : public_key }.

(** src/crypto.rs 414-426 [from_keypair_with_keyid_hash_algorithms]. *)
Definition ed_from_keypair (C : crypto) (p : ed25519_pair) (kha : option (list string)) : result ed25519_private :=
  let? k := key_new C KtEd25519 Ed25519 kha (ed_public p) in Ok (mkEdPrivate p k).

(** src/crypto.rs 36-43 (the lengths), 359-374 [from_ed25519_with_keyid_hash_algorithms]. *)
Definition ed_from_ed25519_with (C : crypto) (R : ring_keys) (key : bytes) (kha : option (list string))
  : result ed25519_private :=
  if negb (Nat.eqb (String.length key) 64) then Err Encoding
  else match ring_ed_seed R (bytes_before 32 key) (bytes_from 32 key) with
       | Some p => ed_from_keypair C p kha
       | None => Err Encoding
       end.

(** src/crypto.rs 355-357 [from_ed25519]. *)
Definition ed_from_ed25519 (C : crypto) (R : ring_keys) (key : bytes) : result ed25519_private :=
  ed_from_ed25519_with C R key None.

(** src/crypto.rs 396-412 [from_pkcs8], [from_pkcs8_with_keyid_hash_algorithms]. *)
Definition ed_from_pkcs8_with (C : crypto) (R : ring_keys) (der : bytes) (kha : option (list string))
  : result ed25519_private :=
  match ring_ed_pkcs8 R der with
  | Some p => ed_from_keypair C p kha
  | None => Err Encoding
  end.
(** src/crypto.rs 396-401 [from_pkcs8]. *)
Definition ed_from_pkcs8 (C : crypto) (R : ring_keys) (der : bytes) : result ed25519_private :=
  ed_from_pkcs8_with C R der python_algorithms.

(** [PartialEq] of [SignatureScheme] (src/crypto.rs 209-223, derived). *)
Definition scheme_eqb (a b : scheme) : bool :=
  match a, b with
  | Ed25519, Ed25519 | RsaSsaPssSha256, RsaSsaPssSha256 | RsaSsaPssSha512, RsaSsaPssSha512 => true
  | SchemeUnknown x, SchemeUnknown y => String.eqb x y
  | _, _ => false
  end.

(** src/crypto.rs 430-438 [sign]; the [debug_assert!] is taken to be compiled in. *)
Definition ed_sign_message (k : ed25519_private) (msg : bytes) : outcome signature :=
  if scheme_eqb (pk_scheme (ep_public k)) Ed25519
  then Returns (Ok (mkSig (pk_id (ep_public k)) (ed_sign (ep_private k) msg)))
  else Panics.

(** ** The RSA public key in a PKCS#8 file *)

(** derp's [Tag], used in src/crypto.rs 912-956. *)
Definition tag_integer : N := 2.
(** derp's [Tag], used in src/crypto.rs 912-956. *)
Definition tag_octet_string : N := 4.

(** derp's [nonnegative_integer] (as in ring): the content of a non-negative INTEGER in
    its shortest form, without a leading zero byte that is only there for the sign;
    [min] is the least value allowed.
    For src/crypto.rs 912-943. *)
Definition der_nonnegative (min : N) (s : bytes) : option (bytes * bytes) :=
  match der_expect tag_integer s with
  | Some (v, r) =>
      match v with
      | EmptyString => None
      | String c v' =>
          if (N_of_ascii c =? 0)%N then
            match v' with
            | EmptyString => if (0 <? min)%N then None else Some (v, r)
            | String d v'' =>
                if (N_of_ascii d <? 128)%N then None
                else match v'' with
                     | EmptyString => if (N_of_ascii d <? min)%N then None else Some (v', r)
                     | _ => Some (v', r)
                     end
            end
          else if (128 <=? N_of_ascii c)%N then None
          else match v' with
               | EmptyString => if (N_of_ascii c <? min)%N then None else Some (v, r)
               | _ => Some (v, r)
               end
      end
  | None => None
  end.

(** derp's [small_nonnegative_integer] (one byte) and [positive_integer].
    As in src/crypto.rs 912-943. *)
Definition der_small (s : bytes) : option (N * bytes) :=
  match der_nonnegative 0 s with
  | Some (String c EmptyString, r) => Some (N_of_ascii c, r)
  | _ => None
  end.
(** derp's [positive_integer], as in src/crypto.rs 912-943. *)
Definition der_positive (s : bytes) : option (bytes * bytes) := der_nonnegative 1 s.

(** derp's [Der::positive_integer]: an INTEGER from its big-endian bytes, with a zero
    byte in front if the first bit is set.  (Only called with what [der_positive]
    returns: not empty, no zero in front.)
    As in src/crypto.rs 945-956. *)
Definition der_integer_of (v : bytes) : bytes :=
  match v with
  | String c _ => if (128 <=? N_of_ascii c)%N then der_tlv tag_integer (String "000" v) else der_tlv tag_integer v
  | EmptyString => der_tlv tag_integer v
  end.

(** src/crypto.rs 945-956 [write_pkcs1]; writing to a [Vec] does not fail. *)
Definition write_pkcs1 (n e : bytes) : bytes := der_tlv tag_sequence (der_integer_of n ++ der_integer_of e).

(** src/crypto.rs 912-943 [extract_rsa_pub_from_pkcs8]; [None] is any [derp::Error].
    The content of the NULL is not looked at. *)
Definition extract_rsa_key (s : bytes) : option bytes :=
  have p := der_small s in
  let '(version, r) := p in
  if negb (version =? 0)%N then None else
  have q := der_positive r in
  let '(n, r') := q in
  have w := der_positive r' in
  Some (write_pkcs1 n (fst w)).
(** src/crypto.rs 912-943 [extract_rsa_pub_from_pkcs8]. *)
Definition extract_rsa_pub (der : bytes) : option bytes :=
  have s := at_end (der_expect tag_sequence der) in
  have p := der_small s in
  let '(version, r) := p in
  if negb (version =? 0)%N then None else
  have q := der_expect tag_sequence r in
  let '(alg, r') := q in
  have w := der_expect tag_oid alg in
  let '(oid, params) := w in
  if negb (String.eqb oid rsa_oid) then None else
  have nul := at_end (der_expect tag_null params) in
  have octs := at_end (der_expect tag_octet_string r') in
  have key := at_end (der_expect tag_sequence octs) in
  extract_rsa_key key.

(** ** RSA *)

(** src/crypto.rs 446-449 [struct RsaPrivateKey]. *)
Record rsa_private := mkRsaPrivate { rp_private : rsa_pair; rp_public : public_key }.

(** src/crypto.rs 497-527 [from_pkcs8]. *)
Definition rsa_from_pkcs8 (C : crypto) (R : ring_keys) (der : bytes) (s : scheme) : result rsa_private :=
  match s with
  | RsaSsaPssSha256 | RsaSsaPssSha512 =>
      match ring_rsa_pkcs8 R der with
      | None => Err Encoding
      | Some key =>
          if (rsa_modulus_len key <? 256)%N then Err IllegalArgument
          else match extract_rsa_pub der with
               | None => Err Encoding
               | Some v => let? k := key_new C KtRsa s python_algorithms v in Ok (mkRsaPrivate key k)
               end
      end
  | _ => Err IllegalArgument
  end.

(** src/crypto.rs 531-549 [sign]; [unreachable!] panics. *)
Definition rsa_sign_message (k : rsa_private) (rnd : N) (msg : bytes) : outcome signature :=
  match pk_scheme (rp_public k) with
  | RsaSsaPssSha256 | RsaSsaPssSha512 =>
      match rsa_sign (rp_private k) (pk_scheme (rp_public k)) rnd (rsa_modulus_len (rp_private k)) msg with
      | Some v => Returns (Ok (mkSig (pk_id (rp_public k)) v))
      | None => Returns (Err Opaque)
      end
  | _ => Panics
  end.

(** ** Making RSA keys

    src/crypto.rs 455-485 [RsaPrivateKey::pkcs8].  [openssl] is one run of that program
    with its arguments and its standard input: the io error if it cannot be started
    (src/error.rs 96-103), otherwise its exit status and what it printed; a program that
    closes its standard input early makes [write_all] fail ([rn_reads] is [false]).
    [pk8.stdin] is there, since it was asked for ([Stdio::piped]). *)
Record run := mkRun { rn_status : N; rn_stdout : bytes; rn_reads : bool }.
(** src/crypto.rs 455-484 [pkcs8]. *)
Definition rsa_pkcs8 (openssl : list string -> bytes -> result run) : result bytes :=
  let? gen := openssl ["genpkey"; "-algorithm"; "RSA"; "-pkeyopt"; "rsa_keygen_bits:4096"; "-pkeyopt";
                       "rsa_keygen_pubexp:65537"; "-outform"; "der"] "" in
  let? pk8 := openssl ["pkcs8"; "-inform"; "der"; "-topk8"; "-nocrypt"; "-outform"; "der"] (rn_stdout gen) in
  if rn_reads pk8 then Ok (rn_stdout pk8) else Err Opaque.

(** ** Public keys in collections *)

(** Equality of [Option<Vec<String>>].
    As in src/crypto.rs 697-728. *)
Fixpoint strings_eqb (a b : list string) : bool :=
  match a, b with
  | [], [] => true
  | x :: a, y :: b => String.eqb x y && strings_eqb a b
  | _, _ => false
  end.
(** Equality of [keyid_hash_algorithms], src/crypto.rs 562, as compared in 697-728. *)
Definition algorithms_eqb (a b : option (list string)) : bool :=
  match a, b with
  | None, None => true
  | Some a, Some b => strings_eqb a b
  | _, _ => false
  end.

(** src/crypto.rs 697-705 [PartialEq for PublicKey]. *)
Definition key_eqb (a b : public_key) : bool :=
  key_type_eqb (pk_typ a) (pk_typ b) && scheme_eqb (pk_scheme a) (pk_scheme b)
  && algorithms_eqb (pk_kha a) (pk_kha b) && String.eqb (pk_value a) (pk_value b).

(** src/crypto.rs 709-719 [Ord], [PartialOrd]: the ids, byte by byte. *)
Definition key_cmp (a b : public_key) : comparison := String.compare (pk_id a) (pk_id b).

(** src/crypto.rs 721-729 [Hash]: what is fed to the hasher. *)
Definition key_hash {H} (hasher : key_type * scheme * option (list string) * bytes -> H) (k : public_key) : H :=
  hasher (pk_typ k, pk_scheme k, pk_kha k, pk_value k).

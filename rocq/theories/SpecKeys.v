(** * Keys: their DER form, their JSON form and their ids

    Written down from RFC 8410/3279 (SpecCodec.v) and the TUF specification; nothing
    of Keys.v is used. *)
From Coq Require Import String List NArith ZArith.
From Verif Require Import Base JsonValue JsonText Metadata SpecCodec.
Import ListNotations.
Open Scope string_scope.

(** The algorithm identifier of a key type; other types have none. *)
Inductive algorithm : key_type -> list N -> Prop :=
| alg_rsa : algorithm KtRsa oid_rsa
| alg_ed25519 : algorithm KtEd25519 oid_ed25519.

(** [der] is the SubjectPublicKeyInfo of a key. *)
Definition spki_of (t : key_type) (value der : bytes) : Prop :=
  exists oid, algorithm t oid /\ spki oid value der.

(** The text in the "public" member: hexadecimal for ed25519, base64url of the
    SubjectPublicKeyInfo for RSA. *)
Inductive public_text : key_type -> bytes -> string -> Prop :=
| pt_ed25519 v t : hex_text t v -> public_text KtEd25519 v t
| pt_rsa v der t : spki_of KtRsa v der -> b64_text t der -> public_text KtRsa v t.

(** The JSON object of a key, members in increasing order. *)
Definition type_member (t : key_type) : string :=
  match t with KtEd25519 => "ed25519" | KtRsa => "rsa" | KtUnknown s => s end.
Definition scheme_member (s : scheme) : json :=
  match s with
  | Ed25519 => JStr "ed25519"
  | RsaSsaPssSha256 => JStr "rsassa-pss-sha256"
  | RsaSsaPssSha512 => JStr "rsassa-pss-sha512"
  | SchemeUnknown u => JObj [("Unknown", JStr u)]
  end.
Inductive key_object : public_key -> json -> Prop :=
| ko_plain t id s v p : public_text t v p ->
    key_object (mkKey t id s None v)
      (JObj [("keytype", JStr (type_member t)); ("keyval", JObj [("public", JStr p)]); ("scheme", scheme_member s)])
| ko_algs t id s h v p : public_text t v p ->
    key_object (mkKey t id s (Some h) v)
      (JObj [("keyid_hash_algorithms", JArr (map JStr h));
             ("keytype", JStr (type_member t)); ("keyval", JObj [("public", JStr p)]); ("scheme", scheme_member s)]).

(** A key carries its own id: hexadecimal, SHA-256, of its canonical JSON. *)
Definition own_id (C : crypto) (k : public_key) : Prop :=
  exists j b, key_object k j /\ canonicalize j = Ok b /\ hex_text (pk_id k) (ring_digest C Sha256 b).

(** Keys that metadata can carry: the ed25519 form only has room for 32 bytes and the
    one scheme, and the DER reader stops at 64 KiB. *)
Definition portable (k : public_key) : Prop :=
  (pk_typ k = KtEd25519 /\ pk_scheme k = Ed25519 /\ String.length (pk_value k) = 32) \/
  (pk_typ k = KtRsa /\ exists der, spki_of KtRsa (pk_value k) der /\ (N.of_nat (String.length der) <= 65539)%N).

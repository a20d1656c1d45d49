(** * Public keys: ids and JSON form *)
From Coq Require Import String List NArith ZArith Bool.
From Verif Require Import Base JsonValue JsonText Metadata Paths Codec Serde.
Import ListNotations.
Open Scope string_scope.

(** The derived [PartialEq], src/crypto.rs 259-267. *)
Definition key_type_eqb (a b : key_type) : bool :=
  match a, b with
  | KtEd25519, KtEd25519 | KtRsa, KtRsa => true
  | KtUnknown s, KtUnknown t => String.eqb s t
  | _, _ => false
  end.

(** src/crypto.rs 302-310 [KeyType::to_string] (and its [Serialize]). *)
Definition key_type_name (t : key_type) : string :=
  match t with KtEd25519 => "ed25519" | KtRsa => "rsa" | KtUnknown s => s end.

(** src/crypto.rs 290-300 [KeyType::from_str]. *)
Definition key_type_of_name (s : string) : option key_type :=
  if String.eqb s "ed25519" then Some KtEd25519
  else if String.eqb s "rsa" then Some KtRsa
  else None.

(** src/crypto.rs 209-223, derived [Serialize] and [Deserialize] of
    [SignatureScheme]. *)
Definition e_scheme (s : scheme) : json :=
  match s with
  | Ed25519 => JStr "ed25519"
  | RsaSsaPssSha256 => JStr "rsassa-pss-sha256"
  | RsaSsaPssSha512 => JStr "rsassa-pss-sha512"
  | SchemeUnknown u => JObj [("Unknown", JStr u)]
  end.

(** The names of src/crypto.rs 209-223. *)
Definition scheme_of_name (s : string) : option scheme :=
  if String.eqb s "ed25519" then Some Ed25519
  else if String.eqb s "rsassa-pss-sha256" then Some RsaSsaPssSha256
  else if String.eqb s "rsassa-pss-sha512" then Some RsaSsaPssSha512
  else None.

(** The derived [Deserialize], src/crypto.rs 209-223. *)
Definition d_scheme : decoder scheme :=
  d_enum scheme_of_name
    (fun n => if String.eqb n "Unknown"
              then Some (fun j => have u := d_str j in Some (SchemeUnknown u)) else None).

(** src/crypto.rs 179-191 [KeyId::from_str] (202-207 is its [Deserialize]): any 64 bytes. *)
Definition key_id_of_string (s : string) : option string :=
  if Nat.eqb (String.length s) 64 then Some s else None.
(** src/crypto.rs 202-207 [Deserialize for KeyId]. *)
Definition d_key_id : decoder string := fun j => have s := d_str j in key_id_of_string s.

(** src/interchange/cjson/shims.rs 323-345, 364-367 [PublicKey],
    [PublicKeyValue], derived [Serialize]. *)
Definition shim_key_json (t : key_type) (s : scheme) (kha : option (list string)) (public : string) : json :=
  JObj ([("keytype", JStr (key_type_name t)); ("scheme", e_scheme s)]
        ++ opt_member "keyid_hash_algorithms" (fun l => JArr (map JStr l)) kha
        ++ [("keyval", JObj [("public", JStr public)])])%list.

(** src/crypto.rs 126-146 [shim_public_key]; [None] is [derp::Error::WrongValue]. *)
Definition shim_public_key (t : key_type) (s : scheme) (kha : option (list string)) (v : bytes) : option json :=
  match t with
  | KtEd25519 => Some (shim_key_json t s kha (hex_encode v))
  | KtRsa | KtUnknown _ =>
      have der := write_spki v t in Some (shim_key_json t s kha (b64_encode der))
  end.

(** src/crypto.rs 148-169 [calculate_key_id]; derp's error is [Error::Encoding]
    (src/error.rs 123-127). *)
Definition calculate_key_id (C : crypto) (t : key_type) (s : scheme) (kha : option (list string)) (v : bytes)
  : result string :=
  match shim_public_key t s kha v with
  | Some j => let? b := canonicalize (to_value j) in Ok (hex_encode (ring_digest C Sha256 b))
  | None => Err Encoding
  end.

(** src/crypto.rs 567-582 [PublicKey::new]. *)
Definition key_new (C : crypto) (t : key_type) (s : scheme) (kha : option (list string)) (v : bytes)
  : result public_key :=
  let? id := calculate_key_id C t s kha v in Ok (mkKey t id s kha v).

(** src/crypto.rs 598-622 [from_spki_with_keyid_hash_algorithms]. *)
Definition from_spki_with (C : crypto) (der : bytes) (s : scheme) (kha : option (list string))
  : result public_key :=
  match read_spki der with
  | Some (t, v) => key_new C t s kha v
  | None => Err Encoding
  end.

(** src/crypto.rs 45-47 [python_tuf_compatibility_keyid_hash_algorithms], 587-593
    [from_spki]. *)
Definition from_spki (C : crypto) (der : bytes) (s : scheme) : result public_key :=
  from_spki_with C der s (Some ["sha256"; "sha512"]).

(** src/crypto.rs 631-650 [from_ed25519_with_keyid_hash_algorithms]. *)
Definition from_ed25519_with (C : crypto) (v : bytes) (kha : option (list string)) : result public_key :=
  if Nat.eqb (String.length v) 32 then key_new C KtEd25519 Ed25519 kha v else Err IllegalArgument.

(** src/crypto.rs 626-628 [from_ed25519]. *)
Definition from_ed25519 (C : crypto) (v : bytes) : result public_key := from_ed25519_with C v None.

(** src/crypto.rs 653-655 [as_spki]. *)
Definition as_spki (k : public_key) : result bytes :=
  match write_spki (pk_value k) (pk_typ k) with Some b => Ok b | None => Err Encoding end.

(** src/crypto.rs 731-745 [Serialize for PublicKey]. *)
Definition e_key (k : public_key) : option json :=
  shim_public_key (pk_typ k) (pk_scheme k) (pk_kha k) (pk_value k).

(** shims.rs 323-330, 364-367, derived [Deserialize]. *)
Definition d_key_value : decoder string :=
  fun j => match d_fields ["public"] false 0 j with
  | Some [p] => d_required d_str p
  | _ => None
  end.
(** src/crypto.rs 321-328 [Deserialize for KeyType]. *)
Definition d_key_type : decoder key_type := fun j => have s := d_str j in key_type_of_name s.
(** The derived [Deserialize], src/interchange/cjson/shims.rs 324-345. *)
Definition d_shim_key : decoder (key_type * scheme * option (list string) * string) :=
  fun j => match d_fields ["keytype"; "scheme"; "keyid_hash_algorithms"; "keyval"] false 0 j with
  | Some [t; s; h; v] =>
      have t := d_required d_key_type t in
      have s := d_required d_scheme s in
      have h := d_optional (d_vec d_str) h in
      have v := d_required d_key_value v in
      Some (t, s, h, v)
  | _ => None
  end.

(** [Result::ok], for the errors that become errors of serde, src/crypto.rs 747-801. *)
Definition get_ok {A} (r : result A) : option A := match r with Ok a => Some a | Err _ => None end.

(** src/crypto.rs 747-800 [Deserialize for PublicKey]. *)
Definition d_key (C : crypto) : decoder public_key :=
  fun j =>
    have x := d_shim_key j in
    let '(t, s, h, v) := x in
    have k :=
      match t with
      | KtEd25519 =>
          match s with
          | Ed25519 => have b := hex_decode v in get_ok (from_ed25519_with C b h)
          | _ => None
          end
      | KtRsa | KtUnknown _ => have b := b64_decode v in get_ok (from_spki_with C b s h)
      end in
    if key_type_eqb t (pk_typ k) then Some k else None.

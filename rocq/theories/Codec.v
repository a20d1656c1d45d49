(** * Hexadecimal, base64url and DER, as the key and hash encodings use them *)
From Coq Require Import String Ascii List NArith Bool.
From Verif Require Import Base Metadata Paths.
Import ListNotations.
Open Scope string_scope.

(** ** Hexadecimal: src/format_hex.rs and [HEXLOWER] of the data_encoding crate
    ([hex_encode] is in Paths.v). *)

(** A lower-case digit.
    For [HEXLOWER.decode], src/crypto.rs 241 and src/format_hex.rs 17. *)
Definition hex_digit_val (c : ascii) : option N :=
  let n := N_of_ascii c in
  if ((48 <=? n) && (n <=? 57))%N then Some (n - 48)%N
  else if ((97 <=? n) && (n <=? 102))%N then Some (n - 87)%N
  else None.

(** src/format_hex.rs 12-20 [deserialize], src/crypto.rs 240-242
    [SignatureValue::from_hex]. *)
Fixpoint hex_decode (s : string) : option bytes :=
  match s with
  | EmptyString => Some ""
  | String a (String b r) =>
      match hex_digit_val a, hex_digit_val b, hex_decode r with
      | Some x, Some y, Some t => Some (String (ascii_of_N (16 * x + y)) t)
      | _, _, _ => None
      end
  | String _ EmptyString => None
  end.

(** ** Base64, URL alphabet, with padding: [BASE64URL] of the data_encoding crate
    (src/crypto.rs 136 and 775). *)
Definition b64_char (n : N) : ascii :=
  ascii_of_N (if n <? 26 then 65 + n
              else if n <? 52 then 71 + n
              else if n <? 62 then n - 4
              else if n =? 62 then 45 else 95)%N.
(** For [BASE64URL.decode], src/crypto.rs 775. *)
Definition b64_val (c : ascii) : option N :=
  let n := N_of_ascii c in
  if ((65 <=? n) && (n <=? 90))%N then Some (n - 65)%N
  else if ((97 <=? n) && (n <=? 122))%N then Some (n - 71)%N
  else if ((48 <=? n) && (n <=? 57))%N then Some (n + 4)%N
  else if (n =? 45)%N then Some 62%N
  else if (n =? 95)%N then Some 63%N
  else None.

(** [BASE64URL.encode], src/crypto.rs 136. *)
Fixpoint b64_encode (s : bytes) : string :=
  match s with
  | EmptyString => ""
  | String a EmptyString =>
      let a := N_of_ascii a in
      String (b64_char (a / 4)) (String (b64_char (a mod 4 * 16)) "==")
  | String a (String b EmptyString) =>
      let a := N_of_ascii a in let b := N_of_ascii b in
      String (b64_char (a / 4)) (String (b64_char (a mod 4 * 16 + b / 16))
        (String (b64_char (b mod 16 * 4)) "="))
  | String a (String b (String c r)) =>
      let a := N_of_ascii a in let b := N_of_ascii b in let c := N_of_ascii c in
      String (b64_char (a / 4)) (String (b64_char (a mod 4 * 16 + b / 16))
        (String (b64_char (b mod 16 * 4 + c / 64)) (String (b64_char (c mod 64)) (b64_encode r))))
  end.

(** One group of four characters.  Unused bits must be zero.
    For [BASE64URL.decode], src/crypto.rs 775. *)
Definition b64_group (a b c d : ascii) : option bytes :=
  match b64_val a, b64_val b, b64_val c, b64_val d with
  | Some x, Some y, Some z, Some w =>
      Some (String (ascii_of_N (x * 4 + y / 16)) (String (ascii_of_N (y mod 16 * 16 + z / 4))
             (String (ascii_of_N (z mod 4 * 64 + w)) "")))
  | Some x, Some y, Some z, None =>
      if Ascii.eqb d "=" && (z mod 4 =? 0)%N
      then Some (String (ascii_of_N (x * 4 + y / 16)) (String (ascii_of_N (y mod 16 * 16 + z / 4)) ""))
      else None
  | Some x, Some y, None, None =>
      if Ascii.eqb c "=" && Ascii.eqb d "=" && (y mod 16 =? 0)%N
      then Some (String (ascii_of_N (x * 4 + y / 16)) "")
      else None
  | _, _, _, _ => None
  end.

(** [BASE64URL.decode]: group by group (data_encoding also accepts padding inside,
    at the end of any group).
    Called in src/crypto.rs 775. *)
Fixpoint b64_decode (s : string) : option bytes :=
  match s with
  | EmptyString => Some ""
  | String a (String b (String c (String d r))) =>
      match b64_group a b c d, b64_decode r with
      | Some g, Some t => Some (g ++ t)
      | _, _ => None
      end
  | _ => None
  end.

(** ** DER: the derp crate (a fork of ring's reader)
    [len()] of a slice, as in src/crypto.rs 363. *)
Definition blen (s : bytes) : N := N.of_nat (String.length s).

(** The first [n] bytes and the rest.
    For the reader of src/crypto.rs 587-624. *)
Fixpoint take_bytes (n : N) (s : bytes) : option (bytes * bytes) :=
  if (n =? 0)%N then Some ("", s)
  else match s with
  | EmptyString => None
  | String c r =>
      match take_bytes (n - 1) r with
      | Some (a, b) => Some (String c a, b)
      | None => None
      end
  end.

(** Big-endian bytes of [n], without leading zeros; [fuel] bounds their number (a
    [usize] has at most 8).
    For [Der::write_len], src/crypto.rs 893-910. *)
Fixpoint be_bytes (fuel : nat) (n : N) (acc : bytes) : bytes :=
  match fuel with
  | O => acc
  | S f =>
      let acc := String (ascii_of_N (n mod 256)) acc in
      if (n / 256 =? 0)%N then acc else be_bytes f (n / 256) acc
  end.

(** derp's [Der::write_len]: short form below 128, otherwise the number of length
    bytes and the length itself.
    Called in src/crypto.rs 893-910. *)
Definition der_len (n : N) : bytes :=
  if (n <? 128)%N then String (ascii_of_N n) ""
  else let bs := be_bytes 8 n "" in String (ascii_of_N (128 + blen bs)) bs.

(** derp's [Der::element], called in src/crypto.rs 893-910. *)
Definition der_tlv (tag : N) (value : bytes) : bytes :=
  String (ascii_of_N tag) (der_len (blen value) ++ value).

(** derp's [read_tag_and_get_value]: the tag, the value and what follows it.
    Lengths must be minimal and, as in ring's reader, below 65536.
    Called in src/crypto.rs 587-624. *)
Definition der_read_len (s : bytes) : option (N * bytes) :=
  match s with
  | EmptyString => None
  | String l r =>
      let n := N_of_ascii l in
      if (n <? 128)%N then Some (n, r)
      else if (n =? 129)%N then
        match r with
        | String b r' => if (N_of_ascii b <? 128)%N then None else Some (N_of_ascii b, r')
        | EmptyString => None
        end
      else if (n =? 130)%N then
        match r with
        | String b (String c r') =>
            let v := (N_of_ascii b * 256 + N_of_ascii c)%N in
            if (v <? 256)%N then None else Some (v, r')
        | _ => None
        end
      else None
  end.

(** derp's [expect_tag_and_get_value].
    Called in src/crypto.rs 587-624. *)
Definition der_expect (tag : N) (s : bytes) : option (bytes * bytes) :=
  match s with
  | EmptyString => None
  | String t r =>
      if (N_of_ascii t =? tag)%N then
        match der_read_len r with
        | Some (n, r') => take_bytes n r'
        | None => None
        end
      else None
  end.

(** derp's [nested] / [read_all]: the reader must use up the value.
    Called in src/crypto.rs 587-624. *)
Definition at_end {A} (x : option (A * bytes)) : option A :=
  match x with Some (a, EmptyString) => Some a | _ => None end.

(** derp's [Tag], used in src/crypto.rs 587-624 and 893-910. *)
Definition tag_bit_string : N := 3.
(** derp's [Tag], used in src/crypto.rs 587-624 and 893-910. *)
Definition tag_null : N := 5.
(** derp's [Tag], used in src/crypto.rs 587-624 and 893-910. *)
Definition tag_oid : N := 6.
(** derp's [Tag], used in src/crypto.rs 587-624 and 893-910. *)
Definition tag_sequence : N := 48.

(** Bytes from their numbers, to write the constants of src/crypto.rs 31-34. *)
Definition bytes_of (l : list N) : bytes :=
  fold_right (fun n s => String (ascii_of_N n) s) "" l.

(** src/crypto.rs 31-35 [RSA_SPKI_OID], [ED25519_SPKI_OID]. *)
Definition rsa_oid : bytes := bytes_of [42; 134; 72; 134; 247; 13; 1; 1; 1]%N.
(** src/crypto.rs 34 [ED25519_SPKI_OID]. *)
Definition ed25519_oid : bytes := bytes_of [43; 101; 112]%N.

(** src/crypto.rs 270-279 [KeyType::from_oid]. *)
Definition key_type_of_oid (oid : bytes) : option key_type :=
  if String.eqb oid rsa_oid then Some KtRsa
  else if String.eqb oid ed25519_oid then Some KtEd25519
  else None.

(** src/crypto.rs 281-287 [KeyType::as_oid]. *)
Definition oid_of_key_type (t : key_type) : option bytes :=
  match t with
  | KtRsa => Some rsa_oid
  | KtEd25519 => Some ed25519_oid
  | KtUnknown _ => None
  end.

(** src/crypto.rs 893-910 [write_spki]; the only failure is an unknown key type. *)
Definition write_spki (public : bytes) (t : key_type) : option bytes :=
  match oid_of_key_type t with
  | Some oid =>
      Some (der_tlv tag_sequence
              (der_tlv tag_sequence (der_tlv tag_oid oid ++ der_tlv tag_null "")
               ++ der_tlv tag_bit_string (String "000" public)))
  | None => None
  end.

(** src/crypto.rs 599-619, the DER reading inside
    [PublicKey::from_spki_with_keyid_hash_algorithms]. *)
Definition read_spki (der : bytes) : option (key_type * bytes) :=
  match at_end (der_expect tag_sequence der) with
  | Some spki =>
      match der_expect tag_sequence spki with
      | Some (alg, r) =>
          match der_expect tag_oid alg with
          | Some (oid, params) =>
              match key_type_of_oid oid, at_end (der_expect tag_null params),
                    at_end (der_expect tag_bit_string r) with
              | Some t, Some EmptyString, Some (String unused key) =>
                  if (N_of_ascii unused =? 0)%N then Some (t, key) else None
              | _, _, _ => None
              end
          | None => None
          end
      | None => None
      end
  | None => None
  end.

(** * A computable stand-in for ring, for the examples

    A polynomial checksum of 32 bytes instead of SHA-2, and "signatures" anybody can
    compute.  The theorems quantify over all primitives; this only makes examples
    with real texts possible. *)
From Coq Require Import String Ascii List NArith ZArith Bool.
From Verif Require Import Base JsonValue JsonText Metadata Codec Serde Keys.
Import ListNotations.
Open Scope string_scope.

Fixpoint big_endian (k : nat) (n : N) (acc : bytes) : bytes :=
  match k with O => acc | S k => big_endian k (N.shiftr n 8) (String (ascii_of_N (N.land n 255)) acc) end.
Fixpoint checksum (s : bytes) (h : N) : N :=
  match s with
  | "" => h
  | String c r => checksum r (N.land (257 * h + N_of_ascii c + 1) 4294967295)%N
  end.
Definition digest (seed : N) (s : bytes) : bytes := big_endian 32 (checksum s seed * 1606938044258990275541962092341162602522202993782792835301399)%N "".

Definition checksums : crypto :=
  mkCrypto (fun s key msg sig => String.eqb sig (digest 7 (key ++ msg)))
           (fun a b => digest (match a with Sha256 => 1 | _ => 2 end)%N b).

Definition sign_with (k : public_key) (msg : bytes) : signature :=
  mkSig (pk_id k) (digest 7 (pk_value k ++ msg)).

(** 32 bytes of key material. *)
Definition material (c : ascii) : bytes := "abcdefghijklmnopqrstuvwxyz01234" ++ String c "".

Definition some_key (r : result public_key) : public_key :=
  match r with Ok k => k | Err _ => mkKey KtEd25519 "" Ed25519 None "" end.
Definition ed_key (c : ascii) : public_key := some_key (from_ed25519 checksums (material c)).

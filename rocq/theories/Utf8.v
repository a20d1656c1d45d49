(** * UTF-8, as [std::str::from_utf8] checks it and [String::push] writes it

    Not code of /repo: every JSON string passes through these two functions of the
    Rust standard library (serde_json's string reader, used by
    src/interchange/cjson/mod.rs 296-318). *)
From Coq Require Import String Ascii List NArith Bool.
From Verif Require Import Base.
Import ListNotations.
Open Scope string_scope.

(** Ranges the next continuation bytes must lie in, after a lead byte; [None]: not
    a lead byte.
    Used by serde_json under src/interchange/cjson/mod.rs 300-315. *)
Definition utf8_lead (b : N) : option (list (N * N)) :=
  let any := (128, 191)%N in
  if (b <? 128)%N then Some []
  else if (b <? 194)%N then None
  else if (b <? 224)%N then Some [any]
  else if (b =? 224)%N then Some [(160, 191)%N; any]
  else if (b =? 237)%N then Some [(128, 159)%N; any]
  else if (b <? 240)%N then Some [any; any]
  else if (b =? 240)%N then Some [(144, 191)%N; any; any]
  else if (b <? 244)%N then Some [any; any; any]
  else if (b =? 244)%N then Some [(128, 143)%N; any; any]
  else None.

(** [std::str::from_utf8(..).is_ok()]; [need]: ranges of the continuation bytes
    still expected.
    Used by serde_json under src/interchange/cjson/mod.rs 300-315. *)
Fixpoint utf8_from (need : list (N * N)) (s : bytes) : bool :=
  match s with
  | EmptyString => match need with [] => true | _ => false end
  | String c r =>
      let b := N_of_ascii c in
      match need with
      | [] => match utf8_lead b with Some need' => utf8_from need' r | None => false end
      | (lo, hi) :: need' => (lo <=? b)%N && (b <=? hi)%N && utf8_from need' r
      end
  end.
(** [std::str::from_utf8(..).is_ok()], as serde_json does under src/interchange/cjson/mod.rs 300-315. *)
Definition utf8_valid (s : bytes) : bool := utf8_from [] s.

(** [char::encode_utf8].
    As serde_json does for escapes under src/interchange/cjson/mod.rs 300-315. *)
Definition utf8_encode (cp : N) : bytes :=
  let cont n := ascii_of_N (128 + n mod 64)%N in
  if (cp <? 128)%N then String (ascii_of_N cp) ""
  else if (cp <? 2048)%N then String (ascii_of_N (192 + cp / 64)%N) (String (cont cp) "")
  else if (cp <? 65536)%N then
    String (ascii_of_N (224 + cp / 4096)%N) (String (cont (cp / 64)%N) (String (cont cp) ""))
  else
    String (ascii_of_N (240 + cp / 262144)%N)
      (String (cont (cp / 4096)%N) (String (cont (cp / 64)%N) (String (cont cp) ""))).

(** * Single-precision arithmetic as used by the minimum-bitrate check

    Only positive finite values in the normal range occur there (counters of
    bytes up to 2^64, durations from 30 s up to 2^64 s), so a float is modelled by
    its exact rational value and every operation by the exact operation followed
    by rounding to 24 significant bits, to nearest, ties to even. *)
From Coq Require Import ZArith QArith.
Open Scope Z_scope.

(** Nearest integer to [n/d], ties to even ([d > 0], [n >= 0]).
    For src/util.rs 94. *)
Definition round_half_even (n d : Z) : Z :=
  let q := n / d in
  let r := n mod d in
  if 2 * r <? d then q
  else if d <? 2 * r then q + 1
  else if Z.even q then q else q + 1.

(** [n/d / 2^e] as a fraction.
    For src/util.rs 94. *)
Definition scale_num (n e : Z) : Z := n * 2 ^ Z.max 0 (- e).
(** For src/util.rs 94. *)
Definition scale_den (d e : Z) : Z := d * 2 ^ Z.max 0 e.

(** The exponent for which the significand of [n/d] has 24 bits.
    For src/util.rs 94. *)
Definition f32_exponent (n d : Z) : Z :=
  let e := Z.log2 n - Z.log2 d - 23 in
  if scale_num n e <? 2 ^ 23 * scale_den d e then e - 1 else e.

(** Rounding to single precision.
    For src/util.rs 94. *)
Definition f32_round (q : Q) : Q :=
  let n := Qnum q in
  let d := Z.pos (Qden q) in
  if n <=? 0 then 0%Q
  else
    let e := f32_exponent n d in
    let m := round_half_even (scale_num n e) (scale_den d e) in
    Qmake (m * 2 ^ Z.max 0 e) (Z.to_pos (2 ^ Z.max 0 (- e))).

(** Rust's [u64 as f32] and [u32 as f32].
    As in src/util.rs 94. *)
Definition f32_of_N (n : N) : Q := f32_round (inject_Z (Z.of_N n)).

(** Rust's [f32] division and addition.
    As in src/util.rs 94. *)
Definition f32_div (a b : Q) : Q := f32_round (a / b).
(** As in src/util.rs 94. *)
Definition f32_add (a b : Q) : Q := f32_round (a + b).

(** Rust's [f32] comparison [a < b].
    As in src/util.rs 94. *)
Definition f32_lt (a b : Q) : bool := negb (Qle_bool b a).

(** Rust's [Duration::as_secs_f32]:
    [(self.secs as f32) + (self.nanos as f32) / (NANOS_PER_SEC as f32)].
    As in src/util.rs 94. *)
Definition as_secs_f32 (nanos : N) : Q :=
  f32_add (f32_of_N (nanos / 1000000000))
          (f32_div (f32_of_N (nanos mod 1000000000)) (f32_of_N 1000000000)).

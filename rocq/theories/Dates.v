(** * Expiry dates: src/interchange/cjson/shims.rs 13-28 and the parts of the
    chrono crate they use

    An instant ([DateTime<Utc>]) is an integer: [(day * 86400 + second) * 2e9 +
    fraction], with day 1 = 0001-01-01 of the proleptic Gregorian calendar and the
    fraction in nanoseconds.  chrono keeps a leap second as second 59 with a
    fraction between 1e9 and 2e9 and orders instants by day, second, fraction, so
    this embedding preserves the order. *)
From Coq Require Import String Ascii List NArith ZArith Bool.
From Verif Require Import Base Paths JsonText.
Import ListNotations.
Open Scope string_scope.

(** ** The calendar
    chrono's calendar, for src/interchange/cjson/shims.rs 13-28. *)
Definition leap_year (y : Z) : bool :=
  ((y mod 4 =? 0) && (negb (y mod 100 =? 0) || (y mod 400 =? 0)))%Z.

(** Days of the year before the first of the month.
    chrono's calendar, for src/interchange/cjson/shims.rs 13-28. *)
Definition days_before (leap : bool) (m : Z) : Z :=
  ((if m <=? 1 then 0 else if m =? 2 then 31 else if m =? 3 then 59 else if m =? 4 then 90
    else if m =? 5 then 120 else if m =? 6 then 151 else if m =? 7 then 181 else if m =? 8 then 212
    else if m =? 9 then 243 else if m =? 10 then 273 else if m =? 11 then 304
    else if m =? 12 then 334 else 365)
   + (if leap && (3 <=? m) then 1 else 0))%Z.

(** chrono's calendar, for src/interchange/cjson/shims.rs 13-28. *)
Definition month_length (leap : bool) (m : Z) : Z := (days_before leap (m + 1) - days_before leap m)%Z.

(** [NaiveDate::from_ymd_opt]: chrono's range of years.
    For src/interchange/cjson/shims.rs 13-28. *)
Definition valid_date (y m d : Z) : bool :=
  ((-262144 <=? y) && (y <=? 262143) && (1 <=? m) && (m <=? 12) && (1 <=? d)
   && (d <=? month_length (leap_year y) m))%Z.

(** chrono's calendar, for src/interchange/cjson/shims.rs 13-28. *)
Definition day_number (y m d : Z) : Z :=
  let p := (y - 1)%Z in
  (365 * p + p / 4 - p / 100 + p / 400 + days_before (leap_year y) m + d)%Z.

(** The date of a day number: [Datelike::year], [month], [day].
    As in src/interchange/cjson/shims.rs 18-28. *)
Definition month_of (leap : bool) (doy : Z) : Z :=
  (if doy <? days_before leap 2 then 1 else if doy <? days_before leap 3 then 2
   else if doy <? days_before leap 4 then 3 else if doy <? days_before leap 5 then 4
   else if doy <? days_before leap 6 then 5 else if doy <? days_before leap 7 then 6
   else if doy <? days_before leap 8 then 7 else if doy <? days_before leap 9 then 8
   else if doy <? days_before leap 10 then 9 else if doy <? days_before leap 11 then 10
   else if doy <? days_before leap 12 then 11 else 12)%Z.

(** [Datelike::year], [month], [day], as in src/interchange/cjson/shims.rs 18-28. *)
Definition date_of (day : Z) : Z * Z * Z :=
  let n := (day - 1)%Z in
  let cycle := (n / 146097)%Z in
  let r := (n mod 146097)%Z in
  let century := Z.min 3 (r / 36524) in
  let r2 := (r - century * 36524)%Z in
  let quad := (r2 / 1461)%Z in
  let r3 := (r2 mod 1461)%Z in
  let yr := Z.min 3 (r3 / 365) in
  let y := (400 * cycle + 100 * century + 4 * quad + yr + 1)%Z in
  let doy := (r3 - yr * 365)%Z in
  let m := month_of (leap_year y) doy in
  (y, m, doy - days_before (leap_year y) m + 1)%Z.

(** The unit of time here, for src/interchange/cjson/shims.rs 13-28. *)
Definition ticks_per_second : Z := 2000000000.

(** [DateTime<Utc>] from its parts, src/interchange/cjson/shims.rs 13-16. *)
Definition instant (day secs frac : Z) : Z := ((day * 86400 + secs) * ticks_per_second + frac)%Z.

(** ** Reading *)

(** [str::trim_left]; simplification: only the white space of ASCII.
    For src/interchange/cjson/shims.rs 13-16. *)
Definition is_space (c : ascii) : bool :=
  let n := N_of_ascii c in ((9 <=? n) && (n <=? 13) || (n =? 32))%N.
(** [str::trim_left], in chrono's [parse], called in src/interchange/cjson/shims.rs 13-16. *)
Fixpoint trim_left (s : string) : string :=
  match s with String c r => if is_space c then trim_left r else s | EmptyString => "" end.

(** chrono's [scan::number]: digits, at least one and at most [max] ([None]: any
    number; more than an [i64] holds is out of every range below).
    For src/interchange/cjson/shims.rs 13-16. *)
Fixpoint scan_digits (max : option nat) (acc : N) (s : string) : N * string :=
  match max with
  | Some O => (acc, s)
  | _ =>
      match s with
      | String c r =>
          if is_digit c
          then scan_digits (option_map pred max) (acc * 10 + (N_of_ascii c - 48))%N r
          else (acc, s)
      | EmptyString => (acc, s)
      end
  end.
(** chrono's [scan::number], for src/interchange/cjson/shims.rs 13-16. *)
Definition scan_number (max : option nat) (s : string) : option (Z * string) :=
  match s with
  | String c _ =>
      if is_digit c then let '(n, r) := scan_digits max 0 s in Some (Z.of_N n, r) else None
  | EmptyString => None
  end.

(** chrono's [parse] for a [Numeric] item.
    For src/interchange/cjson/shims.rs 13-16. *)
Definition parse_numeric (s : string) : option (Z * string) := scan_number (Some 2) (trim_left s).
(** chrono's [parse] for the year, for src/interchange/cjson/shims.rs 13-16. *)
Definition parse_year (s : string) : option (Z * string) :=
  match trim_left s with
  | String "-" r => option_map (fun '(n, r) => (- n, r)%Z) (scan_number None r)
  | String "+" r => scan_number None r
  | r => scan_number (Some 4) r
  end.

(** ... and for a [Literal] item of one character.
    For src/interchange/cjson/shims.rs 13-16. *)
Definition parse_literal (c : ascii) (s : string) : option string :=
  match s with String d r => if Ascii.eqb c d then Some r else None | EmptyString => None end.

(** [?] in chrono's [parse], for src/interchange/cjson/shims.rs 13-16. *)
Definition obind {A B} (x : option A) (f : A -> option B) : option B :=
  match x with Some a => f a | None => None end.
Notation "'do' x '<-' a ';' k" := (obind a (fun x => k))
  (at level 200, x pattern, a at level 100, k at level 200, right associativity).

(** [Parsed::to_naive_time]: second 60 is a leap second.
    For src/interchange/cjson/shims.rs 13-16. *)
Definition time_of (h mi s : Z) : option (Z * Z) :=
  if ((h <=? 23) && (mi <=? 59) && (s <=? 60))%Z
  then Some (if (s =? 60)%Z then (h * 3600 + mi * 60 + 59, 1000000000)%Z else (h * 3600 + mi * 60 + s, 0)%Z)
  else None.

(** src/interchange/cjson/shims.rs 13-16 [parse_datetime], i.e. chrono's
    [Utc.datetime_from_str(ts, "%FT%TZ")]: the format is %Y-%m-%dT%H:%M:%SZ. *)
Definition parse_datetime_opt (ts : string) : option Z :=
  do (y, r) <- parse_year ts;
  do r <- parse_literal "-" r;
  do (m, r) <- parse_numeric r;
  do r <- parse_literal "-" r;
  do (d, r) <- parse_numeric r;
  do r <- parse_literal "T" r;
  do (h, r) <- parse_numeric r;
  do r <- parse_literal ":" r;
  do (mi, r) <- parse_numeric r;
  do r <- parse_literal ":" r;
  do (s, r) <- parse_numeric r;
  do r <- parse_literal "Z" r;
  match r with
  | EmptyString =>
      if valid_date y m d then
        do (secs, frac) <- time_of h mi s;
        Some (instant (day_number y m d) secs frac)
      else None
  | _ => None
  end.
(** src/interchange/cjson/shims.rs 13-16 [parse_datetime]. *)
Definition parse_datetime (ts : string) : result Z :=
  match parse_datetime_opt ts with Some z => Ok z | None => Err Encoding end.

(** ** Writing *)

(** [format!("{:0w}", n)] for a non-negative number.
    As in src/interchange/cjson/shims.rs 18-28. *)
Fixpoint zeros (n : nat) : string := match n with O => "" | S n => String "0" (zeros n) end.
(** [format!("{:0w}", n)], as in src/interchange/cjson/shims.rs 18-28. *)
Definition pad (w : nat) (n : N) : string :=
  let s := decimal n in zeros (w - String.length s) ++ s.
(** The same with a sign, for the year, src/interchange/cjson/shims.rs 18-28. *)
Definition pad_z (w : nat) (z : Z) : string :=
  if (z <? 0)%Z then "-" ++ pad (w - 1) (Z.to_N (- z)) else pad w (Z.to_N z).

(** src/interchange/cjson/shims.rs 18-28 [format_datetime]: the fraction, and with it
    a leap second, is dropped. *)
Definition format_datetime (t : Z) : string :=
  let secs := (t / ticks_per_second)%Z in
  let '(y, m, d) := date_of (secs / 86400) in
  let s := (secs mod 86400)%Z in
  pad_z 4 y ++ "-" ++ pad_z 2 m ++ "-" ++ pad_z 2 d ++ "T"
    ++ pad_z 2 (s / 3600) ++ ":" ++ pad_z 2 (s mod 3600 / 60) ++ ":" ++ pad_z 2 (s mod 60) ++ "Z".

(** * The calendar and the spelling of dates, independent of Dates.v *)
From Coq Require Import String Ascii List NArith ZArith Bool.
From Verif Require Import Base.
Import ListNotations.
Open Scope string_scope.
Open Scope Z_scope.

(** ** The Gregorian calendar, by counting days *)
Definition is_leap (y : Z) : Prop := (4 | y) /\ (~ (100 | y) \/ (400 | y)).

(** Days of a month. *)
Inductive days_in (y : Z) : Z -> Z -> Prop :=
| di_31 m : In m [1; 3; 5; 7; 8; 10; 12] -> days_in y m 31
| di_30 m : In m [4; 6; 9; 11] -> days_in y m 30
| di_feb : ~ is_leap y -> days_in y 2 28
| di_feb_leap : is_leap y -> days_in y 2 29.

Definition date : Type := (Z * Z * Z)%type.
Definition real_date (x : date) : Prop :=
  let '(y, m, d) := x in exists n, days_in y m n /\ 1 <= d <= n.

(** The day after. *)
Inductive tomorrow : date -> date -> Prop :=
| tm_day y m d n : days_in y m n -> 1 <= d < n -> tomorrow (y, m, d) (y, m, d + 1)
| tm_month y m n : days_in y m n -> m < 12 -> tomorrow (y, m, n) (y, m + 1, 1)
| tm_year y : tomorrow (y, 12, 31) (y + 1, 1, 1).

(** [nth_day n x]: counting from 0001-01-01, which is day 1, forwards or
    backwards, day [n] is [x]. *)
Inductive nth_day : Z -> date -> Prop :=
| nd_first : nth_day 1 (1, 1, 1)
| nd_next n x y : nth_day n x -> tomorrow x y -> nth_day (n + 1) y
| nd_prev n x y : nth_day (n + 1) y -> tomorrow x y -> nth_day n x.

(** ** Spelling *)
Inductive blank : string -> Prop :=
| blank_nil : blank ""
| blank_cons c s : In (N_of_ascii c) [9; 10; 11; 12; 13; 32]%N -> blank s -> blank (String c s).

(** [numeral w t n]: [t] consists of [w] decimal digits and stands for [n]. *)
Inductive numeral : nat -> string -> Z -> Prop :=
| nu_nil : numeral 0 "" 0
| nu_snoc w t n c k : numeral w t n -> 0 <= k <= 9 -> Z.of_N (N_of_ascii c) = 48 + k ->
    numeral (S w) (t ++ String c "") (10 * n + k).

(** A number of one or two digits, a year. *)
Definition field (t : string) (n : Z) : Prop :=
  exists b w ds, blank b /\ numeral w ds n /\ (1 <= w <= 2)%nat /\ t = b ++ ds.
Definition year_field (t : string) (y : Z) : Prop :=
  exists b w ds n, blank b /\ numeral w ds n /\ (1 <= w)%nat /\
    ((w <= 4)%nat /\ t = b ++ ds /\ y = n \/ t = b ++ "+" ++ ds /\ y = n \/ t = b ++ "-" ++ ds /\ y = - n).

Record stamp := mkStamp { s_date : date; s_hour : Z; s_minute : Z; s_second : Z }.

(** [spells t x]: the text [t] names the date and time [x] (which need not exist). *)
Definition spells (t : string) (x : stamp) : Prop :=
  exists ty tm td th ti ts y m d,
    s_date x = (y, m, d) /\ year_field ty y /\ field tm m /\ field td d /\
    field th (s_hour x) /\ field ti (s_minute x) /\ field ts (s_second x) /\
    t = ty ++ "-" ++ tm ++ "-" ++ td ++ "T" ++ th ++ ":" ++ ti ++ ":" ++ ts ++ "Z".

(** The spelling the library writes: all digits, four for the year. *)
Definition spells_fixed (t : string) (x : stamp) : Prop :=
  exists ty tm td th ti ts y m d,
    s_date x = (y, m, d) /\ numeral 4 ty y /\ numeral 2 tm m /\ numeral 2 td d /\
    numeral 2 th (s_hour x) /\ numeral 2 ti (s_minute x) /\ numeral 2 ts (s_second x) /\
    t = ty ++ "-" ++ tm ++ "-" ++ td ++ "T" ++ th ++ ":" ++ ti ++ ":" ++ ts ++ "Z".

(** A time of day; second 60 is a leap second. *)
Definition real_stamp (x : stamp) : Prop :=
  real_date (s_date x) /\ 0 <= s_hour x <= 23 /\ 0 <= s_minute x <= 59 /\ 0 <= s_second x <= 60.

(** The range of years of the chrono crate. *)
Definition chrono_year (x : stamp) : Prop :=
  let '(y, _, _) := s_date x in -262144 <= y <= 262143.

(** [at_instant x t]: where a date and time lies on the time line: two billion
    ticks per second, the second half of which only leap seconds use. *)
Definition at_instant (x : stamp) (t : Z) : Prop :=
  exists n, nth_day n (s_date x) /\
    let second := Z.min (s_second x) 59 in
    let leap := if s_second x =? 60 then 1000000000 else 0 in
    t = (((n * 24 + s_hour x) * 60 + s_minute x) * 60 + second) * 2000000000 + leap.

(** Whole seconds, years 0 to 9999. *)
Definition plain_stamp (x : stamp) : Prop :=
  real_stamp x /\ s_second x <= 59 /\ let '(y, _, _) := s_date x in 0 <= y <= 9999.

(** An expiry date a text can name, and one the library writes without loss. *)
Definition nameable (t : Z) : Prop := exists x, real_stamp x /\ chrono_year x /\ at_instant x t.
Definition plain_time (t : Z) : Prop := exists x, plain_stamp x /\ at_instant x t.

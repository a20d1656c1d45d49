(** * C64, C65: hexadecimal and dates *)
From Coq Require Import String Ascii List NArith ZArith Bool Lia.
From Verif Require Import Base Paths Codec SpecCodec CodecProofs Dates SpecDates DateProofs YearProofs.
Import ListNotations.
Open Scope string_scope.

(** ** C64 *)

Theorem C64_hex_is_a_faithful_codec :
  (forall (b : bytes), hex_text (hex_encode b) b) /\
  (forall (s : string) (b : bytes), hex_decode s = Some b <-> hex_text s b) /\
  (forall (b : bytes), hex_decode (hex_encode b) = Some b) /\
  (forall (s : string) (b : bytes), hex_decode s = Some b -> s = hex_encode b) /\
  (forall (s : string), (exists b, hex_decode s = Some b) <-> lower_hex s).
Proof.
  split; [exact hex_encode_text|]. split; [exact hex_decode_text|]. split; [exact hex_decode_encode|].
  split; [intros s b; apply hex_decode_Some|exact hex_accepts].
Qed.
Print Assumptions C64_hex_is_a_faithful_codec.

Example C64_case :
  hex_encode (String "000" (String "255" "J")) = "00ff4a" /\
  hex_decode "00ff4a" = Some (String "000" (String "255" "J")) /\
  hex_decode "00FF4A" = None /\ hex_decode "00f" = None /\ hex_decode "0g" = None.
Proof. vm_compute. repeat split; reflexivity. Qed.

(** ** C65 *)
Open Scope Z_scope.

(** Exactly which texts are read as which instant: the Gregorian calendar, counted
    day by day, decides. *)
Theorem C65_parse_is_the_calendar :
  forall (t : string) (z : Z),
  parse_datetime t = Ok z <-> exists x, spells t x /\ real_stamp x /\ chrono_year x /\ at_instant x z.
Proof. exact parse_datetime_iff. Qed.
Print Assumptions C65_parse_is_the_calendar.

(** Two spellings of one date and time are read alike. *)
Theorem C65_spelling_does_not_matter :
  forall (t t' : string) (x : stamp),
  spells t x -> spells t' x -> parse_datetime t = parse_datetime t'.
Proof.
  intros t t' x S S'. unfold parse_datetime. now rewrite (parse_spelled t x S), (parse_spelled t' x S').
Qed.
Print Assumptions C65_spelling_does_not_matter.

Theorem C65_dates_survive :
  forall (x : stamp) (z : Z),
  plain_stamp x -> at_instant x z ->
  spells_fixed (format_datetime z) x /\ parse_datetime (format_datetime z) = Ok z.
Proof.
  intros x z (R & S & Y) A.
  assert (E : no_leap_second x = x).
  { unfold no_leap_second. rewrite Z.min_l by exact S. now destruct x. }
  assert (F := format_spells x z R Y A). rewrite E in F. split; [exact F|].
  apply parse_datetime_iff. exists x. split; [apply fixed_spells, F|]. split; [exact R|]. split; [|exact A].
  unfold chrono_year. destruct (s_date x) as [[y m] d]. lia.
Qed.
Print Assumptions C65_dates_survive.

(** Comparing the written dates as byte strings compares the instants. *)
Theorem C65_order_is_preserved :
  forall (x x' : stamp) (z z' : Z),
  plain_stamp x -> plain_stamp x' -> at_instant x z -> at_instant x' z' ->
  String.compare (format_datetime z) (format_datetime z') = Z.compare z z'.
Proof.
  intros x x' z z' P P' A A'.
  destruct (C65_dates_survive x z P A) as [(ty & tm & td & th & ti & ts & y & m & d & E & F1 & F2 & F3 & F4 & F5 & F6 & T) _].
  destruct (C65_dates_survive x' z' P' A') as [(ty' & tm' & td' & th' & ti' & ts' & y' & m' & d' & E' & F1' & F2' & F3' & F4' & F5' & F6' & T') _].
  rewrite T, T'. clear T T'.
  destruct P as ((R & H1 & H2 & H3) & S & Y), P' as ((R' & H1' & H2' & H3') & S' & Y').
  apply at_instant_iff in A as [_ A], A' as [_ A']. rewrite E, E' in *.
  unfold instant, seconds_of_day, leap_part, ticks_per_second in A, A'.
  destruct (Z.eqb_spec (s_second x) 60); [lia|]. destruct (Z.eqb_spec (s_second x') 60); [lia|].
  rewrite Z.min_l in A, A' by lia.
  assert (LT : earlier (y, m, d) (y', m', d') -> z < z').
  { intros L. apply (day_number_mono _ _ _ _ _ _ R R') in L. lia. }
  assert (GT : earlier (y', m', d') (y, m, d) -> z' < z).
  { intros L. apply (day_number_mono _ _ _ _ _ _ R' R) in L. lia. }
  erewrite compare_numerals by eassumption. destruct (Z.compare_spec y y') as [->|L|L].
  2:{ symmetry. apply Z.compare_lt_iff, LT. left; exact L. }
  2:{ symmetry. apply Z.compare_gt_iff, GT. left; exact L. }
  cbn [append String.compare]. change (Ascii.compare "-" "-") with Eq. cbv iota.
  erewrite compare_numerals by eassumption. destruct (Z.compare_spec m m') as [->|L|L].
  2:{ symmetry. apply Z.compare_lt_iff, LT. right. auto. }
  2:{ symmetry. apply Z.compare_gt_iff, GT. right. auto. }
  cbn [append String.compare]. change (Ascii.compare "-" "-") with Eq. cbv iota.
  erewrite compare_numerals by eassumption. destruct (Z.compare_spec d d') as [->|L|L].
  2:{ symmetry. apply Z.compare_lt_iff, LT. right. auto. }
  2:{ symmetry. apply Z.compare_gt_iff, GT. right. auto. }
  clear LT GT.
  cbn [append String.compare]. change (Ascii.compare "T" "T") with Eq. cbv iota.
  erewrite compare_numerals by eassumption. destruct (Z.compare_spec (s_hour x) (s_hour x')) as [L1|L|L].
  2:{ symmetry. apply Z.compare_lt_iff. lia. }
  2:{ symmetry. apply Z.compare_gt_iff. lia. }
  cbn [append String.compare]. change (Ascii.compare ":" ":") with Eq. cbv iota.
  erewrite compare_numerals by eassumption. destruct (Z.compare_spec (s_minute x) (s_minute x')) as [L2|L|L].
  2:{ symmetry. apply Z.compare_lt_iff. lia. }
  2:{ symmetry. apply Z.compare_gt_iff. lia. }
  cbn [append String.compare]. change (Ascii.compare ":" ":") with Eq. cbv iota.
  erewrite compare_numerals by eassumption. destruct (Z.compare_spec (s_second x) (s_second x')) as [L3|L|L].
  - symmetry. apply Z.compare_eq_iff. rewrite A, A', L1, L2, L3. reflexivity.
  - symmetry. apply Z.compare_lt_iff. lia.
  - symmetry. apply Z.compare_gt_iff. lia.
Qed.
Print Assumptions C65_order_is_preserved.

(** 29 February 2000 and an ordinary date. *)
Definition leap_day : stamp := mkStamp (2000, 2, 29) 23 59 58.
Example C65_case :
  plain_stamp leap_day /\ at_instant leap_day 126175103996000000000 /\
  format_datetime 126175103996000000000 = "2000-02-29T23:59:58Z" /\
  parse_datetime "2000-02-29T23:59:58Z" = Ok 126175103996000000000 /\
  (* laxer spellings *)
  parse_datetime "+2000-2- 29T23:59:58Z" = Ok 126175103996000000000 /\
  (* no such dates *)
  parse_datetime "1900-02-29T00:00:00Z" = Err Encoding /\ parse_datetime "2001-04-31T00:00:00Z" = Err Encoding /\
  parse_datetime "2001-04-30T24:00:00Z" = Err Encoding /\ parse_datetime "2001-04-30T00:00:00" = Err Encoding.
Proof.
  assert (R : real_date (2000, 2, 29)).
  { apply real_date_iff. vm_compute. repeat split; discriminate. }
  split. { repeat split; try (cbn; lia). exact R. }
  split. { apply at_instant_iff. split; [exact R|]. vm_compute. reflexivity. }
  vm_compute. repeat split; reflexivity.
Qed.

(** ** Years before 0 and after 9999 *)

(** What is written is read again exactly for the years up to 9999, those before 0
    included, which are written with a minus sign. *)
Theorem C65_every_year :
  forall (x : stamp) (z : Z) (y m d : Z),
  real_stamp x -> chrono_year x -> s_second x <= 59 -> s_date x = (y, m, d) -> at_instant x z ->
  parse_datetime (format_datetime z) = (if y <=? 9999 then Ok z else Err Encoding) /\
  (y < 0 -> exists w ty r, numeral w ty (- y) /\ format_datetime z = "-" ++ ty ++ "-" ++ r).
Proof. exact every_year. Qed.
Print Assumptions C65_every_year.

(** 44 BC is the year -43. *)
Example C65_every_year_case :
  parse_datetime (format_datetime (instant (day_number (-43) 3 15) 43200 0)) = Ok (instant (day_number (-43) 3 15) 43200 0) /\
  format_datetime (instant (day_number (-43) 3 15) 43200 0) = "-043-03-15T12:00:00Z" /\
  format_datetime (instant (day_number (-12345) 3 15) 43200 0) = "-12345-03-15T12:00:00Z" /\
  parse_datetime (format_datetime (instant (day_number 10000 1 1) 0 0)) = Err Encoding.
Proof. vm_compute. repeat split; reflexivity. Qed.

(** Outside that range: the leap second is lost, and a year of five digits is
    written without its sign, which the reader refuses. *)
Theorem C65_outside_that_range_refuted :
  exists z z', parse_datetime "2016-12-31T23:59:60Z" = Ok z /\ parse_datetime (format_datetime z) = Ok z' /\ z <> z' /\
  exists w, parse_datetime "+12345-01-01T00:00:00Z" = Ok w /\ parse_datetime (format_datetime w) = Err Encoding.
Proof.
  eexists. eexists. split; [vm_compute; reflexivity|]. split; [vm_compute; reflexivity|].
  split; [discriminate|]. eexists. split; [vm_compute; reflexivity|]. vm_compute. reflexivity.
Qed.
Print Assumptions C65_outside_that_range_refuted.

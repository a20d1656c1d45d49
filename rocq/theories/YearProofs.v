(** * Proofs about the years that chrono writes with a sign or with more than four digits *)
From Coq Require Import String Ascii List NArith ZArith Bool Lia ZifyN.
From Verif Require Import Base Paths JsonText Dates SpecDates StringFacts PathProofs DateProofs.
From Verif Require SpecJson JsonProofs.
Import ListNotations.
Open Scope string_scope.
Open Scope Z_scope.

Ltac Zify.zify_post_hook ::= Z.div_mod_to_equations.

Lemma pad_some w n : exists w', (1 <= w')%nat /\ numeral w' (pad w n) (Z.of_N n).
Proof.
  unfold pad. destruct (natural_facts _ _ (JsonProofs.decimal_natural n)) as (D & V & L & _).
  assert (A : all_digits (zeros (w - String.length (decimal n)) ++ decimal n)).
  { intros c [H|H]%has_char_app; [eapply zeros_digits; eauto|auto]. }
  pose proof (numeral_of_digits _ A) as N. exists (String.length (zeros (w - String.length (decimal n)) ++ decimal n)).
  split; [rewrite slength_app; lia|]. rewrite digits_value_app, zeros_value, V in N. exact N.
Qed.

Lemma format_parts x z y m d : real_stamp x -> s_second x <= 59 -> s_date x = (y, m, d) -> at_instant x z ->
  exists tm td th ti ts, numeral 2 tm m /\ numeral 2 td d /\
    numeral 2 th (s_hour x) /\ numeral 2 ti (s_minute x) /\ numeral 2 ts (s_second x) /\
    format_datetime z = pad_z 4 y ++ "-" ++ tm ++ "-" ++ td ++ "T" ++ th ++ ":" ++ ti ++ ":" ++ ts ++ "Z".
Proof.
  intros (R & B1 & B2 & B3) B4 E A. apply at_instant_iff in A as [_ A]. rewrite E in *. subst z.
  assert (S : 0 <= seconds_of_day x < 86400) by (unfold seconds_of_day; lia).
  destruct (instant_fields (day_number y m d) (seconds_of_day x) (leap_part x)) as [I1 I2].
  { exact S. } { unfold leap_part, ticks_per_second. destruct (s_second x =? 60); lia. }
  unfold format_datetime. rewrite I1, I2, date_of_day_number by exact R.
  apply real_date_iff in R as [M D].
  assert (DM : d <= 31) by (unfold valid_month in M; destruct (leap_year y); months m; cbn in D; lia).
  unfold valid_month in M.
  exists (pad_z 2 m), (pad_z 2 d), (pad_z 2 (seconds_of_day x / 3600)),
    (pad_z 2 (seconds_of_day x mod 3600 / 60)), (pad_z 2 (seconds_of_day x mod 60)).
  assert (Q : seconds_of_day x / 3600 = s_hour x /\ seconds_of_day x mod 3600 / 60 = s_minute x /\
              seconds_of_day x mod 60 = s_second x).
  { unfold seconds_of_day. rewrite Z.min_l by exact B4. set (h := s_hour x) in *. set (mi := s_minute x) in *. set (s := s_second x) in *.
    clearbody h mi s. clear - B1 B2 B3 B4. split; [lia|]. split; [|lia].
    replace ((h * 3600 + mi * 60 + s) mod 3600) with (mi * 60 + s) by lia. lia. }
  destruct Q as (-> & -> & ->).
  repeat (split; [apply pad_z_numeral; cbn; lia|]). reflexivity.
Qed.

Lemma every_year :
  forall (x : stamp) (z : Z) (y m d : Z),
  real_stamp x -> chrono_year x -> s_second x <= 59 -> s_date x = (y, m, d) -> at_instant x z ->
  parse_datetime (format_datetime z) = (if y <=? 9999 then Ok z else Err Encoding) /\
  (y < 0 -> exists w ty r, numeral w ty (- y) /\ format_datetime z = "-" ++ ty ++ "-" ++ r).
Proof.
  intros x z y m d R Y S E A.
  destruct (format_parts x z y m d R S E A) as (tm & td & th & ti & ts & F2 & F3 & F4 & F5 & F6 & T).
  assert (FF : forall t n, numeral 2 t n -> field t n).
  { intros t n N. exists "", 2%nat, t. split; [constructor|]. split; [exact N|]. split; [lia|reflexivity]. }
  assert (OK : year_field (pad_z 4 y) y -> parse_datetime (format_datetime z) = Ok z).
  { intros F1. apply parse_datetime_iff. exists x. split; [|split; [exact R|split; [exact Y|exact A]]].
    exists (pad_z 4 y), tm, td, th, ti, ts, y, m, d. split; [exact E|]. split; [exact F1|].
    repeat (split; [apply FF; assumption|]). exact T. }
  destruct (Z.ltb_spec y 0) as [Ny|Ny].
  - (* before the year 0 *)
    destruct (pad_some 3 (Z.to_N (- y))) as (w & W & N). rewrite Z2N.id in N by lia.
    assert (P : pad_z 4 y = "-" ++ pad 3 (Z.to_N (- y))) by (unfold pad_z; now rewrite (proj2 (Z.ltb_lt _ _) Ny)).
    split.
    + destruct (Z.leb_spec y 9999); [|lia]. apply OK. exists "", w, (pad 3 (Z.to_N (- y))), (- y).
      split; [constructor|]. split; [exact N|]. split; [exact W|]. right; right. split; [exact P|lia].
    + intros _. eexists w, (pad 3 (Z.to_N (- y))), _. split; [exact N|]. rewrite T, P, !sapp_assoc. reflexivity.
  - split; [|lia]. destruct (Z.leb_spec y 9999) as [L|L].
    + apply OK. exists "", 4%nat, (pad_z 4 y), y. split; [constructor|].
      split; [apply pad_z_numeral; cbn; lia|]. split; [lia|]. left. split; [lia|auto].
    + (* the year has more digits than are read without a sign *)
      assert (P : pad_z 4 y = pad 4 (Z.to_N y)) by (unfold pad_z; destruct (Z.ltb_spec y 0); [lia|reflexivity]).
      destruct (pad_some 4 (Z.to_N y)) as (w & W & N). rewrite Z2N.id, <- P in N by lia.
      apply numeral_facts in N as (Lw & D & B & _).
      assert (W5 : (5 <= w)%nat).
      { destruct (Nat.le_gt_cases 5 w) as [H|H]; [exact H|]. exfalso.
        assert (10 ^ Z.of_nat w <= 10 ^ 4) by (apply Z.pow_le_mono_r; lia). lia. }
      rewrite T. clear T. set (rest := "-" ++ tm ++ _). clearbody rest.
      destruct (pad_z 4 y) as [|c1 [|c2 [|c3 [|c4 [|c5 t]]]]]; cbn in Lw; try lia.
      assert (C : forall c, In c [c1; c2; c3; c4; c5] -> JsonText.is_digit c = true).
      { intros c H. apply D. repeat (destruct H as [<-|H]; [repeat (apply has_char_cons; (left; reflexivity) || right); fail|]).
        destruct H. }
      assert (C1 := C c1 ltac:(cbn; auto)). assert (C2 := C c2 ltac:(cbn; auto)). assert (C3 := C c3 ltac:(cbn; auto)).
      assert (C4 := C c4 ltac:(cbn; auto)). assert (C5 := C c5 ltac:(cbn; auto 8)).
      unfold parse_datetime, parse_datetime_opt. cbn [append].
      set (s := String c1 _).
      assert (Q : parse_year s = scan_number (Some 4%nat) s).
      { apply (parse_year_unsigned s C1 ""). cbn [append]. unfold s. cbn [trim_left]. now rewrite (digit_not_space _ C1). }
      rewrite Q. unfold s. cbn [scan_number]. rewrite C1. cbn [scan_digits option_map pred].
      rewrite C1, C2, C3, C4. cbn [obind parse_literal].
      destruct (Ascii.eqb_spec "-" c5) as [<-|_]; [discriminate C5|]. reflexivity.
Qed.

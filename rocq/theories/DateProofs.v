(** * Proofs about Dates.v *)
From Coq Require Import String Ascii List NArith ZArith Bool Lia ZifyN.
From Verif Require Import Base Paths JsonText Dates SpecDates StringFacts PathProofs.
From Verif Require SpecJson JsonProofs.
Import ListNotations.
Open Scope string_scope.
Open Scope Z_scope.

Ltac Zify.zify_post_hook ::= Z.div_mod_to_equations.

(** ** The calendar *)
Lemma leap_year_iff y : leap_year y = true <-> is_leap y.
Proof.
  unfold leap_year, is_leap. rewrite andb_true_iff, orb_true_iff, negb_true_iff, !Z.eqb_eq, Z.eqb_neq.
  rewrite <- !Z.mod_divide by lia. tauto.
Qed.
Lemma leap_year_not y : leap_year y = false <-> ~ is_leap y.
Proof. rewrite <- leap_year_iff. destruct (leap_year y); intuition congruence. Qed.

Definition valid_month (m : Z) : Prop := 1 <= m <= 12.

Ltac months m := let H := fresh in
  assert (H : m = 1 \/ m = 2 \/ m = 3 \/ m = 4 \/ m = 5 \/ m = 6 \/ m = 7 \/ m = 8 \/ m = 9 \/ m = 10 \/ m = 11 \/ m = 12) by (unfold valid_month in *; lia);
  repeat (destruct H as [H|H]); subst m.

Lemma days_in_length y m n : days_in y m n <-> valid_month m /\ n = month_length (leap_year y) m.
Proof.
  split.
  - destruct 1 as [m H|m H|H|H]; cbn in H.
    + unfold valid_month. split; [lia|]. destruct (leap_year y);
        repeat destruct H as [<-|H]; try reflexivity; contradiction.
    + unfold valid_month. split; [lia|]. destruct (leap_year y);
        repeat destruct H as [<-|H]; try reflexivity; contradiction.
    + apply leap_year_not in H. rewrite H. split; [unfold valid_month; lia|reflexivity].
    + apply leap_year_iff in H. rewrite H. split; [unfold valid_month; lia|reflexivity].
  - intros [H ->]. destruct (leap_year y) eqn:L; months m; cbn;
      try (apply di_31; cbn; tauto); try (apply di_30; cbn; tauto).
    + apply di_feb_leap, leap_year_iff, L.
    + apply di_feb, leap_year_not, L.
Qed.

Lemma real_date_iff y m d : real_date (y, m, d) <-> valid_month m /\ 1 <= d <= month_length (leap_year y) m.
Proof.
  unfold real_date. split.
  - intros (n & [H ->]%days_in_length & D). auto.
  - intros [H D]. exists (month_length (leap_year y) m). split; [apply days_in_length; auto|exact D].
Qed.

Lemma valid_date_iff y m d : valid_date y m d = true <-> -262144 <= y <= 262143 /\ real_date (y, m, d).
Proof.
  unfold valid_date. rewrite real_date_iff, !andb_true_iff, !Z.leb_le. unfold valid_month. intuition lia.
Qed.

Definition year_start (y : Z) : Z := let p := y - 1 in 365 * p + p / 4 - p / 100 + p / 400.
Definition year_length (y : Z) : Z := 365 + (if leap_year y then 1 else 0).

Lemma year_start_next y : year_start (y + 1) = year_start y + year_length y.
Proof.
  unfold year_start, year_length, leap_year.
  destruct (Z.eqb_spec (y mod 4) 0), (Z.eqb_spec (y mod 100) 0), (Z.eqb_spec (y mod 400) 0);
    cbn [andb orb negb]; lia.
Qed.
Lemma year_start_mono y y' : y <= y' -> year_start y <= year_start y'.
Proof. unfold year_start. lia. Qed.

Lemma day_number_eq y m d : day_number y m d = year_start y + days_before (leap_year y) m + d.
Proof. unfold day_number, year_start. lia. Qed.

Lemma month_fits b m : valid_month m -> 0 <= days_before b m /\ days_before b m + month_length b m <= 365 + (if b then 1 else 0).
Proof. intros H. destruct b; months m; cbn; lia. Qed.
Lemma month_next b m : valid_month m -> days_before b (m + 1) = days_before b m + month_length b m.
Proof. intros _. unfold month_length. lia. Qed.
Lemma days_before_mono b m m' : valid_month m -> valid_month m' -> m < m' -> days_before b m + month_length b m <= days_before b m'.
Proof. intros H H' L. destruct b; months m; months m'; cbn; lia. Qed.

Definition earlier (x x' : date) : Prop :=
  let '(y, m, d) := x in let '(y', m', d') := x' in
  y < y' \/ y = y' /\ (m < m' \/ m = m' /\ d < d').

Lemma day_number_mono y m d y' m' d' : real_date (y, m, d) -> real_date (y', m', d') ->
  earlier (y, m, d) (y', m', d') -> day_number y m d < day_number y' m' d'.
Proof.
  rewrite !real_date_iff. intros [M D] [M' D'] E. rewrite !day_number_eq.
  destruct E as [E|[-> [E|[-> E]]]].
  - pose proof (month_fits (leap_year y) m M). pose proof (month_fits (leap_year y') m' M').
    pose proof (year_start_next y). pose proof (year_start_mono (y + 1) y' ltac:(lia)).
    unfold year_length in *. lia.
  - pose proof (days_before_mono (leap_year y') m m' M M' E). lia.
  - lia.
Qed.
Lemma trichotomy (y m d y' m' d' : Z) :
  earlier (y, m, d) (y', m', d') \/ (y, m, d) = (y', m', d') \/ earlier (y', m', d') (y, m, d).
Proof.
  cbn. destruct (Z.lt_total y y') as [|[->|]]; [tauto| |tauto].
  destruct (Z.lt_total m m') as [|[->|]]; [tauto| |tauto].
  destruct (Z.lt_total d d') as [|[->|]]; [tauto|tauto|tauto].
Qed.
Lemma day_number_inj y m d y' m' d' : real_date (y, m, d) -> real_date (y', m', d') ->
  day_number y m d = day_number y' m' d' -> (y, m, d) = (y', m', d').
Proof.
  intros R R' E. destruct (trichotomy y m d y' m' d') as [H|[H|H]]; auto.
  - apply day_number_mono in H; auto. lia.
  - apply day_number_mono in H; auto. lia.
Qed.

(** The month of a day of the year. *)
Lemma month_of_spec (b : bool) doy : 0 <= doy < 365 + (if b then 1 else 0) ->
  valid_month (month_of b doy) /\
  days_before b (month_of b doy) <= doy < days_before b (month_of b doy) + month_length b (month_of b doy).
Proof.
  intros H. unfold month_of.
  repeat match goal with |- context [Z.ltb ?x ?y] => destruct (Z.ltb_spec x y) end;
    unfold valid_month; (split; [lia|]); destruct b; cbn in *; lia.
Qed.

Lemma date_of_spec n : let '(y, m, d) := date_of n in day_number y m d = n /\ real_date (y, m, d).
Proof.
  unfold date_of.
  set (a := (n - 1) / 146097). set (r := (n - 1) mod 146097).
  set (b := Z.min 3 (r / 36524)). set (r2 := r - b * 36524).
  set (c := r2 / 1461). set (r3 := r2 mod 1461). set (e := Z.min 3 (r3 / 365)).
  set (y := 400 * a + 100 * b + 4 * c + e + 1). set (doy := r3 - e * 365).
  assert (N : n - 1 = 146097 * a + r /\ 0 <= r < 146097) by (subst a r; lia).
  assert (B : 0 <= b <= 3 /\ 0 <= r2 /\ r2 <= 36524 /\ (b < 3 -> r2 < 36524)) by (subst b r2; lia).
  assert (C : 0 <= c <= 24 /\ r2 = 1461 * c + r3 /\ 0 <= r3 < 1461) by (subst c r3; lia).
  assert (E : 0 <= e <= 3 /\ 0 <= doy /\ doy <= 365 /\ (e < 3 -> doy < 365)) by (subst e doy; lia).
  assert (R : r = b * 36524 + r2) by (subst r2; lia). assert (R3 : r3 = e * 365 + doy) by (subst doy; lia).
  assert (LY : leap_year y = ((e =? 3) && (negb (c =? 24) || (b =? 3)))).
  { unfold leap_year. subst y. clearbody a b c e. clear -B C E.
    destruct (Z.eqb_spec e 3), (Z.eqb_spec c 24), (Z.eqb_spec b 3),
      (Z.eqb_spec ((400 * a + 100 * b + 4 * c + e + 1) mod 4) 0),
      (Z.eqb_spec ((400 * a + 100 * b + 4 * c + e + 1) mod 100) 0),
      (Z.eqb_spec ((400 * a + 100 * b + 4 * c + e + 1) mod 400) 0); cbn; try reflexivity; lia. }
  assert (YS : year_start y = 146097 * a + 36524 * b + 1461 * c + 365 * e).
  { unfold year_start. subst y. clearbody a b c e. clear -B C E.
    replace ((400 * a + 100 * b + 4 * c + e + 1 - 1) / 4) with (100 * a + 25 * b + c) by lia.
    replace ((400 * a + 100 * b + 4 * c + e + 1 - 1) / 100) with (4 * a + b) by lia.
    replace ((400 * a + 100 * b + 4 * c + e + 1 - 1) / 400) with a by lia. lia. }
  assert (F : 0 <= doy < 365 + (if leap_year y then 1 else 0)).
  { rewrite LY. clearbody a r b c e r2 r3 doy y.
    destruct (Z.eqb_spec e 3), (Z.eqb_spec c 24), (Z.eqb_spec b 3); cbn [andb orb negb]; lia. }
  destruct (month_of_spec _ _ F) as [M D]. split.
  - rewrite day_number_eq, YS. lia.
  - apply real_date_iff. split; [exact M|]. lia.
Qed.

Lemma date_of_day_number y m d : real_date (y, m, d) -> date_of (day_number y m d) = (y, m, d).
Proof.
  intros R. pose proof (date_of_spec (day_number y m d)) as S.
  destruct (date_of (day_number y m d)) as [[y' m'] d']. destruct S as [E R'].
  apply day_number_inj; auto.
Qed.

(** Counting days. *)
Lemma tomorrow_real x x' : tomorrow x x' -> real_date x /\ real_date x'.
Proof.
  destruct 1 as [y m d n D L|y m n D L|y].
  - split; exists n; split; auto; lia.
  - apply days_in_length in D as [M ->]. split.
    + apply real_date_iff. split; [exact M|]. destruct (leap_year y); months m; cbn; lia.
    + apply real_date_iff. unfold valid_month in *. split; [lia|].
      destruct (leap_year y); months m; cbn; lia.
  - split; exists 31; (split; [apply di_31; cbn; tauto|lia]).
Qed.
Lemma tomorrow_number y m d y' m' d' : tomorrow (y, m, d) (y', m', d') -> day_number y' m' d' = day_number y m d + 1.
Proof.
  intros T. inversion T as [? ? ? n D L|? ? n D L|?]; subst.
  - unfold day_number. lia.
  - apply days_in_length in D as [M ->]. rewrite !day_number_eq, month_next by exact M. lia.
  - rewrite !day_number_eq, year_start_next. unfold year_length.
    replace (days_before (leap_year (y + 1)) 1) with 0 by (destruct (leap_year (y + 1)); reflexivity).
    destruct (leap_year y); cbn; lia.
Qed.
Lemma tomorrow_exists y m d : real_date (y, m, d) -> exists x, tomorrow (y, m, d) x.
Proof.
  intros (n & D & L). destruct (Z.eq_dec d n) as [->|]; [|eexists; eapply tm_day; [exact D|lia]].
  destruct (Z.eq_dec m 12) as [->|N].
  - assert (n = 31) as -> by (apply days_in_length in D as [_ ->]; destruct (leap_year y); reflexivity).
    eexists. apply tm_year.
  - eexists. eapply tm_month; [exact D|]. apply days_in_length in D as [M _]. unfold valid_month in M. lia.
Qed.

Lemma date_of_tomorrow n : tomorrow (date_of n) (date_of (n + 1)).
Proof.
  pose proof (date_of_spec n) as S. destruct (date_of n) as [[y m] d] eqn:E. destruct S as [En R].
  destruct (tomorrow_exists _ _ _ R) as [[[y' m'] d'] T]. pose proof (tomorrow_number _ _ _ _ _ _ T) as Q.
  pose proof (proj2 (tomorrow_real _ _ T)) as R'. rewrite En in Q. rewrite <- Q, date_of_day_number by exact R'. exact T.
Qed.

Lemma nth_day_date_of n : nth_day n (date_of n).
Proof.
  assert (U : forall k, nth_day (1 + Z.of_nat k) (date_of (1 + Z.of_nat k))).
  { induction k; [exact nd_first|]. replace (1 + Z.of_nat (S k)) with (1 + Z.of_nat k + 1) by lia.
    eapply nd_next; [exact IHk|apply date_of_tomorrow]. }
  assert (D : forall k, nth_day (1 - Z.of_nat k) (date_of (1 - Z.of_nat k))).
  { induction k; [exact nd_first|]. eapply nd_prev.
    2:{ apply (date_of_tomorrow (1 - Z.of_nat (S k))). }
    replace (1 - Z.of_nat (S k) + 1) with (1 - Z.of_nat k) by lia. exact IHk. }
  destruct (Z.le_gt_cases 1 n).
  - replace n with (1 + Z.of_nat (Z.to_nat (n - 1))) by lia. apply U.
  - replace n with (1 - Z.of_nat (Z.to_nat (1 - n))) by lia. apply D.
Qed.

Lemma nth_day_sound n x : nth_day n x -> real_date x /\ (let '(y, m, d) := x in day_number y m d = n).
Proof.
  induction 1 as [|n [[y m] d] [[y' m'] d'] H [IHr IH] T|n [[y m] d] [[y' m'] d'] H [IHr IH] T].
  - split; [|reflexivity]. exists 31. split; [apply di_31; cbn; tauto|lia].
  - split; [apply (tomorrow_real _ _ T)|]. pose proof (tomorrow_number _ _ _ _ _ _ T). lia.
  - split; [apply (tomorrow_real _ _ T)|]. pose proof (tomorrow_number _ _ _ _ _ _ T). lia.
Qed.

Lemma nth_day_iff n y m d : nth_day n (y, m, d) <-> real_date (y, m, d) /\ n = day_number y m d.
Proof.
  split.
  - intros H. apply nth_day_sound in H as [R E]. auto.
  - intros [R ->]. rewrite <- (date_of_day_number y m d R). apply nth_day_date_of.
Qed.

(** ** Digits *)
Definition all_digits (t : string) : Prop := forall c, has_char c t -> JsonText.is_digit c = true.

Lemma is_digit_iff c : JsonText.is_digit c = true <-> (48 <= N_of_ascii c <= 57)%N.
Proof. unfold JsonText.is_digit. rewrite andb_true_iff, !N.leb_le. tauto. Qed.

Lemma digits_value_app a : forall acc b, digits_value acc (a ++ b) = digits_value (digits_value acc a) b.
Proof. induction a; intros; cbn; auto. Qed.

Lemma numeral_facts w t n : numeral w t n ->
  String.length t = w /\ all_digits t /\ 0 <= n < 10 ^ Z.of_nat w /\ n = Z.of_N (digits_value 0 t).
Proof.
  induction 1 as [|w t n c k H (L & D & B & V) K C].
  - repeat split; try lia; try reflexivity. intros c H. now apply has_char_nil in H.
  - split; [rewrite slength_app, L; cbn; lia|]. split; [|split].
    + intros d [I|I]%has_char_app; [auto|]. apply has_char_one in I. subst d. apply is_digit_iff. lia.
    + rewrite Nat2Z.inj_succ, Z.pow_succ_r by lia. lia.
    + rewrite digits_value_app. cbn [digits_value]. lia.
Qed.

Lemma numeral_extend t : forall w p n, numeral w p (Z.of_N n) -> all_digits t ->
  numeral (w + String.length t) (p ++ t) (Z.of_N (digits_value n t)).
Proof.
  induction t as [|c t IH]; intros w p n H D.
  - cbn. now rewrite sapp_nil_r, Nat.add_0_r.
  - cbn [String.length digits_value]. replace (w + S (String.length t))%nat with (S w + String.length t)%nat by lia.
    replace (p ++ String c t) with ((p ++ String c "") ++ t) by (rewrite sapp_assoc; reflexivity).
    assert (C : (48 <= N_of_ascii c <= 57)%N) by (apply is_digit_iff, D, has_char_cons; auto).
    apply IH.
    + replace (Z.of_N (n * 10 + (N_of_ascii c - 48))) with (10 * Z.of_N n + (Z.of_N (N_of_ascii c) - 48)) by lia.
      apply nu_snoc; [exact H|lia|lia].
    + intros d I. apply D, has_char_cons. auto.
Qed.
Lemma numeral_of_digits t : all_digits t -> numeral (String.length t) t (Z.of_N (digits_value 0 t)).
Proof. intros D. exact (numeral_extend t 0%nat "" 0%N nu_nil D). Qed.

(** ** Scanning *)
Definition starts_digit (s : string) : bool :=
  match s with String c _ => JsonText.is_digit c | EmptyString => false end.
Definition fits (w : nat) (max : option nat) : Prop := match max with Some k => (w <= k)%nat | None => True end.
Definition room (w : nat) (max : option nat) : option nat := match max with Some k => Some (k - w)%nat | None => None end.

Lemma scan_digits_app t : forall max acc r, all_digits t -> fits (String.length t) max ->
  scan_digits max acc (t ++ r) = scan_digits (room (String.length t) max) (digits_value acc t) r.
Proof.
  induction t as [|c t IH]; intros max acc r D F.
  - cbn. destruct max as [k|]; cbn; [now rewrite Nat.sub_0_r|reflexivity].
  - assert (C : JsonText.is_digit c = true) by (apply D, has_char_cons; auto).
    assert (D' : all_digits t) by (intros d I; apply D, has_char_cons; auto).
    destruct max as [[|k]|]; cbn [fits String.length] in F.
    + lia.
    + cbn [append scan_digits option_map pred digits_value]. rewrite C, IH by (auto; cbn; lia). reflexivity.
    + cbn [append scan_digits option_map digits_value]. rewrite C, IH by (auto; cbn; lia). reflexivity.
Qed.
Lemma scan_digits_stop max acc r : starts_digit r = false -> scan_digits max acc r = (acc, r).
Proof.
  destruct r as [|c r]; cbn; intros H.
  - destruct max as [[|k]|]; reflexivity.
  - destruct max as [[|k]|]; cbn; try rewrite H; reflexivity.
Qed.
Lemma scan_digits_result s : forall max acc v r, scan_digits max acc s = (v, r) ->
  exists t, s = t ++ r /\ all_digits t /\ v = digits_value acc t /\ fits (String.length t) max.
Proof.
  assert (Z0 : all_digits "") by (intros c H; now apply has_char_nil in H).
  induction s as [|c s IH]; intros max acc v r H.
  - exists "". assert (E : scan_digits max acc "" = (acc, "")) by (destruct max as [[|k]|]; reflexivity).
    rewrite E in H. inversion H; subst. repeat split; auto. destruct max; cbn; [lia|trivial].
  - destruct max as [[|k]|].
    + cbn in H. inversion H; subst. exists "". repeat split; auto; cbn; lia.
    + cbn [scan_digits option_map pred] in H. destruct (JsonText.is_digit c) eqn:C.
      * apply IH in H as (t & -> & D & -> & F). exists (String c t). repeat split; auto.
        -- intros d [->|I]%has_char_cons; auto.
        -- cbn in *. lia.
      * inversion H; subst. exists "". repeat split; auto. cbn. lia.
    + cbn [scan_digits option_map] in H. destruct (JsonText.is_digit c) eqn:C.
      * apply IH in H as (t & -> & D & -> & F). exists (String c t). repeat split; auto.
        intros d [->|I]%has_char_cons; auto.
      * inversion H; subst. exists "". repeat split; auto.
Qed.

Lemma scan_number_result max s n r : scan_number max s = Some (n, r) -> fits 1 max ->
  exists w t, numeral w t n /\ (1 <= w)%nat /\ fits w max /\ s = t ++ r.
Proof.
  intros H F1. destruct s as [|c s]; [discriminate|]. cbn [scan_number] in H.
  destruct (JsonText.is_digit c) eqn:C; [|discriminate].
  destruct (scan_digits max 0 (String c s)) as [v r'] eqn:E. inversion H; subst.
  assert (E' := E). apply scan_digits_result in E as (t & Et & D & -> & F).
  exists (String.length t), t. split; [apply numeral_of_digits, D|]. split; [|auto].
  destruct t as [|c' t]; [|cbn; lia]. exfalso. cbn in Et. subst r.
  destruct max as [[|k]|]; cbn [fits] in F1; [lia| |]; cbn [scan_digits option_map pred] in E'; rewrite C in E';
    apply scan_digits_result in E' as (t & Et & _ & _ & _);
    apply (f_equal String.length) in Et; rewrite slength_app in Et; cbn in Et; lia.
Qed.
Lemma scan_number_numeral max w t n r : numeral w t n -> (1 <= w)%nat -> fits w max -> starts_digit r = false ->
  scan_number max (t ++ r) = Some (n, r).
Proof.
  intros N W F S. apply numeral_facts in N as (L & D & _ & ->). rewrite <- L in *.
  destruct t as [|c t]; [cbn in W; lia|].
  unfold scan_number. cbn [append]. rewrite (D c) by (apply has_char_cons; auto).
  change (String c (t ++ r)) with (String c t ++ r). rewrite scan_digits_app by auto.
  rewrite scan_digits_stop by exact S. reflexivity.
Qed.

(** ** White space *)
Lemma is_space_iff c : is_space c = true <-> In (N_of_ascii c) [9; 10; 11; 12; 13; 32]%N.
Proof.
  unfold is_space. rewrite orb_true_iff, andb_true_iff, !N.leb_le, N.eqb_eq. cbn [In]. lia.
Qed.
Lemma trim_left_result s : exists b, blank b /\ s = b ++ trim_left s.
Proof.
  induction s as [|c s (b & B & E)]; cbn.
  - exists "". split; [constructor|reflexivity].
  - destruct (is_space c) eqn:S.
    + exists (String c b). split; [constructor; [now apply is_space_iff|exact B]|]. cbn. congruence.
    + exists "". split; [constructor|reflexivity].
Qed.
Definition starts_space (s : string) : bool := match s with String c _ => is_space c | EmptyString => false end.
Lemma trim_left_blank b r : blank b -> starts_space r = false -> trim_left (b ++ r) = r.
Proof.
  induction 1 as [|c b C _ IH]; intros S.
  - destruct r as [|c r]; [reflexivity|]. cbn in *. now rewrite S.
  - cbn. rewrite (proj2 (is_space_iff c) C). auto.
Qed.
Lemma digit_not_space c : JsonText.is_digit c = true -> is_space c = false.
Proof.
  intros H%is_digit_iff. apply not_true_iff_false. intros S%is_space_iff. cbn in S. lia.
Qed.
Lemma numeral_starts w t n r : numeral w t n -> (1 <= w)%nat -> starts_space (t ++ r) = false.
Proof.
  intros N W. apply numeral_facts in N as (L & D & _). destruct t as [|c t]; [cbn in L; lia|].
  cbn. apply digit_not_space, D, has_char_cons. auto.
Qed.

(** ** The items *)
Lemma parse_numeric_result s n r : parse_numeric s = Some (n, r) -> exists t, field t n /\ s = t ++ r.
Proof.
  unfold parse_numeric. intros H. destruct (trim_left_result s) as (b & B & E).
  apply scan_number_result in H as (w & t & N & W & F & E'); [|cbn; lia].
  exists (b ++ t). split; [exists b, w, t; cbn in F; auto|]. rewrite sapp_assoc. congruence.
Qed.
Lemma parse_numeric_field t n r : field t n -> starts_digit r = false -> parse_numeric (t ++ r) = Some (n, r).
Proof.
  intros (b & w & ds & B & N & W & ->) S. unfold parse_numeric. rewrite sapp_assoc, trim_left_blank.
  - eapply scan_number_numeral; eauto; cbn; lia.
  - exact B.
  - eapply numeral_starts; eauto. lia.
Qed.
Lemma digit_not_sign c : JsonText.is_digit c = true -> c <> "-"%char /\ c <> "+"%char.
Proof. intros H. split; intros ->; discriminate. Qed.

Lemma parse_year_unsigned s : starts_digit s = true -> (forall b, trim_left (b ++ s) = s -> parse_year (b ++ s) = scan_number (Some 4%nat) s).
Proof.
  intros D b E. unfold parse_year. rewrite E. destruct s as [|c s]; [discriminate|]. cbn in D.
  destruct (digit_not_sign c D). destruct c as [[] [] [] [] [] [] [] []]; try reflexivity; congruence.
Qed.
Lemma parse_year_result s y r : parse_year s = Some (y, r) -> exists t, year_field t y /\ s = t ++ r.
Proof.
  intros H. destruct (trim_left_result s) as (b & B & E).
  destruct (trim_left s) as [|c s'] eqn:T.
  { unfold parse_year in H. rewrite T in H. discriminate. }
  destruct (ascii_dec c "-") as [->|N1]; [|destruct (ascii_dec c "+") as [->|N2]].
  - unfold parse_year in H. rewrite T in H. destruct (scan_number None s') as [[n r']|] eqn:S; [|discriminate].
    inversion H; subst. apply scan_number_result in S as (w & t & N & W & F & ->); [|exact I].
    exists (b ++ "-" ++ t). split; [|cbn; now rewrite sapp_assoc].
    exists b, w, t, n. repeat (split; [auto|]). right; right. auto.
  - unfold parse_year in H. rewrite T in H.
    apply scan_number_result in H as (w & t & N & W & F & ->); [|exact I]. subst s.
    exists (b ++ "+" ++ t). split; [|cbn; now rewrite sapp_assoc].
    exists b, w, t, y. repeat (split; [auto|]). right; left. auto.
  - assert (H' : scan_number (Some 4%nat) (String c s') = Some (y, r)).
    { unfold parse_year in H. rewrite T in H. destruct c as [[] [] [] [] [] [] [] []]; try exact H; congruence. }
    apply scan_number_result in H' as (w & t & N & W & F & E'); [|cbn; lia]. rewrite E' in E. subst s.
    exists (b ++ t). split; [|now rewrite sapp_assoc].
    exists b, w, t, y. repeat (split; [auto|]). left. cbn in F. auto.
Qed.
Lemma parse_year_field t y r : year_field t y -> starts_digit r = false -> parse_year (t ++ r) = Some (y, r).
Proof.
  intros (b & w & ds & n & B & N & W & [(L & -> & ->)|[(-> & ->)|(-> & ->)]]) S; rewrite !sapp_assoc.
  - assert (D : starts_digit (ds ++ r) = true).
    { apply numeral_facts in N as (LN & D & _). destruct ds as [|c ds]; [cbn in LN; lia|].
      cbn. apply D, has_char_cons. auto. }
    rewrite parse_year_unsigned; [|exact D|].
    + eapply scan_number_numeral; eauto.
    + apply trim_left_blank; [exact B|]. eapply numeral_starts; eauto.
  - unfold parse_year. rewrite trim_left_blank by (auto; reflexivity). cbn [append].
    eapply scan_number_numeral; eauto. exact I.
  - unfold parse_year. rewrite trim_left_blank by (auto; reflexivity). cbn [append].
    erewrite scan_number_numeral; eauto; [reflexivity|exact I].
Qed.
Lemma parse_literal_result c s r : parse_literal c s = Some r <-> s = String c r.
Proof.
  destruct s as [|d s]; cbn; [split; discriminate|].
  destruct (Ascii.eqb_spec c d) as [->|N]; split; intros H; inversion H; subst; congruence.
Qed.

Lemma field_nonneg t n : field t n -> 0 <= n < 100.
Proof.
  intros (b & w & ds & _ & N & W & _). apply numeral_facts in N as (_ & _ & B & _).
  assert (10 ^ Z.of_nat w <= 10 ^ 2) by (apply Z.pow_le_mono_r; lia). lia.
Qed.

(** ** The whole *)
Definition seconds_of_day (x : stamp) : Z := s_hour x * 3600 + s_minute x * 60 + Z.min (s_second x) 59.
Definition leap_part (x : stamp) : Z := if s_second x =? 60 then 1000000000 else 0.

Lemma at_instant_iff x t : at_instant x t <->
  real_date (s_date x) /\ (let '(y, m, d) := s_date x in t = instant (day_number y m d) (seconds_of_day x) (leap_part x)).
Proof.
  unfold at_instant, instant, seconds_of_day, leap_part, ticks_per_second.
  destruct (s_date x) as [[y m] d]. split.
  - intros (n & [R ->]%nth_day_iff & ->). split; [exact R|]. lia.
  - intros [R ->]. exists (day_number y m d). split; [apply nth_day_iff; auto|]. lia.
Qed.

Lemma time_of_spec x : 0 <= s_hour x -> 0 <= s_minute x -> 0 <= s_second x -> forall p,
  time_of (s_hour x) (s_minute x) (s_second x) = Some p <->
  s_hour x <= 23 /\ s_minute x <= 59 /\ s_second x <= 60 /\ p = (seconds_of_day x, leap_part x).
Proof.
  intros H1 H2 H3 p. unfold time_of, seconds_of_day, leap_part.
  destruct (Z.leb_spec (s_hour x) 23); cbn [andb]; [|split; [discriminate|lia]].
  destruct (Z.leb_spec (s_minute x) 59); cbn [andb]; [|split; [discriminate|lia]].
  destruct (Z.leb_spec (s_second x) 60); [|split; [discriminate|lia]].
  destruct (Z.eqb_spec (s_second x) 60) as [E|].
  - rewrite E. split; [intros Q; inversion Q; repeat (split; [lia|]); reflexivity|intros (_ & _ & _ & ->); reflexivity].
  - rewrite Z.min_l by lia. split; [intros Q; inversion Q; auto|intros (_ & _ & _ & ->); reflexivity].
Qed.

Lemma obind_Some {A B} (x : option A) (f : A -> option B) b :
  obind x f = Some b <-> exists a, x = Some a /\ f a = Some b.
Proof. destruct x as [a|]; cbn; split; [eauto|intros (a' & E & H); inversion E; subst; exact H|discriminate|intros (a' & E & _); discriminate]. Qed.

(** What the reader makes of a date and time it has found spelled out. *)
Definition read_stamp (x : stamp) : option Z :=
  let '(y, m, d) := s_date x in
  if valid_date y m d then
    obind (time_of (s_hour x) (s_minute x) (s_second x)) (fun '(secs, frac) => Some (instant (day_number y m d) secs frac))
  else None.
Lemma parse_spelled t x : spells t x -> parse_datetime_opt t = read_stamp x.
Proof.
  intros (ty & tm & td & th & ti & ts & y & m & d & E & F1 & F2 & F3 & F4 & F5 & F6 & ->).
  unfold parse_datetime_opt.
  erewrite parse_year_field by first [eassumption | reflexivity]. cbn [append obind parse_literal].
  change (Ascii.eqb "-" "-") with true. cbv iota. cbn [obind].
  erewrite parse_numeric_field by first [eassumption | reflexivity]. cbn [append obind parse_literal].
  change (Ascii.eqb "-" "-") with true. cbv iota. cbn [obind].
  erewrite parse_numeric_field by first [eassumption | reflexivity]. cbn [append obind parse_literal].
  change (Ascii.eqb "T" "T") with true. cbv iota. cbn [obind].
  erewrite parse_numeric_field by first [eassumption | reflexivity]. cbn [append obind parse_literal].
  change (Ascii.eqb ":" ":") with true. cbv iota. cbn [obind].
  erewrite parse_numeric_field by first [eassumption | reflexivity]. cbn [append obind parse_literal].
  change (Ascii.eqb ":" ":") with true. cbv iota. cbn [obind].
  erewrite parse_numeric_field by first [eassumption | reflexivity]. cbn [append obind parse_literal].
  change (Ascii.eqb "Z" "Z") with true. cbv iota. cbn [obind].
  unfold read_stamp. rewrite E. reflexivity.
Qed.

Lemma parse_datetime_iff t z : parse_datetime t = Ok z <->
  exists x, spells t x /\ real_stamp x /\ chrono_year x /\ at_instant x z.
Proof.
  assert (O : parse_datetime t = Ok z <-> parse_datetime_opt t = Some z).
  { unfold parse_datetime. destruct (parse_datetime_opt t); split; intros H; inversion H; reflexivity. }
  rewrite O. clear O. unfold parse_datetime_opt. split.
  - intros H.
    apply obind_Some in H as ([y r1] & P1 & H). apply parse_year_result in P1 as (ty & F1 & ->).
    apply obind_Some in H as (r2 & ->%parse_literal_result & H).
    apply obind_Some in H as ([m r3] & P2 & H). apply parse_numeric_result in P2 as (tm & F2 & ->).
    apply obind_Some in H as (r4 & ->%parse_literal_result & H).
    apply obind_Some in H as ([d r5] & P3 & H). apply parse_numeric_result in P3 as (td & F3 & ->).
    apply obind_Some in H as (r6 & ->%parse_literal_result & H).
    apply obind_Some in H as ([h r7] & P4 & H). apply parse_numeric_result in P4 as (th & F4 & ->).
    apply obind_Some in H as (r8 & ->%parse_literal_result & H).
    apply obind_Some in H as ([mi r9] & P5 & H). apply parse_numeric_result in P5 as (ti & F5 & ->).
    apply obind_Some in H as (r10 & ->%parse_literal_result & H).
    apply obind_Some in H as ([s r11] & P6 & H). apply parse_numeric_result in P6 as (ts & F6 & ->).
    apply obind_Some in H as (r12 & ->%parse_literal_result & H).
    destruct r12; [|discriminate]. destruct (valid_date y m d) eqn:V; [|discriminate].
    apply valid_date_iff in V as [Y R]. apply obind_Some in H as ([secs frac] & T & H).
    set (x := mkStamp (y, m, d) h mi s).
    assert (T' : time_of (s_hour x) (s_minute x) (s_second x) = Some (secs, frac)) by exact T.
    apply time_of_spec in T' as (T1 & T2 & T3 & T4);
      try (cbn; match goal with F : field _ ?v |- 0 <= ?v => apply field_nonneg in F; lia end).
    exists x. split; [|split; [|split]].
    + exists ty, tm, td, th, ti, ts, y, m, d. repeat (split; [first [reflexivity|assumption]|]). reflexivity.
    + apply field_nonneg in F4, F5, F6. cbn in *. unfold real_stamp. cbn. repeat (split; [first [assumption|lia]|]). lia.
    + exact Y.
    + apply at_instant_iff. split; [exact R|]. cbn [s_date x]. inversion T4; subst. inversion H; reflexivity.
  - intros (x & S & (R & B1 & B2 & B3) & Y & A).
    change (parse_datetime_opt t = Some z). rewrite (parse_spelled t x S). unfold read_stamp.
    unfold chrono_year in Y. apply at_instant_iff in A as [_ A]. destruct (s_date x) as [[y m] d].
    rewrite (proj2 (valid_date_iff y m d)) by auto.
    rewrite (proj2 (time_of_spec x ltac:(lia) ltac:(lia) ltac:(lia) _)) by (repeat (split; [lia|]); reflexivity).
    cbn [obind]. congruence.
Qed.

(** ** Writing *)
Lemma zeros_length k : String.length (zeros k) = k.
Proof. induction k; cbn; congruence. Qed.
Lemma zeros_value k : digits_value 0 (zeros k) = 0%N.
Proof. induction k; cbn; auto. Qed.
Lemma zeros_digits k : all_digits (zeros k).
Proof. induction k; intros c H; [now apply has_char_nil in H|]. apply has_char_cons in H as [->|H]; [reflexivity|auto]. Qed.

Lemma natural_facts t n : SpecJson.natural t n ->
  all_digits t /\ digits_value 0 t = n /\ (1 <= String.length t)%nat /\
  ((String.length t <= 1)%nat \/ (10 ^ N.of_nat (String.length t - 1) <= n)%N).
Proof.
  induction 1 as [c d [D C]|t n c d N (A & V & L & B) NZ [D C]]; unfold SpecJson.code in *.
  - split; [|split; [cbn; lia|cbn; split; [lia|left; lia]]].
    intros e H%has_char_one. subst e. apply is_digit_iff. lia.
  - split; [|split; [|split]].
    + intros e [H|H]%has_char_app; [auto|]. apply has_char_one in H. subst e. apply is_digit_iff. lia.
    + rewrite digits_value_app. cbn [digits_value]. lia.
    + rewrite slength_app. cbn. lia.
    + right. rewrite slength_app. cbn [String.length]. replace (String.length t + 1 - 1)%nat with (String.length t) by lia.
      destruct B as [B|B].
      * replace (String.length t) with 1%nat by lia. change (10 ^ N.of_nat 1)%N with 10%N. lia.
      * replace (String.length t) with (S (String.length t - 1)) by lia.
        rewrite Nat2N.inj_succ, N.pow_succ_r'. lia.
Qed.

Lemma pad_numeral w n : (1 <= w)%nat -> (n < 10 ^ N.of_nat w)%N -> numeral w (pad w n) (Z.of_N n).
Proof.
  intros W B. unfold pad. destruct (natural_facts _ _ (JsonProofs.decimal_natural n)) as (D & V & L & Q).
  assert (F : (String.length (decimal n) <= w)%nat).
  { destruct Q as [Q|Q]; [lia|]. apply Nat.nlt_ge. intros G.
    assert (10 ^ N.of_nat w <= 10 ^ N.of_nat (String.length (decimal n) - 1))%N by (apply N.pow_le_mono_r; lia). lia. }
  assert (A : all_digits (zeros (w - String.length (decimal n)) ++ decimal n)).
  { intros c [H|H]%has_char_app; [eapply zeros_digits; eauto|auto]. }
  pose proof (numeral_of_digits _ A) as N. rewrite slength_app, zeros_length in N.
  replace (w - String.length (decimal n) + String.length (decimal n))%nat with w in N by lia.
  rewrite digits_value_app, zeros_value, V in N. exact N.
Qed.
Lemma pad_z_numeral w z : (1 <= w)%nat -> 0 <= z < 10 ^ Z.of_nat w -> numeral w (pad_z w z) z.
Proof.
  intros W B. unfold pad_z. destruct (Z.ltb_spec z 0); [lia|].
  replace z with (Z.of_N (Z.to_N z)) at 2 by lia. apply pad_numeral; [exact W|].
  rewrite <- (Z2N.id z) in B by lia. apply N2Z.inj_lt. rewrite N2Z.inj_pow. rewrite nat_N_Z. lia.
Qed.

(** Fields of an instant. *)
Lemma instant_fields day secs frac : 0 <= secs < 86400 -> 0 <= frac < ticks_per_second ->
  instant day secs frac / ticks_per_second / 86400 = day /\ (instant day secs frac / ticks_per_second) mod 86400 = secs.
Proof.
  intros S F. unfold instant. rewrite Z.div_add_l by (unfold ticks_per_second; lia).
  rewrite (Z.div_small frac) by exact F. rewrite Z.add_0_r. split; lia.
Qed.

Definition century_year (x : stamp) : Prop := let '(y, _, _) := s_date x in 0 <= y <= 9999.
Definition no_leap_second (x : stamp) : stamp := mkStamp (s_date x) (s_hour x) (s_minute x) (Z.min (s_second x) 59).

Lemma format_spells x z : real_stamp x -> century_year x -> at_instant x z ->
  spells_fixed (format_datetime z) (no_leap_second x).
Proof.
  intros (R & B1 & B2 & B3) C A. apply at_instant_iff in A as [_ A]. unfold century_year in C.
  destruct (s_date x) as [[y m] d] eqn:E. subst z.
  assert (S : 0 <= seconds_of_day x < 86400) by (unfold seconds_of_day; lia).
  destruct (instant_fields (day_number y m d) (seconds_of_day x) (leap_part x)) as [I1 I2].
  { exact S. } { unfold leap_part, ticks_per_second. destruct (s_second x =? 60); lia. }
  unfold format_datetime. rewrite I1, I2, date_of_day_number by exact R.
  unfold no_leap_second. rewrite E.
  apply real_date_iff in R as [M D].
  assert (DM : d <= 31) by (unfold valid_month in M; destruct (leap_year y); months m; cbn in D; lia).
  unfold valid_month in M.
  exists (pad_z 4 y), (pad_z 2 m), (pad_z 2 d), (pad_z 2 (seconds_of_day x / 3600)),
    (pad_z 2 (seconds_of_day x mod 3600 / 60)), (pad_z 2 (seconds_of_day x mod 60)), y, m, d.
  assert (Q : seconds_of_day x / 3600 = s_hour x /\ seconds_of_day x mod 3600 / 60 = s_minute x /\
              seconds_of_day x mod 60 = Z.min (s_second x) 59).
  { unfold seconds_of_day. set (h := s_hour x) in *. set (mi := s_minute x) in *. set (s := Z.min (s_second x) 59).
    assert (0 <= s <= 59) by (subst s; lia). clearbody h mi s. clear - B1 B2 H. split; [lia|]. split; [|lia].
    replace ((h * 3600 + mi * 60 + s) mod 3600) with (mi * 60 + s) by lia. lia. }
  destruct Q as (-> & -> & ->). cbn [s_date s_hour s_minute s_second].
  split; [reflexivity|].
  repeat (split; [apply pad_z_numeral; cbn; lia|]). reflexivity.
Qed.

Lemma fixed_spells t x : spells_fixed t x -> spells t x.
Proof.
  intros (ty & tm & td & th & ti & ts & y & m & d & E & F1 & F2 & F3 & F4 & F5 & F6 & ->).
  assert (FF : forall t n, numeral 2 t n -> field t n).
  { intros t n N. exists "", 2%nat, t. split; [constructor|]. split; [exact N|]. split; [lia|reflexivity]. }
  exists ty, tm, td, th, ti, ts, y, m, d. split; [exact E|]. split.
  - exists "", 4%nat, ty, y. split; [constructor|]. split; [exact F1|]. split; [lia|]. left. split; [lia|auto].
  - repeat (split; [apply FF; assumption|]). reflexivity.
Qed.

Lemma compare_numerals w : forall t n t' n' s s', numeral w t n -> numeral w t' n' ->
  String.compare (t ++ s) (t' ++ s') = match n ?= n' with Eq => String.compare s s' | c => c end.
Proof.
  induction w as [|w IH]; intros t n t' n' s s' H H'.
  - inversion H; inversion H'; subst. reflexivity.
  - inversion H as [|? t0 n0 c k N0 K C]; inversion H' as [|? t1 n1 c' k' N1 K' C']; subst.
    rewrite !sapp_assoc. cbn [append]. erewrite IH by eassumption. cbn [String.compare].
    unfold Ascii.compare.
    destruct (Z.compare_spec n0 n1) as [->|L|L].
    + destruct (Z.compare_spec (10 * n1 + k) (10 * n1 + k')) as [Q|Q|Q].
      * rewrite (proj2 (N.compare_eq_iff _ _)) by lia. reflexivity.
      * rewrite (proj2 (N.compare_lt_iff _ _)) by lia. reflexivity.
      * rewrite (proj2 (N.compare_gt_iff _ _)) by lia. reflexivity.
    + rewrite (proj2 (Z.compare_lt_iff _ _)) by lia. reflexivity.
    + rewrite (proj2 (Z.compare_gt_iff _ _)) by lia. reflexivity.
Qed.

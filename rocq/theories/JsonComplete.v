(** * The reader accepts every JSON text (up to the nesting limit) and gets its
    value right *)
From Coq Require Import String Ascii List NArith ZArith Bool Lia.
From Verif Require Import Base StringFacts JsonValue Utf8 Paths JsonText SpecJson.
Import ListNotations.
Open Scope string_scope.

Scheme value_text_mut := Induction for value_text Sort Prop
  with elements_mut := Induction for elements Sort Prop
  with members_mut := Induction for members Sort Prop.
Combined Scheme value_text_mutind from value_text_mut, elements_mut, members_mut.

(** Everything holds for any nesting limit [lim]. *)
Section Complete.
Context (lim : nat).
Local Notation step_value := (JsonText.step_value lim).
Local Notation step := (JsonText.step lim).
Local Notation feed := (JsonText.feed lim).

Lemma feed_app st a b : feed st (a ++ b) = feed (feed st a) b.
Proof. revert st; induction a as [|c a IH]; intros st; cbn; [reflexivity | apply IH]. Qed.

Lemma feed_failed s : feed Failed s = Failed.
Proof. induction s; cbn; auto. Qed.

Lemma code_inj c d : code c = code d -> c = d.
Proof. unfold code; intros E. rewrite <- (ascii_N_embedding c), <- (ascii_N_embedding d), E; reflexivity. Qed.

Lemma code_of_N n : (n < 256)%N -> code (ascii_of_N n) = n.
Proof. apply N_ascii_embedding. Qed.

(** Case analysis over all 256 characters. *)
Ltac all_chars c :=
  destruct c as [[] [] [] [] [] [] [] []]; cbn in *; try reflexivity; try discriminate; try lia.

Lemma is_ws_white c : is_ws c = true <-> In (code c) [32; 9; 10; 13]%N.
Proof.
  split.
  - destruct c as [[] [] [] [] [] [] [] []]; cbn; intros H; try discriminate; tauto.
  - destruct c as [[] [] [] [] [] [] [] []]; cbn; intros H; try reflexivity; lia.
Qed.

Lemma is_digit_digit c : is_digit c = true <-> digit c (code c - 48).
Proof.
  unfold is_digit, digit, code. rewrite andb_true_iff, !N.leb_le. pose proof (N_ascii_lt c). lia.
Qed.
Lemma digit_is_digit c d : digit c d -> is_digit c = true.
Proof. unfold is_digit, digit, code. rewrite andb_true_iff, !N.leb_le. lia. Qed.
Lemma digit_value c d : digit c d -> (N_of_ascii c - 48 = d)%N.
Proof. unfold digit, code. lia. Qed.

(** ** White space *)
Lemma feed_white_value stk w rest : white w ->
  feed (Run stk MValue) (w ++ rest) = feed (Run stk MValue) rest.
Proof.
  induction 1 as [|c w H _ IH]; [reflexivity|].
  cbn [JsonText.feed append JsonText.step]. unfold JsonText.step_value. apply is_ws_white in H. rewrite H. exact IH.
Qed.
Lemma ws_not_bracket c : is_ws c = true -> Ascii.eqb c "]" = false.
Proof. all_chars c. Qed.
Lemma feed_white_first stk w rest : white w ->
  feed (Run stk MFirst) (w ++ rest) = feed (Run stk MFirst) rest.
Proof.
  induction 1 as [|c w H _ IH]; [reflexivity|].
  apply is_ws_white in H. cbn [JsonText.feed append JsonText.step].
  rewrite (ws_not_bracket c H). unfold JsonText.step_value. rewrite H. exact IH.
Qed.
Lemma feed_white_done stk v w rest : white w ->
  feed (Run stk (MDone v)) (w ++ rest) = feed (Run stk (MDone v)) rest.
Proof.
  induction 1 as [|c w H _ IH]; [reflexivity|].
  cbn [JsonText.feed append JsonText.step]. unfold step_done. apply is_ws_white in H. rewrite H. exact IH.
Qed.
Lemma feed_white_key stk d b w rest : white w ->
  feed (Run stk (MKey d b)) (w ++ rest) = feed (Run stk (MKey d b)) rest.
Proof.
  induction 1 as [|c w H _ IH]; [reflexivity|].
  cbn [JsonText.feed append JsonText.step]. apply is_ws_white in H. rewrite H. exact IH.
Qed.
Lemma feed_white_colon stk d k w rest : white w ->
  feed (Run stk (MColon d k)) (w ++ rest) = feed (Run stk (MColon d k)) rest.
Proof.
  induction 1 as [|c w H _ IH]; [reflexivity|].
  cbn [JsonText.feed append JsonText.step]. apply is_ws_white in H. rewrite H. exact IH.
Qed.

(** ** Strings *)
Lemma hexit_val c n : hexit c n -> hex_val c = Some n.
Proof.
  unfold hexit, hex_val, code. intros H.
  destruct ((48 <=? N_of_ascii c)%N && (N_of_ascii c <=? 57)%N) eqn:E1.
  - apply andb_true_iff in E1. rewrite !N.leb_le in E1. f_equal. lia.
  - apply andb_false_iff in E1. rewrite !N.leb_gt in E1.
    destruct ((97 <=? N_of_ascii c)%N && (N_of_ascii c <=? 102)%N) eqn:E2.
    + apply andb_true_iff in E2. rewrite !N.leb_le in E2. f_equal. lia.
    + apply andb_false_iff in E2. rewrite !N.leb_gt in E2.
      assert (E3 : ((65 <=? N_of_ascii c)%N && (N_of_ascii c <=? 70)%N) = true)
        by (rewrite andb_true_iff, !N.leb_le; lia).
      rewrite E3. f_equal. lia.
Qed.

Lemma feed_hex4 stk ctx acc high h n : hex4 h n ->
  feed (Run stk (MStr ctx acc (EHex high 4 0))) h = unicode_escape stk ctx acc high n.
Proof.
  intros [a b c d na nb nc nd Ha Hb Hc Hd].
  cbn [JsonText.feed step step_string]. rewrite (hexit_val _ _ Ha).
  cbn [JsonText.feed step step_string]. rewrite (hexit_val _ _ Hb).
  cbn [JsonText.feed step step_string]. rewrite (hexit_val _ _ Hc).
  cbn [JsonText.feed step step_string]. rewrite (hexit_val _ _ Hd).
  f_equal. lia.
Qed.

Lemma feed_spelled stk ctx t b : spelled t b ->
  feed (Run stk (MStr ctx "" EPlain)) t = Run stk (MStr ctx b EPlain).
Proof.
  induction 1 as [|t b c _ IH H1 H2 H3|t b e n _ IH H|t b h n _ IH H N|t b h1 n1 h2 n2 _ IH H1 N1 H2 N2].
  - reflexivity.
  - rewrite feed_app, IH. cbn [JsonText.feed step step_string]. unfold push, code in *.
    assert (E1 : Ascii.eqb c """" = false) by (apply Ascii.eqb_neq; intros ->; cbn in H2; lia).
    assert (E2 : Ascii.eqb c "\" = false) by (apply Ascii.eqb_neq; intros ->; cbn in H3; lia).
    assert (E3 : (N_of_ascii c <? 32)%N = false) by (apply N.ltb_ge; exact H1).
    rewrite E1, E2, E3. reflexivity.
  - rewrite feed_app, IH. cbn [JsonText.feed step step_string Ascii.eqb Bool.eqb].
    cbn in H. repeat (destruct H as [H|H]; [inversion H; subst; reflexivity|]). destruct H.
  - rewrite feed_app, IH. cbn [append JsonText.feed]. cbn [JsonText.step step_string Ascii.eqb Bool.eqb].
    cbn [JsonText.step step_string Ascii.eqb Bool.eqb]. rewrite (feed_hex4 _ _ _ _ _ _ H).
    unfold unicode_escape, surrogate in *.
    assert (E1 : ((55296 <=? n)%N && (n <=? 56319)%N) = false)
      by (apply andb_false_iff; rewrite !N.leb_gt; lia).
    assert (E2 : ((56320 <=? n)%N && (n <=? 57343)%N) = false)
      by (apply andb_false_iff; rewrite !N.leb_gt; lia).
    rewrite E1, E2. reflexivity.
  - rewrite feed_app, IH.
    cbn [append JsonText.feed]. cbn [JsonText.step step_string Ascii.eqb Bool.eqb]. cbn [JsonText.step step_string Ascii.eqb Bool.eqb].
    rewrite feed_app, (feed_hex4 _ _ _ _ _ _ H1). unfold unicode_escape at 1.
    unfold high_surrogate, low_surrogate in *.
    assert (E1 : ((55296 <=? n1)%N && (n1 <=? 56319)%N) = true)
      by (apply andb_true_iff; rewrite !N.leb_le; lia).
    rewrite E1. cbn [append JsonText.feed step step_string Ascii.eqb Bool.eqb].
    cbn [JsonText.step step_string Ascii.eqb Bool.eqb].
    rewrite (feed_hex4 _ _ _ _ _ _ H2). unfold unicode_escape.
    assert (E2 : ((56320 <=? n2)%N && (n2 <=? 57343)%N) = true)
      by (apply andb_true_iff; rewrite !N.leb_le; lia).
    rewrite E2. reflexivity.
Qed.

Lemma feed_literal_value stk t s : literal t s ->
  feed (Run stk MValue) t = Run stk (MDone (JStr s)).
Proof.
  intros [t' b H V]. cbn [append JsonText.feed]. cbn [JsonText.step]. unfold JsonText.step_value. cbn.
  change (feed (Run stk (MStr CtxValue "" EPlain)) (t' ++ """") = Run stk (MDone (JStr b))).
  rewrite feed_app, (feed_spelled _ _ _ _ H). cbn. unfold end_string. rewrite V. reflexivity.
Qed.
Lemma feed_literal_key stk d b t s : literal t s ->
  feed (Run stk (MKey d b)) t = Run stk (MColon d s).
Proof.
  intros [t' s' H V]. cbn [append JsonText.feed]. cbn [JsonText.step is_ws Ascii.eqb Bool.eqb orb].
  rewrite feed_app, (feed_spelled _ _ _ _ H). cbn. unfold end_string. rewrite V. reflexivity.
Qed.

(** ** Numbers *)
Lemma digits_value_app acc a c :
  digits_value acc (a ++ String c "") = (digits_value acc a * 10 + (N_of_ascii c - 48))%N.
Proof. revert acc; induction a as [|x a IH]; intros acc; cbn; [reflexivity | apply IH]. Qed.

Lemma natural_value t n : natural t n -> digits_value 0 t = n.
Proof.
  induction 1 as [c d H|t n c d _ IH N H].
  - cbn. rewrite (digit_value _ _ H). lia.
  - rewrite digits_value_app, IH, (digit_value _ _ H). lia.
Qed.

(** State after the integer part, with whatever was read before it. *)
Definition int_phase (n : N) : num_phase := if (n =? 0)%N then NZero else NInt.

Lemma digit_char c d : digit c d -> c = ascii_of_N (48 + d).
Proof. intros [H E]. apply code_inj. rewrite code_of_N by lia. exact E. Qed.

Lemma feed_natural_minus stk t n : natural t n ->
  feed (Run stk (MNum NMinus "-")) t = Run stk (MNum (int_phase n) ("-" ++ t)).
Proof.
  induction 1 as [c d H|t n c d N1 IH N H].
  - cbn [JsonText.feed step num_step]. unfold int_phase.
    destruct (d =? 0)%N eqn:E.
    + apply N.eqb_eq in E; subst d. rewrite (digit_char _ _ H). reflexivity.
    + apply N.eqb_neq in E.
      assert (E1 : Ascii.eqb c "0" = false).
      { apply Ascii.eqb_neq; intros ->. destruct H as [_ H]; change (code "0") with 48%N in H; lia. }
      rewrite E1, (digit_is_digit _ _ H). reflexivity.
  - rewrite feed_app, IH. unfold int_phase.
    rewrite (proj2 (N.eqb_neq n 0) N).
    assert (E : (10 * n + d =? 0)%N = false) by (apply N.eqb_neq; lia). rewrite E.
    cbn [JsonText.feed step num_step]. rewrite (digit_is_digit _ _ H). reflexivity.
Qed.

Lemma feed_natural stk t n : natural t n ->
  feed (Run stk MValue) t = Run stk (MNum (int_phase n) t).
Proof.
  induction 1 as [c d H|t n c d N1 IH N H].
  - cbn [JsonText.feed JsonText.step]. unfold JsonText.step_value, int_phase.
    pose proof (digit_char _ _ H) as E. destruct H as [H _].
    assert (D : (d = 0 \/ d = 1 \/ d = 2 \/ d = 3 \/ d = 4 \/ d = 5 \/ d = 6 \/ d = 7 \/ d = 8 \/ d = 9)%N) by lia.
    repeat (destruct D as [D|D]; [subst d c; reflexivity|]). subst d c; reflexivity.
  - rewrite feed_app, IH. unfold int_phase.
    rewrite (proj2 (N.eqb_neq n 0) N).
    assert (E : (10 * n + d =? 0)%N = false) by (apply N.eqb_neq; lia). rewrite E.
    cbn [JsonText.feed step num_step]. rewrite (digit_is_digit _ _ H). reflexivity.
Qed.

Lemma feed_sign_natural stk s t n : minus_opt s -> natural t n ->
  feed (Run stk MValue) (s ++ t) = Run stk (MNum (int_phase n) (s ++ t)).
Proof.
  intros [->| ->] H; [exact (feed_natural _ _ _ H)|].
  cbn [append JsonText.feed]. exact (feed_natural_minus _ _ _ H).
Qed.

Lemma feed_digits stk p q lit f :
  (forall c d, digit c d -> num_step p c = Some q) ->
  (forall c d, digit c d -> num_step q c = Some q) ->
  digits f -> feed (Run stk (MNum p lit)) f = Run stk (MNum q (lit ++ f)).
Proof.
  intros P Q. induction 1 as [c d H|t c d _ IH H].
  - cbn [JsonText.feed JsonText.step]. rewrite (P _ _ H). reflexivity.
  - rewrite feed_app, IH. cbn [JsonText.feed JsonText.step]. rewrite (Q _ _ H). unfold push.
    rewrite sapp_assoc. reflexivity.
Qed.
Lemma dot_step n : num_step (int_phase n) "." = Some NDot.
Proof. unfold int_phase. destruct (n =? 0)%N; reflexivity. Qed.

Lemma feed_frac stk lit n f : digits f ->
  feed (Run stk (MNum (int_phase n) lit)) ("." ++ f) = Run stk (MNum NFrac (lit ++ "." ++ f)).
Proof.
  intros H. cbn [append JsonText.feed JsonText.step]. rewrite dot_step.
  rewrite (feed_digits stk NDot NFrac) with (f := f);
    [|intros c d D; cbn [num_step]; rewrite (digit_is_digit _ _ D); reflexivity
     |intros c d D; cbn [num_step]; rewrite (digit_is_digit _ _ D); reflexivity|exact H].
  unfold push. rewrite sapp_assoc. reflexivity.
Qed.

Lemma feed_exponent stk p lit e : p = NZero \/ p = NInt \/ p = NFrac -> exponent e ->
  feed (Run stk (MNum p lit)) e = Run stk (MNum NExpInt (lit ++ e)).
Proof.
  intros P [x s d X S D]. cbn [JsonText.feed JsonText.step].
  assert (E : num_step p x = Some NExp).
  { destruct P as [->|[->| ->]], X as [->| ->]; reflexivity. }
  rewrite E. rewrite feed_app.
  assert (DS : forall lit p, p = NExp \/ p = NExpSign ->
            feed (Run stk (MNum p lit)) d = Run stk (MNum NExpInt (lit ++ d))).
  { intros lit' p' P'. apply feed_digits; [| |exact D]; intros c n H;
      pose proof (digit_is_digit _ _ H) as H'; [destruct P' as [->| ->]|];
      cbn [num_step]; rewrite H'; reflexivity. }
  destruct S as [->|[->| ->]].
  - cbn [JsonText.feed append]. rewrite DS by tauto. unfold push. rewrite sapp_assoc. reflexivity.
  - cbn [JsonText.feed step num_step is_digit]. cbn. rewrite DS by tauto. unfold push.
    rewrite !sapp_assoc. reflexivity.
  - cbn [JsonText.feed step num_step is_digit]. cbn. rewrite DS by tauto. unfold push.
    rewrite !sapp_assoc. reflexivity.
Qed.

(** After [t] the reader holds the value [v], possibly still inside a number. *)
Definition settles (st : state) (stk : list frame) (v : json) : Prop :=
  st = Run stk (MDone v) \/ exists p lit, st = Run stk (MNum p lit) /\ number p lit = Some v.

Lemma natural_head t n : natural t n -> exists c r, t = String c r /\ is_digit c = true.
Proof.
  induction 1 as [c d H|t n c d _ IH _ _].
  - exists c, "". split; [reflexivity|exact (digit_is_digit _ _ H)].
  - destruct IH as (c' & r & -> & D). exists c', (r ++ String c ""). split; [reflexivity|exact D].
Qed.
Lemma int_number_nat t n : natural t n ->
  int_number t = if (n <=? u64_max)%N then JInt (Z.of_N n) else JFloat t.
Proof.
  intros H. rewrite <- (natural_value _ _ H). destruct (natural_head _ _ H) as (c & r & -> & D).
  revert D. unfold int_number.
  destruct c as [[] [] [] [] [] [] [] []]; try reflexivity; intros; discriminate.
Qed.

Lemma number_int n lit : number (int_phase n) lit = Some (int_number lit).
Proof. unfold int_phase; destruct (n =? 0)%N; reflexivity. Qed.

Lemma feed_number stk t v : number_text t v -> settles (feed (Run stk MValue) t) stk v.
Proof.
  intros H; right; destruct H as [t n H L|t n H L|t n H L|t n H L|s t n f S H F|s t n e S H X|s t n f e S H F X].
  - exists (int_phase n), t. split; [exact (feed_natural _ _ _ H)|].
    rewrite number_int, (int_number_nat _ _ H), (proj2 (N.leb_le _ _) L). reflexivity.
  - exists (int_phase n), ("-" ++ t). split; [exact (feed_sign_natural stk "-" t n (or_intror eq_refl) H)|].
    rewrite number_int. cbn [append int_number]. rewrite (natural_value _ _ H).
    assert (E : ((n =? 0)%N || (9223372036854775808 <? n)%N) = false).
    { apply orb_false_iff. rewrite N.eqb_neq, N.ltb_ge. lia. }
    rewrite E. reflexivity.
  - exists (int_phase n), t. split; [exact (feed_natural _ _ _ H)|].
    rewrite number_int, (int_number_nat _ _ H), (proj2 (N.leb_gt _ _) L). reflexivity.
  - exists (int_phase n), ("-" ++ t). split; [exact (feed_sign_natural stk "-" t n (or_intror eq_refl) H)|].
    rewrite number_int. cbn [append int_number]. rewrite (natural_value _ _ H).
    assert (E : ((n =? 0)%N || (9223372036854775808 <? n)%N) = true).
    { apply orb_true_iff. rewrite N.eqb_eq, N.ltb_lt. lia. }
    rewrite E. reflexivity.
  - exists NFrac, (s ++ t ++ "." ++ f). split; [|reflexivity].
    rewrite <- sapp_assoc, feed_app, (feed_sign_natural _ _ _ _ S H), (feed_frac _ _ _ _ F).
    rewrite !sapp_assoc. reflexivity.
  - exists NExpInt, (s ++ t ++ e). split; [|reflexivity].
    rewrite <- sapp_assoc, feed_app, (feed_sign_natural _ _ _ _ S H).
    apply feed_exponent; [unfold int_phase; destruct (n =? 0)%N; tauto|exact X].
  - exists NExpInt, (s ++ t ++ "." ++ f ++ e). split; [|reflexivity].
    replace (s ++ t ++ "." ++ f ++ e) with ((s ++ t) ++ ("." ++ f) ++ e) by (rewrite !sapp_assoc; reflexivity).
    rewrite feed_app, (feed_sign_natural _ _ _ _ S H), feed_app, (feed_frac _ _ _ _ F).
    rewrite (feed_exponent _ _ _ _ (or_intror (or_intror eq_refl)) X).
    rewrite !sapp_assoc. reflexivity.
Qed.

(** ** Values *)

(** Characters that may follow a value. *)
Definition delimiter (c : ascii) : Prop :=
  is_ws c = true \/ c = ","%char \/ c = "]"%char \/ c = "}"%char.

Lemma delimiter_ends_number p c : delimiter c -> num_step p c = None.
Proof.
  intros [H|[->|[->| ->]]]; [|destruct p; reflexivity..].
  destruct c as [[] [] [] [] [] [] [] []]; try discriminate; destruct p; reflexivity.
Qed.

Lemma settles_step st stk v c : settles st stk v -> delimiter c -> step st c = step (Run stk (MDone v)) c.
Proof.
  intros [->|(p & lit & -> & E)] D; [reflexivity|].
  cbn [JsonText.step]. rewrite (delimiter_ends_number p c D), E. reflexivity.
Qed.

Lemma settles_finish st v : settles st [] v -> finish st = Ok v.
Proof. intros [->|(p & lit & -> & E)]; cbn; [reflexivity | rewrite E; reflexivity]. Qed.

(** ... in particular white space and then a closing character. *)
Lemma settles_white st stk v w c rest : settles st stk v -> white w -> delimiter c ->
  feed st (w ++ String c rest) = feed (step_done stk v c) rest.
Proof.
  intros S W D. destruct W as [|x w H W].
  - cbn [append JsonText.feed]. rewrite (settles_step _ _ _ _ S D). reflexivity.
  - cbn [append JsonText.feed]. rewrite (settles_step _ _ _ x S); [|left; apply is_ws_white; exact H].
    cbn [JsonText.step]. unfold step_done at 1. apply is_ws_white in H. rewrite H.
    rewrite feed_white_done by exact W. reflexivity.
Qed.
Lemma settles_white_end st v w : settles st [] v -> white w -> finish (feed st w) = Ok v.
Proof.
  intros S W. destruct W as [|x w H W]; [exact (settles_finish _ _ S)|].
  cbn [JsonText.feed]. rewrite (settles_step _ _ _ x S); [|left; apply is_ws_white; exact H].
  cbn [JsonText.step]. unfold step_done at 1. apply is_ws_white in H. rewrite H.
  rewrite <- (sapp_nil_r w), feed_white_done by exact W. reflexivity.
Qed.

(** A value may also come first in an array. *)
Lemma value_first_char t v : value_text t v -> exists c r, t = String c r /\ is_ws c = false /\ c <> "]"%char.
Proof.
  assert (Dg : forall c, is_digit c = true -> is_ws c = false /\ c <> "]"%char).
  { intros c D. split; [|intros ->; discriminate].
    destruct c as [[] [] [] [] [] [] [] []]; try discriminate; reflexivity. }
  assert (SN : forall s t n x, minus_opt s -> natural t n ->
            exists c r, s ++ t ++ x = String c r /\ is_ws c = false /\ c <> "]"%char).
  { intros s t' n x [->| ->] H.
    - destruct (natural_head _ _ H) as (c & r & -> & D). exists c, (r ++ x). split; [reflexivity|auto].
    - exists "-"%char, (t' ++ x). split; [reflexivity|split; [reflexivity|discriminate]]. }
  destruct 1 as [| | |t j H|t s H|w H|t l H|w H|t m H];
    try (eexists _, _; split; [reflexivity|split; [reflexivity|discriminate]]).
  - destruct H as [t n H L|t n H L|t n H L|t n H L|s t n f S H F|s t n e S H X|s t n f e S H F X].
    + destruct (natural_head _ _ H) as (c & r & -> & D). exists c, r. auto.
    + exists "-"%char, t. split; [reflexivity|split; [reflexivity|discriminate]].
    + destruct (natural_head _ _ H) as (c & r & -> & D). exists c, r. auto.
    + exists "-"%char, t. split; [reflexivity|split; [reflexivity|discriminate]].
    + exact (SN _ _ _ _ S H).
    + exact (SN _ _ _ _ S H).
    + exact (SN _ _ _ _ S H).
  - destruct H as [t s H V]. eexists _, _; split; [reflexivity|split; [reflexivity|discriminate]].
Qed.

Lemma feed_first_value stk t v : value_text t v ->
  feed (Run stk MFirst) t = feed (Run stk MValue) t.
Proof.
  intros H. destruct (value_first_char _ _ H) as (c & r & -> & W & N).
  cbn [JsonText.feed JsonText.step]. apply Ascii.eqb_neq in N. rewrite N. unfold JsonText.step_value. rewrite W. reflexivity.
Qed.

Lemma depth_arr_cons j l : depth (JArr (j :: l)) = S (Nat.max (depth j) (pred (depth (JArr l)))).
Proof. reflexivity. Qed.

Definition arr_depth (l : list json) : nat := fold_right (fun x n => Nat.max (depth x) n) 0 l.
Definition obj_depth (m : list (string * json)) : nat :=
  fold_right (fun kv n => let '(_, x) := kv in Nat.max (depth x) n) 0 m.

Lemma deeper_ok (stk : list frame) : length stk < lim -> Nat.ltb (length stk) lim = true.
Proof. apply Nat.ltb_lt. Qed.

Lemma complete :
  (forall t v, value_text t v -> forall stk, length stk + depth v <= lim ->
     settles (feed (Run stk MValue) t) stk v) /\
  (forall t l, elements t l -> forall stk done, S (length stk) + arr_depth l <= lim ->
     forall rest, feed (Run (FArr done :: stk) MValue) (t ++ String "]" rest)
                  = feed (Run stk (MDone (JArr (rev done ++ l)))) rest) /\
  (forall t m, members t m -> forall stk done first, S (length stk) + obj_depth m <= lim ->
     forall rest, feed (Run stk (MKey done first)) (t ++ String "}" rest)
                  = feed (Run stk (MDone (JObj (rev done ++ m)))) rest).
Proof.
  apply value_text_mutind.
  - intros stk _; left; reflexivity.
  - intros stk _; left; reflexivity.
  - intros stk _; left; reflexivity.
  - intros t j H stk _. apply feed_number; exact H.
  - intros t s H stk _. left. apply feed_literal_value; exact H.
  - intros w W stk D. left. cbn [append JsonText.feed JsonText.step]. unfold JsonText.step_value. cbn [is_ws Ascii.eqb Bool.eqb orb is_digit].
    cbn in D. rewrite deeper_ok by (lia). cbn.
    rewrite feed_white_first by exact W. reflexivity.
  - intros t l H IH stk D. left. cbn [append JsonText.feed JsonText.step]. unfold JsonText.step_value. cbn [is_ws Ascii.eqb Bool.eqb orb is_digit].
    change (depth (JArr l)) with (S (arr_depth l)) in D.
    rewrite deeper_ok by lia. cbn -[JsonText.feed].
    assert (E : feed (Run (FArr [] :: stk) MFirst) (t ++ "]") = feed (Run (FArr [] :: stk) MValue) (t ++ "]")).
    { destruct H as [w1 t w2 j W1 V W2|w1 t w2 j ts l W1 V W2 _]; rewrite !sapp_assoc,
        feed_white_first, feed_white_value by exact W1; rewrite !(feed_app _ t);
        rewrite (feed_first_value _ _ _ V); reflexivity. }
    rewrite E, (IH stk [] ltac:(lia) ""). reflexivity.
  - intros w W stk D. left. cbn [append JsonText.feed JsonText.step]. unfold JsonText.step_value. cbn [is_ws Ascii.eqb Bool.eqb orb is_digit].
    cbn in D. rewrite deeper_ok by (lia). cbn.
    rewrite feed_white_key by exact W. reflexivity.
  - intros t m H IH stk D. left. cbn [append JsonText.feed JsonText.step]. unfold JsonText.step_value. cbn [is_ws Ascii.eqb Bool.eqb orb is_digit].
    change (depth (JObj m)) with (S (obj_depth m)) in D.
    rewrite deeper_ok by lia. cbn -[JsonText.feed].
    rewrite (IH stk [] true ltac:(lia) ""). reflexivity.
  - intros w1 t w2 j W1 V IH W2 stk done D rest. cbn in D.
    rewrite !sapp_assoc, feed_white_value by exact W1. rewrite feed_app.
    rewrite (settles_white _ _ _ _ _ _ (IH (FArr done :: stk) ltac:(cbn [length]; lia)) W2)
      by (unfold delimiter; tauto).
    cbn. reflexivity.
  - intros w1 t w2 j ts l W1 V IH W2 E IHe stk done D rest.
    change (arr_depth (j :: l)) with (Nat.max (depth j) (arr_depth l)) in D.
    rewrite !sapp_assoc, feed_white_value by exact W1. rewrite feed_app.
    cbn [append].
    rewrite (settles_white _ _ _ _ _ _ (IH (FArr done :: stk) ltac:(cbn [length]; lia)) W2)
      by (unfold delimiter; tauto).
    cbn [step_done is_ws Ascii.eqb Bool.eqb orb].
    rewrite (IHe stk (j :: done) ltac:(lia)). cbn [rev]. rewrite <- app_assoc. reflexivity.
  - intros w0 kt k w1 w2 t w3 j W0 K W1 W2 V IH W3 stk done first D rest. cbn in D.
    rewrite !sapp_assoc, feed_white_key by exact W0. rewrite feed_app, (feed_literal_key _ _ _ _ _ K).
    rewrite feed_white_colon by exact W1. cbn [append JsonText.feed].
    cbn [JsonText.step is_ws Ascii.eqb Bool.eqb orb].
    rewrite feed_white_value by exact W2. rewrite feed_app.
    rewrite (settles_white _ _ _ _ _ _ (IH (FObj done k :: stk) ltac:(cbn [length]; lia)) W3)
      by (unfold delimiter; tauto).
    cbn. reflexivity.
  - intros w0 kt k w1 w2 t w3 j ts m W0 K W1 W2 V IH W3 M IHm stk done first D rest.
    change (obj_depth ((k, j) :: m)) with (Nat.max (depth j) (obj_depth m)) in D.
    rewrite !sapp_assoc, feed_white_key by exact W0. rewrite feed_app, (feed_literal_key _ _ _ _ _ K).
    rewrite feed_white_colon by exact W1. cbn [append JsonText.feed].
    cbn [JsonText.step is_ws Ascii.eqb Bool.eqb orb].
    rewrite feed_white_value by exact W2. rewrite feed_app.
    rewrite (settles_white _ _ _ _ _ _ (IH (FObj done k :: stk) ltac:(cbn [length]; lia)) W3)
      by (unfold delimiter; tauto).
    cbn [step_done is_ws Ascii.eqb Bool.eqb orb].
    rewrite (IHm stk ((k, j) :: done) false ltac:(lia)). cbn [rev]. rewrite <- app_assoc. reflexivity.
Qed.

Lemma document_complete t j : document t j -> depth j <= lim -> finish (feed (Run [] MValue) t) = Ok j.
Proof.
  intros [w1 t' w2 j' W1 V W2] D.
  rewrite feed_white_value by exact W1. rewrite feed_app.
  apply settles_white_end; [|exact W2]. apply (proj1 complete); [exact V|exact D].
Qed.

End Complete.

Lemma parse_complete t j : document t j -> depth j <= max_depth -> parse t = Ok j.
Proof. apply document_complete. Qed.

(** The grammar is unambiguous. *)
Lemma document_unique t j j' : document t j -> document t j' -> j = j'.
Proof.
  intros H H'.
  pose proof (document_complete (Nat.max (depth j) (depth j')) t j H ltac:(lia)) as E.
  pose proof (document_complete (Nat.max (depth j) (depth j')) t j' H' ltac:(lia)) as E'.
  congruence.
Qed.

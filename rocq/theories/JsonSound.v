(** * The reader accepts nothing but JSON text *)
From Coq Require Import String Ascii List NArith ZArith Bool Lia.
From Verif Require Import Base StringFacts JsonValue Utf8 Paths JsonText SpecJson JsonComplete.
Import ListNotations.
Open Scope string_scope.

(** ** Texts of unfinished values *)

(** Elements (members) already read, each followed by its comma. *)
Inductive done_elements : string -> list json -> Prop :=
| de_nil : done_elements "" []
| de_snoc ts done w1 t w2 j : done_elements ts done -> white w1 -> value_text t j -> white w2 ->
    done_elements (ts ++ w1 ++ t ++ w2 ++ ",") (j :: done).
Inductive done_members : string -> list (string * json) -> Prop :=
| dm_nil : done_members "" []
| dm_snoc ts done w0 kt k w1 w2 t w3 j :
    done_members ts done -> white w0 -> literal kt k -> white w1 -> white w2 -> value_text t j -> white w3 ->
    done_members (ts ++ w0 ++ kt ++ w1 ++ ":" ++ w2 ++ t ++ w3 ++ ",") ((k, j) :: done).

(** The text before the value being read, given what is open around it. *)
Inductive stack_text : list frame -> string -> Prop :=
| st_nil : stack_text [] ""
| st_arr stk t0 w ts done : stack_text stk t0 -> white w -> done_elements ts done ->
    stack_text (FArr done :: stk) (t0 ++ w ++ "[" ++ ts)
| st_obj stk t0 w ts done w0 kt k w1 : stack_text stk t0 -> white w -> done_members ts done ->
    white w0 -> literal kt k -> white w1 ->
    stack_text (FObj done k :: stk) (t0 ++ w ++ "{" ++ ts ++ w0 ++ kt ++ w1 ++ ":").

(** Number literals so far. *)
Inductive num_prefix : num_phase -> string -> Prop :=
| np_minus : num_prefix NMinus "-"
| np_int s t n : minus_opt s -> natural t n -> num_prefix (int_phase n) (s ++ t)
| np_dot s t n : minus_opt s -> natural t n -> num_prefix NDot (s ++ t ++ ".")
| np_frac s t n f : minus_opt s -> natural t n -> digits f -> num_prefix NFrac (s ++ t ++ "." ++ f)
| np_exp b e : e = "e"%char \/ e = "E"%char -> num_base b -> num_prefix NExp (b ++ String e "")
| np_exp_sign b e s : e = "e"%char \/ e = "E"%char -> num_base b -> s = "+" \/ s = "-" ->
    num_prefix NExpSign (b ++ String e s)
| np_exp_int b e : num_base b -> exponent e -> num_prefix NExpInt (b ++ e)
with num_base : string -> Prop :=
| nb_int s t n : minus_opt s -> natural t n -> num_base (s ++ t)
| nb_frac s t n f : minus_opt s -> natural t n -> digits f -> num_base (s ++ t ++ "." ++ f).

(** The text of an unfinished string after its opening quote. *)
Inductive string_prefix : bytes -> esc -> string -> Prop :=
| sx_plain t b : spelled t b -> string_prefix b EPlain t
| sx_backslash t b : spelled t b -> string_prefix b EBackslash (t ++ "\")
| sx_hex4 t b : spelled t b -> string_prefix b (EHex None 4 0) (t ++ "\u")
| sx_hex3 t b a na : spelled t b -> hexit a na ->
    string_prefix b (EHex None 3 na) (t ++ "\u" ++ String a "")
| sx_hex2 t b a na c nc : spelled t b -> hexit a na -> hexit c nc ->
    string_prefix b (EHex None 2 (na * 16 + nc)) (t ++ "\u" ++ String a (String c ""))
| sx_hex1 t b a na c nc d nd : spelled t b -> hexit a na -> hexit c nc -> hexit d nd ->
    string_prefix b (EHex None 1 ((na * 16 + nc) * 16 + nd)) (t ++ "\u" ++ String a (String c (String d "")))
| sx_high t b h n : spelled t b -> hex4 h n -> high_surrogate n ->
    string_prefix b (EHigh n) (t ++ "\u" ++ h)
| sx_high_bs t b h n : spelled t b -> hex4 h n -> high_surrogate n ->
    string_prefix b (EHighBackslash n) (t ++ "\u" ++ h ++ "\")
| sx_low4 t b h n : spelled t b -> hex4 h n -> high_surrogate n ->
    string_prefix b (EHex (Some n) 4 0) (t ++ "\u" ++ h ++ "\u")
| sx_low3 t b h n a na : spelled t b -> hex4 h n -> high_surrogate n -> hexit a na ->
    string_prefix b (EHex (Some n) 3 na) (t ++ "\u" ++ h ++ "\u" ++ String a "")
| sx_low2 t b h n a na c nc : spelled t b -> hex4 h n -> high_surrogate n -> hexit a na -> hexit c nc ->
    string_prefix b (EHex (Some n) 2 (na * 16 + nc)) (t ++ "\u" ++ h ++ "\u" ++ String a (String c ""))
| sx_low1 t b h n a na c nc d nd : spelled t b -> hex4 h n -> high_surrogate n ->
    hexit a na -> hexit c nc -> hexit d nd ->
    string_prefix b (EHex (Some n) 1 ((na * 16 + nc) * 16 + nd))
      (t ++ "\u" ++ h ++ "\u" ++ String a (String c (String d ""))).

(** The whole text read so far. *)
Inductive reads : state -> string -> Prop :=
| rd_value stk t w : stack_text stk t -> white w -> reads (Run stk MValue) (t ++ w)
| rd_first stk t w : stack_text (FArr [] :: stk) t -> white w -> reads (Run (FArr [] :: stk) MFirst) (t ++ w)
| rd_key stk t0 w ts done w0 first : stack_text stk t0 -> white w -> done_members ts done -> white w0 ->
    (first = true -> done = []) ->
    reads (Run stk (MKey done first)) (t0 ++ w ++ "{" ++ ts ++ w0)
| rd_colon stk t0 w ts done w0 kt k w1 : stack_text stk t0 -> white w -> done_members ts done -> white w0 ->
    literal kt k -> white w1 ->
    reads (Run stk (MColon done k)) (t0 ++ w ++ "{" ++ ts ++ w0 ++ kt ++ w1)
| rd_str_value stk t0 w acc e x : stack_text stk t0 -> white w -> string_prefix acc e x ->
    reads (Run stk (MStr CtxValue acc e)) (t0 ++ w ++ """" ++ x)
| rd_str_key stk t0 w ts done w0 acc e x : stack_text stk t0 -> white w -> done_members ts done -> white w0 ->
    string_prefix acc e x ->
    reads (Run stk (MStr (CtxKey done) acc e)) (t0 ++ w ++ "{" ++ ts ++ w0 ++ """" ++ x)
| rd_num stk t0 w p lit : stack_text stk t0 -> white w -> num_prefix p lit ->
    reads (Run stk (MNum p lit)) (t0 ++ w ++ lit)
| rd_lit stk t0 w a rest v : stack_text stk t0 -> white w -> value_text (a ++ rest) v ->
    reads (Run stk (MLit rest v)) (t0 ++ w ++ a)
| rd_done stk t0 w t w' v : stack_text stk t0 -> white w -> value_text t v -> white w' ->
    reads (Run stk (MDone v)) (t0 ++ w ++ t ++ w')
| rd_failed t : reads Failed t.

Lemma white_app a b : white a -> white b -> white (a ++ b).
Proof. induction 1; cbn; [auto|]. intros; constructor; auto. Qed.
Lemma white_snoc w c : white w -> is_ws c = true -> white (w ++ String c "").
Proof. intros W H. apply white_app; [exact W|]. constructor; [apply is_ws_white; exact H|constructor]. Qed.

(** A finished number literal is a number. *)
Lemma num_base_exp b e : num_base b -> exponent e -> number_text (b ++ e) (JFloat (b ++ e)).
Proof.
  intros [s t n S H|s t n f S H F] X.
  - rewrite sapp_assoc. exact (nt_exp _ _ _ _ S H X).
  - rewrite !sapp_assoc. exact (nt_frac_exp _ _ _ _ _ S H F X).
Qed.
Lemma num_prefix_number p lit v : num_prefix p lit -> number p lit = Some v -> number_text lit v.
Proof.
  intros [ |s t n S H|s t n S H|s t n f S H F|b e E B|b e s E B S|b e B X] N; try discriminate.
  - rewrite number_int in N. inversion N as [N']. destruct S as [->| ->].
    + cbn [append]. rewrite (int_number_nat _ _ H). destruct (n <=? u64_max)%N eqn:L.
      * apply N.leb_le in L. exact (nt_unsigned _ _ H L).
      * apply N.leb_gt in L. exact (nt_big _ _ H L).
    + cbn [append int_number]. rewrite (natural_value _ _ H).
      destruct ((n =? 0)%N || (9223372036854775808 <? n)%N) eqn:L.
      * apply orb_true_iff in L. rewrite N.eqb_eq, N.ltb_lt in L. exact (nt_neg_big _ _ H L).
      * apply orb_false_iff in L. rewrite N.eqb_neq, N.ltb_ge in L.
        apply (nt_negative _ _ H). lia.
  - inversion N. exact (nt_frac _ _ _ _ S H F).
  - inversion N. exact (num_base_exp _ _ B X).
Qed.

Lemma is_digit_spec c : is_digit c = true -> exists d, digit c d.
Proof. intros H. eexists. apply is_digit_digit. exact H. Qed.

Lemma snoc_assoc a b c : (a ++ b) ++ String c "" = a ++ (b ++ String c "").
Proof. apply sapp_assoc. Qed.

Lemma digit_zero c : digit c 0 -> c = "0"%char.
Proof. intros H. exact (digit_char _ _ H). Qed.

Lemma num_prefix_step p lit c q : num_prefix p lit -> num_step p c = Some q -> num_prefix q (push lit c).
Proof.
  unfold push.
  assert (EX : forall x, (Ascii.eqb x "e" || Ascii.eqb x "E") = true -> x = "e"%char \/ x = "E"%char).
  { intros x X. apply orb_true_iff in X. rewrite !Ascii.eqb_eq in X. exact X. }
  assert (AfterInt : forall s t n, minus_opt s -> natural t n ->
            (if Ascii.eqb c "." then Some NDot
             else if Ascii.eqb c "e" || Ascii.eqb c "E" then Some NExp else None) = Some q ->
            num_prefix q ((s ++ t) ++ String c "")).
  { intros s t n S H Q. destruct (Ascii.eqb c ".") eqn:E.
    - apply Ascii.eqb_eq in E; subst c. inversion Q; subst q. rewrite sapp_assoc. exact (np_dot _ _ _ S H).
    - destruct (Ascii.eqb c "e" || Ascii.eqb c "E") eqn:E'; [|discriminate]. inversion Q; subst q.
      apply np_exp; [exact (EX _ E')|exact (nb_int _ _ _ S H)]. }
  intros [ |s t n S H|s t n S H|s t n f S H F|b e E B|b e s E B S|b e B X] Q; cbn [num_step] in Q.
  - destruct (Ascii.eqb c "0") eqn:E.
    + apply Ascii.eqb_eq in E; subst c. inversion Q; subst q.
      refine (np_int "-" "0" 0 (or_intror eq_refl) _). apply natural_digit. split; [lia|reflexivity].
    + destruct (is_digit c) eqn:D; [|discriminate]. inversion Q; subst q.
      destruct (is_digit_spec _ D) as [d Hd].
      replace NInt with (int_phase d).
      * refine (np_int "-" (String c "") d (or_intror eq_refl) _). apply natural_digit. exact Hd.
      * unfold int_phase. destruct (d =? 0)%N eqn:Z; [|reflexivity].
        apply N.eqb_eq in Z; subst d. rewrite (digit_zero _ Hd) in E. discriminate.
  - unfold int_phase in Q. destruct (n =? 0)%N eqn:Z.
    + exact (AfterInt _ _ _ S H Q).
    + cbn [num_step] in Q. destruct (is_digit c) eqn:D.
      * inversion Q; subst q. destruct (is_digit_spec _ D) as [d Hd].
        apply N.eqb_neq in Z.
        replace NInt with (int_phase (10 * n + d)).
        -- rewrite sapp_assoc. apply np_int; [exact S|]. exact (natural_more _ _ _ _ H Z Hd).
        -- unfold int_phase. rewrite (proj2 (N.eqb_neq (10 * n + d) 0)); [reflexivity|lia].
      * exact (AfterInt _ _ _ S H Q).
  - destruct (is_digit c) eqn:D; [|discriminate]. inversion Q; subst q.
    destruct (is_digit_spec _ D) as [d Hd]. rewrite !sapp_assoc.
    apply (np_frac s t n); [exact S|exact H|exact (digits_one _ _ Hd)].
  - destruct (is_digit c) eqn:D.
    + inversion Q; subst q. destruct (is_digit_spec _ D) as [d Hd]. rewrite !sapp_assoc.
      apply (np_frac s t n); [exact S|exact H|exact (digits_more _ _ _ F Hd)].
    + destruct (Ascii.eqb c "e" || Ascii.eqb c "E") eqn:E'; [|discriminate]. inversion Q; subst q.
      apply np_exp; [exact (EX _ E')|exact (nb_frac _ _ _ _ S H F)].
  - rewrite sapp_assoc. cbn [append]. destruct (is_digit c) eqn:D.
    + inversion Q; subst q. destruct (is_digit_spec _ D) as [d Hd].
      apply np_exp_int; [exact B|]. exact (exponent_intro e "" _ E (or_introl eq_refl) (digits_one _ _ Hd)).
    + destruct (Ascii.eqb c "+" || Ascii.eqb c "-") eqn:S; [|discriminate]. inversion Q; subst q.
      apply orb_true_iff in S. rewrite !Ascii.eqb_eq in S.
      apply np_exp_sign; [exact E|exact B|]. destruct S as [->| ->]; tauto.
  - rewrite sapp_assoc. cbn [append]. destruct (is_digit c) eqn:D; [|discriminate].
    inversion Q; subst q. destruct (is_digit_spec _ D) as [d Hd].
    apply np_exp_int; [exact B|].
    exact (exponent_intro e s _ E ltac:(destruct S; tauto) (digits_one _ _ Hd)).
  - rewrite sapp_assoc. destruct (is_digit c) eqn:D; [|discriminate].
    inversion Q; subst q. destruct (is_digit_spec _ D) as [d Hd].
    apply np_exp_int; [exact B|]. destruct X as [x s' ds X S' F].
    cbn [append]. rewrite sapp_assoc.
    exact (exponent_intro x s' _ X S' (digits_more _ _ _ F Hd)).
Qed.

Lemma hex_val_hexit c n : hex_val c = Some n -> hexit c n.
Proof.
  unfold hexit, hex_val, code. intros H.
  destruct ((48 <=? N_of_ascii c)%N && (N_of_ascii c <=? 57)%N) eqn:E1.
  - apply andb_true_iff in E1. rewrite !N.leb_le in E1. inversion H. lia.
  - clear E1. destruct ((97 <=? N_of_ascii c)%N && (N_of_ascii c <=? 102)%N) eqn:E2.
    + apply andb_true_iff in E2. rewrite !N.leb_le in E2. inversion H. lia.
    + clear E2. destruct ((65 <=? N_of_ascii c)%N && (N_of_ascii c <=? 70)%N) eqn:E3; [|discriminate].
      apply andb_true_iff in E3. rewrite !N.leb_le in E3. inversion H. lia.
Qed.

(** Between the quotes: either the string goes on, or it is complete. *)
Lemma string_prefix_step stk ctx acc e x c :
  string_prefix acc e x ->
  step_string stk ctx acc e c = Failed \/
  (exists acc' e', step_string stk ctx acc e c = Run stk (MStr ctx acc' e') /\
                   string_prefix acc' e' (x ++ String c "")) \/
  (c = """"%char /\ spelled x acc /\ step_string stk ctx acc e c = end_string stk ctx acc).
Proof.
  assert (Hex : forall high n (P : state -> Prop), P Failed ->
     (forall d, hexit c d -> P (match 1 with S (S t') => Run stk (MStr ctx acc (EHex high (S t') n))
                               | _ => unicode_escape stk ctx acc high (n * 16 + d) end)) ->
     P (step_string stk ctx acc (EHex high 1 n) c)).
  { intros high n P PF PH. cbn [step_string]. destruct (hex_val c) as [d|] eqn:E; [|exact PF].
    apply (PH d). exact (hex_val_hexit _ _ E). }
  intros H. destruct H as
    [t b S|t b S|t b S|t b a na S A|t b a na x nx S A X|t b a na x nx d nd S A X D
    |t b h n S H N|t b h n S H N|t b h n S H N|t b h n a na S H N A|t b h n a na x nx S H N A X
    |t b h n a na x nx d nd S H N A X D].
  - cbn [step_string]. destruct (Ascii.eqb c """") eqn:E1.
    { apply Ascii.eqb_eq in E1. right; right. auto. }
    destruct (Ascii.eqb c "\") eqn:E2.
    { apply Ascii.eqb_eq in E2; subst c. right; left. eexists _, _; split; [reflexivity|].
      exact (sx_backslash _ _ S). }
    destruct (N_of_ascii c <? 32)%N eqn:E3; [left; reflexivity|].
    right; left. eexists _, _; split; [reflexivity|]. apply sx_plain. unfold push.
    apply Ascii.eqb_neq in E1, E2. apply N.ltb_ge in E3.
    apply sp_plain; [exact S|exact E3| |]; intros Q; [apply E1|apply E2]; apply code_inj; exact Q.
  - cbn [step_string].
    assert (Short : forall d n, In (c, n) short_escapes -> d = ascii_of_N n ->
      exists acc' e', Run stk (MStr ctx (push b d) EPlain) = Run stk (MStr ctx acc' e') /\
                      string_prefix acc' e' ((t ++ "\") ++ String c "")).
    { intros d n I ->. eexists _, _; split; [reflexivity|]. apply sx_plain. unfold push.
      rewrite sapp_assoc. cbn [append]. exact (sp_short _ _ _ _ S I). }
    repeat match goal with
    | |- context [Ascii.eqb c ?k] =>
        let E := fresh "E" in destruct (Ascii.eqb c k) eqn:E;
        [apply Ascii.eqb_eq in E; subst c; right; left|]
    end; try (eapply Short; [cbn; tauto|reflexivity]).
    + eexists _, _; split; [reflexivity|]. rewrite sapp_assoc. exact (sx_hex4 _ _ S).
    + left; reflexivity.
  - cbn [step_string]. destruct (hex_val c) as [d|] eqn:E; [|left; reflexivity].
    right; left. eexists _, _; split; [reflexivity|]. rewrite sapp_assoc.
    exact (sx_hex3 _ _ _ _ S (hex_val_hexit _ _ E)).
  - cbn [step_string]. destruct (hex_val c) as [d|] eqn:E; [|left; reflexivity].
    right; left. eexists _, _; split; [reflexivity|]. rewrite !sapp_assoc.
    exact (sx_hex2 _ _ _ _ _ _ S A (hex_val_hexit _ _ E)).
  - cbn [step_string]. destruct (hex_val c) as [d|] eqn:E; [|left; reflexivity].
    right; left. eexists _, _; split; [reflexivity|]. rewrite !sapp_assoc.
    exact (sx_hex1 _ _ _ _ _ _ _ _ S A X (hex_val_hexit _ _ E)).
  - cbn [step_string]. destruct (hex_val c) as [y|] eqn:E; [|left; reflexivity].
    assert (H4 : hex4 (String a (String x (String d (String c "")))) (((na * 16 + nx) * 16 + nd) * 16 + y)).
    { replace (((na * 16 + nx) * 16 + nd) * 16 + y)%N with (na * 4096 + nx * 256 + nd * 16 + y)%N by lia.
      exact (hex4_intro _ _ _ _ _ _ _ _ A X D (hex_val_hexit _ _ E)). }
    unfold unicode_escape.
    destruct ((55296 <=? ((na * 16 + nx) * 16 + nd) * 16 + y)%N && (((na * 16 + nx) * 16 + nd) * 16 + y <=? 56319)%N) eqn:E1.
    + apply andb_true_iff in E1. rewrite !N.leb_le in E1.
      right; left. eexists _, _; split; [reflexivity|]. rewrite !sapp_assoc.
      exact (sx_high _ _ _ _ S H4 E1).
    + destruct ((56320 <=? ((na * 16 + nx) * 16 + nd) * 16 + y)%N && (((na * 16 + nx) * 16 + nd) * 16 + y <=? 57343)%N) eqn:E2;
        [left; reflexivity|].
      right; left. eexists _, _; split; [reflexivity|]. apply sx_plain. rewrite !sapp_assoc.
      apply andb_false_iff in E1, E2. rewrite !N.leb_gt in E1, E2.
      exact (sp_unicode _ _ _ _ S H4 ltac:(unfold surrogate; lia)).
  - cbn [step_string]. destruct (Ascii.eqb c "\") eqn:E; [|left; reflexivity].
    apply Ascii.eqb_eq in E; subst c. right; left. eexists _, _; split; [reflexivity|].
    rewrite !sapp_assoc. exact (sx_high_bs _ _ _ _ S H N).
  - cbn [step_string]. destruct (Ascii.eqb c "u") eqn:E; [|left; reflexivity].
    apply Ascii.eqb_eq in E; subst c. right; left. eexists _, _; split; [reflexivity|].
    rewrite !sapp_assoc. exact (sx_low4 _ _ _ _ S H N).
  - cbn [step_string]. destruct (hex_val c) as [d|] eqn:E; [|left; reflexivity].
    right; left. eexists _, _; split; [reflexivity|]. rewrite !sapp_assoc.
    exact (sx_low3 _ _ _ _ _ _ S H N (hex_val_hexit _ _ E)).
  - cbn [step_string]. destruct (hex_val c) as [d|] eqn:E; [|left; reflexivity].
    right; left. eexists _, _; split; [reflexivity|]. rewrite !sapp_assoc.
    exact (sx_low2 _ _ _ _ _ _ _ _ S H N A (hex_val_hexit _ _ E)).
  - cbn [step_string]. destruct (hex_val c) as [d|] eqn:E; [|left; reflexivity].
    right; left. eexists _, _; split; [reflexivity|]. rewrite !sapp_assoc.
    exact (sx_low1 _ _ _ _ _ _ _ _ _ _ S H N A X (hex_val_hexit _ _ E)).
  - cbn [step_string]. destruct (hex_val c) as [y|] eqn:E; [|left; reflexivity].
    assert (H4 : hex4 (String a (String x (String d (String c "")))) (((na * 16 + nx) * 16 + nd) * 16 + y)).
    { replace (((na * 16 + nx) * 16 + nd) * 16 + y)%N with (na * 4096 + nx * 256 + nd * 16 + y)%N by lia.
      exact (hex4_intro _ _ _ _ _ _ _ _ A X D (hex_val_hexit _ _ E)). }
    unfold unicode_escape.
    destruct ((56320 <=? ((na * 16 + nx) * 16 + nd) * 16 + y)%N && (((na * 16 + nx) * 16 + nd) * 16 + y <=? 57343)%N) eqn:E2;
      [|left; reflexivity].
    right; left. eexists _, _; split; [reflexivity|]. apply sx_plain.
    apply andb_true_iff in E2. rewrite !N.leb_le in E2. rewrite !sapp_assoc.
    exact (sp_pair _ _ _ _ _ _ S H N H4 E2).
Qed.

(** Closing an array or object. *)
Lemma elements_app ts done t l :
  done_elements ts done -> elements t l -> elements (ts ++ t) (rev done ++ l).
Proof.
  intros D; revert t l; induction D as [|ts done w1 t w2 j D IH W1 V W2]; intros t' l E; [exact E|].
  rewrite !sapp_assoc. cbn [rev]. rewrite <- app_assoc. cbn [app].
  apply IH. exact (el_more _ _ _ _ _ _ W1 V W2 E).
Qed.
Lemma members_app ts done t l :
  done_members ts done -> members t l -> members (ts ++ t) (rev done ++ l).
Proof.
  intros D; revert t l; induction D as [|ts done w0 kt k w1 w2 t w3 j D IH W0 K W1 W2 V W3];
    intros t' l E; [exact E|].
  rewrite !sapp_assoc. cbn [rev]. rewrite <- app_assoc. cbn [app].
  apply IH. exact (me_more _ _ _ _ _ _ _ _ _ _ W0 K W1 W2 V W3 E).
Qed.

(** Bring the text of a goal into another shape. *)
Ltac as_text t :=
  match goal with |- reads _ ?x => replace x with t by (rewrite ?sapp_nil_r, ?sapp_assoc; cbn [append]; reflexivity) end.

Lemma reads_done stk t0 w t w' v c :
  stack_text stk t0 -> white w -> value_text t v -> white w' ->
  reads (step_done stk v c) ((t0 ++ w ++ t ++ w') ++ String c "").
Proof.
  intros S W V W'. unfold step_done. destruct (is_ws c) eqn:E.
  - rewrite !sapp_assoc. apply rd_done; auto using white_snoc.
  - destruct S as [|stk t0 w0 ts done S W0 D|stk t0 w0 ts done w1 kt k w2 S W0 D W1 K W2]; [constructor| |].
    + destruct (Ascii.eqb c ",") eqn:C1.
      { apply Ascii.eqb_eq in C1; subst c.
        as_text ((t0 ++ w0 ++ "[" ++ (ts ++ w ++ t ++ w' ++ ",")) ++ "").
        apply rd_value; [|constructor]. apply st_arr; auto. apply de_snoc; auto. }
      destruct (Ascii.eqb c "]") eqn:C2; [|constructor].
      apply Ascii.eqb_eq in C2; subst c.
      as_text (t0 ++ w0 ++ ("[" ++ (ts ++ w ++ t ++ w') ++ "]") ++ "").
      apply rd_done; [exact S|exact W0| |constructor].
      apply vt_array. cbn [rev]. apply elements_app; [exact D|]. apply el_one; auto.
    + destruct (Ascii.eqb c ",") eqn:C1.
      { apply Ascii.eqb_eq in C1; subst c.
        as_text (t0 ++ w0 ++ "{" ++ (ts ++ w1 ++ kt ++ w2 ++ ":" ++ w ++ t ++ w' ++ ",") ++ "").
        apply rd_key; [exact S|exact W0| |constructor|discriminate]. apply dm_snoc; auto. }
      destruct (Ascii.eqb c "}") eqn:C2; [|constructor].
      apply Ascii.eqb_eq in C2; subst c.
      as_text (t0 ++ w0 ++ ("{" ++ (ts ++ w1 ++ kt ++ w2 ++ ":" ++ w ++ t ++ w') ++ "}") ++ "").
      apply rd_done; [exact S|exact W0| |constructor].
      apply vt_object. cbn [rev]. apply members_app; [exact D|]. apply me_one; auto.
Qed.

Section Sound.
Context (lim : nat).
Local Notation step_value := (JsonText.step_value lim).
Local Notation step := (JsonText.step lim).
Local Notation feed := (JsonText.feed lim).

Lemma reads_value stk t w m c :
  stack_text stk t -> white w ->
  (is_ws c = true -> reads (Run stk m) ((t ++ w) ++ String c "")) ->
  reads (step_value stk m c) ((t ++ w) ++ String c "").
Proof.
  intros S W M. unfold JsonText.step_value. destruct (is_ws c) eqn:E; [apply M; reflexivity|].
  rewrite sapp_assoc.
  destruct (Ascii.eqb c """") eqn:E1.
  { apply Ascii.eqb_eq in E1; subst c.
    exact (rd_str_value stk t w "" EPlain "" S W (sx_plain _ _ sp_nil)). }
  destruct (Ascii.eqb c "-") eqn:E2.
  { apply Ascii.eqb_eq in E2; subst c. exact (rd_num stk t w _ _ S W np_minus). }
  destruct (Ascii.eqb c "0") eqn:E3.
  { apply Ascii.eqb_eq in E3; subst c.
    refine (rd_num stk t w _ _ S W (np_int "" "0" 0 (or_introl eq_refl) _)).
    apply natural_digit. split; [lia|reflexivity]. }
  destruct (is_digit c) eqn:E4.
  { destruct (is_digit_spec _ E4) as [d Hd].
    replace NInt with (int_phase d).
    - exact (rd_num stk t w _ _ S W (np_int "" _ d (or_introl eq_refl) (natural_digit _ _ Hd))).
    - unfold int_phase. destruct (d =? 0)%N eqn:Z; [|reflexivity].
      apply N.eqb_eq in Z; subst d. rewrite (digit_zero _ Hd) in E3. discriminate. }
  destruct (Ascii.eqb c "n") eqn:E5.
  { apply Ascii.eqb_eq in E5; subst c. exact (rd_lit stk t w "n" "ull" _ S W vt_null). }
  destruct (Ascii.eqb c "t") eqn:E6.
  { apply Ascii.eqb_eq in E6; subst c. exact (rd_lit stk t w "t" "rue" _ S W vt_true). }
  destruct (Ascii.eqb c "f") eqn:E7.
  { apply Ascii.eqb_eq in E7; subst c. exact (rd_lit stk t w "f" "alse" _ S W vt_false). }
  destruct (Ascii.eqb c "[") eqn:E8.
  { apply Ascii.eqb_eq in E8; subst c. destruct (Nat.ltb _ _); [|constructor].
    replace (t ++ w ++ "[") with ((t ++ w ++ "[" ++ "") ++ "") by (rewrite !sapp_nil_r; reflexivity).
    apply rd_first; [|constructor]. apply st_arr; auto; constructor. }
  destruct (Ascii.eqb c "{") eqn:E9; [|constructor].
  apply Ascii.eqb_eq in E9; subst c. destruct (Nat.ltb _ _); [|constructor].
  exact (rd_key stk t w "" [] "" true S W dm_nil white_nil (fun _ => eq_refl)).
Qed.

Lemma reads_end_string stk ctx acc x pre :
  spelled x acc ->
  (ctx = CtxValue -> exists t0 w, pre = t0 ++ w /\ stack_text stk t0 /\ white w) ->
  (forall done, ctx = CtxKey done -> exists t0 w ts w0, pre = t0 ++ w ++ "{" ++ ts ++ w0 /\
      stack_text stk t0 /\ white w /\ done_members ts done /\ white w0) ->
  reads (end_string stk ctx acc) (pre ++ """" ++ x ++ """").
Proof.
  intros S HV HK. unfold end_string. destruct (utf8_valid acc) eqn:U; [|constructor].
  destruct ctx as [|done].
  - destruct (HV eq_refl) as (t0 & w & -> & S0 & W).
    as_text (t0 ++ w ++ ("""" ++ x ++ """") ++ "").
    apply rd_done; auto; [|constructor]. apply vt_string. constructor; assumption.
  - destruct (HK _ eq_refl) as (t0 & w & ts & w0 & -> & S0 & W & D & W0).
    as_text (t0 ++ w ++ "{" ++ ts ++ w0 ++ ("""" ++ x ++ """") ++ "").
    apply rd_colon; auto; [|constructor]. constructor; assumption.
Qed.

Lemma done_members_nil ts : done_members ts [] -> ts = "".
Proof. inversion 1; reflexivity. Qed.

Lemma reads_step st t c : reads st t -> reads (step st c) (t ++ String c "").
Proof.
  intros R. destruct R as
    [stk t w S W|stk t w S W|stk t0 w ts done w0 first S W D W0 F|stk t0 w ts done w0 kt k w1 S W D W0 K W1
    |stk t0 w acc e x S W X|stk t0 w ts done w0 acc e x S W D W0 X|stk t0 w p lit S W P|stk t0 w a rest v S W V
    |stk t0 w t w' v S W V W'|t]; cbn [JsonText.step].
  - apply reads_value; auto. intros E. rewrite sapp_assoc. apply rd_value; auto using white_snoc.
  - destruct (Ascii.eqb c "]") eqn:E.
    + apply Ascii.eqb_eq in E; subst c. inversion S as [|? t0 w0 ts ? S0 W0 D|]; subst.
      inversion D; subst ts.
      as_text (t0 ++ w0 ++ ("[" ++ w ++ "]") ++ "").
      apply rd_done; auto; [|constructor]. apply vt_empty_array; exact W.
    + apply reads_value; auto. intros Ew. rewrite sapp_assoc. apply rd_first; auto using white_snoc.
  - destruct (is_ws c) eqn:E.
    { rewrite !sapp_assoc. apply rd_key; auto using white_snoc. }
    destruct (Ascii.eqb c """") eqn:E1.
    { apply Ascii.eqb_eq in E1; subst c. rewrite !sapp_assoc.
      exact (rd_str_key stk t0 w ts done w0 "" EPlain "" S W D W0 (sx_plain _ _ sp_nil)). }
    destruct (Ascii.eqb c "}") eqn:E2; [|constructor].
    destruct first; [|constructor]. cbn [andb].
    apply Ascii.eqb_eq in E2; subst c. rewrite (F eq_refl) in D. rewrite (done_members_nil _ D).
    as_text (t0 ++ w ++ ("{" ++ w0 ++ "}") ++ "").
    apply rd_done; auto; [|constructor]. apply vt_empty_object; exact W0.
  - destruct (is_ws c) eqn:E.
    { rewrite !sapp_assoc. apply rd_colon; auto using white_snoc. }
    destruct (Ascii.eqb c ":") eqn:E1; [|constructor].
    apply Ascii.eqb_eq in E1; subst c.
    as_text ((t0 ++ w ++ "{" ++ ts ++ w0 ++ kt ++ w1 ++ ":") ++ "").
    apply rd_value; [|constructor]. apply st_obj; auto.
  - destruct (string_prefix_step stk CtxValue acc e x c X) as [->|[(acc' & e' & -> & X')|(-> & Sp & ->)]].
    + constructor.
    + rewrite !sapp_assoc. apply rd_str_value; auto.
    + as_text ((t0 ++ w) ++ """" ++ x ++ """").
      apply reads_end_string; [exact Sp| |discriminate]. intros _. eauto.
  - destruct (string_prefix_step stk (CtxKey done) acc e x c X) as [->|[(acc' & e' & -> & X')|(-> & Sp & ->)]].
    + constructor.
    + rewrite !sapp_assoc. apply rd_str_key; auto.
    + as_text ((t0 ++ w ++ "{" ++ ts ++ w0) ++ """" ++ x ++ """").
      apply reads_end_string; [exact Sp|discriminate|]. intros d E; inversion E; subst d.
      exists t0, w, ts, w0. auto.
  - destruct (num_step p c) as [q|] eqn:E.
    + rewrite !sapp_assoc. apply rd_num; auto. exact (num_prefix_step _ _ _ _ P E).
    + destruct (number p lit) as [v|] eqn:E'; [|constructor].
      replace (t0 ++ w ++ lit) with (t0 ++ w ++ lit ++ "") by (rewrite sapp_nil_r; reflexivity).
      apply reads_done; auto; [|constructor]. apply vt_number. exact (num_prefix_number _ _ _ P E').
  - destruct rest as [|d rest]; [constructor|].
    destruct (Ascii.eqb c d) eqn:E; [|constructor]. apply Ascii.eqb_eq in E; subst d.
    destruct rest as [|d rest].
    + as_text (t0 ++ w ++ (a ++ String c "") ++ "").
      apply rd_done; auto. constructor.
    + rewrite !sapp_assoc. apply rd_lit; auto. rewrite sapp_assoc. exact V.
  - apply reads_done; auto.
  - constructor.
Qed.

Lemma reads_feed s : forall st t, reads st t -> reads (feed st s) (t ++ s).
Proof.
  induction s as [|c s IH]; intros st t R; cbn [JsonText.feed]; [rewrite sapp_nil_r; exact R|].
  replace (t ++ String c s) with ((t ++ String c "") ++ s) by (rewrite sapp_assoc; reflexivity).
  apply IH. apply reads_step. exact R.
Qed.

End Sound.

Lemma parse_sound t j : parse t = Ok j -> document t j.
Proof.
  unfold parse. intros F.
  pose proof (reads_feed max_depth t _ _ (rd_value [] "" "" st_nil white_nil)) as R. cbn [append] in R.
  destruct (feed max_depth (Run [] MValue) t) as [stk m|] eqn:E; [|discriminate].
  destruct stk as [|f stk]; [|destruct m; discriminate].
  destruct m as [| | | | |p lit| |v]; try discriminate; cbn in F.
  - destruct (number p lit) as [v|] eqn:N; [|discriminate]. inversion F; subst v.
    inversion R as [| | | | | |stk t0 w p' lit' S W P| | |]; subst. inversion S; subst t0. cbn [append].
    replace (w ++ lit) with (w ++ lit ++ "") by (rewrite sapp_nil_r; reflexivity).
    apply document_intro; [exact W| |constructor]. apply vt_number. exact (num_prefix_number _ _ _ P N).
  - inversion F; subst v.
    inversion R as [| | | | | | | |stk t0 w t' w' v' S W V W'|]; subst. inversion S; subst t0. cbn [append].
    apply document_intro; assumption.
Qed.

(** ** The nesting limit *)
Definition frame_depth (f : frame) : nat :=
  match f with
  | FArr done => arr_depth done
  | FObj done _ => obj_depth done
  end.
Fixpoint stack_ok (stk : list frame) : Prop :=
  match stk with
  | [] => True
  | f :: r => length stk + frame_depth f <= max_depth /\ stack_ok r
  end.
Definition mode_ok (stk : list frame) (m : mode) : Prop :=
  match m with
  | MKey done _ | MColon done _ | MStr (CtxKey done) _ _ => S (length stk) + obj_depth done <= max_depth
  | MLit _ v => depth v = 0
  | MDone v => length stk + depth v <= max_depth
  | _ => True
  end.
Definition state_ok (st : state) : Prop :=
  match st with Failed => True | Run stk m => stack_ok stk /\ length stk <= max_depth /\ mode_ok stk m end.

Lemma arr_depth_rev l : arr_depth (rev l) = arr_depth l.
Proof.
  assert (A : forall a b, arr_depth (a ++ b) = Nat.max (arr_depth a) (arr_depth b)).
  { induction a as [|x a IH]; intros b; cbn; [reflexivity|].
    change (fold_right (fun x n => Nat.max (depth x) n) 0 (a ++ b)) with (arr_depth (a ++ b)).
    change (fold_right (fun x n => Nat.max (depth x) n) 0 a) with (arr_depth a). rewrite IH. lia. }
  induction l as [|x l IH]; [reflexivity|]. cbn [rev]. rewrite A, IH. cbn. fold (arr_depth l). lia.
Qed.
Lemma obj_depth_rev l : obj_depth (rev l) = obj_depth l.
Proof.
  assert (A : forall a b, obj_depth (a ++ b) = Nat.max (obj_depth a) (obj_depth b)).
  { induction a as [|[k x] a IH]; intros b; [reflexivity|].
    change (Nat.max (depth x) (obj_depth (a ++ b)) = Nat.max (Nat.max (depth x) (obj_depth a)) (obj_depth b)).
    rewrite IH. lia. }
  induction l as [|[k x] l IH]; [reflexivity|]. cbn [rev]. rewrite A, IH.
  change (obj_depth ((k, x) :: l)) with (Nat.max (depth x) (obj_depth l)). cbn. lia.
Qed.

Lemma number_depth p lit v : number p lit = Some v -> depth v = 0.
Proof.
  assert (I : forall l, depth (int_number l) = 0).
  { intros l. unfold int_number. repeat match goal with
      | |- context [match ?x with _ => _ end] => destruct x; try reflexivity end. }
  destruct p; cbn; intros H; inversion H; auto.
Qed.

Lemma step_done_ok stk v c : stack_ok stk -> length stk + depth v <= max_depth -> state_ok (step_done stk v c).
Proof.
  intros S D. unfold step_done. destruct (is_ws c); [cbn; repeat split; auto; lia|].
  destruct stk as [|[done|done k] stk]; [exact I| |]; cbn [stack_ok length frame_depth] in S; destruct S as [S1 S2];
    cbn [length] in D.
  - assert (E : arr_depth (v :: done) = Nat.max (depth v) (arr_depth done)) by reflexivity.
    destruct (Ascii.eqb c ","); [|destruct (Ascii.eqb c "]"); [|exact I]].
    + cbn [state_ok stack_ok length frame_depth mode_ok]. rewrite E. repeat split; auto; lia.
    + cbn [state_ok mode_ok]. change (depth (JArr (rev (v :: done)))) with (Datatypes.S (arr_depth (rev (v :: done)))).
      rewrite arr_depth_rev, E. repeat split; auto; lia.
  - assert (E : obj_depth ((k, v) :: done) = Nat.max (depth v) (obj_depth done)) by reflexivity.
    destruct (Ascii.eqb c ","); [|destruct (Ascii.eqb c "}"); [|exact I]].
    + cbn [state_ok mode_ok]. rewrite E. repeat split; auto; lia.
    + cbn [state_ok mode_ok]. change (depth (JObj (rev ((k, v) :: done)))) with (Datatypes.S (obj_depth (rev ((k, v) :: done)))).
      rewrite obj_depth_rev, E. repeat split; auto; lia.
Qed.

Lemma step_value_ok stk m c : stack_ok stk -> length stk <= max_depth -> mode_ok stk m ->
  state_ok (step_value max_depth stk m c).
Proof.
  intros S L M. unfold JsonText.step_value.
  destruct (is_ws c); [cbn; auto|].
  repeat match goal with
  | |- state_ok (if Nat.ltb ?a ?b then _ else _) => destruct (Nat.ltb a b) eqn:?
  | |- state_ok (if ?x then _ else _) => destruct x
  end; try exact I; cbn [state_ok stack_ok mode_ok length frame_depth depth]; auto.
  - apply Nat.ltb_lt in Heqb. cbn. repeat split; auto; lia.
  - apply Nat.ltb_lt in Heqb. cbn. repeat split; auto; lia.
Qed.

Lemma unicode_escape_ok stk ctx acc high n : state_ok (Run stk (MStr ctx acc EPlain)) ->
  state_ok (unicode_escape stk ctx acc high n).
Proof.
  intros S. unfold unicode_escape.
  destruct high; repeat match goal with |- context [if ?x then _ else _] => destruct x end; try exact I; exact S.
Qed.

Lemma step_ok st c : state_ok st -> state_ok (step max_depth st c).
Proof.
  destruct st as [stk m|]; [|auto]. intros (S & L & M). destruct m as [| |done first|done k|ctx acc e|p lit|rest v|v]; cbn [JsonText.step].
  - apply step_value_ok; auto.
  - destruct (Ascii.eqb c "]"); [|apply step_value_ok; auto].
    destruct stk as [|[done|] stk]; try exact I. cbn in S, L |- *. destruct S as [S1 S2]. repeat split; auto; lia.
  - destruct (is_ws c); [exact (conj S (conj L M))|]. destruct (Ascii.eqb c """"); [exact (conj S (conj L M))|].
    destruct (Ascii.eqb c "}" && first); [|exact I]. cbn in *. repeat split; auto; lia.
  - destruct (is_ws c); [exact (conj S (conj L M))|]. destruct (Ascii.eqb c ":"); [|exact I].
    cbn [state_ok stack_ok mode_ok length frame_depth]. cbn in M. repeat split; auto; lia.
  - assert (P : state_ok (Run stk (MStr ctx acc EPlain))) by (exact (conj S (conj L M))).
    unfold step_string. destruct e.
    + destruct (Ascii.eqb c """").
      { unfold end_string. destruct (utf8_valid acc); [|exact I]. destruct ctx; cbn in *; repeat split; auto; lia. }
      destruct (Ascii.eqb c "\"); [exact P|]. destruct (N_of_ascii c <? 32)%N; [exact I|exact P].
    + repeat match goal with |- context [if ?x then _ else _] => destruct x end; try exact I; exact P.
    + destruct (hex_val c); [|exact I]. destruct todo as [|[|todo]]; try (apply unicode_escape_ok; exact P). exact P.
    + destruct (Ascii.eqb c "\"); [exact P|exact I].
    + destruct (Ascii.eqb c "u"); [exact P|exact I].
  - destruct (num_step p c); [exact (conj S (conj L I))|].
    destruct (number p lit) as [v|] eqn:E; [|exact I].
    apply step_done_ok; [exact S|]. rewrite (number_depth _ _ _ E). lia.
  - destruct rest as [|d rest]; [exact I|]. destruct (Ascii.eqb c d); [|exact I].
    cbn in M. destruct rest; cbn; repeat split; auto; lia.
  - apply step_done_ok; auto.
Qed.
Lemma feed_ok s : forall st, state_ok st -> state_ok (feed max_depth st s).
Proof. induction s as [|c s IH]; cbn; auto using step_ok. Qed.

Lemma parse_depth t j : parse t = Ok j -> depth j <= max_depth.
Proof.
  unfold parse. intros F.
  assert (O : state_ok (feed max_depth (Run [] MValue) t)).
  { apply feed_ok. cbn. repeat split; auto. unfold max_depth; lia. }
  destruct (feed max_depth (Run [] MValue) t) as [stk m|]; [|discriminate].
  destruct stk as [|f stk]; [|destruct m; discriminate].
  destruct m as [| | | | |p lit| |v]; try discriminate; cbn in F.
  - destruct (number p lit) as [v|] eqn:N; [|discriminate]. inversion F; subst v.
    rewrite (number_depth _ _ _ N). unfold max_depth; lia.
  - inversion F; subst v. exact (proj2 (proj2 O)).
Qed.

(** The reader is exact. *)
Lemma parse_iff t j : parse t = Ok j <-> document t j /\ depth j <= max_depth.
Proof.
  split.
  - intros H. split; [exact (parse_sound _ _ H)|exact (parse_depth _ _ H)].
  - intros [H D]. exact (parse_complete _ _ H D).
Qed.

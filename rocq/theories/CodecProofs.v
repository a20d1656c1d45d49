(** * Proofs about Codec.v *)
From Coq Require Import String Ascii List NArith ZArith Bool Lia ZifyN.
From Verif Require Import Base Metadata Paths Codec SpecCodec StringFacts PathProofs.
Import ListNotations.
Open Scope string_scope.

Ltac Zify.zify_post_hook ::= Z.div_mod_to_equations.

Lemma ascii_code n : (n < 256)%N -> N_of_ascii (ascii_of_N n) = n.
Proof. intros H. apply N_ascii_embedding. exact H. Qed.
Lemma ascii_eq_code a n : N_of_ascii a = n -> ascii_of_N n = a.
Proof. intros <-. apply ascii_N_embedding. Qed.

(** A property of all 256 characters. *)
Lemma all_chars (P : ascii -> bool) :
  forallb P (map (fun n => ascii_of_nat n) (seq 0 256)) = true -> forall c, P c = true.
Proof.
  intros H c. rewrite forallb_forall in H. apply H. apply in_map_iff. exists (nat_of_ascii c).
  split; [apply ascii_nat_embedding|]. apply in_seq. pose proof (nat_ascii_bounded c). lia.
Qed.

Lemma small_get n alphabet c : String.get (N.to_nat n) alphabet = Some c -> (n < N.of_nat (String.length alphabet))%N.
Proof.
  intros H. enough (A : forall k s, String.get k s = Some c -> k < String.length s) by (apply A in H; lia).
  clear. intros k; induction k; intros [|x s]; cbn; try discriminate; [lia|]. intros H. apply IHk in H. lia.
Qed.

(** ** Hexadecimal *)
Definition char_opt_eqb (a b : option N) : bool :=
  match a, b with Some x, Some y => (x =? y)%N | None, None => true | _, _ => false end.
Fixpoint index_of (c : ascii) (s : string) : option N :=
  match s with
  | EmptyString => None
  | String d r => if Ascii.eqb c d then Some 0%N else option_map N.succ (index_of c r)
  end.
Lemma index_of_get c s n : index_of c s = Some n -> nth_char s n c.
Proof.
  unfold nth_char. revert n; induction s as [|d r IH]; cbn; intros n H; [discriminate|].
  destruct (Ascii.eqb_spec c d).
  - inversion H; subst. reflexivity.
  - destruct (index_of c r) as [m|]; [|discriminate]. inversion H; subst.
    rewrite N2Nat.inj_succ. apply IH. reflexivity.
Qed.
Fixpoint distinct (s : string) : bool :=
  match s with EmptyString => true | String c r => match index_of c r with None => distinct r | _ => false end end.
Lemma get_index_of c s : distinct s = true -> forall n, nth_char s n c -> index_of c s = Some n.
Proof.
  unfold nth_char. induction s as [|d r IH]; cbn; intros D n H; [destruct (N.to_nat n); discriminate|].
  destruct (index_of d r) eqn:E; [discriminate|].
  destruct n as [|p] using N.peano_ind.
  - cbn in H. inversion H; subst. now rewrite Ascii.eqb_refl.
  - rewrite N2Nat.inj_succ in H. pose proof (IH D _ H) as I. destruct (Ascii.eqb_spec c d) as [->|_].
    + congruence.
    + rewrite I. reflexivity.
Qed.
Lemma char_opt_eqb_eq a b : char_opt_eqb a b = true -> a = b.
Proof. destruct a, b; cbn; try discriminate; auto. intros H%N.eqb_eq. congruence. Qed.

Lemma hex_digit_val_spec c n : hex_digit_val c = Some n <-> nth_char "0123456789abcdef" n c.
Proof.
  assert (E : hex_digit_val c = index_of c "0123456789abcdef").
  { apply char_opt_eqb_eq. revert c. apply all_chars. vm_compute. reflexivity. }
  rewrite E. split; [apply index_of_get|apply get_index_of; reflexivity].
Qed.

Lemma hex_digit_val_lt c n : hex_digit_val c = Some n -> (n < 16)%N.
Proof. intros H. apply hex_digit_val_spec, small_get in H. exact H. Qed.

Lemma hex_digit_spec n : (n < 16)%N -> hex_digit_val (hex_digit n) = Some n.
Proof.
  intros H. unfold hex_digit, hex_digit_val. destruct (N.ltb_spec n 10).
  - rewrite ascii_code by lia. destruct (N.leb_spec 48 (48 + n)), (N.leb_spec (48 + n) 57); cbn [andb]; try lia. f_equal; lia.
  - rewrite ascii_code by lia. destruct (N.leb_spec 48 (87 + n)), (N.leb_spec (87 + n) 57); cbn [andb]; try lia.
    destruct (N.leb_spec 97 (87 + n)), (N.leb_spec (87 + n) 102); cbn [andb]; try lia. f_equal; lia.
Qed.

Lemma string_ind2 (P : string -> Prop) :
  P "" -> (forall a, P (String a "")) -> (forall a b r, P r -> P (String a (String b r))) -> forall s, P s.
Proof.
  intros H0 H1 H2 s. enough (P s /\ forall a, P (String a s)) by tauto.
  induction s as [|c r [IH1 IH2]]; split; auto.
Qed.

Lemma hex_decode_text s : forall b, hex_decode s = Some b <-> hex_text s b.
Proof.
  induction s as [|a|a b r IH] using string_ind2; intros v; cbn; split; intros H.
  - inversion H. constructor.
  - now inversion H.
  - discriminate.
  - inversion H.
  - destruct (hex_digit_val a) as [x|] eqn:A; [|discriminate].
    destruct (hex_digit_val b) as [y|] eqn:B; [|discriminate].
    destruct (hex_decode r) as [t|] eqn:R; [|discriminate]. inversion H; subst.
    pose proof (hex_digit_val_lt _ _ A). pose proof (hex_digit_val_lt _ _ B).
    econstructor; [apply hex_digit_val_spec; exact A|apply hex_digit_val_spec; exact B| |apply IH; reflexivity].
    apply ascii_code. lia.
  - inversion H as [|? ? x y c ? t A B E T]; subst.
    apply hex_digit_val_spec in A, B. apply IH in T. rewrite A, B, T. f_equal. f_equal.
    apply ascii_eq_code. exact E.
Qed.

Lemma hex_encode_text b : hex_text (hex_encode b) b.
Proof.
  induction b as [|c r IH]; cbn [hex_encode]; [constructor|].
  pose proof (N_ascii_lt c).
  econstructor; [apply hex_digit_val_spec, hex_digit_spec|apply hex_digit_val_spec, hex_digit_spec| |exact IH]; lia.
Qed.

Lemma hex_decode_encode b : hex_decode (hex_encode b) = Some b.
Proof. apply hex_decode_text, hex_encode_text. Qed.

Lemma hex_text_unique s b : hex_text s b -> forall s', hex_text s' b -> s = s'.
Proof.
  induction 1 as [|h l x y b t r A B E _ IH]; intros s' H'; inversion H' as [|h' l' x' y' b' t' r' A' B' E' T']; subst; auto.
  assert (x < 16)%N by (apply small_get in A; exact A).
  assert (x' < 16)%N by (apply small_get in A'; exact A').
  assert (y < 16)%N by (apply small_get in B; exact B).
  assert (y' < 16)%N by (apply small_get in B'; exact B').
  assert (x = x') by lia. assert (y = y') by lia. subst.
  unfold nth_char in *. rewrite A in A'. rewrite B in B'. rewrite (IH _ T'). congruence.
Qed.

Lemma hex_decode_Some s b : hex_decode s = Some b <-> s = hex_encode b.
Proof.
  split.
  - intros H%hex_decode_text. eapply hex_text_unique; [exact H|apply hex_encode_text].
  - intros ->. apply hex_decode_encode.
Qed.

Lemma hex_accepts s : (exists b, hex_decode s = Some b) <-> lower_hex s.
Proof.
  unfold lower_hex. induction s as [|a|a b r IH] using string_ind2.
  - split; [|exists ""; reflexivity]. intros _. split; [exists 0; reflexivity|]. intros [|n] c; discriminate.
  - split; [intros [b H]; discriminate|]. intros [[k E] _]. cbn in E. lia.
  - cbn [hex_decode]. split.
    + intros [v H]. destruct (hex_digit_val a) as [x|] eqn:A; [|discriminate].
      destruct (hex_digit_val b) as [y|] eqn:B; [|discriminate].
      destruct (hex_decode r) as [t|] eqn:R; [|discriminate].
      destruct (proj1 IH (ex_intro _ t eq_refl)) as [[k E] G].
      split; [exists (S k); cbn; lia|].
      intros [|[|n]] c C; cbn in C; [inversion C; subst; exists x; now apply hex_digit_val_spec
        |inversion C; subst; exists y; now apply hex_digit_val_spec|eauto].
    + intros [[k E] G]. destruct (G 0 a eq_refl) as [x X]. destruct (G 1 b eq_refl) as [y Y].
      apply hex_digit_val_spec in X, Y. rewrite X, Y.
      destruct (proj2 IH) as [t T].
      { split; [exists (pred k); cbn in E; lia|]. intros n c C. exact (G (S (S n)) c C). }
      rewrite T. eauto.
Qed.

(** ** Base64 *)
Lemma b64_val_spec c n : b64_val c = Some n <-> nth_char b64_alphabet n c.
Proof.
  assert (E : b64_val c = index_of c b64_alphabet).
  { apply char_opt_eqb_eq. revert c. apply all_chars. vm_compute. reflexivity. }
  rewrite E. split; [apply index_of_get|apply get_index_of; reflexivity].
Qed.
Lemma b64_val_lt c n : nth_char b64_alphabet n c -> (n < 64)%N.
Proof. intros H. apply small_get in H. exact H. Qed.
Lemma b64_char_spec n : (n < 64)%N -> nth_char b64_alphabet n (b64_char n).
Proof.
  intros H. apply b64_val_spec.
  assert (A : forallb (fun k => char_opt_eqb (b64_val (b64_char (N.of_nat k))) (Some (N.of_nat k))) (seq 0 64) = true)
    by (vm_compute; reflexivity).
  rewrite forallb_forall in A. specialize (A (N.to_nat n)). rewrite N2Nat.id in A.
  apply char_opt_eqb_eq, A, in_seq. lia.
Qed.

Lemma string_ind3 (P : string -> Prop) :
  P "" -> (forall a, P (String a "")) -> (forall a b, P (String a (String b ""))) ->
  (forall a b c r, P r -> P (String a (String b (String c r)))) -> forall s, P s.
Proof.
  intros H0 H1 H2 H3 s. enough (P s /\ (forall a, P (String a s)) /\ forall a b, P (String a (String b s))) by tauto.
  induction s as [|c r (IH1 & IH2 & IH3)]; repeat split; auto.
Qed.

Lemma b64_encode_text b : b64_text (b64_encode b) b.
Proof.
  induction b as [|a|a b|a b c r IH] using string_ind3; cbn [b64_encode].
  - constructor.
  - pose proof (N_ascii_lt a).
    eapply b64_one; [apply b64_char_spec; lia|apply b64_char_spec; lia|lia].
  - pose proof (N_ascii_lt a). pose proof (N_ascii_lt b).
    eapply b64_two; [apply b64_char_spec; lia|apply b64_char_spec; lia|apply b64_char_spec; lia|lia].
  - pose proof (N_ascii_lt a). pose proof (N_ascii_lt b). pose proof (N_ascii_lt c).
    eapply b64_three; [apply b64_char_spec; lia|apply b64_char_spec; lia|apply b64_char_spec; lia|apply b64_char_spec; lia|lia|exact IH].
Qed.

Lemma b64_decode_text t b : b64_text t b -> b64_decode t = Some b.
Proof.
  induction 1 as [|cx cy x y a X Y E|cx cy cz x y z a b X Y Z E|cx cy cz cw x y z w a b c t r X Y Z W E _ IH].
  - reflexivity.
  - pose proof (b64_val_lt _ _ X). pose proof (b64_val_lt _ _ Y). pose proof (N_ascii_lt a).
    apply b64_val_spec in X, Y. cbn -[N.div N.modulo N.mul]. unfold b64_group. rewrite X, Y.
    replace (y mod 16)%N with 0%N by lia. cbn -[N.div N.modulo N.mul].
    rewrite (ascii_eq_code a) by lia. reflexivity.
  - pose proof (b64_val_lt _ _ X). pose proof (b64_val_lt _ _ Y). pose proof (b64_val_lt _ _ Z).
    pose proof (N_ascii_lt a). pose proof (N_ascii_lt b).
    apply b64_val_spec in X, Y, Z. cbn -[N.div N.modulo N.mul]. unfold b64_group. rewrite X, Y, Z.
    replace (z mod 4)%N with 0%N by lia. cbn -[N.div N.modulo N.mul].
    rewrite (ascii_eq_code a) by lia. rewrite (ascii_eq_code b) by lia. reflexivity.
  - pose proof (b64_val_lt _ _ X). pose proof (b64_val_lt _ _ Y). pose proof (b64_val_lt _ _ Z).
    pose proof (b64_val_lt _ _ W).
    pose proof (N_ascii_lt a). pose proof (N_ascii_lt b). pose proof (N_ascii_lt c).
    apply b64_val_spec in X, Y, Z, W. cbn -[N.div N.modulo N.mul]. unfold b64_group. rewrite X, Y, Z, W, IH.
    cbn -[N.div N.modulo N.mul].
    rewrite (ascii_eq_code a) by lia. rewrite (ascii_eq_code b) by lia. rewrite (ascii_eq_code c) by lia. reflexivity.
Qed.

Lemma b64_decode_encode b : b64_decode (b64_encode b) = Some b.
Proof. apply b64_decode_text, b64_encode_text. Qed.

(** ** DER *)
Lemma blen_app a b : blen (a ++ b) = (blen a + blen b)%N.
Proof. unfold blen. rewrite slength_app. lia. Qed.

Lemma take_bytes_app v : forall r, take_bytes (blen v) (v ++ r) = Some (v, r).
Proof.
  induction v as [|c v IH]; intros r.
  - destruct r; reflexivity.
  - change (blen (String c v)) with (N.of_nat (S (String.length v))). cbn -[N.of_nat N.eqb N.sub].
    destruct (N.eqb_spec (N.of_nat (S (String.length v))) 0); [lia|].
    replace (N.of_nat (S (String.length v)) - 1)%N with (blen v) by (unfold blen; lia). now rewrite IH.
Qed.
Lemma take_bytes_Some s : forall n v r, take_bytes n s = Some (v, r) -> s = v ++ r /\ blen v = n.
Proof.
  induction s as [|c s IH]; intros n v r H; cbn in H; destruct (N.eqb_spec n 0) as [->|Z].
  - inversion H; subst. split; reflexivity.
  - discriminate.
  - inversion H; subst. split; reflexivity.
  - destruct (take_bytes (n - 1) s) as [[a b]|] eqn:T; [|discriminate]. inversion H; subst.
    apply IH in T as [-> E]. split; [reflexivity|]. unfold blen in *. cbn [String.length]. lia.
Qed.

Lemma be_value_snoc s c : be_value (s ++ String c "") = (be_value s * 256 + N_of_ascii c)%N.
Proof.
  unfold be_value.
  assert (A : forall l n, list_ascii_of_string (l ++ String n "") = (list_ascii_of_string l ++ [n])%list).
  { induction l; cbn; intros; [reflexivity|]. now rewrite IHl. }
  rewrite A, fold_left_app. reflexivity.
Qed.
Lemma be_bytes_spec fuel : forall n acc, (0 < n)%N -> (n < 256 ^ N.of_nat fuel)%N ->
  exists d s, be_bytes fuel n acc = String d s ++ acc /\ N_of_ascii d <> 0%N /\ be_value (String d s) = n /\
              String.length (String d s) <= fuel.
Proof.
  induction fuel as [|fuel IH]; intros n acc P H; [cbn in H; lia|].
  cbn -[N.div N.modulo N.eqb]. destruct (N.eqb_spec (n / 256) 0).
  - exists (ascii_of_N (n mod 256)), "". assert (n < 256)%N by lia. rewrite N.mod_small by lia.
    rewrite ascii_code by lia. split; [reflexivity|]. split; [lia|]. unfold be_value; cbn -[N.mul N.add].
    split; [lia|cbn; lia].
  - destruct (IH (n / 256)%N (String (ascii_of_N (n mod 256)) acc)) as (d & s & E & Z & V & L); [lia| |].
    + rewrite Nat2N.inj_succ, N.pow_succ_r' in H. apply N.div_lt_upper_bound; lia.
    + exists d, (s ++ String (ascii_of_N (n mod 256)) ""). rewrite E. split.
      * cbn. f_equal. now rewrite sapp_assoc.
      * split; [exact Z|]. split.
        -- change (be_value (String d s ++ String (ascii_of_N (n mod 256)) "") = n). rewrite be_value_snoc, V.
           rewrite ascii_code by lia. lia.
        -- cbn in *. rewrite slength_app. cbn. lia.
Qed.

Lemma der_len_spec n : (n <= u64_max)%N -> der_length n (der_len n).
Proof.
  intros H. unfold der_len. destruct (N.ltb_spec n 128).
  - apply dl_short; [lia|apply ascii_code; lia].
  - destruct (be_bytes_spec 8 n "") as (d & s & E & Z & V & L); [lia|unfold u64_max in H; cbn; lia|].
    rewrite E, sapp_nil_r. eapply dl_long; [lia| |exact Z|exact V|reflexivity].
    unfold blen. apply ascii_code. lia.
Qed.

Lemma be_value_1 d : be_value (String d "") = N_of_ascii d.
Proof. unfold be_value; cbn [list_ascii_of_string fold_left]. lia. Qed.
Lemma be_value_2 d e : be_value (String d (String e "")) = (N_of_ascii d * 256 + N_of_ascii e)%N.
Proof. unfold be_value; cbn [list_ascii_of_string fold_left]. lia. Qed.

Lemma be_value_grows s : forall n, (256 ^ N.of_nat (String.length s) * n <=
  fold_left (fun n c => n * 256 + N_of_ascii c) (list_ascii_of_string s) n)%N.
Proof.
  induction s as [|c s IH]; intros n; cbn -[N.mul N.add N.of_nat N.pow]; [change (1 * n <= n)%N; lia|].
  etransitivity; [|apply IH]. rewrite Nat2N.inj_succ, N.pow_succ_r'.
  replace (256 * 256 ^ N.of_nat (String.length s) * n)%N with (256 ^ N.of_nat (String.length s) * (n * 256))%N by lia.
  apply N.mul_le_mono_l. lia.
Qed.

(** The reader takes exactly the lengths below 65536. *)
Lemma der_read_len_spec s n r : der_read_len s = Some (n, r) <->
  exists l, s = l ++ r /\ der_length n l /\ (n < 65536)%N.
Proof.
  split.
  - destruct s as [|l s]; [discriminate|]. cbn [der_read_len]. destruct (N.ltb_spec (N_of_ascii l) 128).
    { intros H'. inversion H'; subst. exists (String l ""). split; [reflexivity|]. split; [constructor; auto|lia]. }
    destruct (N.eqb_spec (N_of_ascii l) 129).
    { destruct s as [|b s]; [discriminate|]. destruct (N.ltb_spec (N_of_ascii b) 128); [discriminate|].
      intros H'. inversion H'; subst. exists (String l (String b "")). split; [reflexivity|].
      pose proof (N_ascii_lt b). split; [|lia].
      eapply dl_long; [lia| | |apply be_value_1|reflexivity]; cbn; lia. }
    destruct (N.eqb_spec (N_of_ascii l) 130); [|discriminate].
    destruct s as [|b [|c s]]; [discriminate|discriminate|].
    destruct (N.ltb_spec (N_of_ascii b * 256 + N_of_ascii c) 256); [discriminate|].
    intros H'. inversion H'; subst. exists (String l (String b (String c ""))). split; [reflexivity|].
    pose proof (N_ascii_lt b). pose proof (N_ascii_lt c). split; [|lia].
    eapply dl_long; [lia| | |apply be_value_2|reflexivity]; cbn [String.length]; lia.
  - intros (l & -> & D & L). inversion D as [n' c S E|n' k c d s S K Z V EC]; subst.
    + cbn. destruct (N.ltb_spec (N_of_ascii c) 128); [reflexivity|lia].
    + cbn [append der_read_len]. pose proof (N_ascii_lt d).
      assert (G := be_value_grows s (N_of_ascii d)).
      change (fold_left _ (list_ascii_of_string s) (N_of_ascii d)) with (be_value (String d s)) in G.
      destruct s as [|e [|f s]].
      * rewrite be_value_1 in *. cbn in K. rewrite K. cbn -[N.ltb]. destruct (N.ltb_spec (N_of_ascii d) 128); [lia|reflexivity].
      * rewrite be_value_2 in *. cbn in K. rewrite K. cbn -[N.ltb N.mul N.add].
        destruct (N.ltb_spec (N_of_ascii d * 256 + N_of_ascii e) 256); [lia|reflexivity].
      * exfalso. clear K. cbn [String.length] in G. rewrite !Nat2N.inj_succ, !N.pow_succ_r' in G.
        assert (1 <= 256 ^ N.of_nat (String.length s))%N by (apply N.lt_pred_le; cbn; apply N.neq_0_lt_0, N.pow_nonzero; lia).
        nia.
Qed.

Lemma be_value_inj s : forall s', String.length s = String.length s' -> be_value s = be_value s' -> s = s'.
Proof.
  unfold be_value. enough (A : forall s s' n n', String.length s = String.length s' ->
    fold_left (fun n c => n * 256 + N_of_ascii c)%N (list_ascii_of_string s) n =
    fold_left (fun n c => n * 256 + N_of_ascii c)%N (list_ascii_of_string s') n' -> n = n' /\ s = s').
  { intros s' L E. exact (proj2 (A s s' _ _ L E)). }
  clear. induction s as [|c s IH]; intros [|c' s'] n n' L E; try discriminate; [auto|].
  cbn -[N.mul N.add] in E. apply IH in E as [E ->]; [|now inversion L].
  pose proof (N_ascii_lt c). pose proof (N_ascii_lt c'). assert (n = n') by lia. subst.
  assert (C : N_of_ascii c = N_of_ascii c') by lia.
  split; [reflexivity|]. f_equal. rewrite <- (ascii_N_embedding c), C. apply ascii_N_embedding.
Qed.
Lemma be_length_eq d s d' s' : N_of_ascii d <> 0%N -> N_of_ascii d' <> 0%N ->
  be_value (String d s) = be_value (String d' s') -> String.length s = String.length s'.
Proof.
  assert (U : forall s n, (fold_left (fun n c => n * 256 + N_of_ascii c) (list_ascii_of_string s) n <
                           256 ^ N.of_nat (String.length s) * (n + 1))%N).
  { clear. induction s as [|c s IH]; intros n; cbn -[N.mul N.add N.of_nat N.pow]; [change (n < 1 * (n + 1))%N; lia|].
    eapply N.lt_le_trans; [apply IH|]. rewrite Nat2N.inj_succ, N.pow_succ_r'.
    pose proof (N_ascii_lt c).
    replace (256 * 256 ^ N.of_nat (String.length s) * (n + 1))%N with (256 ^ N.of_nat (String.length s) * ((n + 1) * 256))%N by lia.
    apply N.mul_le_mono_l. lia. }
  enough (W : forall d s d' s', N_of_ascii d' <> 0%N -> be_value (String d s) = be_value (String d' s') ->
              ~ String.length s < String.length s').
  { intros Z Z' E. pose proof (W d s d' s' Z' E). pose proof (W d' s' d s Z (eq_sym E)). lia. }
  intros e t e' t' Z E L. change (be_value (String e t)) with
    (fold_left (fun n c => n * 256 + N_of_ascii c)%N (list_ascii_of_string t) (N_of_ascii e)) in E.
  change (be_value (String e' t')) with
    (fold_left (fun n c => n * 256 + N_of_ascii c)%N (list_ascii_of_string t') (N_of_ascii e')) in E.
  pose proof (U t (N_of_ascii e)) as A. pose proof (be_value_grows t' (N_of_ascii e')) as B.
  pose proof (N_ascii_lt e).
  assert (P : (256 ^ N.of_nat (String.length t) * 256 <= 256 ^ N.of_nat (String.length t'))%N).
  { replace (256 ^ N.of_nat (String.length t) * 256)%N with (256 ^ N.succ (N.of_nat (String.length t)))%N
      by (rewrite N.pow_succ_r'; lia). apply N.pow_le_mono_r; lia. }
  assert (256 ^ N.of_nat (String.length t) * (N_of_ascii e + 1) <= 256 ^ N.of_nat (String.length t) * 256)%N
    by (apply N.mul_le_mono_l; lia).
  assert (256 ^ N.of_nat (String.length t') * 1 <= 256 ^ N.of_nat (String.length t') * N_of_ascii e')%N
    by (apply N.mul_le_mono_l; lia).
  lia.
Qed.
Lemma der_length_unique n l l' : der_length n l -> der_length n l' -> l = l'.
Proof.
  intros D D'. inversion D as [n1 c S E|n1 k c d s S K Z V EC]; inversion D' as [n2 c' S' E'|n2 k' c' d' s' S' K' Z' V' EC']; subst; try lia.
  - f_equal. rewrite <- (ascii_N_embedding c), <- E'. apply ascii_N_embedding.
  - pose proof (be_length_eq d s d' s' Z Z' (eq_sym V')) as L.
    assert (X : String d s = String d' s') by (apply be_value_inj; [cbn; now rewrite L|now symmetry]).
    inversion X; subst. f_equal. rewrite <- (ascii_N_embedding k), K, <- K'. apply ascii_N_embedding.
Qed.
Lemma der_len_unique n l : (n <= u64_max)%N -> der_length n l -> l = der_len n.
Proof. intros H D. eapply der_length_unique; [exact D|apply der_len_spec; exact H]. Qed.

Lemma der_expect_tlv tag v r : (tag < 256)%N -> (blen v < 65536)%N ->
  der_expect tag (der_tlv tag v ++ r) = Some (v, r).
Proof.
  intros T L. unfold der_tlv, der_expect. cbn [append]. rewrite ascii_code, N.eqb_refl by lia.
  rewrite sapp_assoc. erewrite (proj2 (der_read_len_spec _ _ _)).
  2:{ eexists. split; [reflexivity|]. split; [apply der_len_spec; unfold u64_max; lia|exact L]. }
  apply take_bytes_app.
Qed.
Lemma der_expect_Some tag s v r : (tag < 256)%N -> der_expect tag s = Some (v, r) ->
  s = der_tlv tag v ++ r /\ (blen v < 65536)%N.
Proof.
  intros T H. destruct s as [|t s]; [discriminate|]. cbn [der_expect] in H.
  destruct (N.eqb_spec (N_of_ascii t) tag) as [E|]; [|discriminate].
  destruct (der_read_len s) as [[n s']|] eqn:D; [|discriminate].
  apply der_read_len_spec in D as (l & -> & D & L). apply take_bytes_Some in H as [-> B]. subst n.
  split; [|exact L]. unfold der_tlv. rewrite (ascii_eq_code t) by exact E.
  apply der_len_unique in D; [|unfold u64_max; lia]. subst l. cbn [append]. now rewrite sapp_assoc.
Qed.
Lemma der_tlv_value tag v : (tag < 256)%N -> (blen v <= u64_max)%N -> der_value tag v (der_tlv tag v).
Proof. intros T L. exists (ascii_of_N tag), (der_len (blen v)). split; [apply ascii_code, T|]. split; [apply der_len_spec, L|reflexivity]. Qed.
Lemma der_value_tlv tag v s : (blen v <= u64_max)%N -> der_value tag v s -> s = der_tlv tag v.
Proof.
  intros L (t & l & E & D & ->). apply der_len_unique in D; [|exact L]. subst l. unfold der_tlv.
  rewrite (ascii_eq_code t) by exact E. reflexivity.
Qed.

Lemma at_end_Some {A} (x : option (A * bytes)) a : at_end x = Some a <-> x = Some (a, "").
Proof.
  destruct x as [[b [|c r]]|]; cbn; split; intros H; try discriminate; inversion H; reflexivity.
Qed.

(** The algorithm identifier. *)
Definition spki_alg (oid : bytes) : bytes := der_tlv tag_sequence (der_tlv tag_oid oid ++ der_tlv tag_null "").
Definition spki_body (oid key : bytes) : bytes := spki_alg oid ++ der_tlv tag_bit_string (String "000" key).

Lemma write_spki_eq key t : write_spki key t =
  match oid_of_key_type t with Some oid => Some (der_tlv tag_sequence (spki_body oid key)) | None => None end.
Proof. reflexivity. Qed.

Lemma key_type_of_oid_Some oid t : key_type_of_oid oid = Some t <-> oid_of_key_type t = Some oid.
Proof.
  unfold key_type_of_oid. split.
  - destruct (String.eqb_spec oid rsa_oid) as [->|]; [intros H; inversion H; reflexivity|].
    destruct (String.eqb_spec oid ed25519_oid) as [->|]; [intros H; inversion H; reflexivity|discriminate].
  - destruct t; cbn [oid_of_key_type]; intros H; inversion H; reflexivity.
Qed.

Lemma blen_tlv tag v : (blen v <= u64_max)%N -> (blen (der_tlv tag v) <= blen v + 10)%N.
Proof.
  intros L. unfold der_tlv, blen at 1. cbn [String.length]. rewrite slength_app.
  enough (String.length (der_len (blen v)) <= 9) by (unfold blen in *; lia).
  unfold der_len. destruct (N.ltb_spec (blen v) 128); [cbn; lia|].
  destruct (be_bytes_spec 8 (blen v) "") as (d & s & E & _ & _ & B); [lia|unfold u64_max in L; cbn; lia|].
  rewrite E, sapp_nil_r. cbn [String.length] in *. lia.
Qed.
Lemma blen_body oid key t : oid_of_key_type t = Some oid -> (blen key <= 65000)%N -> (blen (spki_body oid key) < 65536)%N.
Proof.
  intros O L. unfold spki_body. rewrite blen_app.
  assert (B := blen_tlv tag_bit_string (String "000" key)). unfold blen at 1 3 in B. cbn [String.length] in B.
  assert (A : (blen (spki_alg oid) <= 20)%N) by (destruct t; inversion O; subst; vm_compute; discriminate).
  unfold u64_max, blen in *. lia.
Qed.

(** The reader: exactly the encodings short enough. *)
Lemma read_spki_Some der t key : read_spki der = Some (t, key) <->
  exists oid, oid_of_key_type t = Some oid /\ (blen (spki_body oid key) < 65536)%N /\
              der = der_tlv tag_sequence (spki_body oid key).
Proof.
  split.
  - unfold read_spki. intros H.
    destruct (at_end (der_expect tag_sequence der)) as [sp|] eqn:E1; [|discriminate].
    apply at_end_Some, der_expect_Some in E1 as [-> L1]; [|reflexivity].
    destruct (der_expect tag_sequence sp) as [[alg r]|] eqn:E2; [|discriminate].
    apply der_expect_Some in E2 as [-> L2]; [|reflexivity].
    destruct (der_expect tag_oid alg) as [[oid params]|] eqn:E3; [|discriminate].
    apply der_expect_Some in E3 as [-> L3]; [|reflexivity].
    destruct (key_type_of_oid oid) as [t'|] eqn:E4; [|discriminate]. apply key_type_of_oid_Some in E4.
    destruct (at_end (der_expect tag_null params)) as [nul|] eqn:E5; [|discriminate].
    apply at_end_Some, der_expect_Some in E5 as [-> L5]; [|reflexivity].
    destruct nul; [|discriminate].
    destruct (at_end (der_expect tag_bit_string r)) as [bits|] eqn:E6; [|discriminate].
    apply at_end_Some, der_expect_Some in E6 as [-> L6]; [|reflexivity].
    destruct bits as [|u key']; [discriminate|].
    destruct (N.eqb_spec (N_of_ascii u) 0) as [U|]; [|discriminate]. inversion H; subst.
    assert (u = "000"%char) as -> by (rewrite <- (ascii_N_embedding u), U; reflexivity).
    exists oid. rewrite !sapp_nil_r in *. auto.
  - intros (oid & O & L & ->). unfold read_spki.
    rewrite <- (sapp_nil_r (der_tlv tag_sequence (spki_body oid key))).
    rewrite der_expect_tlv by (try reflexivity; exact L). cbn [at_end].
    assert (LB := L). unfold spki_body in LB. rewrite blen_app in LB.
    assert (LK : (blen (String "000" key) < 65536)%N).
    { assert (X : (blen (String "000" key) <= blen (der_tlv tag_bit_string (String "000" key)))%N); [|lia].
      generalize (String "000" key). intros v. unfold der_tlv, blen. cbn [String.length]. rewrite slength_app. lia. }
    assert (LO : (blen oid < 10)%N) by (destruct t; inversion O; subst; reflexivity).
    unfold spki_body, spki_alg.
    assert (A : forall t, oid_of_key_type t = Some oid ->
      (blen (der_tlv tag_oid oid ++ der_tlv tag_null "") < 65536)%N)
      by (intros t' H; destruct t'; inversion H; subst; reflexivity).
    rewrite der_expect_tlv by (try reflexivity; exact (A t O)).
    rewrite der_expect_tlv by (try reflexivity; lia).
    rewrite (proj2 (key_type_of_oid_Some oid t) O).
    rewrite <- (sapp_nil_r (der_tlv tag_null "")), der_expect_tlv by reflexivity. cbn [at_end].
    rewrite <- (sapp_nil_r (der_tlv tag_bit_string _)), der_expect_tlv by (try reflexivity; exact LK). cbn [at_end].
    reflexivity.
Qed.

(** Proofs about paths. *)
From Coq Require Import String Ascii List NArith Bool Lia.
From Verif Require Import Base BaseFacts StringFacts Metadata Paths SpecPaths.
Import ListNotations.
Open Scope string_scope.
Local Arguments decimal : simpl never.

Lemma split_nonempty s : split_slash s <> [].
Proof. destruct s; cbn; [discriminate|]. destruct (Ascii.eqb _ _); [discriminate|]. destruct (split_slash s); discriminate. Qed.

Lemma split_app a b : split_slash (a ++ String "/" b) = (split_slash a ++ split_slash b)%list.
Proof.
  induction a as [|c a IH]; cbn.
  - reflexivity.
  - destruct (Ascii.eqb c "/"); cbn; rewrite IH; auto.
    destruct (split_slash a) eqn:S; [now apply split_nonempty in S|]. reflexivity.
Qed.

Lemma split_noslash x : ~ has_char "/" x -> split_slash x = [x].
Proof.
  induction x as [|c x IH]; cbn; intros N; auto.
  rewrite has_char_cons in N. destruct (Ascii.eqb_spec c "/") as [->|]; [tauto|].
  rewrite IH; tauto.
Qed.

Lemma split_pieces s x : In x (split_slash s) -> ~ has_char "/" x.
Proof.
  revert x. induction s as [|c s IH]; cbn; intros x.
  - intros [<-|[]]. apply has_char_nil.
  - destruct (Ascii.eqb_spec c "/") as [->|N].
    + intros [<-|I]; [apply has_char_nil|auto].
    + destruct (split_slash s) as [|p ps] eqn:S; [now apply split_nonempty in S|].
      intros [<-|I].
      * rewrite has_char_cons. intros [E|H]; [congruence|]. revert H. apply IH. now left.
      * apply IH. now right.
Qed.

Lemma join_cons x y l : join_slash (x :: y :: l) = x ++ "/" ++ join_slash (y :: l).
Proof. reflexivity. Qed.

Lemma join_app a b : a <> [] -> b <> [] ->
  join_slash (a ++ b)%list = join_slash a ++ "/" ++ join_slash b.
Proof.
  intros Na Nb. induction a as [|x a IH]; [contradiction|].
  destruct a as [|y a].
  - destruct b; [contradiction|]. reflexivity.
  - change ((x :: y :: a) ++ b)%list with (x :: (y :: a) ++ b)%list.
    change ((y :: a) ++ b)%list with (y :: (a ++ b))%list at 1.
    rewrite join_cons. change (y :: (a ++ b))%list with ((y :: a) ++ b)%list.
    rewrite IH by discriminate. rewrite join_cons, !sapp_assoc. reflexivity.
Qed.

Lemma join_split s : join_slash (split_slash s) = s.
Proof.
  induction s as [|c s IH]; cbn; auto.
  destruct (split_slash s) as [|p ps] eqn:S; [now apply split_nonempty in S|].
  destruct (Ascii.eqb_spec c "/") as [->|N].
  - change (join_slash ("" :: p :: ps)) with (String "/" (join_slash (p :: ps))). now rewrite IH.
  - destruct ps; cbn in *; congruence.
Qed.

Lemma split_join l : l <> [] -> (forall x, In x l -> ~ has_char "/" x) -> split_slash (join_slash l) = l.
Proof.
  induction l as [|x l IH]; intros Hn H; [contradiction|].
  destruct l as [|y l].
  - cbn. apply split_noslash. apply H. now left.
  - rewrite join_cons. change (x ++ "/" ++ join_slash (y :: l)) with (x ++ String "/" (join_slash (y :: l))).
    rewrite split_app, IH; [|discriminate|intros z I; apply H; now right].
    rewrite split_noslash by (apply H; now left). reflexivity.
Qed.

Lemma split_component s x : In x (split_slash s) <-> component s x.
Proof.
  split.
  - intros I. split; [eapply split_pieces; eauto|].
    apply in_split in I as (l1 & l2 & E).
    rewrite <- (join_split s), E.
    destruct l1 as [|a l1]; destruct l2 as [|b l2].
    + exists "", "". cbn. rewrite sapp_nil_r. auto.
    + exists "", ("/" ++ join_slash (b :: l2)). split; [reflexivity|]. split; eauto.
    + exists (join_slash (a :: l1) ++ "/"), "". rewrite join_app by discriminate.
      cbn [join_slash]. rewrite sapp_nil_r, sapp_assoc. split; [reflexivity|]. split; eauto.
    + exists (join_slash (a :: l1) ++ "/"), ("/" ++ join_slash (b :: l2)).
      rewrite join_app by discriminate. rewrite join_cons, sapp_assoc. split; [reflexivity|]. split; eauto.
  - intros (Nx & pre & post & -> & Hpre & Hpost).
    assert (K : In x (split_slash (x ++ post))).
    { destruct Hpost as [->|(b & ->)].
      - rewrite sapp_nil_r, split_noslash by auto. now left.
      - cbn [append]. rewrite split_app, split_noslash by auto. apply in_or_app. left. now left. }
    destruct Hpre as [->|(a & ->)]; auto.
    rewrite sapp_assoc. cbn [append]. rewrite split_app. apply in_or_app. auto.
Qed.

Lemma contains_has c s : contains_char c s = true <-> has_char c s.
Proof.
  induction s as [|d s IH]; cbn.
  - split; [discriminate|]. intros H. now apply has_char_nil in H.
  - rewrite orb_true_iff, IH, has_char_cons, Ascii.eqb_eq. tauto.
Qed.

(** The characters are 256, so a decision procedure settles the comparison. *)
Definition forbiddenb (c : ascii) : bool :=
  let n := N_of_ascii c in
  (n <? 32)%N || (n =? 127)%N || existsb (N.eqb n) [34; 42; 58; 60; 62; 63; 92; 124]%N.
Lemma forbiddenb_iff c : forbiddenb c = true <-> forbidden c.
Proof.
  unfold forbiddenb, forbidden. rewrite !orb_true_iff, N.ltb_lt, N.eqb_eq, existsb_exists.
  split.
  - intros [[H|H]|(x & I & H)]; auto. apply N.eqb_eq in H. subst. auto.
  - intros [H|[H|H]]; auto. right. exists (N_of_ascii c). split; auto. apply N.eqb_refl.
Qed.
Lemma illegal_chars_forbidden c : In c path_illegal_chars <-> forbidden c.
Proof.
  rewrite <- forbiddenb_iff.
  assert (E : existsb (Ascii.eqb c) path_illegal_chars = forbiddenb c).
  { destruct c as [[] [] [] [] [] [] [] []]; vm_compute; reflexivity. }
  rewrite <- E, existsb_exists. split.
  - intros I. exists c. split; auto. apply Ascii.eqb_refl.
  - intros (x & I & H). apply Ascii.eqb_eq in H. now subst.
Qed.

(** No lower-cased string has an upper-case letter. *)
Definition is_upper (c : ascii) : bool := let n := N_of_ascii c in (65 <=? n)%N && (n <=? 90)%N.
Lemma lower_not_upper c : is_upper (lower_char c) = false.
Proof. destruct c as [[] [] [] [] [] [] [] []]; vm_compute; reflexivity. Qed.
Lemma lowercase_no_upper s c : has_char c (to_lowercase s) -> is_upper c = false.
Proof.
  induction s as [|d s IH]; cbn; intros H; [now apply has_char_nil in H|].
  apply has_char_cons in H as [->|H]; auto. apply lower_not_upper.
Qed.

(** So the comparison with the upper-case device names never fires. *)
Lemma device_names_dead x :
  existsb (fun bad => String.eqb (to_lowercase x) bad) path_illegal_components_case_insensitive = false.
Proof.
  apply not_true_iff_false. intros H. apply existsb_exists in H as (bad & I & H).
  apply String.eqb_eq in H.
  assert (U : exists c, has_char c bad /\ is_upper c = true).
  { repeat (destruct I as [<-|I];
      [match goal with |- context [has_char _ (String ?c ?r)] =>
         first [ exists c; split; [exists ""; eexists; reflexivity|reflexivity]
               | match r with String ?d ?r' => exists d; split; [exists (String c ""); eexists; reflexivity|reflexivity] end ] end|]).
    destruct I. }
  destruct U as (c & Hc & U). rewrite <- H in Hc. apply lowercase_no_upper in Hc. congruence.
Qed.

Lemma existsb_ext {A} (f g : A -> bool) l : (forall x, f x = g x) -> existsb f l = existsb g l.
Proof. intros H. induction l; cbn; congruence. Qed.

Lemma safe_path_iff s : safe_path s = Ok tt <-> acceptable_path s.
Proof.
  unfold safe_path, acceptable_path.
  destruct (String.eqb_spec s "") as [->|N1].
  { split; [discriminate|]. intros (H & _). contradiction. }
  destruct (starts_with "/" s) eqn:P.
  { split; [discriminate|]. apply prefix_iff in P as (b & ->). intros (_ & H & _). exfalso. now apply (H b). }
  destruct (existsb (fun c => contains_char c s) path_illegal_chars) eqn:C.
  { split; [discriminate|]. intros (_ & _ & H & _). exfalso.
    apply existsb_exists in C as (c & I & C). apply contains_has in C.
    apply (H c C). now apply illegal_chars_forbidden. }
  rewrite (existsb_ext _ (fun x => existsb (fun bad => String.eqb x bad) path_illegal_components)).
  2:{ intros x. rewrite device_names_dead. apply orb_false_r. }
  assert (Q : existsb (fun x => existsb (fun bad => String.eqb x bad) path_illegal_components) (split_slash s) = true
              <-> component s "." \/ component s "..").
  { rewrite existsb_exists, <- !split_component. cbn. split.
    - intros (x & I & H). rewrite !orb_true_iff, !String.eqb_eq in H.
      destruct H as [->|[->|]]; auto. discriminate.
    - intros [H|H]; [exists "."|exists ".."]; auto. }
  assert (R1 : forall b, s <> "/" ++ b).
  { intros b Eb. assert (starts_with "/" s = true) by (apply prefix_iff; eauto). congruence. }
  assert (R2 : forall c, has_char c s -> ~ forbidden c).
  { intros c Hc F. apply illegal_chars_forbidden in F. apply contains_has in Hc.
    apply not_true_iff_false in C. apply C. apply existsb_exists. eauto. }
  destruct (existsb _ (split_slash s)).
  - split; [discriminate|]. intros (_ & _ & _ & H1 & H2). destruct (proj1 Q eq_refl); contradiction.
  - split; auto. intros _.
    assert (X : ~ (component s "." \/ component s "..")) by (intros H; apply Q in H; discriminate).
    split; [auto|]. split; [auto|]. split; [auto|]. tauto.
Qed.

Lemma path_new_iff s p : path_new s = Ok p <-> p = s /\ acceptable_path s.
Proof.
  unfold path_new. rewrite rbind_Ok. split.
  - intros ([] & H & E). inversion E; subst. split; auto. now apply safe_path_iff.
  - intros (-> & H). exists tt. split; auto. now apply safe_path_iff.
Qed.

Lemma from_role_ok r : path_new (role_name r) = Ok (from_role r).
Proof. destruct r; vm_compute; reflexivity. Qed.

(** *** Walking *)

Lemma walk_plain comps : (forall x, In x comps -> x <> "." /\ x <> "..") -> forall cwd,
  walk cwd comps = (rev (filter (fun x => negb (String.eqb x "")) comps) ++ cwd)%list.
Proof.
  induction comps as [|x comps IH]; intros H cwd; cbn; auto.
  destruct (H x (or_introl eq_refl)) as [H1 H2].
  apply String.eqb_neq in H1, H2. rewrite H1, H2, orb_false_r.
  rewrite IH by (intros y I; apply H; now right).
  destruct (String.eqb x ""); cbn; auto. now rewrite <- app_assoc.
Qed.

Lemma acceptable_components s x : acceptable_path s -> In x (split_slash s) -> x <> "." /\ x <> "..".
Proof.
  intros (_ & _ & _ & H1 & H2) I. rewrite <- split_component in H1, H2. split; intros ->; auto.
Qed.

Lemma map_last_spec f l : l <> [] -> exists a x, l = (a ++ [x])%list /\ map_last f l = (a ++ [f x])%list.
Proof.
  intros N. destruct (exists_last N) as (a & x & ->). exists a, x. split; auto.
  unfold map_last. rewrite rev_app_distr. cbn. now rewrite rev_involutive.
Qed.

Lemma map_last_snoc f a x : map_last f (a ++ [x])%list = (a ++ [f x])%list.
Proof. unfold map_last. rewrite rev_app_distr. cbn. now rewrite rev_involutive. Qed.

Lemma split_snoc s : exists a x, split_slash s = (a ++ [x])%list.
Proof.
  destruct (exists_last (split_nonempty s)) as (a & x & E). eauto.
Qed.

(** *** Decimal numbers *)

Definition digit_value (c : ascii) : N := N_of_ascii c - 48.
Fixpoint undec (acc : N) (s : string) : N :=
  match s with EmptyString => acc | String c r => undec (acc * 10 + digit_value c) r end.

Definition is_digit (c : ascii) : Prop := (48 <= N_of_ascii c <= 57)%N.

Lemma digit_code n : (n < 10)%N -> N_of_ascii (ascii_of_N (48 + n)) = (48 + n)%N.
Proof. intros H. apply N_ascii_embedding. lia. Qed.

Lemma digit_step n : (n / 10 * 10 + (48 + n mod 10 - 48))%N = n.
Proof.
  pose proof (N.div_mod n 10 ltac:(lia)) as D. generalize dependent (n / 10)%N.
  generalize (n mod 10)%N. intros. lia.
Qed.

Lemma decimal_aux_value fuel : forall n acc, (n < 2 ^ N.of_nat fuel)%N ->
  undec 0 (decimal_aux fuel n acc) = undec n acc.
Proof.
  induction fuel as [|f IH]; intros n acc H; cbn [decimal_aux].
  - cbn in H. replace n with 0%N by lia. reflexivity.
  - assert (Hm : (n mod 10 < 10)%N) by (apply N.mod_lt; lia).
    destruct (N.eqb_spec (n / 10) 0) as [Z|NZ].
    + cbn [undec]. unfold digit_value. rewrite digit_code by auto. f_equal.
      rewrite <- Z. apply digit_step.
    + rewrite IH.
      * cbn [undec]. unfold digit_value. rewrite digit_code by auto. f_equal. apply digit_step.
      * rewrite Nnat.Nat2N.inj_succ, N.pow_succ_r' in H.
        apply N.div_lt_upper_bound; [lia|]. generalize dependent (2 ^ N.of_nat f)%N. intros; lia.
Qed.

Lemma decimal_value n : undec 0 (decimal n) = n.
Proof.
  unfold decimal. rewrite decimal_aux_value; [reflexivity|].
  rewrite Nnat.Nat2N.inj_succ, N2Nat.id. destruct (N.eq_dec n 0) as [->|H]; [cbn; lia|].
  apply N.log2_spec. lia.
Qed.

Lemma decimal_inj n m : decimal n = decimal m -> n = m.
Proof. intros H. rewrite <- (decimal_value n), <- (decimal_value m). congruence. Qed.

Lemma decimal_aux_digits fuel : forall n acc c,
  (forall c, has_char c acc -> is_digit c) -> has_char c (decimal_aux fuel n acc) -> is_digit c.
Proof.
  induction fuel as [|f IH]; intros n acc c Ha; cbn [decimal_aux]; [auto|].
  assert (Hm : (n mod 10 < 10)%N) by (apply N.mod_lt; lia).
  assert (Ha' : forall c, has_char c (String (ascii_of_N (48 + n mod 10)) acc) -> is_digit c).
  { intros d Hd. apply has_char_cons in Hd as [->|Hd]; auto. unfold is_digit. rewrite digit_code by auto. clear - Hm. generalize dependent (n mod 10)%N. intros; lia. }
  destruct (n / 10 =? 0)%N; auto. apply IH; auto.
Qed.

Lemma decimal_digits n c : has_char c (decimal n) -> is_digit c.
Proof. apply decimal_aux_digits. intros d H. now apply has_char_nil in H. Qed.

Lemma decimal_no_dot n : ~ has_char "." (decimal n).
Proof. intros H. apply decimal_digits in H. unfold is_digit in H. cbn in H. lia. Qed.
Lemma decimal_no_slash n : ~ has_char "/" (decimal n).
Proof. intros H. apply decimal_digits in H. unfold is_digit in H. cbn in H. lia. Qed.

Lemma decimal_aux_nonempty fuel : forall n acc, acc <> "" -> decimal_aux fuel n acc <> "".
Proof.
  induction fuel as [|f IH]; intros n acc H; cbn [decimal_aux]; auto.
  destruct (n / 10 =? 0)%N; [discriminate|]. apply IH. discriminate.
Qed.
Lemma decimal_nonempty n : decimal n <> "".
Proof.
  unfold decimal. cbn [decimal_aux]. destruct (n / 10 =? 0)%N; [discriminate|].
  apply decimal_aux_nonempty. discriminate.
Qed.

Lemma prefix_no_slash v : ~ has_char "/" (version_prefix v).
Proof.
  destruct v as [|x]; cbn; [apply has_char_nil|].
  rewrite has_char_app. intros [H|H]; [now apply decimal_no_slash in H|].
  apply has_char_one in H. discriminate.
Qed.

(** *** Components of metadata paths *)

Lemma metadata_components_eq ext s v :
  exists a x, split_slash s = (a ++ [x])%list /\
    metadata_components ext s v = (app a [version_prefix v ++ x ++ "." ++ ext]).
Proof.
  unfold metadata_components. destruct (split_snoc s) as (a & x & ->).
  exists a, x. split; auto. rewrite map_last_snoc. reflexivity.
Qed.

Lemma metadata_components_safe ext s v x :
  acceptable_path s -> ext <> "" -> ext <> "." -> ~ has_char "/" ext ->
  In x (metadata_components ext s v) -> x <> "." /\ x <> ".." /\ ~ has_char "/" x.
Proof.
  intros A E1 E2 E3 I. destruct (metadata_components_eq ext s v) as (a & l & S & Eq). rewrite Eq in I.
  apply in_app_iff in I as [I|[<-|[]]].
  - assert (J : In x (split_slash s)) by (rewrite S; apply in_or_app; auto).
    destruct (acceptable_components s x A J). split; auto. split; auto. eapply split_pieces; eauto.
  - assert (J : In l (split_slash s)) by (rewrite S; apply in_or_app; right; now left).
    destruct (acceptable_components s l A J) as [N1 N2]. apply split_pieces in J.
    assert (L : (2 <= String.length (version_prefix v ++ l ++ "." ++ ext))%nat).
    { rewrite !slength_app. cbn. destruct ext; [contradiction|]. cbn. lia. }
    split; [intros H; rewrite H in L; cbn in L; lia|]. split.
    + intros H. destruct v as [|n]; cbn in H.
      * destruct l as [|c l]; cbn in H; inversion H; [congruence|]. subst c.
        destruct l as [|c' l]; cbn in H2; inversion H2; [congruence|]. destruct l; discriminate.
      * assert (D : exists c r, decimal n = String c r).
        { destruct (decimal n) eqn:D; eauto. now apply decimal_nonempty in D. }
        destruct D as (c & r & D). rewrite D in H. cbn in H. inversion H. subst c.
        pose proof (decimal_digits n ".") as Hd. rewrite D in Hd.
        specialize (Hd (proj2 (has_char_cons _ _ _) (or_introl eq_refl))). unfold is_digit in Hd. cbn in Hd. lia.
    + rewrite !has_char_app. intros [H|[H|[H|H]]]; auto; [now apply prefix_no_slash in H|].
      apply has_char_one in H. discriminate.
Qed.

Lemma components_inj ext s v s' v' :
  metadata_components ext s v = metadata_components ext s' v' <->
  exists dir l l', split_slash s = (dir ++ [l])%list /\ split_slash s' = (dir ++ [l'])%list /\
                   version_prefix v ++ l = version_prefix v' ++ l'.
Proof.
  destruct (metadata_components_eq ext s v) as (a & x & S & ->).
  destruct (metadata_components_eq ext s' v') as (a' & x' & S' & ->). split.
  - intros H. apply app_inj_tail in H as [-> H]. exists a', x, x'. split; auto. split; auto.
    apply (sapp_cancel_r _ _ ("." ++ ext)). now rewrite !sapp_assoc.
  - intros (dir & l & l' & H1 & H2 & H). rewrite S in H1. rewrite S' in H2.
    apply app_inj_tail in H1 as [-> ->]. apply app_inj_tail in H2 as [-> ->].
    f_equal. f_equal. rewrite <- !sapp_assoc. now rewrite H.
Qed.

Lemma split_inj s s' : split_slash s = split_slash s' -> s = s'.
Proof. intros H. rewrite <- (join_split s), <- (join_split s'). congruence. Qed.

(** Exactly when two (path, version) pairs share a location. *)
Lemma components_collide ext s v s' v' :
  metadata_components ext s v = metadata_components ext s' v' <->
  (s = s' /\ v = v') \/
  (exists n, v = VNone /\ v' = VNumber n /\
     exists dir f, split_slash s' = (app dir [f]) /\ split_slash s = (app dir [decimal n ++ "." ++ f])) \/
  (exists n, v' = VNone /\ v = VNumber n /\
     exists dir f, split_slash s = (app dir [f]) /\ split_slash s' = (app dir [decimal n ++ "." ++ f])).
Proof.
  rewrite components_inj. split.
  - intros (dir & l & l' & S & S' & H). destruct v as [|n], v' as [|n']; cbn in H.
    + left. split; auto. apply split_inj. congruence.
    + right. left. exists n'. split; auto. split; auto. exists dir, l'. split; auto.
      rewrite S, H, sapp_assoc. reflexivity.
    + right. right. exists n. split; auto. split; auto. exists dir, l. split; auto.
      rewrite S', <- H, sapp_assoc. reflexivity.
    + left. rewrite !sapp_assoc in H. cbn in H.
      apply first_char_split in H as [H1 H2]; auto using decimal_no_dot.
      apply decimal_inj in H1. subst. split; auto. apply split_inj. congruence.
  - intros [[-> ->]|[(n & -> & -> & dir & f & S' & S)|(n & -> & -> & dir & f & S & S')]].
    + destruct (split_snoc s') as (a & x & S). exists a, x, x. auto.
    + exists dir, (decimal n ++ "." ++ f), f. split; auto. split; auto. cbn. now rewrite sapp_assoc.
    + exists dir, f, (decimal n ++ "." ++ f). split; auto. split; auto. cbn. now rewrite sapp_assoc.
Qed.

(** *** Hash prefixes *)

Lemma hex_digit_lower n : (n < 16)%N -> let c := N_of_ascii (hex_digit n) in (48 <= c <= 57)%N \/ (97 <= c <= 102)%N.
Proof.
  intros H. unfold hex_digit. destruct (N.ltb_spec n 10); cbn zeta; rewrite N_ascii_embedding by lia; lia.
Qed.

Lemma hex_chars s c : has_char c (hex_encode s) ->
  (48 <= N_of_ascii c <= 57)%N \/ (97 <= N_of_ascii c <= 102)%N.
Proof.
  induction s as [|d s IH]; cbn; intros H; [now apply has_char_nil in H|].
  pose proof (N_ascii_lt d).
  apply has_char_cons in H as [->|H].
  { apply hex_digit_lower. apply N.div_lt_upper_bound; lia. }
  apply has_char_cons in H as [->|H]; auto.
  apply hex_digit_lower. apply N.mod_lt. lia.
Qed.

Lemma hex_digit_inj n m : (n < 16)%N -> (m < 16)%N -> hex_digit n = hex_digit m -> n = m.
Proof.
  intros Hn Hm H. unfold hex_digit in H.
  apply (f_equal N_of_ascii) in H.
  destruct (N.ltb_spec n 10), (N.ltb_spec m 10); rewrite !N_ascii_embedding in H by lia; lia.
Qed.

Lemma hex_encode_inj a : forall b, hex_encode a = hex_encode b -> a = b.
Proof.
  induction a as [|c a IH]; intros [|d b] H; cbn in H; try discriminate; auto.
  injection H as H1 H2 H3. pose proof (N_ascii_lt c). pose proof (N_ascii_lt d).
  apply hex_digit_inj in H1; try (apply N.div_lt_upper_bound; lia).
  apply hex_digit_inj in H2; try (apply N.mod_lt; lia).
  f_equal; auto. rewrite <- (ascii_N_embedding c), <- (ascii_N_embedding d). f_equal.
  rewrite (N.div_mod (N_of_ascii c) 16), (N.div_mod (N_of_ascii d) 16) by lia. congruence.
Qed.

Lemma hex_no_char s c : N_of_ascii c = 46%N \/ N_of_ascii c = 47%N -> ~ has_char c (hex_encode s).
Proof. intros E H. apply hex_chars in H. destruct E as [E|E]; rewrite E in H; lia. Qed.

Lemma has_char_join c l : c <> "/"%char -> has_char c (join_slash l) <-> exists x, In x l /\ has_char c x.
Proof.
  intros N. induction l as [|x l IH].
  - cbn. split; [intros H; now apply has_char_nil in H|]. intros (y & [] & _).
  - destruct l as [|y l].
    + cbn. split; [eauto|]. intros (z & [->|[]] & H); auto.
    + rewrite join_cons, !has_char_app, IH, has_char_one. split.
      * intros [H|[H|(z & I & H)]]; [exists x; split; auto; now left|congruence|]. exists z. split; auto. now right.
      * intros (z & [->|I] & H); eauto.
Qed.

Lemma with_hash_prefix_ok path hash dir file :
  acceptable_path path -> split_slash path = (dir ++ [file])%list -> (hash <> "" \/ file <> "") ->
  with_hash_prefix path hash = Ok (join_slash (app dir [hex_encode hash ++ "." ++ file])).
Proof.
  intros A S Hne. unfold with_hash_prefix, target_components. rewrite S, map_last_snoc.
  apply path_new_iff. split; auto.
  set (new := hex_encode hash ++ "." ++ file).
  assert (Sf : forall x, In x dir \/ x = file -> ~ has_char "/" x).
  { intros x H. apply (split_pieces path). rewrite S. apply in_or_app. destruct H as [H| ->]; [auto|right; now left]. }
  assert (Nn : ~ has_char "/" new).
  { unfold new. rewrite !has_char_app. intros [H|[H|H]].
    - revert H. apply hex_no_char. cbn. auto.
    - apply has_char_one in H. discriminate.
    - apply (Sf file); auto. }
  assert (SJ : split_slash (join_slash (dir ++ [new])%list) = (dir ++ [new])%list).
  { apply split_join; [destruct dir; discriminate|].
    intros x I. apply in_app_iff in I as [I|[<-|[]]]; auto. }
  assert (Hn : new <> "" /\ new <> "." /\ new <> "..").
  { unfold new. destruct hash as [|c h].
    - destruct file as [|f0 file]; [destruct Hne; contradiction|]. cbn. repeat split; try discriminate.
      intros H. inversion H. subst.
      destruct (acceptable_components path "." A) as [X _]; [|contradiction].
      rewrite S. apply in_or_app. right. now left.
    - cbn [hex_encode append]. repeat split; try discriminate; intros H; inversion H as [[H1 H2]].
      + pose proof (hex_digit_lower (N_of_ascii c / 16)) as L. rewrite H1 in L. cbn in L.
        pose proof (N_ascii_lt c). assert (N_of_ascii c / 16 < 16)%N by (apply N.div_lt_upper_bound; lia). lia. }
  destruct A as (A1 & A2 & A3 & A4 & A5).
  assert (AJ := join_split path). rewrite S in AJ.
  split; [|split; [|split]].
  - intros H. apply (f_equal split_slash) in H. rewrite SJ in H. cbn in H.
    destruct dir as [|d dir]; cbn in H.
    + inversion H. tauto.
    + inversion H. destruct dir; discriminate.
  - intros b H. destruct dir as [|d dir].
    + cbn in H. apply Nn. rewrite H. cbn. apply has_char_cons. auto.
    + (* the first directory is unchanged *)
      assert (E1 : split_slash ("/" ++ b) = ("" :: split_slash b)%list) by reflexivity.
      rewrite <- H, SJ in E1. inversion E1. subst d.
      apply (A2 (join_slash (dir ++ [file])%list)). rewrite <- AJ.
      change (("" :: dir) ++ [file])%list with ([""] ++ (dir ++ [file]))%list.
      rewrite join_app; [reflexivity|discriminate|destruct dir; discriminate].
  - intros c Hc F. destruct (ascii_dec c "/") as [->|Nc]; [unfold forbidden in F; cbn in F; lia|].
    apply has_char_join in Hc as (x & I & Hx); auto.
    apply in_app_iff in I as [I|[<-|[]]].
    + apply (A3 c); auto. rewrite <- AJ. apply has_char_join; auto. exists x. split; auto. apply in_or_app. auto.
    + unfold new in Hx. rewrite !has_char_app in Hx. destruct Hx as [Hx|[Hx|Hx]].
      * apply hex_chars in Hx. unfold forbidden in F. cbn in F. lia.
      * apply has_char_one in Hx. subst. unfold forbidden in F. cbn in F. lia.
      * apply (A3 c); auto. rewrite <- AJ. apply has_char_join; auto. exists file. split; auto.
        apply in_or_app. right. now left.
  - split; rewrite <- split_component, SJ; intros I; apply in_app_iff in I as [I|[I|[]]]; try tauto.
    + apply A4. rewrite <- split_component, S. apply in_or_app. auto.
    + apply A5. rewrite <- split_component, S. apply in_or_app. auto.
Qed.

Lemma with_hash_prefix_inj p h p' h' q :
  with_hash_prefix p h = Ok q -> with_hash_prefix p' h' = Ok q -> p = p' /\ h = h'.
Proof.
  unfold with_hash_prefix, target_components. intros H H'.
  apply path_new_iff in H as [H _]. apply path_new_iff in H' as [H' _].
  destruct (split_snoc p) as (a & x & S). destruct (split_snoc p') as (a' & x' & S').
  rewrite S, map_last_snoc in H. rewrite S', map_last_snoc in H'.
  assert (NS : forall dir file hh pp, split_slash pp = (dir ++ [file])%list ->
     forall y, In y (app dir [hex_encode hh ++ "." ++ file]) -> ~ has_char "/" y).
  { intros dir file hh pp Sp y I. apply in_app_iff in I as [I|[<-|[]]].
    - apply (split_pieces pp). rewrite Sp. apply in_or_app; auto.
    - rewrite !has_char_app. intros [Q|[Q|Q]].
      + revert Q. apply hex_no_char. cbn. auto.
      + apply has_char_one in Q. discriminate.
      + revert Q. apply (split_pieces pp). rewrite Sp. apply in_or_app; right; now left. }
  rewrite H' in H. apply (f_equal split_slash) in H.
  rewrite !split_join in H; try (destruct a; discriminate); try (destruct a'; discriminate); eauto.
  apply app_inj_tail in H as [E1 E2]. subst a'. cbn in E2.
  apply first_char_split in E2 as [E2 E3]; try (apply hex_no_char; cbn; auto).
  apply hex_encode_inj in E2. subst. split; auto. apply split_inj. congruence.
Qed.

(** *** Matching *)

Lemma ends_with_slash_iff p : ends_with_slash p = true <-> exists a, p = a ++ "/".
Proof.
  induction p as [|c p IH]; cbn.
  - split; [discriminate|]. intros ([|] & H); discriminate.
  - destruct p as [|d p].
    + rewrite Ascii.eqb_eq. split; [intros ->; exists ""; auto|].
      intros ([|x a] & H); cbn in H; inversion H; auto. destruct a; discriminate.
    + rewrite IH. split.
      * intros (a & ->). exists (String c a). auto.
      * intros ([|x a] & H); cbn in H; inversion H. exists a. auto.
Qed.

Lemma is_child_iff q p : is_child q p = true <-> child_of q p.
Proof.
  unfold is_child, child_of. destruct (ends_with_slash p) eqn:S; cbn.
  - unfold starts_with. rewrite prefix_iff. apply ends_with_slash_iff in S. tauto.
  - split; [discriminate|]. intros [H _]. apply ends_with_slash_iff in H. congruence.
Qed.

Lemma below_iff q p : is_child q p || String.eqb q p = true <-> below q p.
Proof. rewrite orb_true_iff, is_child_iff, String.eqb_eq. unfold below. tauto. Qed.

Lemma below_trans a b c : below a b -> below b c -> below a c.
Proof.
  intros [->|[H1 (x & ->)]] H; auto. destruct H as [->|[H2 (y & ->)]].
  - right. split; eauto.
  - right. split; auto. exists (y ++ x). now rewrite sapp_assoc.
Qed.

(** Filtering every later group by the first one keeps exactly the chains that
    start below it. *)
Lemma descends_filter target g rest : forall p,
  (exists p0, In p0 g /\ below p p0) ->
  descends target p (map (filter (fun q => existsb (fun p => is_child q p || String.eqb q p) g)) rest) <->
  descends target p rest.
Proof.
  induction rest as [|h rest IH]; intros p (p0 & I0 & B0); cbn; [tauto|]. split.
  - intros D. inversion D as [|? q ? ? Iq Bq Dq]; subst. apply filter_In in Iq as [Iq _].
    econstructor; eauto. apply IH; auto. exists p0. split; auto. eapply below_trans; eauto.
  - intros D. inversion D as [|? q ? ? Iq Bq Dq]; subst.
    assert (B : below q p0) by (eapply below_trans; eauto).
    econstructor; eauto.
    + apply filter_In. split; auto. apply existsb_exists. exists p0. split; auto. now apply below_iff.
    + apply IH; auto. exists p0. auto.
Qed.

Lemma matches_chain_aux_iff n : forall groups target, n = length groups ->
  matches_chain_aux n target groups = true <-> in_chain target groups.
Proof.
  induction n as [|n IH]; intros [|g [|h rest]] target L; try discriminate L; cbn [matches_chain_aux].
  - split; [discriminate|]. intros (p & g & r & E & _). discriminate.
  - rewrite existsb_exists. split.
    + intros (p & I & H). exists p, g, []. split; auto. split; auto. constructor.
      apply below_iff. rewrite orb_comm, String.eqb_sym. exact H.
    + intros (p & g' & r & E & I & D). inversion E; subst. exists p. split; auto.
      inversion D as [? B|]; subst. apply below_iff in B. rewrite orb_comm, String.eqb_sym. exact B.
  - rewrite IH by (rewrite map_length; cbn in *; lia). unfold in_chain. cbn [map].
    set (f := fun parent => existsb (fun p => is_child parent p || String.eqb parent p) g). split.
    + intros (p & g' & r & E & I & D). inversion E; subst. apply filter_In in I as [I F].
      unfold f in F. apply existsb_exists in F as (p0 & I0 & B0). apply below_iff in B0.
      exists p0, g, (h :: rest). split; auto. split; auto.
      econstructor; eauto. eapply descends_filter; eauto.
    + intros (p & g' & r & E & I & D). inversion E; subst.
      inversion D as [|? q ? ? Iq Bq Dq]; subst.
      exists q, (filter f h), (map (filter f) rest). split; auto. split.
      * apply filter_In. split; auto. apply existsb_exists. exists p. split; auto. now apply below_iff.
      * apply descends_filter; eauto.
Qed.

Lemma matches_chain_iff target groups : matches_chain target groups = true <-> in_chain target groups.
Proof. now apply matches_chain_aux_iff. Qed.

(** Every group of a chain contains a path above the target. *)
Lemma descends_above target p groups : descends target p groups ->
  below target p /\ forall g, In g groups -> exists q, In q g /\ below target q.
Proof.
  induction 1 as [p B|p q g rest I B D [IH1 IH2]].
  - split; auto. intros ? [].
  - split; [eapply below_trans; eauto|]. intros g' [<-|I']; eauto.
Qed.

Lemma in_chain_above target groups : in_chain target groups ->
  forall g, In g groups -> exists q, In q g /\ below target q.
Proof.
  intros (p & g & rest & -> & I & D) g' I'. apply descends_above in D as [B H].
  destruct I' as [<-|I']; eauto.
Qed.

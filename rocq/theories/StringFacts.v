(** Lemmas about strings, not in the standard library. *)
From Coq Require Import String Ascii List NArith Bool Lia.
Import ListNotations.
Open Scope string_scope.

Lemma sapp_assoc (a b c : string) : (a ++ b) ++ c = a ++ (b ++ c).
Proof. induction a; cbn; congruence. Qed.
Lemma sapp_nil_r (a : string) : a ++ "" = a.
Proof. induction a; cbn; congruence. Qed.
Lemma sapp_cancel_l (a b c : string) : a ++ b = a ++ c -> b = c.
Proof. induction a; cbn; intros H; auto. inversion H; auto. Qed.
Lemma slength_app (a b : string) : String.length (a ++ b) = (String.length a + String.length b)%nat.
Proof. induction a; cbn; auto. Qed.
Lemma sapp_cancel_r (a b c : string) : a ++ c = b ++ c -> a = b.
Proof.
  revert b. induction a as [|x a IH]; intros [|y b] H; cbn in *; auto.
  - apply (f_equal String.length) in H. cbn in H. rewrite slength_app in H. lia.
  - apply (f_equal String.length) in H. cbn in H. rewrite slength_app in H. lia.
  - inversion H. f_equal; auto.
Qed.
Lemma sapp_eq_nil (a b : string) : a ++ b = "" -> a = "" /\ b = "".
Proof. destruct a; cbn; [auto|discriminate]. Qed.
Lemma prefix_iff (p s : string) : String.prefix p s = true <-> exists b, s = p ++ b.
Proof.
  revert s. induction p as [|c p IH]; intros s.
  - cbn. destruct s; split; eauto.
  - destruct s as [|d s]; cbn.
    + split; [discriminate|]. intros (b & H); discriminate.
    + destruct (ascii_dec c d) as [->|N].
      * rewrite IH. split; intros (b & H); exists b; [congruence|]. now inversion H.
      * split; [discriminate|]. intros (b & H). inversion H. congruence.
Qed.

(** [c] occurs in [s]. *)
Definition has_char (c : ascii) (s : string) : Prop := exists a b, s = a ++ String c b.

Lemma has_char_nil c : ~ has_char c "".
Proof. intros ([|] & b & H); discriminate. Qed.
Lemma has_char_cons c d s : has_char c (String d s) <-> c = d \/ has_char c s.
Proof.
  split.
  - intros ([|x a] & b & H); cbn in H; inversion H; subst; auto. right. exists a, b. auto.
  - intros [->|(a & b & ->)]; [exists "", s; auto|]. exists (String d a), b. auto.
Qed.
Lemma has_char_app c a b : has_char c (a ++ b) <-> has_char c a \/ has_char c b.
Proof.
  induction a as [|x a IH]; cbn.
  - split; auto. intros [H|H]; auto. now apply has_char_nil in H.
  - rewrite !has_char_cons, IH. tauto.
Qed.
Lemma has_char_one c d : has_char c (String d "") <-> c = d.
Proof. rewrite has_char_cons. split; [intros [H|H]; auto; now apply has_char_nil in H|auto]. Qed.

(** Splitting at the first occurrence of a character is unambiguous. *)
Lemma first_char_split c a b a' b' :
  ~ has_char c a -> ~ has_char c a' -> a ++ String c b = a' ++ String c b' -> a = a' /\ b = b'.
Proof.
  revert a'. induction a as [|x a IH]; intros [|y a'] Na Na' H; cbn in H; inversion H; subst; auto.
  - exfalso. apply Na'. apply has_char_cons. auto.
  - exfalso. apply Na. apply has_char_cons. auto.
  - destruct (IH a') as [-> ->]; auto; intros I; [apply Na|apply Na']; apply has_char_cons; auto.
Qed.

(** Splitting at the last occurrence is unambiguous, too. *)
Lemma last_char_split c a b a' b' :
  ~ has_char c b -> ~ has_char c b' -> a ++ String c b = a' ++ String c b' -> a = a' /\ b = b'.
Proof.
  revert a'. induction a as [|x a IH]; intros [|y a'] Na Na' H; cbn in H; inversion H; subst; auto.
  - exfalso. apply Na. apply has_char_app. right. apply has_char_cons. auto.
  - exfalso. apply Na'. apply has_char_app. right. apply has_char_cons. auto.
  - destruct (IH a') as [-> ->]; auto.
Qed.

Lemma N_ascii_lt c : (N_of_ascii c < 256)%N.
Proof. apply N_ascii_bounded. Qed.

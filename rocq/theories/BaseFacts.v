(** Facts about the maps of [Base]. *)
From Coq Require Import String List NArith Bool Permutation Lia.
From Verif Require Import Base.
Import ListNotations.

Section Facts.
  Context {K : Type} {EK : EqDec K}.

  Lemma eqb_refl (k : K) : eqb k k = true.
  Proof. apply eqb_eq. reflexivity. Qed.

  Lemma eqb_neq (x y : K) : eqb x y = false <-> x <> y.
  Proof.
    split; intros E.
    - intros ->. rewrite eqb_refl in E. discriminate.
    - destruct (eqb x y) eqn:E'; auto. apply eqb_eq in E'. contradiction.
  Qed.

  Lemma eqb_dec (x y : K) : {x = y} + {x <> y}.
  Proof.
    destruct (eqb x y) eqn:E.
    - left. now apply eqb_eq.
    - right. now apply eqb_neq.
  Qed.

  Lemma eqb_sym (x y : K) : eqb x y = eqb y x.
  Proof.
    destruct (eqb x y) eqn:E, (eqb y x) eqn:E'; auto.
    - apply eqb_eq in E. subst. rewrite eqb_refl in E'. discriminate.
    - apply eqb_eq in E'. subst. rewrite eqb_refl in E. discriminate.
  Qed.

  Lemma mem_In (x : K) l : mem x l = true <-> In x l.
  Proof.
    induction l as [|y r IH]; cbn; [split; [discriminate | tauto]|].
    rewrite orb_true_iff, IH, eqb_eq. split; intros [?|?]; auto.
  Qed.

  Lemma mem_not_In (x : K) l : mem x l = false <-> ~ In x l.
  Proof.
    rewrite <- mem_In. destruct (mem x l); split; intros; congruence.
  Qed.

  Lemma dedup_In (x : K) l : In x (dedup l) <-> In x l.
  Proof.
    induction l as [|y r IH]; cbn; [tauto|].
    destruct (mem y r) eqn:E.
    - rewrite IH. apply mem_In in E. split; auto. intros [->|?]; auto.
    - cbn. rewrite IH. tauto.
  Qed.

  Lemma dedup_NoDup (l : list K) : NoDup (dedup l).
  Proof.
    induction l as [|y r IH]; cbn; [constructor|].
    destruct (mem y r) eqn:E; auto. constructor; auto.
    rewrite dedup_In, <- mem_In. congruence.
  Qed.

  Lemma dedup_length_le (l : list K) : length (dedup l) <= length l.
  Proof. induction l as [|y r IH]; cbn; [lia|]. destruct (mem y r); cbn; lia. Qed.

  Lemma dedup_length_NoDup (l : list K) : length (dedup l) = length l <-> NoDup l.
  Proof.
    induction l as [|y r IH]; cbn; [split; [constructor|auto]|].
    pose proof (dedup_length_le r).
    destruct (mem y r) eqn:E; cbn.
    - split; [lia|]. intros N. inversion N; subst. apply mem_In in E. contradiction.
    - split.
      + intros L. constructor; [|apply IH; lia]. rewrite <- mem_In. congruence.
      + intros N. inversion N; subst. f_equal. now apply IH.
  Qed.

  Context {V : Type}.
  Implicit Types m : list (K * V).

  Lemma lookup_insert_eq k v m : lookup k (insert k v m) = Some v.
  Proof. cbn. now rewrite eqb_refl. Qed.

  Lemma lookup_remove_eq k m : lookup k (remove k m) = None.
  Proof.
    unfold remove. induction m as [|[k' v'] m IH]; cbn; auto.
    destruct (eqb k k') eqn:E; cbn; auto. now rewrite E.
  Qed.

  Lemma lookup_remove_neq k k' m : k <> k' -> lookup k (remove k' m) = lookup k m.
  Proof.
    intros N. unfold remove. induction m as [|[k2 v2] m IH]; cbn; auto.
    destruct (eqb k' k2) eqn:E; cbn; rewrite ?IH; auto.
    apply eqb_eq in E. subst.
    destruct (eqb k k2) eqn:E'; auto. apply eqb_eq in E'. congruence.
  Qed.

  Lemma lookup_insert_neq k k' v m : k <> k' -> lookup k (insert k' v m) = lookup k m.
  Proof.
    intros N. cbn. apply eqb_neq in N as N'. rewrite N'. now apply lookup_remove_neq.
  Qed.

  Lemma lookup_insert k k' v m :
    lookup k (insert k' v m) = if eqb k k' then Some v else lookup k m.
  Proof.
    destruct (eqb k k') eqn:E.
    - apply eqb_eq in E. subst. apply lookup_insert_eq.
    - apply lookup_insert_neq. now apply eqb_neq.
  Qed.

  Lemma lookup_remove k k' m :
    lookup k (remove k' m) = if eqb k k' then None else lookup k m.
  Proof.
    destruct (eqb k k') eqn:E.
    - apply eqb_eq in E. subst. apply lookup_remove_eq.
    - apply lookup_remove_neq. now apply eqb_neq.
  Qed.

  Lemma lookup_In k v m : lookup k m = Some v -> In (k, v) m.
  Proof.
    induction m as [|[k' v'] m IH]; cbn; [discriminate|].
    destruct (eqb k k') eqn:E; intros H.
    - apply eqb_eq in E. inversion H. subst. auto.
    - auto.
  Qed.

  Lemma lookup_In_key k v m : lookup k m = Some v -> In k (keys_of m).
  Proof. intros H. apply lookup_In in H. now apply (in_map fst) in H. Qed.

  Lemma In_lookup k v m : NoDup (keys_of m) -> In (k, v) m -> lookup k m = Some v.
  Proof.
    unfold keys_of.
    induction m as [|[k' v'] m IH]; cbn; [tauto|].
    intros N [E|I]; inversion N; subst.
    - inversion E; subst. now rewrite eqb_refl.
    - destruct (eqb k k') eqn:E; auto.
      apply eqb_eq in E. subst. exfalso. apply H1. now apply (in_map fst) in I.
  Qed.

  Lemma lookup_None k m : lookup k m = None <-> ~ In k (keys_of m).
  Proof.
    unfold keys_of. induction m as [|[k' v'] m IH]; cbn; [tauto|].
    destruct (eqb k k') eqn:E.
    - apply eqb_eq in E. subst. split; [discriminate|tauto].
    - apply eqb_neq in E. rewrite IH. split; intros ? ?; [intuition congruence | tauto].
  Qed.

  Lemma keys_remove_In k k' m : In k (keys_of (remove k' m)) <-> In k (keys_of m) /\ k <> k'.
  Proof.
    unfold keys_of, remove. rewrite !in_map_iff. split.
    - intros ([k2 v2] & <- & I). apply filter_In in I as [I B]. cbn in *.
      split; [exists (k2, v2); auto|].
      apply negb_true_iff, eqb_neq in B. congruence.
    - intros (([k2 v2] & <- & I) & N). cbn in *. exists (k2, v2). split; auto.
      apply filter_In. split; auto. cbn. apply negb_true_iff, eqb_neq. congruence.
  Qed.

  Lemma NoDup_remove k m : NoDup (keys_of m) -> NoDup (keys_of (remove k m)).
  Proof.
    unfold keys_of, remove. induction m as [|[k' v'] m IH]; cbn; auto.
    intros N. inversion N; subst.
    destruct (negb (eqb k k')) eqn:E; cbn; auto.
    constructor; auto. intros I. apply H1.
    apply in_map_iff in I as ([k2 v2] & <- & I). apply filter_In in I as [I _].
    now apply (in_map fst) in I.
  Qed.

  Lemma NoDup_insert k v m : NoDup (keys_of m) -> NoDup (keys_of (insert k v m)).
  Proof.
    intros N. unfold insert. cbn. constructor.
    - fold (keys_of (remove k m)). rewrite keys_remove_In. tauto.
    - now apply NoDup_remove.
  Qed.

  Lemma collect_snoc (l : list (K * V)) k v : collect (l ++ [(k, v)]) = insert k v (collect l).
  Proof. unfold collect. rewrite fold_left_app. reflexivity. Qed.

  Lemma collect_NoDup (l : list (K * V)) : NoDup (keys_of (collect l)).
  Proof.
    induction l as [|[k v] l IH] using rev_ind; [constructor|].
    rewrite collect_snoc. now apply NoDup_insert.
  Qed.

  (** The entry a collected map has for a key is the last one of the list. *)
  Lemma lookup_collect (l : list (K * V)) k v :
    lookup k (collect l) = Some v <->
    exists l1 l2, l = l1 ++ (k, v) :: l2 /\ forall x, In x l2 -> fst x <> k.
  Proof.
    induction l as [|[k' v'] l IH] using rev_ind.
    - cbn. split; [discriminate|]. intros (l1 & l2 & E & _). destruct l1; discriminate.
    - rewrite collect_snoc, lookup_insert. destruct (eqb k k') eqn:E.
      + apply eqb_eq in E. subst k'. split.
        * intros H. inversion H; subst. exists l, []. split; auto.
        * intros (l1 & l2 & E & N).
          destruct l2 as [|p l2] using rev_ind.
          -- apply app_inj_tail in E as [_ E]. congruence.
          -- exfalso. clear IHl2. rewrite app_comm_cons, app_assoc in E.
             apply app_inj_tail in E as [_ E].
             apply (N p); [apply in_or_app; right; now left|]. now subst p.
      + apply eqb_neq in E. rewrite IH. split.
        * intros (l1 & l2 & -> & N). exists l1, (l2 ++ [(k', v')]). split.
          -- now rewrite <- app_assoc.
          -- intros x I. apply in_app_or in I as [I|[<-|[]]]; auto.
        * intros (l1 & l2 & E' & N).
          destruct l2 as [|p l2] using rev_ind.
          -- apply app_inj_tail in E' as [_ E']. congruence.
          -- clear IHl2. rewrite app_comm_cons, app_assoc in E'.
             apply app_inj_tail in E' as [E' _]. exists l1, l2. split; auto.
             intros x I. apply N. apply in_or_app. now left.
  Qed.
End Facts.

Lemma rbind_Ok {A B} (r : result A) (f : A -> result B) b :
  rbind r f = Ok b <-> exists a, r = Ok a /\ f a = Ok b.
Proof.
  destruct r; cbn; split.
  - intros H. eauto.
  - intros (a' & E & H). inversion E. now subst.
  - discriminate.
  - intros (a' & E & H). discriminate.
Qed.

Lemma rbind_Err {A B} (r : result A) (f : A -> result B) e :
  rbind r f = Err e <-> r = Err e \/ exists a, r = Ok a /\ f a = Err e.
Proof.
  destruct r; cbn; split.
  - intros H. eauto.
  - intros [E|(a' & E & H)]; [discriminate|]. inversion E. now subst.
  - intros H. left. congruence.
  - intros [E|(a' & E & H)]; congruence.
Qed.

(** * Values in sorted form, and the writers *)
From Coq Require Import String Ascii List NArith ZArith Bool Lia Permutation Sorted.
From Verif Require Import Base BaseFacts StringFacts JsonValue Utf8 Paths JsonText SpecJson
  JsonComplete JsonSound.
Import ListNotations.
Open Scope string_scope.

(** ** Induction over values *)
Section JsonInd.
  Context (P : json -> Prop)
    (Hnull : P JNull) (Hbool : forall b, P (JBool b)) (Hint : forall z, P (JInt z))
    (Hfloat : forall l, P (JFloat l)) (Hstr : forall s, P (JStr s))
    (Harr : forall l, Forall P l -> P (JArr l))
    (Hobj : forall m, Forall (fun kv => P (snd kv)) m -> P (JObj m)).
  Fixpoint json_nested_ind (j : json) : P j :=
    match j with
    | JNull => Hnull
    | JBool b => Hbool b
    | JInt z => Hint z
    | JFloat l => Hfloat l
    | JStr s => Hstr s
    | JArr l => Harr l ((fix go l : Forall P l :=
                           match l with
                           | [] => Forall_nil _
                           | x :: r => Forall_cons x (json_nested_ind x) (go r)
                           end) l)
    | JObj m => Hobj m ((fix go m : Forall (fun kv => P (snd kv)) m :=
                           match m with
                           | [] => Forall_nil _
                           | (k, x) :: r => Forall_cons (k, x) (json_nested_ind x) (go r)
                           end) m)
    end.
End JsonInd.

(** ** Order of strings *)
Definition slt (a b : string) : Prop := String.compare a b = Lt.

Lemma scompare_refl a : String.compare a a = Eq.
Proof.
  induction a as [|x a IH]; [reflexivity|]. cbn. unfold Ascii.compare. rewrite N.compare_refl. exact IH.
Qed.
Lemma slt_irrefl a : ~ slt a a.
Proof. unfold slt. rewrite scompare_refl. discriminate. Qed.
Lemma scompare_gt a b : String.compare a b = Gt <-> slt b a.
Proof.
  unfold slt. rewrite (String.compare_antisym a b).
  destruct (String.compare b a); cbn; split; intros; congruence.
Qed.
Lemma ascii_compare_cases a b :
  (Ascii.compare a b = Lt /\ (code a < code b)%N) \/ (a = b /\ Ascii.compare a b = Eq) \/
  (Ascii.compare a b = Gt /\ (code b < code a)%N).
Proof.
  unfold Ascii.compare, code. destruct (N.compare_spec (N_of_ascii a) (N_of_ascii b)) as [H|H|H]; auto.
  right; left. split; [apply code_inj; exact H|reflexivity].
Qed.
Lemma slt_trans a : forall b c, slt a b -> slt b c -> slt a c.
Proof.
  unfold slt. induction a as [|x a IH]; intros [|y b] [|z c]; cbn; try congruence.
  destruct (ascii_compare_cases x y) as [[E1 L1]|[[-> E1]|[E1 L1]]]; rewrite E1; try discriminate;
  destruct (ascii_compare_cases y z) as [[E2 L2]|[[-> E2]|[E2 L2]]]; rewrite ?E2; try discriminate; intros H1 H2.
  - destruct (ascii_compare_cases x z) as [[E3 L3]|[[-> E3]|[E3 L3]]]; rewrite E3; auto; lia.
  - rewrite E1. reflexivity.
  - reflexivity.
  - rewrite E2 in *. eapply IH; eauto.
Qed.
Lemma slt_neq a b : slt a b -> a <> b.
Proof. intros H ->. exact (slt_irrefl _ H). Qed.

(** ** Sorted maps *)
Definition sorted {V} (m : list (string * V)) : Prop :=
  StronglySorted (fun a b => slt (fst a) (fst b)) m.

Lemma sorted_NoDup {V} (m : list (string * V)) : sorted m -> NoDup (map fst m).
Proof.
  induction 1 as [|[k v] m _ IH F]; cbn; constructor; [|exact IH].
  intros H. apply in_map_iff in H as ([k' v'] & E & H). cbn in E; subst k'.
  rewrite Forall_forall in F. exact (slt_irrefl _ (F _ H)).
Qed.

Lemma bt_insert_Forall {V} (P : string * V -> Prop) k v m :
  P (k, v) -> Forall P m -> Forall P (bt_insert k v m).
Proof.
  induction m as [|[k' v'] m IH]; intros Hp Hm; cbn; [auto|].
  inversion Hm; subst. destruct (String.compare k k'); auto.
Qed.

Lemma bt_insert_sorted {V} k (v : V) m : sorted m -> sorted (bt_insert k v m).
Proof.
  unfold sorted. induction 1 as [|[k' v'] m S IH F]; cbn; [repeat constructor|].
  destruct (String.compare k k') eqn:E.
  - apply String.compare_eq_iff in E; subst k'. constructor; auto.
  - constructor; [constructor; auto|]. constructor; [exact E|].
    eapply Forall_impl; [|exact F]. intros [k2 v2] L; cbn in *. exact (slt_trans _ _ _ E L).
  - constructor; [exact IH|]. apply bt_insert_Forall; [|exact F].
    apply scompare_gt in E. exact E.
Qed.
Lemma btree_fold_sorted {V} (l : list (string * V)) : forall m, sorted m ->
  sorted (fold_left (fun m kv => bt_insert (fst kv) (snd kv) m) l m).
Proof. induction l as [|kv l IH]; cbn; auto using bt_insert_sorted. Qed.
Lemma btree_sorted {V} (l : list (string * V)) : sorted (btree l).
Proof. apply btree_fold_sorted. constructor. Qed.

Lemma lookup_bt_insert {V} k k' (v : V) m : sorted m ->
  lookup k (bt_insert k' v m) = if String.eqb k k' then Some v else lookup k m.
Proof.
  induction 1 as [|[k2 v2] m S IH F]; cbn [bt_insert lookup].
  - reflexivity.
  - change (@eqb string _) with String.eqb. destruct (String.compare k' k2) eqn:E; cbn [lookup];
      change (@eqb string _) with String.eqb.
    + apply String.compare_eq_iff in E; subst k2. destruct (String.eqb k k'); reflexivity.
    + reflexivity.
    + rewrite IH. destruct (String.eqb_spec k k2) as [->|]; [|reflexivity].
      destruct (String.eqb_spec k2 k') as [->|]; [|reflexivity].
      rewrite scompare_refl in E. discriminate.
Qed.

Lemma lookup_sorted_head {V} k (v : V) m k' : Forall (fun b => slt k (fst b)) m -> slt k' k ->
  lookup k' ((k, v) :: m) = None.
Proof.
  intros F L. apply lookup_None. unfold keys_of; cbn. intros [->|H]; [exact (slt_irrefl _ L)|].
  apply in_map_iff in H as ([k2 v2] & E & H). cbn in E; subst k2.
  rewrite Forall_forall in F. pose proof (F _ H) as L'. cbn in L'.
  exact (slt_irrefl _ (slt_trans _ _ _ L L')).
Qed.

(** A sorted map is determined by what it maps. *)
Lemma sorted_ext {V} (m : list (string * V)) : forall m', sorted m -> sorted m' ->
  (forall k, lookup k m = lookup k m') -> m = m'.
Proof.
  induction m as [|[k v] m IH]; intros [|[k' v'] m'] S S' H.
  - reflexivity.
  - specialize (H k'). cbn in H. rewrite String.eqb_refl in H. discriminate.
  - specialize (H k). cbn in H. rewrite String.eqb_refl in H. discriminate.
  - inversion S as [|? ? S1 F]; inversion S' as [|? ? S1' F']; subst.
    assert (E : k = k').
    { destruct (String.compare k k') eqn:C.
      - apply String.compare_eq_iff; exact C.
      - specialize (H k). rewrite (lookup_sorted_head k' v' m' k F' C) in H.
        cbn in H. rewrite String.eqb_refl in H. discriminate.
      - apply scompare_gt in C. specialize (H k'). rewrite (lookup_sorted_head k v m k' F C) in H.
        cbn in H. rewrite String.eqb_refl in H. discriminate. }
    subst k'. assert (v = v').
    { specialize (H k). cbn in H. rewrite String.eqb_refl in H. congruence. }
    subst v'. f_equal. apply IH; auto. intros q.
    destruct (String.eqb_spec q k) as [->|N].
    + assert (A : forall n : list (string * V), Forall (fun b => slt k (fst b)) n -> lookup k n = None).
      { intros n Fn. apply lookup_None. unfold keys_of. intros Hi. apply in_map_iff in Hi as ([k2 v2] & E & Hi).
        cbn in E; subst k2. rewrite Forall_forall in Fn. exact (slt_irrefl _ (Fn _ Hi)). }
      rewrite (A m F), (A m' F'). reflexivity.
    + specialize (H q). cbn in H. apply String.eqb_neq in N. rewrite N in H. exact H.
Qed.

Lemma lookup_app {V} k (a b : list (string * V)) :
  lookup k (a ++ b)%list = match lookup k a with Some v => Some v | None => lookup k b end.
Proof.
  induction a as [|[k' v'] a IH]; cbn; [reflexivity|]. change (@eqb string _) with String.eqb.
  destruct (String.eqb k k'); auto.
Qed.

Lemma lookup_btree_fold {V} k (l : list (string * V)) : forall m, sorted m ->
  lookup k (fold_left (fun m kv => bt_insert (fst kv) (snd kv) m) l m)
  = match lookup k (rev l) with Some v => Some v | None => lookup k m end.
Proof.
  induction l as [|[k' v'] l IH]; intros m S; cbn [fold_left rev fst snd]; [reflexivity|].
  rewrite IH by (apply bt_insert_sorted; exact S). rewrite lookup_app, lookup_bt_insert by exact S.
  destruct (lookup k (rev l)); [reflexivity|]. cbn. destruct (String.eqb k k'); reflexivity.
Qed.
(** The last entry of a name wins. *)
Lemma lookup_btree {V} k (l : list (string * V)) : lookup k (btree l) = lookup k (rev l).
Proof. unfold btree. rewrite lookup_btree_fold by constructor. destruct (lookup k (rev l)); reflexivity. Qed.

Lemma lookup_perm {V} k (l l' : list (string * V)) : NoDup (map fst l) -> Permutation l l' ->
  lookup k l = lookup k l'.
Proof.
  intros N P.
  assert (N' : NoDup (map fst l')) by (eapply Permutation_NoDup; [apply Permutation_map; exact P|exact N]).
  destruct (lookup k l) as [v|] eqn:E; symmetry.
  - apply In_lookup; [exact N'|]. eapply Permutation_in; [exact P|]. apply lookup_In; exact E.
  - apply lookup_None. intros H. apply lookup_None in E. apply E.
    eapply Permutation_in; [apply Permutation_map; symmetry; exact P|exact H].
Qed.

Lemma btree_perm {V} (l l' : list (string * V)) : NoDup (map fst l) -> Permutation l l' -> btree l = btree l'.
Proof.
  intros N P. apply sorted_ext; try apply btree_sorted. intros k. rewrite !lookup_btree.
  apply lookup_perm.
  - rewrite map_rev. eapply Permutation_NoDup; [apply Permutation_rev|exact N].
  - rewrite <- !Permutation_rev. exact P.
Qed.

Lemma btree_of_sorted {V} (m : list (string * V)) : sorted m -> btree m = m.
Proof.
  intros S. apply sorted_ext; [apply btree_sorted|exact S|]. intros k. rewrite lookup_btree.
  apply lookup_perm.
  - rewrite map_rev. eapply Permutation_NoDup; [apply Permutation_rev|]. apply sorted_NoDup; exact S.
  - symmetry. apply Permutation_rev.
Qed.

Lemma bt_insert_In {V} k (v : V) m kv : In kv (bt_insert k v m) -> kv = (k, v) \/ In kv m.
Proof.
  induction m as [|[k' v'] m IH]; cbn; [intros [<-|[]]; auto|].
  destruct (String.compare k k'); cbn; intros [H|H]; auto.
  destruct (IH H); auto.
Qed.
Lemma btree_In {V} (l : list (string * V)) kv : In kv (btree l) -> In kv l.
Proof.
  assert (A : forall m, In kv (fold_left (fun m kv => bt_insert (fst kv) (snd kv) m) l m) -> In kv l \/ In kv m).
  { induction l as [|[k v] l IH]; intros m H; cbn in *; [auto|].
    destruct (IH _ H) as [H'|H']; [auto|]. apply bt_insert_In in H' as [->|H']; auto. }
  intros H. destruct (A [] H) as [H'|[]]; exact H'.
Qed.

Lemma btree_NoDup_perm {V} (l : list (string * V)) : NoDup (map fst l) -> Permutation l (btree l).
Proof.
  intros N. assert (ND : NoDup l).
  { clear -N. induction l as [|kv l IH]; constructor; inversion N; subst; auto.
    intros H. apply H1. apply in_map; exact H. }
  apply NoDup_Permutation; [exact ND| |].
  - pose proof (sorted_NoDup _ (btree_sorted l)) as S. revert S.
    generalize (btree l). clear. induction l as [|kv l IH]; constructor; inversion S; subst; auto.
    intros H. apply H1. apply in_map; exact H.
  - intros [k v]. split; [|apply btree_In]. intros H. apply lookup_In. rewrite lookup_btree.
    apply In_lookup.
    + unfold keys_of. rewrite map_rev. eapply Permutation_NoDup; [apply Permutation_rev|exact N].
    + rewrite <- in_rev. exact H.
Qed.

(** ** [to_value] *)
Definition on_snd {A B} (f : A -> B) (kv : string * A) : string * B := (fst kv, f (snd kv)).
Lemma to_value_obj m : to_value (JObj m) = JObj (btree (map (on_snd to_value) m)).
Proof.
  cbn [to_value]. do 2 f_equal. apply map_ext. intros [k v]; reflexivity.
Qed.

Notation normal := in_order (only parsing).

Lemma btree_Forall {V} (P : string * V -> Prop) l : Forall P l -> Forall P (btree l).
Proof. rewrite !Forall_forall. intros H x I. apply H. apply btree_In; exact I. Qed.

Lemma to_value_normal j : normal (to_value j).
Proof.
  induction j as [| | | | |l IH|m IH] using json_nested_ind; try solve [constructor].
  - cbn. constructor. rewrite Forall_map. exact IH.
  - rewrite to_value_obj. constructor; [|apply btree_sorted].
    apply btree_Forall. rewrite Forall_map. exact IH.
Qed.

Lemma map_id_Forall {A} (f : A -> A) l : Forall (fun x => f x = x) l -> map f l = l.
Proof. induction 1 as [|x l E _ IH]; cbn; congruence. Qed.

Lemma to_value_of_normal j : normal j -> to_value j = j.
Proof.
  induction j as [| | | | |l IH|m IH] using json_nested_ind; try reflexivity; intros N; inversion N; subst.
  - cbn. f_equal. apply map_id_Forall. rewrite Forall_forall in *. intros x I. apply IH; auto.
  - rewrite to_value_obj. f_equal.
    assert (E : map (on_snd to_value) m = m).
    { apply map_id_Forall. rewrite Forall_forall in *. intros [k v] I. unfold on_snd; cbn.
      f_equal. apply (IH (k, v) I). apply (H0 (k, v) I). }
    rewrite E. apply btree_of_sorted; assumption.
Qed.
Lemma to_value_idem j : to_value (to_value j) = to_value j.
Proof. apply to_value_of_normal. apply to_value_normal. Qed.

Lemma map_fst_on_snd {A B} (f : A -> B) m : map fst (map (on_snd f) m) = map fst m.
Proof. rewrite map_map. apply map_ext. reflexivity. Qed.

Lemma same_value_to_value j : forall j', unique_names j -> same_value j j' -> to_value j = to_value j'.
Proof.
  induction j as [| | | | |l IH|m IH] using json_nested_ind; intros j' U S; inversion S as [| | | | |? l' FA|? m1 m' PM FM]; subst; try reflexivity.
  - cbn. f_equal. inversion U; subst. clear S U.
    match goal with H : Forall unique_names l |- _ => rename H into UL end.
    induction FA as [|x y l l' Hxy _ IHf]; [reflexivity|].
    inversion IH; inversion UL; subst. cbn. f_equal; auto.
  - rewrite !to_value_obj. f_equal. inversion U as [| | | | | |? Um Nm]; subst.
    rewrite (btree_perm (map (on_snd to_value) m) (map (on_snd to_value) m1));
      [|rewrite map_fst_on_snd; exact Nm|apply Permutation_map; assumption].
    f_equal.
    assert (IH1 : Forall (fun kv => forall j', unique_names (snd kv) -> same_value (snd kv) j' -> to_value (snd kv) = to_value j') m1).
    { eapply Permutation_Forall; eassumption. }
    assert (Um1 : Forall (fun kv => unique_names (snd kv)) m1) by (eapply Permutation_Forall; eassumption).
    clear -FM IH1 Um1. induction FM as [|[k x] [k' y] l l' [E Hxy] _ IHf]; [reflexivity|].
    inversion IH1; inversion Um1; subst. cbn in *. subst k'. f_equal; [|auto].
    unfold on_snd; cbn. f_equal. auto.
Qed.

Lemma Forall2_map_r {A B} (R : A -> B -> Prop) (f : A -> B) l :
  Forall (fun x => R x (f x)) l -> Forall2 R l (map f l).
Proof. induction 1; cbn; constructor; auto. Qed.

Lemma same_value_refl j : same_value j j.
Proof.
  induction j as [| | | | |l IH|m IH] using json_nested_ind; try solve [constructor].
  - constructor. induction IH; constructor; auto.
  - apply (sv_obj _ m); [reflexivity|]. induction IH; constructor; auto.
Qed.
Lemma same_value_to_value_refl j : unique_names j -> same_value j (to_value j).
Proof.
  induction j as [| | | | |l IH|m IH] using json_nested_ind; intros U; try solve [constructor].
  - inversion U; subst. cbn. constructor. apply Forall2_map_r. rewrite Forall_forall in *. auto.
  - rewrite to_value_obj. inversion U as [| | | | | |? Um Nm]; subst.
    assert (P : Permutation (map (on_snd to_value) m) (btree (map (on_snd to_value) m))).
    { apply btree_NoDup_perm. rewrite map_fst_on_snd. exact Nm. }
    symmetry in P. apply Permutation_map_inv in P as (m1 & E & P).
    rewrite E. apply (sv_obj _ m1); [exact P|]. apply Forall2_map_r.
    assert (IH1 : Forall (fun kv => unique_names (snd kv) -> same_value (snd kv) (to_value (snd kv))) m1)
      by (eapply Permutation_Forall; eassumption).
    assert (Um1 : Forall (fun kv => unique_names (snd kv)) m1) by (eapply Permutation_Forall; eassumption).
    rewrite Forall_forall in *. intros [k v] I; cbn. split; [reflexivity|]. exact (IH1 _ I (Um1 _ I)).
Qed.

Lemma same_value_sym j : forall j', same_value j j' -> same_value j' j.
Proof.
  induction j as [| | | | |l IH|m IH] using json_nested_ind; intros j' S; inversion S as [| | | | |? l' FA|? m1 m' PM FM]; subst; try solve [constructor].
  - constructor. clear S. induction FA as [|x y l l' Hxy _ IHf]; constructor; inversion IH; subst; auto.
  - assert (IH1 : Forall (fun kv => forall j', same_value (snd kv) j' -> same_value j' (snd kv)) m1)
      by (eapply Permutation_Forall; eassumption).
    assert (F : Forall2 (fun kv kv' => fst kv' = fst kv /\ same_value (snd kv') (snd kv)) m1 m').
    { clear -FM IH1. induction FM as [|[k x] [k' y] l l' [E Hxy] _ IHf]; constructor; inversion IH1; subst; cbn in *; auto. }
    symmetry in PM. destruct (Permutation_Forall2 PM F) as (m2 & P2 & F2).
    apply (sv_obj _ m2); [exact P2|]. clear -F2. induction F2; constructor; auto.
Qed.

Lemma same_value_trans j : forall j' j'', same_value j j' -> same_value j' j'' -> same_value j j''.
Proof.
  induction j as [| | | | |l IH|m IH] using json_nested_ind; intros j' j'' A B;
    inversion A as [| | | | |? l' FA|? m1 m' PM FM]; subst; try exact B.
  - inversion B as [| | | | |? l'' FB|]; subst. constructor. clear A B. revert l'' FB.
    induction FA as [|x y l l' Hxy _ IHf]; intros l'' FB; inversion FB; subst; constructor; inversion IH; subst; eauto.
  - inversion B as [| | | | | |? m2 m'' PM2 FM2]; subst.
    destruct (Permutation_Forall2 PM2 (P := fun kv' kv => fst kv = fst kv' /\ same_value (snd kv) (snd kv')) (l1 := m') (l2 := m1)) as (m3 & P3 & F3).
    { clear -FM. induction FM; constructor; auto. }
    assert (IH3 : Forall (fun kv => forall j' j'', same_value (snd kv) j' -> same_value j' j'' -> same_value (snd kv) j'') m3).
    { eapply Permutation_Forall; [|exact IH]. etransitivity; eassumption. }
    apply (sv_obj _ m3); [etransitivity; eassumption|].
    clear -F3 FM2 IH3. revert m'' FM2.
    induction F3 as [|[k' y] [k x] a b [E Hxy] _ IHf]; intros m'' FM2;
      inversion FM2 as [|? [k2 z] ? ? [E2 Hyz]]; subst; constructor; inversion IH3; subst; cbn in *; eauto.
    split; [congruence|eauto].
Qed.

(** ** Depth, UTF-8 and the like survive *)
Lemma arr_depth_le l n : Forall (fun x => depth x <= n) l <-> arr_depth l <= n.
Proof.
  split.
  - induction 1; cbn; [lia|]. fold (arr_depth l). lia.
  - induction l as [|x l IH]; constructor; cbn in H; fold (arr_depth l) in H; [lia|apply IH; lia].
Qed.
Lemma obj_depth_le m n : Forall (fun kv => depth (snd kv) <= n) m <-> obj_depth m <= n.
Proof.
  split.
  - induction 1 as [|[k x] m D _ IH]; [cbn; lia|].
    change (Nat.max (depth x) (obj_depth m) <= n). cbn in D. lia.
  - induction m as [|[k x] m IH]; constructor; change (Nat.max (depth x) (obj_depth m) <= n) in H;
      [cbn; lia|apply IH; lia].
Qed.
Lemma to_value_depth j : depth (to_value j) <= depth j.
Proof.
  induction j as [| | | | |l IH|m IH] using json_nested_ind; try (cbn; lia).
  - change (S (arr_depth (map to_value l)) <= S (arr_depth l)). apply le_n_S.
    apply arr_depth_le. rewrite Forall_map. rewrite Forall_forall in *. intros x I.
    etransitivity; [apply IH; exact I|]. revert x I. apply Forall_forall. apply arr_depth_le. lia.
  - rewrite to_value_obj. change (S (obj_depth (btree (map (on_snd to_value) m))) <= S (obj_depth m)).
    apply le_n_S. apply obj_depth_le. apply btree_Forall. rewrite Forall_map.
    rewrite Forall_forall in *. intros x I. cbn.
    etransitivity; [apply IH; exact I|]. revert x I. apply Forall_forall. apply obj_depth_le. lia.
Qed.
Lemma to_value_holds j : holds_in_value j -> holds_in_value (to_value j).
Proof.
  induction j as [| | | | |l IH|m IH] using json_nested_ind; intros H; try exact H; inversion H; subst.
  - cbn. constructor. rewrite Forall_map. rewrite Forall_forall in *. auto.
  - rewrite to_value_obj. constructor. apply btree_Forall. rewrite Forall_map.
    rewrite Forall_forall in *. intros x I. cbn. destruct (H1 _ I). auto.
Qed.

Lemma number_holds t v : number_text t v -> holds_in_value v.
Proof.
  destruct 1; try constructor.
  - unfold u64_max in *. lia.
  - lia.
  - eapply nt_big; eassumption.
  - eapply nt_neg_big; eassumption.
  - eapply nt_frac; eassumption.
  - eapply nt_exp; eassumption.
  - eapply nt_frac_exp; eassumption.
Qed.
Lemma text_holds :
  (forall t v, value_text t v -> holds_in_value v) /\
  (forall t l, elements t l -> Forall holds_in_value l) /\
  (forall t m, members t m -> Forall (fun kv => utf8_valid (fst kv) = true /\ holds_in_value (snd kv)) m).
Proof.
  assert (K : forall t b, literal t b -> utf8_valid b = true) by (intros t b []; assumption).
  apply value_text_mutind; intros; repeat constructor; eauto.
  eapply number_holds; eassumption.
Qed.
Lemma parse_holds t j : parse t = Ok j -> holds_in_value j.
Proof. intros H. destruct (parse_sound _ _ H). eapply (proj1 text_holds); eassumption. Qed.

Lemma same_value_depth j : forall j', same_value j j' -> depth j' <= depth j.
Proof.
  induction j as [| | | | |l IH|m IH] using json_nested_ind; intros j' A;
    inversion A as [| | | | |? l' FA|? m1 m' PM FM]; subst; auto.
  - change (S (arr_depth l') <= S (arr_depth l)). apply le_n_S. apply arr_depth_le.
    assert (D : Forall (fun x => depth x <= arr_depth l) l) by (apply arr_depth_le; lia).
    clear A. generalize dependent (arr_depth l). intros n D.
    induction FA as [|x y l l' Hxy _ IHf]; constructor; inversion IH; inversion D; subst; auto.
    match goal with Q : forall j', same_value _ j' -> _ |- _ => specialize (Q _ Hxy); lia end.
  - change (S (obj_depth m') <= S (obj_depth m)). apply le_n_S. apply obj_depth_le.
    assert (D : Forall (fun kv => depth (snd kv) <= obj_depth m) m1).
    { eapply Permutation_Forall; [exact PM|]. apply obj_depth_le; lia. }
    assert (IH1 : Forall (fun kv => forall j', same_value (snd kv) j' -> depth j' <= depth (snd kv)) m1)
      by (eapply Permutation_Forall; eassumption).
    clear A IH PM. generalize dependent (obj_depth m). intros n D.
    induction FM as [|x y l l' [_ Hxy] _ IHf]; constructor; inversion IH1; inversion D; subst; auto.
    match goal with Q : forall j', same_value _ j' -> _ |- _ => specialize (Q _ Hxy); lia end.
Qed.

Lemma same_value_float j : forall j', same_value j j' -> has_float j -> has_float j'.
Proof.
  induction j as [| | | | |l IH|m IH] using json_nested_ind; intros j' A F;
    inversion A as [| | | | |? l' FA|? m1 m' PM FM]; subst; auto.
  - inversion F as [|? x I Fx|]; subst. clear F A. induction FA as [|a b l l' H _ IHf]; [destruct I|].
    inversion IH; subst. destruct I as [->|I].
    + apply (hf_arr _ b); [left; reflexivity|auto].
    + specialize (IHf ltac:(assumption) I). inversion IHf; subst. eapply hf_arr; [right|]; eassumption.
  - inversion F as [| |? k x I Fx]; subst. apply (Permutation_in _ PM) in I.
    assert (IH1 : Forall (fun kv => forall j', same_value (snd kv) j' -> has_float (snd kv) -> has_float j') m1)
      by (eapply Permutation_Forall; eassumption).
    clear F A IH PM. induction FM as [|a [k' b] l l' [E H] _ IHf]; [destruct I|].
    inversion IH1; subst. destruct I as [->|I].
    + apply (hf_obj _ k' b); [left; reflexivity|]. cbn in *. auto.
    + specialize (IHf I ltac:(assumption)). inversion IHf; subst. eapply hf_obj; [right|]; eassumption.
Qed.

(** ** [convert] *)
Lemma map_result_Ok {A B} (f : A -> result B) l l' :
  map_result f l = Ok l' <-> Forall2 (fun a b => f a = Ok b) l l'.
Proof.
  revert l'; induction l as [|a l IH]; intros l'; cbn.
  - split; intros H; [inversion H; constructor|inversion H; reflexivity].
  - split; intros H.
    + destruct (f a) as [b|] eqn:E; [|discriminate]. cbn in H.
      destruct (map_result f l) as [bs|] eqn:E'; [|discriminate]. cbn in H. inversion H; subst.
      constructor; [exact E|]. apply IH; reflexivity.
    + inversion H as [|? b ? bs E F]; subst. rewrite E; cbn.
      fold (map_result f l). rewrite (proj2 (IH bs) F). reflexivity.
Qed.
Lemma map_result_Err {A B} (f : A -> result B) l e :
  map_result f l = Err e -> exists a, In a l /\ f a = Err e.
Proof.
  induction l as [|a l IH]; cbn; [discriminate|].
  destruct (f a) as [b|e'] eqn:E; cbn.
  - fold (map_result f l). destruct (map_result f l) as [bs|e'] eqn:E'; cbn; [discriminate|].
    intros H; inversion H; subst. destruct (IH eq_refl) as (x & I & X). eauto.
  - intros H; inversion H; subst. eauto.
Qed.

Lemma convert_cases j :
  (~ has_float j /\ convert j = Ok (to_value j)) \/ (has_float j /\ convert j = Err Opaque).
Proof.
  induction j as [| | | | |l IH|m IH] using json_nested_ind;
    try (left; split; [intros H; inversion H|reflexivity]).
  - right. split; [constructor|reflexivity].
  - cbn [convert to_value].
    assert (C : (~ (exists j, In j l /\ has_float j) /\ map_result convert l = Ok (map to_value l)) \/
                ((exists j, In j l /\ has_float j) /\ map_result convert l = Err Opaque)).
    { induction IH as [|x l [[N E]|[N E]] _ IHl].
      - left; split; [intros (? & [] & _)|reflexivity].
      - cbn [map_result]. rewrite E. cbn. fold (map_result convert l). destruct IHl as [[N' E']|[N' E']]; rewrite E'; cbn.
        + left; split; [|reflexivity]. intros (y & [->|I] & Hy); [auto|]. apply N'; eauto.
        + right; split; [|reflexivity]. destruct N' as (y & I & Hy). exists y; cbn; auto.
      - right. split; [exists x; cbn; auto|]. cbn [map_result]. rewrite E. reflexivity. }
    destruct C as [[N E]|[(y & I & Hy) E]]; rewrite E; cbn.
    + left; split; [|reflexivity]. intros H; inversion H; subst. apply N; eauto.
    + right; split; [exact (hf_arr _ _ I Hy)|reflexivity].
  - cbn [convert]. rewrite to_value_obj.
    set (f := fun kv : string * json => let '(k, v) := kv in let? v' := convert v in Ok (k, v')).
    assert (C : (~ (exists k j, In (k, j) m /\ has_float j) /\ map_result f m = Ok (map (on_snd to_value) m)) \/
                ((exists k j, In (k, j) m /\ has_float j) /\ map_result f m = Err Opaque)).
    { induction IH as [|[k x] m [[N E]|[N E]] _ IHl]; try (cbn in N, E).
      - left; split; [intros (? & ? & [] & _)|reflexivity].
      - assert (Ef : f (k, x) = Ok (k, to_value x)) by (unfold f; rewrite E; reflexivity).
        cbn [map_result]. rewrite Ef. cbn -[f]. fold (map_result f m).
        destruct IHl as [[N' E']|[N' E']]; rewrite E'; cbn.
        + left; split; [|reflexivity]. intros (q & y & [I|I] & Hy); [inversion I; subst; auto|]. apply N'; eauto.
        + right; split; [|reflexivity]. destruct N' as (q & y & I & Hy). exists q, y; cbn; auto.
      - right. split; [exists k, x; cbn; auto|]. cbn [map_result]. unfold f at 1. rewrite E. reflexivity. }
    destruct C as [[N E]|[(k & y & I & Hy) E]]; rewrite E; cbn.
    + left; split; [|reflexivity]. intros H; inversion H; subst. apply N; eauto.
    + right; split; [exact (hf_obj _ _ _ I Hy)|reflexivity].
Qed.

Lemma canonicalize_Ok j b : canonicalize j = Ok b <-> ~ has_float j /\ b = write (to_value j).
Proof.
  unfold canonicalize. destruct (convert_cases j) as [[N ->]|[N ->]]; cbn; split.
  - intros E; inversion E; auto.
  - intros [_ ->]; reflexivity.
  - discriminate.
  - intros [H _]; contradiction.
Qed.
Lemma canonicalize_Err j e : canonicalize j = Err e <-> has_float j /\ e = Opaque.
Proof.
  unfold canonicalize. destruct (convert_cases j) as [[N ->]|[N ->]]; cbn; split.
  - discriminate.
  - intros [H _]; contradiction.
  - intros E; inversion E; auto.
  - intros [_ ->]; reflexivity.
Qed.

(** ** What is written is a spelling of the value *)
Lemma ascii_of_N_code n : (n < 256)%N -> N_of_ascii (ascii_of_N n) = n.
Proof. apply N_ascii_embedding. Qed.

Lemma digit_of n : (n <= 9)%N -> digit (ascii_of_N (48 + n)) n.
Proof. intros H. split; [exact H|]. apply code_of_N. lia. Qed.

Lemma decimal_aux_natural fuel : forall n acc, (n < 2 ^ N.of_nat fuel)%N -> fuel <> 0 ->
  exists t, natural t n /\ decimal_aux fuel n acc = t ++ acc.
Proof.
  induction fuel as [|f IH]; intros n acc H Z; [congruence|]. cbn [decimal_aux].
  assert (M : (n mod 10 <= 9)%N) by (pose proof (N.mod_lt n 10 ltac:(lia)); lia).
  destruct (n / 10 =? 0)%N eqn:E.
  - apply N.eqb_eq in E. apply N.div_small_iff in E; [|lia].
    exists (String (ascii_of_N (48 + n mod 10)) ""). split; [|reflexivity].
    rewrite N.mod_small by exact E. apply natural_digit. apply digit_of. lia.
  - apply N.eqb_neq in E.
    assert (B : (n / 10 < 2 ^ N.of_nat f)%N).
    { rewrite Nat2N.inj_succ, N.pow_succ_r' in H. apply N.div_lt_upper_bound; [lia|].
      revert H. generalize (2 ^ N.of_nat f)%N. intros; lia. }
    assert (F : f <> 0).
    { intros ->. cbn in B. apply E. clear -B. revert B. generalize (n / 10)%N. intros; lia. }
    destruct (IH (n / 10)%N (String (ascii_of_N (48 + n mod 10)) acc) B F) as (t & Ht & ->).
    exists (t ++ String (ascii_of_N (48 + n mod 10)) ""). split.
    + rewrite (N.div_mod' n 10) at 2. apply natural_more; [exact Ht|exact E|].
      apply digit_of. exact M.
    + rewrite sapp_assoc. reflexivity.
Qed.
Lemma decimal_natural n : natural (decimal n) n.
Proof.
  unfold decimal. destruct (decimal_aux_natural (S (N.to_nat (N.log2 n))) n "") as (t & H & ->); [|lia|].
  - rewrite Nat2N.inj_succ, N2Nat.id. destruct (N.eq_dec n 0) as [->|Z]; [cbn; lia|].
    apply N.log2_spec. lia.
  - rewrite sapp_nil_r. exact H.
Qed.

Lemma decimal_z_text z : (-9223372036854775808 <= z <= 18446744073709551615)%Z ->
  number_text (decimal_z z) (JInt z).
Proof.
  intros R. unfold decimal_z. destruct (z <? 0)%Z eqn:E.
  - apply Z.ltb_lt in E. replace (JInt z) with (JInt (- Z.of_N (Z.to_N (- z)))) by (f_equal; lia).
    apply nt_negative; [apply decimal_natural|lia].
  - apply Z.ltb_ge in E. replace (JInt z) with (JInt (Z.of_N (Z.to_N z))) by (f_equal; lia).
    apply nt_unsigned; [apply decimal_natural|]. unfold u64_max. lia.
Qed.

Lemma hex_digit_hexit n : (n < 16)%N -> hexit (hex_digit n) n.
Proof.
  intros H. unfold hex_digit, hexit. destruct (n <? 10)%N eqn:E.
  - apply N.ltb_lt in E. rewrite code_of_N by lia. lia.
  - apply N.ltb_ge in E. rewrite code_of_N by lia. lia.
Qed.

Lemma utf8_encode_ascii n : (n < 128)%N -> utf8_encode n = String (ascii_of_N n) "".
Proof. intros H. unfold utf8_encode. rewrite (proj2 (N.ltb_lt _ _) H). reflexivity. Qed.

Lemma spelled_escape t b c : spelled t b -> spelled (t ++ escape c) (b ++ String c "").
Proof.
  intros S. unfold escape.
  destruct (Ascii.eqb c """") eqn:E1.
  { apply Ascii.eqb_eq in E1; subst c. exact (sp_short _ _ """"%char 34 S ltac:(cbn; tauto)). }
  destruct (Ascii.eqb c "\") eqn:E2.
  { apply Ascii.eqb_eq in E2; subst c. exact (sp_short _ _ "\"%char 92 S ltac:(cbn; tauto)). }
  assert (C : forall n, (N_of_ascii c =? n)%N = true -> c = ascii_of_N n).
  { intros n E. apply N.eqb_eq in E. rewrite <- E. symmetry. apply ascii_N_embedding. }
  destruct (N_of_ascii c =? 8)%N eqn:E3; [rewrite (C _ E3); exact (sp_short _ _ "b"%char 8 S ltac:(cbn; tauto))|].
  destruct (N_of_ascii c =? 9)%N eqn:E4; [rewrite (C _ E4); exact (sp_short _ _ "t"%char 9 S ltac:(cbn; tauto))|].
  destruct (N_of_ascii c =? 10)%N eqn:E5; [rewrite (C _ E5); exact (sp_short _ _ "n"%char 10 S ltac:(cbn; tauto))|].
  destruct (N_of_ascii c =? 12)%N eqn:E6; [rewrite (C _ E6); exact (sp_short _ _ "f"%char 12 S ltac:(cbn; tauto))|].
  destruct (N_of_ascii c =? 13)%N eqn:E7; [rewrite (C _ E7); exact (sp_short _ _ "r"%char 13 S ltac:(cbn; tauto))|].
  destruct (N_of_ascii c <? 32)%N eqn:E8.
  - apply N.ltb_lt in E8.
    assert (D : (N_of_ascii c / 16 < 16)%N) by (apply N.div_lt_upper_bound; lia).
    assert (M : (N_of_ascii c mod 16 < 16)%N) by (apply N.mod_lt; lia).
    assert (V : (0 * 4096 + 0 * 256 + N_of_ascii c / 16 * 16 + N_of_ascii c mod 16 = N_of_ascii c)%N).
    { rewrite (N.div_mod' (N_of_ascii c) 16) at 3. lia. }
    pose proof (sp_unicode t b
      (String "0" (String "0" (String (hex_digit (N_of_ascii c / 16)) (String (hex_digit (N_of_ascii c mod 16)) ""))))
      (N_of_ascii c) S) as H.
    rewrite utf8_encode_ascii, ascii_N_embedding in H by lia. apply H.
    + rewrite <- V at 3. apply hex4_intro; try (apply hex_digit_hexit; assumption).
      * exact (hex_digit_hexit 0 ltac:(lia)).
      * exact (hex_digit_hexit 0 ltac:(lia)).
    + unfold surrogate. lia.
  - apply N.ltb_ge in E8. apply Ascii.eqb_neq in E1, E2.
    apply sp_plain; [exact S|exact E8| |]; intros Q; [apply E1|apply E2]; apply code_inj; exact Q.
Qed.
Lemma spelled_escape_str s : forall t b, spelled t b -> spelled (t ++ escape_str s) (b ++ s).
Proof.
  induction s as [|c s IH]; intros t b S; cbn [escape_str]; [rewrite !sapp_nil_r; exact S|].
  replace (b ++ String c s) with ((b ++ String c "") ++ s) by (rewrite sapp_assoc; reflexivity).
  rewrite <- sapp_assoc. apply IH. apply spelled_escape. exact S.
Qed.
Lemma quote_literal s : utf8_valid s = true -> literal (quote s) s.
Proof. intros V. constructor; [|exact V]. exact (spelled_escape_str s "" "" sp_nil). Qed.

Lemma write_obj m : write (JObj m) =
  "{" ++ join_comma (map (fun kv => quote (fst kv) ++ ":" ++ write (snd kv)) m) ++ "}".
Proof. cbn [write]. do 3 f_equal. apply map_ext. intros [k v]; reflexivity. Qed.

Lemma write_text j : holds_in_value j -> value_text (write j) j.
Proof.
  induction j as [|b| | | |l IH|m IH] using json_nested_ind; intros H; inversion H; subst.
  - constructor.
  - destruct b; constructor.
  - constructor. apply decimal_z_text. assumption.
  - constructor. assumption.
  - apply vt_string. apply quote_literal. assumption.
  - cbn [write]. destruct l as [|x l]; [exact (vt_empty_array "" white_nil)|].
    apply vt_array. rewrite Forall_forall in *.
    clear H. revert x IH H1. induction l as [|y l IHl]; intros x IH H1.
    + cbn. replace (write x) with ("" ++ write x ++ "") by (rewrite sapp_nil_r; reflexivity).
      apply el_one; [constructor| |constructor]. apply IH; [|apply H1]; cbn; auto.
    + change (join_comma (map write (x :: y :: l))) with ("" ++ write x ++ "" ++ "," ++ join_comma (map write (y :: l))).
      apply el_more; [constructor| |constructor|].
      * apply IH; [|apply H1]; cbn; auto.
      * apply IHl; intros; [apply IH|apply H1]; cbn in *; tauto.
  - rewrite write_obj. destruct m as [|x m]; [exact (vt_empty_object "" white_nil)|].
    apply vt_object. rewrite Forall_forall in *.
    clear H. revert x IH H1. induction m as [|y m IHm]; intros [k v] IH H1.
    + cbn [map join_comma fst snd].
      replace (quote k ++ ":" ++ write v) with ("" ++ quote k ++ "" ++ ":" ++ "" ++ write v ++ "")
        by (rewrite sapp_nil_r; reflexivity).
      destruct (H1 (k, v) ltac:(cbn; auto)) as [U Hv].
      apply me_one; try exact white_nil; [apply quote_literal; exact U|].
      apply (IH (k, v)); [cbn; auto|exact Hv].
    + destruct (H1 (k, v) ltac:(cbn; auto)) as [U Hv].
      replace (join_comma (map (fun kv => quote (fst kv) ++ ":" ++ write (snd kv)) ((k, v) :: y :: m)))
        with ("" ++ quote k ++ "" ++ ":" ++ "" ++ write v ++ "" ++ "," ++
              join_comma (map (fun kv => quote (fst kv) ++ ":" ++ write (snd kv)) (y :: m))).
      * apply me_more; try exact white_nil; [apply quote_literal; exact U| |].
        -- apply (IH (k, v)); [cbn; auto|exact Hv].
        -- apply IHm; intros; [apply IH|apply H1]; cbn in *; tauto.
      * cbn [map join_comma fst snd append]. rewrite !sapp_assoc. reflexivity.
Qed.

Lemma document_of_value t j : value_text t j -> document t j.
Proof.
  intros H. replace t with ("" ++ t ++ "") by (rewrite sapp_nil_r; reflexivity).
  apply document_intro; [constructor|exact H|constructor].
Qed.

Lemma parse_write j : holds_in_value j -> depth j <= max_depth -> parse (write j) = Ok j.
Proof. intros H D. apply parse_complete; [|exact D]. apply document_of_value, write_text, H. Qed.

Lemma write_inj j j' : holds_in_value j -> holds_in_value j' -> write j = write j' -> j = j'.
Proof.
  intros H H' E. apply (document_unique (write j)).
  - apply document_of_value, write_text, H.
  - rewrite E. apply document_of_value, write_text, H'.
Qed.

(** ** The pretty printer *)
Lemma spaces_white n : white (spaces n).
Proof. induction n as [|n IH]; cbn; repeat constructor; cbn; auto. Qed.
Lemma newline_white w : white w -> white (newline ++ w).
Proof. intros W. cbn. constructor; [cbn; auto|exact W]. Qed.

Lemma pretty_obj d kv m : pretty d (JObj (kv :: m)) =
  "{" ++ newline ++ spaces (S d)
      ++ join_comma_nl (spaces (S d))
           (map (fun kv => quote (fst kv) ++ ": " ++ pretty (S d) (snd kv)) (kv :: m))
      ++ newline ++ spaces d ++ "}".
Proof.
  cbn [pretty]. do 4 f_equal. f_equal.
  destruct kv as [k v]. cbn [map]. f_equal. apply map_ext. intros [k' v']; reflexivity.
Qed.

Lemma pretty_text j : holds_in_value j -> forall d, value_text (pretty d j) j.
Proof.
  induction j as [|b| | | |l IH|m IH] using json_nested_ind; intros H d; try (apply write_text; exact H);
    inversion H; subst.
  - destruct l as [|x l]; [exact (vt_empty_array "" white_nil)|].
    cbn [pretty].
    set (sp := spaces (S d)).
    replace ("[" ++ newline ++ sp ++ join_comma_nl sp (map (pretty (S d)) (x :: l)) ++ newline ++ spaces d ++ "]")
      with ("[" ++ ((newline ++ sp) ++ join_comma_nl sp (map (pretty (S d)) (x :: l)) ++ (newline ++ spaces d)) ++ "]")
      by (rewrite !sapp_assoc; reflexivity).
    apply vt_array. rewrite Forall_forall in *. clear H.
    assert (Wsp : white (newline ++ sp)) by (apply newline_white, spaces_white).
    assert (Wend : white (newline ++ spaces d)) by (apply newline_white, spaces_white).
    revert x IH H1. induction l as [|y l IHl]; intros x IH H1.
    + cbn [map join_comma_nl]. apply el_one; [exact Wsp| |exact Wend]. apply IH; [|apply H1]; cbn; auto.
    + replace ((newline ++ sp) ++ join_comma_nl sp (map (pretty (S d)) (x :: y :: l)) ++ newline ++ spaces d)
        with ((newline ++ sp) ++ pretty (S d) x ++ "" ++ "," ++
              ((newline ++ sp) ++ join_comma_nl sp (map (pretty (S d)) (y :: l)) ++ newline ++ spaces d)).
      * apply el_more; [exact Wsp| |constructor|].
        -- apply IH; [|apply H1]; cbn; auto.
        -- apply IHl; intros; [apply IH|apply H1]; cbn in *; tauto.
      * change (join_comma_nl sp (map (pretty (S d)) (x :: y :: l)))
          with (pretty (S d) x ++ "," ++ newline ++ sp ++ join_comma_nl sp (map (pretty (S d)) (y :: l))).
        rewrite !sapp_assoc. cbn [append]. rewrite ?sapp_assoc. reflexivity.
  - destruct m as [|x m]; [exact (vt_empty_object "" white_nil)|].
    rewrite pretty_obj. set (sp := spaces (S d)).
    set (f := fun kv : string * json => quote (fst kv) ++ ": " ++ pretty (S d) (snd kv)).
    replace ("{" ++ newline ++ sp ++ join_comma_nl sp (map f (x :: m)) ++ newline ++ spaces d ++ "}")
      with ("{" ++ ((newline ++ sp) ++ join_comma_nl sp (map f (x :: m)) ++ (newline ++ spaces d)) ++ "}")
      by (rewrite !sapp_assoc; reflexivity).
    apply vt_object. rewrite Forall_forall in *. clear H.
    assert (Wsp : white (newline ++ sp)) by (apply newline_white, spaces_white).
    assert (Wend : white (newline ++ spaces d)) by (apply newline_white, spaces_white).
    assert (W1 : white " ") by (repeat constructor; cbn; auto).
    revert x IH H1. induction m as [|y m IHm]; intros [k v] IH H1; destruct (H1 (k, v) ltac:(cbn; auto)) as [U Hv].
    + replace ((newline ++ sp) ++ join_comma_nl sp (map f [(k, v)]) ++ newline ++ spaces d)
        with ((newline ++ sp) ++ quote k ++ "" ++ ":" ++ " " ++ pretty (S d) v ++ (newline ++ spaces d)).
      * apply me_one; try assumption; [apply quote_literal; exact U|constructor|].
        apply (IH (k, v)); [cbn; auto|exact Hv].
      * cbn [map join_comma_nl]. unfold f; cbn [fst snd]. rewrite !sapp_assoc. reflexivity.
    + replace ((newline ++ sp) ++ join_comma_nl sp (map f ((k, v) :: y :: m)) ++ newline ++ spaces d)
        with ((newline ++ sp) ++ quote k ++ "" ++ ":" ++ " " ++ pretty (S d) v ++ "" ++ "," ++
              ((newline ++ sp) ++ join_comma_nl sp (map f (y :: m)) ++ newline ++ spaces d)).
      * apply me_more; try assumption; try exact white_nil; [apply quote_literal; exact U| |].
        -- apply (IH (k, v)); [cbn; auto|exact Hv].
        -- apply IHm; intros; [apply IH|apply H1]; cbn in *; tauto.
      * change (join_comma_nl sp (map f ((k, v) :: y :: m)))
          with (f (k, v) ++ "," ++ newline ++ sp ++ join_comma_nl sp (map f (y :: m))).
        unfold f at 2; cbn [fst snd]. rewrite !sapp_assoc. cbn [append]. rewrite ?sapp_assoc. reflexivity.
Qed.

Lemma parse_pretty j : holds_in_value j -> depth j <= max_depth -> parse (pretty 0 j) = Ok j.
Proof. intros H D. apply parse_complete; [|exact D]. apply document_of_value, pretty_text, H. Qed.

(** * Facts about the serde combinators *)
From Coq Require Import String Ascii List NArith ZArith Bool Lia Permutation.
From Verif Require Import Base BaseFacts JsonValue JsonText SpecJson StringFacts JsonProofs Serde.
Import ListNotations.
Open Scope string_scope.

Lemma obind_Some {A B} (x : option A) (f : A -> option B) b :
  obind x f = Some b <-> exists a, x = Some a /\ f a = Some b.
Proof.
  destruct x as [a|]; cbn; split.
  - eauto.
  - intros (a' & E & H). inversion E; subst; exact H.
  - discriminate.
  - intros (a' & E & _). discriminate.
Qed.

Lemma all_some_Some {A B} (f : A -> option B) l : forall l',
  all_some f l = Some l' <-> Forall2 (fun a b => f a = Some b) l l'.
Proof.
  induction l as [|a l IH]; intros l'; cbn.
  - split; intros H; [inversion H; constructor|inversion H; reflexivity].
  - rewrite obind_Some. split.
    + intros (b & E & H). apply obind_Some in H as (r & E' & H). inversion H; subst. constructor; [exact E|]. apply IH, E'.
    + intros H. inversion H as [|a' b l1 r E F]; subst. exists b. split; [exact E|].
      apply obind_Some. exists r. split; [apply IH, F|reflexivity].
Qed.

Lemma no_repeats_NoDup {A} `{EqDec A} (l : list A) : no_repeats l = true <-> NoDup l.
Proof.
  induction l as [|x l IH]; cbn; [split; [constructor|reflexivity]|].
  rewrite andb_true_iff, IH, negb_true_iff. split.
  - intros [M N]. constructor; [|exact N]. intros I. apply mem_In in I. congruence.
  - intros N. inversion N as [|? ? M N']; subst. split; [|exact N'].
    destruct (mem x l) eqn:E; [|reflexivity]. apply mem_In in E. contradiction.
Qed.

(** ** Objects as maps *)

Lemma count_zero n (l : list string) : length (filter (String.eqb n) l) = 0 <-> ~ In n l.
Proof.
  induction l as [|x l IH]; cbn; [tauto|]. destruct (String.eqb_spec n x) as [->|Ne]; cbn.
  - split; [discriminate|intuition].
  - rewrite IH. intuition congruence.
Qed.
Lemma count_NoDup n (l : list string) : NoDup l -> length (filter (String.eqb n) l) <= 1.
Proof.
  induction 1 as [|x l I _ IH]; cbn; [lia|]. destruct (String.eqb_spec n x) as [->|Ne]; cbn; [|exact IH].
  apply count_zero in I. lia.
Qed.

Lemma lookup_rev_once {V} n (m : list (string * V)) :
  length (filter (String.eqb n) (map fst m)) <= 1 -> lookup n (rev m) = lookup n m.
Proof.
  induction m as [|[k v] m IH]; cbn [map fst filter rev]; [reflexivity|]. intros L.
  rewrite lookup_app. cbn [lookup]. change (@eqb string _) with String.eqb.
  destruct (String.eqb_spec n k) as [->|Ne].
  - cbn [length] in L. rewrite IH by lia.
    assert (~ In k (map fst m)) by (apply count_zero; lia).
    destruct (lookup k m) eqn:E; [|reflexivity]. exfalso. apply H. exact (lookup_In_key _ _ _ E).
  - rewrite IH by exact L. destruct (lookup n m); reflexivity.
Qed.

Lemma lookup_on_snd {A B} (f : A -> B) n (m : list (string * A)) :
  lookup n (map (on_snd f) m) = option_map f (lookup n m).
Proof.
  induction m as [|[k v] m IH]; cbn; [reflexivity|]. change (@eqb string _) with String.eqb.
  destruct (String.eqb n k); [reflexivity|exact IH].
Qed.

Lemma btree_keys {V} (l : list (string * V)) n : In n (map fst (btree l)) -> In n (map fst l).
Proof. rewrite !in_map_iff. intros (kv & E & I). exists kv. split; [exact E|apply btree_In, I]. Qed.

Lemma d_fields_stable names deny opt j fs : d_fields names deny opt j = Some fs ->
  d_fields names deny opt (to_value j) = Some (map (option_map to_value) fs).
Proof.
  destruct j as [| | | | |l|m]; try discriminate.
  - cbn [to_value d_fields]. rewrite map_length.
    destruct (_ && _)%bool; [|discriminate]. intros H; inversion H; subst.
    rewrite map_app, !map_map. do 2 f_equal.
    induction (length names - length l) as [|k IH]; cbn; [reflexivity|now rewrite IH at 1].
  - rewrite to_value_obj. cbn [d_fields]. intros H.
    match type of H with (if ?b then _ else _) = _ => destruct b eqn:B end; [|discriminate].
    inversion H; subst. apply andb_true_iff in B as [B1 B2]. rewrite forallb_forall in B1.
    assert (S := btree_sorted (map (on_snd to_value) m)).
    assert (C1 : forallb (fun n => Nat.leb (length (filter (String.eqb n) (map fst (btree (map (on_snd to_value) m))))) 1) names = true).
    { apply forallb_forall. intros n _. apply Nat.leb_le. apply count_NoDup, sorted_NoDup, S. }
    assert (C2 : (negb deny || forallb (fun n => mem n names) (map fst (btree (map (on_snd to_value) m))))%bool = true).
    { apply orb_true_iff in B2 as [->|B2]; [reflexivity|]. apply orb_true_iff; right.
      rewrite forallb_forall in *. intros n I. apply B2. apply btree_keys in I. now rewrite map_fst_on_snd in I. }
    rewrite C1, C2. cbn [andb]. f_equal. rewrite map_map. apply map_ext_in. intros n I.
    rewrite lookup_btree. rewrite lookup_rev_once.
    + apply lookup_on_snd.
    + rewrite map_fst_on_snd. apply Nat.leb_le, B1, I.
Qed.

(** A decoder does not see the difference between a tree it accepts and the [Value]
    made of it. *)
Definition stable {A} (d : decoder A) : Prop := forall j a, d j = Some a -> d (to_value j) = Some a.

Lemma stable_str : stable d_str.
Proof. intros [| | | | | |] a H; try discriminate; exact H. Qed.
Lemma stable_bool : stable d_bool.
Proof. intros [| | | | | |] a H; try discriminate; exact H. Qed.
Lemma stable_uint m : stable (d_uint m).
Proof. intros [| | | | | |] a H; try discriminate; exact H. Qed.
Lemma stable_value : stable (fun j => Some (to_value j)).
Proof. intros j a H. inversion H; subst. f_equal. apply to_value_idem. Qed.
Lemma stable_bind {A B} (d : decoder A) (f : A -> option B) : stable d -> stable (fun j => have a := d j in f a).
Proof.
  intros S j b H. apply obind_Some in H as (a & E & H). apply obind_Some. exists a. split; [apply S, E|exact H].
Qed.

Lemma to_value_null j : to_value j = JNull -> j = JNull.
Proof. destruct j; cbn; congruence. Qed.
Lemma d_opt_nonnull {A} (d : decoder A) j : j <> JNull -> d_opt d j = (have a := d j in Some (Some a)).
Proof. destruct j; intros H; try reflexivity. congruence. Qed.
Lemma stable_opt {A} (d : decoder A) : stable d -> stable (d_opt d).
Proof.
  intros S j o H.
  assert (Z : j = JNull \/ j <> JNull) by (destruct j; auto; right; discriminate).
  destruct Z as [->|Z]; [exact H|]. rewrite d_opt_nonnull in H by exact Z.
  rewrite d_opt_nonnull by (intros E; apply Z, to_value_null, E).
  apply obind_Some in H as (a & D & H). now rewrite (S _ _ D).
Qed.

Lemma stable_vec {A} (d : decoder A) : stable d -> stable (d_vec d).
Proof.
  intros S [| | | | |l|m] a H; try discriminate. cbn in *. apply all_some_Some in H. apply all_some_Some.
  induction H; cbn; constructor; auto.
Qed.

Lemma Forall2_impl {A B} (P Q : A -> B -> Prop) l l' :
  (forall a b, P a b -> Q a b) -> Forall2 P l l' -> Forall2 Q l l'.
Proof. intros H. induction 1; constructor; auto. Qed.

(** Entries of a map whose names are kept as they are. *)
Definition keeps (k : string -> option string) : Prop := forall s s', k s = Some s' -> s' = s.
Definition entry_ok {A} (k : string -> option string) (d : decoder A) (a : string * json) (b : string * A) : Prop :=
  fst a = fst b /\ k (fst a) = Some (fst a) /\ d (snd a) = Some (snd b).

Lemma d_entries_Some {A} k (d : decoder A) j es : keeps k ->
  d_entries k d j = Some es <-> exists m, j = JObj m /\ Forall2 (entry_ok k d) m es.
Proof.
  intros K. split.
  - destruct j as [| | | | | |m]; try discriminate. cbn. intros H. apply all_some_Some in H.
    exists m. split; [reflexivity|]. revert H. apply Forall2_impl. intros [n v] [n' a] H.
    apply obind_Some in H as (n2 & E & H). apply obind_Some in H as (v2 & E' & H). inversion H; subst.
    cbn in *. pose proof (K _ _ E); subst. repeat split; assumption.
  - intros (m & -> & F). cbn. apply all_some_Some. revert F. apply Forall2_impl. intros [n v] [n' a] (E & K' & D).
    cbn in *; subst. rewrite K', D. reflexivity.
Qed.

Lemma bt_insert_Forall2 {A B} (R : A -> B -> Prop) k x y m m' : R x y ->
  Forall2 (fun a b => fst a = fst b /\ R (snd a) (snd b)) m m' ->
  Forall2 (fun a b => fst a = fst b /\ R (snd a) (snd b)) (bt_insert k x m) (bt_insert k y m').
Proof.
  intros H. induction 1 as [|[k1 a] [k2 b] m m' [E1 E2] F IH]; cbn in *; [repeat constructor; auto|].
  subst k2. destruct (String.compare k k1); repeat constructor; auto.
Qed.
Lemma btree_Forall2 {A B} (R : A -> B -> Prop) l l' :
  Forall2 (fun a b => fst a = fst b /\ R (snd a) (snd b)) l l' ->
  Forall2 (fun a b : string * _ => fst a = fst b /\ R (snd a) (snd b)) (btree l) (btree l').
Proof.
  unfold btree. assert (forall m m', Forall2 (fun a b => fst a = fst b /\ R (snd a) (snd b)) m m' ->
    Forall2 (fun a b => fst a = fst b /\ R (snd a) (snd b)) l l' ->
    Forall2 (fun a b : string * _ => fst a = fst b /\ R (snd a) (snd b))
      (fold_left (fun m kv => bt_insert (fst kv) (snd kv) m) l m)
      (fold_left (fun m kv => bt_insert (fst kv) (snd kv) m) l' m')).
  { intros m m' H F. revert m m' H. induction F as [|[k a] [k' b] l l' [E1 E2] F IH]; intros m m' H; cbn in *; [exact H|].
    subst k'. apply IH. apply bt_insert_Forall2; assumption. }
  intros F. apply H; [constructor|exact F].
Qed.

Lemma btree_idem {V} (l : list (string * V)) : btree (btree l) = btree l.
Proof. apply btree_of_sorted, btree_sorted. Qed.

Lemma Forall2_keys {A B} (R : A -> B -> Prop) (m : list (string * A)) (m' : list (string * B)) :
  Forall2 (fun a b => fst a = fst b /\ R (snd a) (snd b)) m m' -> map fst m = map fst m'.
Proof. induction 1 as [|a b m m' [E _] _ IH]; cbn; congruence. Qed.

Lemma entries_to_value {A} k (d : decoder A) m es : stable d -> Forall2 (entry_ok k d) m es ->
  Forall2 (entry_ok k d) (btree (map (on_snd to_value) m)) (btree es).
Proof.
  intros S F.
  assert (F1 : Forall2 (fun a b => fst a = fst b /\ d (snd a) = Some (snd b)) (map (on_snd to_value) m) es).
  { induction F as [|[n v] [n' a] m es (E & K & D) F IH]; cbn; constructor; auto. cbn in *. auto. }
  apply (btree_Forall2 (fun v a => d v = Some a)) in F1.
  assert (KF : Forall (fun a => k (fst a) = Some (fst a)) (btree (map (on_snd to_value) m))).
  { apply btree_Forall. rewrite Forall_map. clear -F. induction F as [|a b m es (_ & K & _) _ IH]; constructor; auto. }
  clear -F1 KF. induction F1 as [|a b l l' [E D] F IH]; constructor; inversion KF; subst; auto. repeat split; auto.
Qed.

Lemma stable_map {A} k (d : decoder A) : keeps k -> stable d -> stable (d_map k d).
Proof.
  intros K S j a H. apply obind_Some in H as (es & E & H). inversion H; subst.
  apply (d_entries_Some k d j es K) in E as (m & -> & F). apply obind_Some. exists (btree es).
  split; [|now rewrite btree_idem]. apply d_entries_Some; [exact K|].
  rewrite to_value_obj. eexists. split; [reflexivity|]. apply entries_to_value; assumption.
Qed.

Lemma stable_map_unique {A} k (d : decoder A) : keeps k -> stable d -> stable (d_map_unique k d).
Proof.
  intros K S j a H. apply obind_Some in H as (es & E & H).
  destruct (no_repeats (map fst es)) eqn:NR; [|discriminate]. inversion H; subst.
  apply (d_entries_Some k d j es K) in E as (m & -> & F). apply obind_Some. exists (btree es).
  split.
  - apply d_entries_Some; [exact K|].
    rewrite to_value_obj. eexists. split; [reflexivity|]. apply entries_to_value; assumption.
  - rewrite btree_idem. rewrite (proj2 (no_repeats_NoDup _)); [reflexivity|]. apply sorted_NoDup, btree_sorted.
Qed.

Lemma stable_enum {A} unit (data : string -> option (decoder A)) :
  (forall n d, data n = Some d -> stable d) -> stable (d_enum unit data).
Proof.
  intros S j a H. destruct j as [| | | |s| |m]; try discriminate; [exact H|].
  destruct m as [|[n v] m]; [discriminate|]. destruct m as [|p m]; [|exfalso; destruct v; discriminate].
  rewrite to_value_obj. cbn [map on_snd fst snd btree fold_left bt_insert].
  assert (Z : v = JNull \/ (v <> JNull /\ (have d := data n in d v) = Some a))
    by (destruct v; auto; right; split; try discriminate; exact H).
  destruct Z as [->|[Nv Hd]]; [exact H|]. apply obind_Some in Hd as (d & E & Hd).
  apply (S _ _ E) in Hd.
  assert (X : (have d := data n in d (to_value v)) = Some a) by (rewrite E; exact Hd).
  destruct v; try congruence; exact X.
Qed.

Lemma stable_required {A} (d : decoder A) f a : stable d ->
  d_required d f = Some a -> d_required d (option_map to_value f) = Some a.
Proof. intros S. destruct f as [j|]; cbn; [apply S|discriminate]. Qed.
Lemma stable_optional {A} (d : decoder A) f a : stable d ->
  d_optional d f = Some a -> d_optional d (option_map to_value f) = Some a.
Proof. intros S. destruct f as [j|]; cbn; [apply (stable_opt d S)|auto]. Qed.

(** Taking [have x := e in k] apart in a hypothesis. *)
Ltac bound H :=
  let a := fresh "a" in let E := fresh "E" in apply obind_Some in H as (a & E & H).
Ltac bounds H := repeat match type of H with obind _ _ = Some _ => bound H end.

Create HintDb stable.
#[export] Hint Resolve stable_str stable_bool stable_uint stable_value stable_opt stable_vec stable_map
  stable_map_unique stable_bind : stable.

(** A derived struct: read the fields, then decode them one by one. *)
Ltac stable_struct :=
  let j := fresh "j" in let a := fresh "a" in let H := fresh "H" in let fs := fresh "fs" in let F := fresh "F" in
  intros j a H; cbv beta delta [stable] in *;
  match type of H with
  | context [d_fields ?n ?dn ?o j] =>
      destruct (d_fields n dn o j) as [fs|] eqn:F; [|discriminate];
      rewrite (d_fields_stable _ _ _ _ _ F); clear F
  end;
  repeat match type of H with context [match ?l with [] => _ | _ :: _ => _ end] => is_var l; destruct l; try discriminate end;
  cbn [map];
  repeat match type of H with
  | obind (d_required ?d ?f) _ = Some _ =>
      let x := fresh "x" in let E := fresh "E" in
      apply obind_Some in H as (x & E & H); apply stable_required in E; [|solve [eauto with stable]];
      rewrite E; cbn [obind]; clear E
  | obind (d_optional ?d ?f) _ = Some _ =>
      let x := fresh "x" in let E := fresh "E" in
      apply obind_Some in H as (x & E & H); apply stable_optional in E; [|solve [eauto with stable]];
      rewrite E; cbn [obind]; clear E
  end;
  try match type of H with d_required _ _ = Some _ => apply stable_required in H; [|solve [eauto with stable]] end;
  try exact H.

(** * Orders of hash maps: the proofs for C112 *)
From Coq Require Import String List NArith ZArith Bool Lia Permutation.
From Verif Require Import Base BaseFacts JsonValue Metadata Verify SpecVerify VerifyProofs Paths Tuf SpecTuf Reader Repo Client SpecOrder.
Import ListNotations.
Open Scope string_scope.
Open Scope list_scope.

Ltac rels := repeat match goal with
  | H : _ /\ _ |- _ => destruct H
  end.

Lemma opt_cases {A B} (R : A -> B -> Prop) o o' : opt_rel R o o' ->
  (o = None /\ o' = None) \/ exists a b, o = Some a /\ o' = Some b /\ R a b.
Proof. destruct o, o'; cbn; intros H; try contradiction; [right; eauto|left; auto]. Qed.
Lemma res_cases {A B} (R : A -> B -> Prop) r r' : res_rel R r r' ->
  (exists e, r = Err e /\ r' = Err e) \/ exists a b, r = Ok a /\ r' = Ok b /\ R a b.
Proof. destruct r, r'; cbn; intros H; try contradiction; [right; eauto|left; subst; eauto]. Qed.
Lemma res_eq {A} (r r' : result A) : res_rel eq r r' <-> r = r'.
Proof. destruct r, r'; cbn; split; intros H; try contradiction; try congruence. Qed.

Section Maps.
  Context {K V : Type} `{EqDec K} (R : V -> V -> Prop).

  Lemma map_lookup (m m' : list (K * V)) k : same_map R m m' ->
    (lookup k m = None /\ lookup k m' = None) \/ exists v v', lookup k m = Some v /\ lookup k m' = Some v' /\ R v v'.
  Proof. intros (_ & _ & L). specialize (L k). now apply opt_cases in L. Qed.
  Lemma map_nil : same_map R (@nil (K * V)) [].
  Proof. repeat split; constructor. Qed.
  Lemma nodup_remove (m : list (K * V)) k : NoDup (map fst m) -> NoDup (map fst (remove k m)).
  Proof.
    induction m as [|[k0 v] m IH]; cbn; [constructor|]. intros N. inversion N; subst. destruct (negb _); cbn; [|now apply IH].
    constructor; [|now apply IH]. intros I. apply H2. apply in_map_iff in I as ([a b] & E & I). cbn in E. subst.
    apply filter_In in I as [I _]. apply in_map_iff. now exists (k0, b).
  Qed.
  Lemma map_remove (m m' : list (K * V)) k : same_map R m m' -> same_map R (remove k m) (remove k m').
  Proof.
    intros (N & N' & L). split; [now apply nodup_remove|]. split; [now apply nodup_remove|]. intros i. rewrite !lookup_remove.
    destruct (eqb i k); [exact I|apply L].
  Qed.
  Lemma map_insert (m m' : list (K * V)) k v v' : same_map R m m' -> R v v' -> same_map R (insert k v m) (insert k v' m').
  Proof.
    intros M Rv. pose proof (map_remove m m' k M) as (N & N' & L). unfold insert. split; [|split].
    - cbn. constructor; [|exact N]. apply (proj1 (lookup_None k _)), lookup_remove_eq.
    - cbn. constructor; [|exact N']. apply (proj1 (lookup_None k _)), lookup_remove_eq.
    - intros i. cbn [lookup]. destruct (eqb i k); [exact Rv|apply L].
  Qed.
  Lemma map_length (m m' : list (K * V)) : same_map R m m' -> length m = length m'.
  Proof.
    intros (N & N' & L). rewrite <- (map_length fst m), <- (map_length fst m'). apply PeanoNat.Nat.le_antisymm.
    - apply NoDup_incl_length; [exact N|]. intros k I. specialize (L k). destruct (lookup k m') as [v|] eqn:Q; [exact (lookup_In_key _ _ _ Q)|].
      destruct (lookup k m) eqn:Q'; [contradiction|]. now apply lookup_None in Q'.
    - apply NoDup_incl_length; [exact N'|]. intros k I. specialize (L k). destruct (lookup k m) as [v|] eqn:Q; [exact (lookup_In_key _ _ _ Q)|].
      destruct (lookup k m') eqn:Q'; [contradiction|]. now apply lookup_None in Q'.
  Qed.
End Maps.

Lemma same_lookup {K V} `{EqDec K} (m m' : list (K * V)) k : same_map eq m m' -> lookup k m = lookup k m'.
Proof. intros M. destruct (map_lookup _ _ _ k M) as [[-> ->]|(v & v' & -> & -> & ->)]; reflexivity. Qed.
Lemma same_in {K V} `{EqDec K} (m m' : list (K * V)) x : same_map eq m m' -> In x m <-> In x m'.
Proof.
  intros M. destruct x as [k v]. pose proof (same_lookup m m' k M) as L. destruct M as (N & N' & _).
  split; intros I; apply In_lookup in I; try assumption; apply lookup_In; congruence.
Qed.

(** ** Verification *)
Definition same_signers (ks ks' : list public_key) : Prop :=
  forall i, lookup i (collect (map (fun k => (pk_id k, k)) ks)) = lookup i (collect (map (fun k => (pk_id k, k)) ks')).
Lemma mem_same {A} `{EqDec A} (l l' : list A) x : same_set l l' -> mem x l = mem x l'.
Proof.
  intros S. destruct (mem x l) eqn:Q.
  - symmetry. apply mem_In. apply S. now apply mem_In.
  - symmetry. apply mem_not_In. intros I. apply S in I. apply mem_not_In in Q. contradiction.
Qed.
Lemma last_unique ks i k : (forall a b : public_key, In a ks -> In b ks -> pk_id a = pk_id b -> a = b) ->
  last_with pk_id i ks k <-> In k ks /\ pk_id k = i.
Proof.
  intros U. split; [intros (l1 & l2 & -> & Q & _); split; [apply in_or_app; right; now left|exact Q]|]. intros [I Q].
  assert (X : exists x, last_with pk_id i ks x).
  { clear U. induction ks as [|a ks IH]; [destruct I|]. destruct (in_dec string_dec i (map pk_id ks)) as [J|J].
    - apply in_map_iff in J as (b & Eb & Ib). assert (Y : exists x, last_with pk_id i ks x).
      { clear -Ib Eb. revert b Ib Eb. induction ks as [|a ks IH]; intros b Ib Eb; [destruct Ib|].
        destruct (in_dec string_dec i (map pk_id ks)) as [J|J].
        - apply in_map_iff in J as (c & Ec & Ic). destruct (IH c Ic Ec) as (x & l1 & l2 & -> & Q). exists x, (a :: l1), l2. auto.
        - destruct Ib as [->|Ib]; [|elim J; apply in_map_iff; eauto]. exists b, [], ks. repeat split; auto. intros y Iy F. apply J, in_map_iff. eauto. }
      destruct Y as (x & l1 & l2 & -> & Q'). exists x, (a :: l1), l2. auto.
    - destruct I as [->|I]; [|elim J; apply in_map_iff; eauto]. exists k, [], ks. repeat split; auto. intros y Iy F. apply J, in_map_iff. eauto. }
  destruct X as (x & X). pose proof X as (l1 & l2 & Q1 & Q2 & _). assert (x = k); [|now subst].
  apply U; [rewrite Q1; apply in_or_app; right; now left|exact I|congruence].
Qed.
Lemma selected_in keys ids k : In k (select_keys keys ids) <-> exists i, In (i, k) keys /\ mem i ids = true.
Proof.
  unfold select_keys. rewrite in_map_iff. split.
  - intros ([i x] & <- & I). apply filter_In in I. eauto.
  - intros (i & I & M). exists (i, k). split; [reflexivity|]. now apply filter_In.
Qed.
Lemma select_same m m' ids ids' : same_keys m m' -> same_set ids ids' -> same_signers (select_keys m ids) (select_keys m' ids').
Proof.
  intros [M [<-|U]] S i.
  { unfold select_keys. replace (filter (fun kv => mem (fst kv) ids') m) with (filter (fun kv => mem (fst kv) ids) m); [reflexivity|].
    apply filter_ext. intros kv. now apply mem_same. }
  assert (I : forall k, In k (select_keys m ids) <-> In k (select_keys m' ids')).
  { intros k. rewrite !selected_in. split; intros (j & J & Q); exists j.
    - rewrite <- (mem_same _ _ _ S). split; [now apply (same_in m m')|exact Q].
    - rewrite (mem_same _ _ _ S). split; [now apply (same_in m m')|exact Q]. }
  assert (U1 : forall a b, In a (select_keys m ids) -> In b (select_keys m ids) -> pk_id a = pk_id b -> a = b).
  { intros a b Ia Ib. apply selected_in in Ia as (ia & Ia & _). apply selected_in in Ib as (ib & Ib & _). now apply (U ia ib). }
  assert (U2 : forall a b, In a (select_keys m' ids') -> In b (select_keys m' ids') -> pk_id a = pk_id b -> a = b).
  { intros a b Ia Ib. apply U1; now apply I. }
  assert (X : forall k, lookup i (collect (map (fun k => (pk_id k, k)) (select_keys m ids))) = Some k <->
                        lookup i (collect (map (fun k => (pk_id k, k)) (select_keys m' ids'))) = Some k).
  { intros k. rewrite !lookup_collect_last, (last_unique _ _ _ U1), (last_unique _ _ _ U2). now rewrite I. }
  destruct (lookup i (collect (map _ (select_keys m ids)))) as [k|] eqn:Q.
  - symmetry. now apply X.
  - destruct (lookup i (collect (map _ (select_keys m' ids')))) as [k|] eqn:Q'; [|reflexivity]. destruct (X k) as [_ Y]. discriminate (Y eq_refl).
Qed.

Section Env.
  Context (E E' : env) (SE : same_env E E').

  Lemma goods_same ks ks' msg l : same_signers ks ks' ->
    goods E (collect (map (fun k => (pk_id k, k)) ks)) msg l = goods E' (collect (map (fun k => (pk_id k, k)) ks')) msg l.
  Proof.
    intros S. unfold goods. f_equal. f_equal. apply filter_ext. intros [i s]. unfold good_entry. cbn [fst snd].
    rewrite (S i). destruct SE as (-> & _). reflexivity.
  Qed.
  Lemma verify_same r raw t ks ks' : same_signers ks ks' ->
    res_rel (same_metadata r) (verify_signatures E r raw t ks) (verify_signatures E' r raw t ks').
  Proof.
    intros S. rewrite !verify_signatures_result. destruct (t <? 1)%N; [reflexivity|].
    destruct SE as (_ & R & E1 & E2 & E3). specialize (E1 raw).
    apply res_cases in E1 as [(e & -> & ->)|([sigs x] & [sigs' x'] & -> & -> & Q1 & Q2)]; [reflexivity|]. cbn in Q1, Q2. subst sigs'.
    destruct sigs; [reflexivity|]. destruct (E2 x x' Q2) as [-> _]. destruct (ic_canonicalize _ x') as [msg|e]; [|reflexivity].
    rewrite (goods_same _ _ _ _ S). destruct (_ <? t)%N; [reflexivity|apply E3].
  Qed.

  (** ** The methods of [Tuf] *)
  Lemma set_refl {A} (l : list A) : same_set l l.
  Proof. intros x. reflexivity. Qed.
  Lemma signers_of m m' (d : root_metadata -> role_def) : same_root m m' -> d m = d m' ->
    same_signers (select_keys (rm_keys m) (rd_key_ids (d m))) (select_keys (rm_keys m') (rd_key_ids (d m'))).
  Proof. intros S <-. apply select_same; [apply S|apply set_refl]. Qed.
  Lemma fresh_tuf m m' : same_root m m' -> same_tuf (tuf_of_root m) (tuf_of_root m').
  Proof. intros S. repeat split; try exact I; try apply S; try constructor. Qed.

  Lemma from_keys_same raw th keys : res_rel same_tuf (from_root_with_trusted_keys E raw th keys) (from_root_with_trusted_keys E' raw th keys).
  Proof.
    unfold from_root_with_trusted_keys, rbind. pose proof (verify_same Root raw th keys keys (fun i => eq_refl)) as V.
    apply res_cases in V as [(e & -> & ->)|(n & n' & -> & -> & S)]; [reflexivity|]. cbn [same_metadata] in S.
    assert (Q : rm_root n = rm_root n') by apply S.
    pose proof (verify_same Root raw (rd_threshold (rm_root n)) _ _ (signers_of n n' rm_root S Q)) as V. rewrite <- Q in *.
    apply res_cases in V as [(e & -> & ->)|(n2 & n2' & -> & -> & S2)]; [reflexivity|]. now apply fresh_tuf.
  Qed.
  Lemma from_root_same raw : res_rel same_tuf (from_trusted_root E raw) (from_trusted_root E' raw).
  Proof.
    unfold from_trusted_root, rbind. destruct SE as (_ & R & E1 & E2 & E3). specialize (E1 raw).
    apply res_cases in E1 as [(e & -> & ->)|([sigs x] & [sigs' x'] & -> & -> & Q1 & Q2)]; [reflexivity|]. cbn in Q2.
    destruct (E2 x x' Q2) as [_ D]. specialize (D Root).
    apply res_cases in D as [(e & -> & ->)|(n & n' & -> & -> & S)]; [reflexivity|]. cbn [same_metadata] in S.
    assert (Q : rm_root n = rm_root n') by apply S.
    pose proof (verify_same Root raw (rd_threshold (rm_root n)) _ _ (signers_of n n' rm_root S Q)) as V. unfold root_keys. rewrite <- Q in *.
    apply res_cases in V as [(e & -> & ->)|(n2 & n2' & -> & -> & S2)]; [reflexivity|]. now apply fresh_tuf.
  Qed.

  Lemma update_root_same t t' raw : same_tuf t t' -> same_outcome eq (update_root E t raw) (update_root E' t' raw).
  Proof.
    intros T. pose proof T as (S & _). unfold update_root, rbind.
    assert (Q : rm_root (t_root t) = rm_root (t_root t')) by apply S. assert (Qv : rm_version (t_root t) = rm_version (t_root t')) by apply S.
    pose proof (verify_same Root raw (rd_threshold (rm_root (t_root t))) _ _ (signers_of _ _ rm_root S Q)) as V. unfold root_keys at 1 3. rewrite <- Q in *.
    apply res_cases in V as [(e & -> & ->)|(n & n' & -> & -> & S1)]; [split; [exact T|reflexivity]|]. cbn [same_metadata] in S1.
    assert (Q1 : rm_root n = rm_root n') by apply S1.
    pose proof (verify_same Root raw (rd_threshold (rm_root n)) _ _ (signers_of n n' rm_root S1 Q1)) as V. unfold root_keys. rewrite <- Q1 in *.
    apply res_cases in V as [(e & -> & ->)|(n2 & n2' & -> & -> & S2)]; [split; [exact T|reflexivity]|]. cbn [same_metadata] in S2.
    rewrite <- Qv. assert (Q2 : rm_version n2 = rm_version n2') by apply S2. rewrite <- Q2.
    destruct (_ <=? _)%N; [split; [exact T|reflexivity]|]. destruct (negb _); [split; [exact T|reflexivity]|].
    split; [|reflexivity]. exact (fresh_tuf _ _ S2).
  Qed.

  Lemma snapshot_version_same t t' : same_tuf t t' -> trusted_snapshot_version t = trusted_snapshot_version t'.
  Proof. intros (_ & S & _). unfold trusted_snapshot_version. apply opt_cases in S as [[-> ->]|(a & b & -> & -> & S)]; [reflexivity|apply S]. Qed.
  Lemma timestamp_version_same t t' : same_tuf t t' -> trusted_timestamp_version t = trusted_timestamp_version t'.
  Proof. intros (_ & _ & _ & S & _). unfold trusted_timestamp_version. apply opt_cases in S as [[-> ->]|(a & b & -> & -> & S)]; [reflexivity|apply S]. Qed.
  Lemma targets_version_same t t' : same_tuf t t' -> trusted_targets_version t = trusted_targets_version t'.
  Proof. intros (_ & _ & S & _). unfold trusted_targets_version. apply opt_cases in S as [[-> ->]|(a & b & -> & -> & S)]; [reflexivity|apply S]. Qed.
  Lemma delegation_version_same t t' r : same_tuf t t' -> trusted_delegation_version t r = trusted_delegation_version t' r.
  Proof.
    intros (_ & _ & _ & _ & S). unfold trusted_delegation_version.
    destruct (map_lookup _ _ _ r S) as [[-> ->]|(a & b & -> & -> & Q)]; [reflexivity|apply Q].
  Qed.
  Lemma root_unexpired_same c t t' : same_tuf t t' -> res_rel same_root (trusted_root_unexpired c t) (trusted_root_unexpired c t').
  Proof. intros (S & _). unfold trusted_root_unexpired. assert (Q : rm_expires (t_root t) = rm_expires (t_root t')) by apply S. rewrite <- Q. destruct (expired _ _); [reflexivity|exact S]. Qed.
  Lemma snapshot_unexpired_same c t t' : same_tuf t t' -> res_rel same_snapshot (trusted_snapshot_unexpired c t) (trusted_snapshot_unexpired c t').
  Proof.
    intros (_ & S & _). unfold trusted_snapshot_unexpired. apply opt_cases in S as [[-> ->]|(a & b & -> & -> & S)]; [reflexivity|].
    assert (Q : sm_expires a = sm_expires b) by apply S. rewrite <- Q. destruct (expired _ _); [reflexivity|exact S].
  Qed.
  Lemma targets_unexpired_same c t t' : same_tuf t t' -> res_rel same_targets (trusted_targets_unexpired c t) (trusted_targets_unexpired c t').
  Proof.
    intros (_ & _ & S & _). unfold trusted_targets_unexpired. apply opt_cases in S as [[-> ->]|(a & b & -> & -> & S)]; [reflexivity|].
    assert (Q : tg_expires a = tg_expires b) by apply S. rewrite <- Q. destruct (expired _ _); [reflexivity|exact S].
  Qed.
  Lemma timestamp_unexpired_same c t t' : same_tuf t t' -> res_rel same_timestamp (trusted_timestamp_unexpired c t) (trusted_timestamp_unexpired c t').
  Proof.
    intros (_ & _ & _ & S & _). unfold trusted_timestamp_unexpired. apply opt_cases in S as [[-> ->]|(a & b & -> & -> & S)]; [reflexivity|].
    assert (Q : tm_expires a = tm_expires b) by apply S. rewrite <- Q. destruct (expired _ _); [reflexivity|exact S].
  Qed.

  Lemma set_snapshot_same t t' s s' : same_tuf t t' -> opt_rel same_snapshot s s' -> same_tuf (set_snapshot s t) (set_snapshot s' t').
  Proof. intros (A & B & C & D & F) S. repeat (split; [assumption|]). assumption. Qed.
  Lemma set_targets_same t t' s s' : same_tuf t t' -> opt_rel same_targets s s' -> same_tuf (set_targets s t) (set_targets s' t').
  Proof. intros (A & B & C & D & F) S. repeat (split; [assumption|]). assumption. Qed.
  Lemma set_timestamp_same t t' s s' : same_tuf t t' -> opt_rel same_timestamp s s' -> same_tuf (set_timestamp s t) (set_timestamp s' t').
  Proof. intros (A & B & C & D & F) S. repeat (split; [assumption|]). assumption. Qed.
  Lemma set_delegations_same t t' s s' : same_tuf t t' -> same_map same_targets s s' -> same_tuf (set_delegations s t) (set_delegations s' t').
  Proof. intros (A & B & C & D & F) S. repeat (split; [assumption|]). assumption. Qed.

  Lemma update_timestamp_same c t t' raw : same_tuf t t' ->
    same_outcome (opt_rel same_timestamp) (update_timestamp E t c raw) (update_timestamp E' t' c raw).
  Proof.
    intros T. pose proof T as (S & _). unfold update_timestamp.
    assert (Q : rm_timestamp (t_root t) = rm_timestamp (t_root t')) by apply S.
    pose proof (verify_same Timestamp raw (rd_threshold (rm_timestamp (t_root t))) _ _ (signers_of _ _ rm_timestamp S Q)) as V. unfold timestamp_keys. rewrite <- Q in *.
    apply res_cases in V as [(e & -> & ->)|(n & n' & -> & -> & S1)]; [split; [exact T|reflexivity]|]. cbn [same_metadata] in S1.
    pose proof S1 as (Qv & Qe & Qs & _). rewrite <- Qv, <- Qe, <- Qs, <- (timestamp_version_same _ _ T), <- (snapshot_version_same _ _ T).
    destruct (_ ?= _)%N; [split; [exact T|exact I]|split; [exact T|reflexivity]|].
    assert (T1 : same_tuf (if negb (trusted_snapshot_version t =? md_version (tm_snapshot n))%N then set_snapshot None t else t)
                          (if negb (trusted_snapshot_version t =? md_version (tm_snapshot n))%N then set_snapshot None t' else t')).
    { destruct (negb _); [|exact T]. apply set_snapshot_same; [exact T|exact I]. }
    destruct (expired _ _); [split; [exact T1|reflexivity]|]. split; [|exact S1]. apply set_timestamp_same; [exact T1|exact S1].
  Qed.

  (** Removing some keys leaves what has none of them. *)
  Lemma removes {V} (ks : list string) : forall (m : list (string * V)) k,
    lookup k (fold_left (fun m r => remove r m) ks m) = if mem k ks then None else lookup k m.
  Proof.
    induction ks as [|r ks IH]; intros m k; cbn [fold_left mem]; [reflexivity|]. rewrite IH, lookup_remove.
    destruct (mem k ks); [now rewrite orb_true_r|]. now rewrite orb_false_r.
  Qed.
  Lemma removes_nodup {V} (ks : list string) : forall (m : list (string * V)), NoDup (map fst m) ->
    NoDup (map fst (fold_left (fun m r => remove r m) ks m)).
  Proof. induction ks as [|r ks IH]; intros m N; cbn [fold_left]; [exact N|]. apply IH. now apply nodup_remove. Qed.
  Lemma map_removes {V} (R : V -> V -> Prop) ks ks' (m m' : list (string * V)) : same_map R m m' -> same_set ks ks' ->
    same_map R (fold_left (fun m r => remove r m) ks m) (fold_left (fun m r => remove r m) ks' m').
  Proof.
    intros (N & N' & L) S. split; [now apply removes_nodup|]. split; [now apply removes_nodup|]. intros k. rewrite !removes, (mem_same _ _ _ S).
    destruct (mem k ks'); [exact I|apply L].
  Qed.
  Lemma purge_same t t' : same_tuf t t' -> same_tuf (purge_delegations t) (purge_delegations t').
  Proof.
    intros T. pose proof T as (_ & S & _ & _ & D). unfold purge_delegations.
    apply opt_cases in S as [[-> ->]|(s & s' & -> & -> & _ & _ & M)]; [exact T|]. apply set_delegations_same; [exact T|].
    apply map_removes; [exact D|]. intros r.
    assert (G : forall (a b : list (string * meta_desc)) (da db : list (string * targets_metadata)), same_map same_desc a b -> same_map same_targets da db ->
      In r (flat_map (fun '(r, def) => match lookup r da with Some d => if (md_version def <? tg_version d)%N then [r] else [] | None => [] end) a) ->
      In r (flat_map (fun '(r, def) => match lookup r db with Some d => if (md_version def <? tg_version d)%N then [r] else [] | None => [] end) b)).
    { intros a b da db Ma Md. rewrite !in_flat_map. intros ([k def] & Ik & X).
      destruct (lookup k da) as [d|] eqn:L; [|destruct X]. destruct (_ <? _)%N eqn:C; [|destruct X]. destruct X as [<-|[]].
      apply In_lookup in Ik; [|apply Ma]. destruct (map_lookup _ _ _ k Ma) as [[X _]|(v & v' & X & Y & Qd & _)]; [congruence|].
      rewrite Ik in X. injection X as <-. exists (k, v'). split; [now apply lookup_In|].
      destruct (map_lookup _ _ _ k Md) as [[X _]|(u & u' & X & Y' & Qt & _)]; [congruence|]. rewrite L in X. injection X as <-.
      rewrite Y', <- Qd, <- Qt, C. now left. }
    assert (Sym : forall V (R : V -> V -> Prop) (R' : V -> V -> Prop), (forall x y, R x y -> R' y x) -> forall a b : list (string * V), same_map R a b -> same_map R' b a).
    { intros V R R' H a b (N1 & N2 & L). split; [exact N2|]. split; [exact N1|]. intros k. specialize (L k).
      destruct (lookup k a), (lookup k b); cbn in *; auto. }
    split; [now apply G|].
    assert (G' : forall (a b : list (string * meta_desc)) (da db : list (string * targets_metadata)),
      same_map (fun x y => md_version x = md_version y) a b -> same_map (fun x y => tg_version x = tg_version y) da db ->
      In r (flat_map (fun '(r, def) => match lookup r da with Some d => if (md_version def <? tg_version d)%N then [r] else [] | None => [] end) a) ->
      In r (flat_map (fun '(r, def) => match lookup r db with Some d => if (md_version def <? tg_version d)%N then [r] else [] | None => [] end) b)).
    { intros a b da db Ma Md. rewrite !in_flat_map. intros ([k def] & Ik & X).
      destruct (lookup k da) as [d|] eqn:L; [|destruct X]. destruct (_ <? _)%N eqn:C; [|destruct X]. destruct X as [<-|[]].
      apply In_lookup in Ik; [|apply Ma]. destruct (map_lookup _ _ _ k Ma) as [[X _]|(v & v' & X & Y & Qd)]; [congruence|].
      rewrite Ik in X. injection X as <-. exists (k, v'). split; [now apply lookup_In|].
      destruct (map_lookup _ _ _ k Md) as [[X _]|(u & u' & X & Y' & Qt)]; [congruence|]. rewrite L in X. injection X as <-.
      rewrite Y', <- Qd, <- Qt, C. now left. }
    apply G'.
    - apply (Sym _ same_desc); [|exact M]. intros x y Q. symmetry. apply Q.
    - apply (Sym _ same_targets); [|exact D]. intros x y Q. symmetry. apply Q.
  Qed.

  Lemma update_snapshot_same c t t' raw : same_tuf t t' -> same_outcome eq (update_snapshot E t c raw) (update_snapshot E' t' c raw).
  Proof.
    intros T. unfold update_snapshot, rbind.
    destruct (res_cases _ _ _ (root_unexpired_same c _ _ T)) as [(e & -> & ->)|(root & root' & -> & -> & S)]; [split; [exact T|reflexivity]|].
    destruct (res_cases _ _ _ (timestamp_unexpired_same c _ _ T)) as [(e & -> & ->)|(ts & ts' & -> & -> & St)]; [split; [exact T|reflexivity]|].
    destruct St as (_ & _ & Qd & _). rewrite <- Qd, <- (snapshot_version_same _ _ T).
    destruct (_ ?= _)%N; [split; [exact T|reflexivity]|split; [exact T|reflexivity]|].
    assert (Q : rm_snapshot root = rm_snapshot root') by apply S.
    pose proof (verify_same Snapshot raw (rd_threshold (rm_snapshot root)) _ _ (signers_of _ _ rm_snapshot S Q)) as V. unfold snapshot_keys. rewrite <- Q in *.
    apply res_cases in V as [(e & -> & ->)|(n & n' & -> & -> & S1)]; [split; [exact T|reflexivity]|]. cbn [same_metadata] in S1.
    pose proof S1 as (Qv & _ & M). rewrite <- Qv. destruct (negb _); [split; [exact T|reflexivity]|].
    destruct (_ <? _)%N; [split; [exact T|reflexivity]|]. split; [|reflexivity]. cbn [fst]. apply purge_same.
    assert (L : match lookup (from_role Targets) (sm_meta n) with Some m => md_version m | None => 0%N end =
                match lookup (from_role Targets) (sm_meta n') with Some m => md_version m | None => 0%N end).
    { destruct (map_lookup _ _ _ (from_role Targets) M) as [[-> ->]|(v & v' & -> & -> & Q2)]; [reflexivity|apply Q2]. }
    rewrite <- L, <- (targets_version_same _ _ T). apply set_snapshot_same; [|exact S1].
    destruct (negb _); [|exact T]. apply set_targets_same; [exact T|exact I].
  Qed.
  Lemma update_targets_same c t t' raw : same_tuf t t' -> same_outcome eq (update_targets E t c raw) (update_targets E' t' c raw).
  Proof.
    intros T. unfold update_targets, rbind.
    destruct (res_cases _ _ _ (root_unexpired_same c _ _ T)) as [(e & -> & ->)|(root & root' & -> & -> & S)]; [split; [exact T|reflexivity]|].
    destruct (res_cases _ _ _ (snapshot_unexpired_same c _ _ T)) as [(e & -> & ->)|(sn & sn' & -> & -> & (_ & _ & M))]; [split; [exact T|reflexivity]|].
    destruct (map_lookup _ _ _ (from_role Targets) M) as [[-> ->]|(d & d' & -> & -> & (Qd & _))]; [split; [exact T|reflexivity]|].
    rewrite <- Qd, <- (targets_version_same _ _ T).
    destruct (_ ?= _)%N; [split; [exact T|reflexivity]|split; [exact T|reflexivity]|].
    assert (Q : rm_targets root = rm_targets root') by apply S.
    pose proof (verify_same Targets raw (rd_threshold (rm_targets root)) _ _ (signers_of _ _ rm_targets S Q)) as V. unfold targets_keys. rewrite <- Q in *.
    apply res_cases in V as [(e & -> & ->)|(n & n' & -> & -> & S1)]; [split; [exact T|reflexivity]|]. cbn [same_metadata] in S1.
    pose proof S1 as (Qv & Qe & _). rewrite <- Qv, <- Qe. destruct (negb _); [split; [exact T|reflexivity]|].
    destruct (expired _ _); [split; [exact T|reflexivity]|]. split; [|reflexivity]. apply set_targets_same; [exact T|exact S1].
  Qed.

  Lemma find_role_same ds ds' r : same_delegations ds ds' -> opt_rel same_delegation (find_role ds r) (find_role ds' r).
  Proof.
    intros [_ F]. unfold find_role. induction F as [|d d' l l' S _ IH]; [exact I|]. cbn [find]. pose proof S as (Q & _). rewrite <- Q.
    destruct (String.eqb _ r); [exact S|exact IH].
  Qed.
  Lemma find_keys_same t t' parent r : same_tuf t t' ->
    opt_rel (fun x x' => fst x = fst x' /\ same_signers (snd x) (snd x'))
      (find_delegation_threshold_and_keys t parent r) (find_delegation_threshold_and_keys t' parent r).
  Proof.
    intros (_ & _ & St & _ & D). unfold find_delegation_threshold_and_keys.
    assert (P : opt_rel same_targets (if String.eqb parent (from_role Targets) then t_targets t else lookup parent (t_delegations t))
                                     (if String.eqb parent (from_role Targets) then t_targets t' else lookup parent (t_delegations t'))).
    { destruct (String.eqb _ _); [exact St|apply D]. }
    apply opt_cases in P as [[-> ->]|(p & p' & -> & -> & (_ & _ & _ & Sd))]; [exact I|].
    apply opt_cases in Sd as [[-> ->]|(ds & ds' & -> & -> & Sd)]; [exact I|].
    destruct (opt_cases _ _ _ (find_role_same ds ds' r Sd)) as [[-> ->]|(d & d' & -> & -> & (_ & _ & Qt & Qi & _))]; [exact I|].
    split; [exact Qt|]. apply select_same; [apply Sd|exact Qi].
  Qed.
  Lemma update_delegation_same c t t' p r raw : same_tuf t t' ->
    same_outcome eq (update_delegation E t c p r raw) (update_delegation E' t' c p r raw).
  Proof.
    intros T. unfold update_delegation, rbind.
    destruct (res_cases _ _ _ (root_unexpired_same c _ _ T)) as [(e & -> & ->)|(root & root' & -> & -> & S)]; [split; [exact T|reflexivity]|].
    destruct (res_cases _ _ _ (snapshot_unexpired_same c _ _ T)) as [(e & -> & ->)|(sn & sn' & -> & -> & (_ & _ & M))]; [split; [exact T|reflexivity]|].
    destruct (res_cases _ _ _ (targets_unexpired_same c _ _ T)) as [(e & -> & ->)|(g & g' & -> & -> & (_ & _ & _ & Sd))]; [split; [exact T|reflexivity]|].
    apply opt_cases in Sd as [[-> ->]|(ds & ds' & -> & -> & _)]; [split; [exact T|reflexivity]|].
    destruct (map_lookup _ _ _ r M) as [[-> ->]|(d & d' & -> & -> & (Qd & _))]; [split; [exact T|reflexivity]|].
    rewrite <- Qd, <- (delegation_version_same _ _ r T). destruct (_ <? _)%N; [split; [exact T|reflexivity]|].
    destruct (opt_cases _ _ _ (find_keys_same t t' p r T)) as [[-> ->]|([th ks] & [th' ks'] & -> & -> & Qt & Sk)]; [split; [exact T|reflexivity]|].
    cbn in Qt, Sk. subst th'. pose proof (verify_same Targets raw th _ _ Sk) as V.
    apply res_cases in V as [(e & -> & ->)|(n & n' & -> & -> & S1)]; [split; [exact T|reflexivity]|]. cbn [same_metadata] in S1.
    pose proof S1 as (Qv & Qe & _). rewrite <- Qv, <- Qe. destruct (_ =? _)%N; [split; [exact T|reflexivity]|].
    destruct (negb _); [split; [exact T|reflexivity]|]. destruct (expired _ _); [split; [exact T|reflexivity]|].
    split; [|reflexivity]. apply set_delegations_same; [exact T|]. apply map_insert; [apply T|exact S1].
  Qed.
  Lemma step_same t t' o : same_tuf t t' -> same_outcome eq (step E t o) (step E' t' o).
  Proof.
    intros T. destruct o as [raw|c raw|c raw|c raw|c p r raw]; cbn [step].
    - destruct (update_root_same t t' raw T) as [A B]. destruct (update_root E t raw) as [x [[]|e]], (update_root E' t' raw) as [x' [[]|e']]; cbn in *; try contradiction;
        split; auto; cbn; congruence.
    - destruct (update_timestamp_same c t t' raw T) as [A B]. destruct (update_timestamp E t c raw) as [x [[]|e]], (update_timestamp E' t' c raw) as [x' [[]|e']]; cbn in *; try contradiction;
        split; auto; cbn; congruence.
    - now apply update_snapshot_same.
    - now apply update_targets_same.
    - now apply update_delegation_same.
  Qed.
End Env.

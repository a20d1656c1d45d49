(** * Proofs about repositories *)
From Coq Require Import String Ascii List Arith NArith Bool Lia.
From Verif Require Import Base BaseFacts Metadata Paths Reader SpecReader ReaderProofs Repo SpecRepo StringFacts SpecPaths PathProofs.
Import ListNotations.
Open Scope string_scope.
Open Scope list_scope.

(** ** In-memory repository *)

Lemma plain_cases rs : (exists b, read_plain rs "" = inl b /\ complete rs b) \/
  (exists k b, read_plain rs "" = inr k /\ contains rs b (Some k) /\ broken rs).
Proof.
  pose proof (read_plain_contains rs "") as H. destruct (read_plain rs "") as [b|k] eqn:E.
  - left. exists b. split; auto. now apply read_plain_iff.
  - right. destruct H as (b' & H). exists k, b'. split; auto. split; auto. intros b2 H2.
    destruct (contains_fun _ _ _ H _ _ H2). discriminate.
Qed.

Lemma ephemeral_metadata_spec ops p v :
  match lookup (p, v) (ep_metadata (ephemeral_run ephemeral_new ops)) with
  | Some b => last_metadata ops p v b
  | None => no_metadata ops p v
  end.
Proof.
  induction ops as [|o ops IH] using rev_ind; [intros rs []|].
  unfold ephemeral_run in *. rewrite fold_left_app. cbn [fold_left].
  set (e := fold_left _ ops ephemeral_new) in *. clearbody e.
  assert (K : forall o', (forall rs, o' <> EpMetadata p v rs) \/ (exists rs, o' = EpMetadata p v rs /\ broken rs) ->
     match lookup (p, v) (ep_metadata e) with
     | Some b => last_metadata (ops ++ [o']) p v b | None => no_metadata (ops ++ [o']) p v end).
  { intros o' D. destruct (lookup (p, v) (ep_metadata e)) as [b|].
    - destruct IH as (pre & rs & post & -> & H1 & H2). exists pre, rs, (post ++ [o']). rewrite <- app_assoc.
      split; [reflexivity|]. split; auto. intros rs' I. apply in_app_or in I as [I|[->|[]]]; auto.
      destruct D as [D|(r' & E & B)]; [exfalso; now apply (D rs')|]. now inversion E; subst.
    - intros rs I. apply in_app_or in I as [I|[->|[]]]; auto.
      destruct D as [D|(r' & E & B)]; [exfalso; now apply (D rs)|]. now inversion E; subst. }
  destruct o as [p' v' rs|p' rs]; cbn [ephemeral_step].
  - unfold ephemeral_store_metadata. destruct (plain_cases rs) as [(b & -> & Cb)|(k & b & -> & _ & B)]; cbn [fst ep_metadata].
    + destruct (eqb_dec (p, v) (p', v')) as [E|N].
      * inversion E; subst. rewrite lookup_insert_eq. exists ops, rs, []. repeat split; auto. intros rs' [].
      * rewrite lookup_insert_neq by auto. apply K. left. intros rs' E. inversion E; subst. congruence.
    + apply K. destruct (eqb_dec (p, v) (p', v')) as [E|N].
      * inversion E; subst. right. eauto.
      * left. intros rs' E. inversion E; subst. congruence.
  - unfold ephemeral_store_target. destruct (read_plain rs ""); cbn [fst ep_metadata]; apply K; left; discriminate.
Qed.

Lemma ephemeral_target_spec ops p :
  match lookup p (ep_targets (ephemeral_run ephemeral_new ops)) with
  | Some b => last_target ops p b
  | None => no_target ops p
  end.
Proof.
  induction ops as [|o ops IH] using rev_ind; [intros rs []|].
  unfold ephemeral_run in *. rewrite fold_left_app. cbn [fold_left].
  set (e := fold_left _ ops ephemeral_new) in *. clearbody e.
  assert (K : forall o', (forall rs, o' <> EpTarget p rs) \/ (exists rs, o' = EpTarget p rs /\ broken rs) ->
     match lookup p (ep_targets e) with
     | Some b => last_target (ops ++ [o']) p b | None => no_target (ops ++ [o']) p end).
  { intros o' D. destruct (lookup p (ep_targets e)) as [b|].
    - destruct IH as (pre & rs & post & -> & H1 & H2). exists pre, rs, (post ++ [o']). rewrite <- app_assoc.
      split; [reflexivity|]. split; auto. intros rs' I. apply in_app_or in I as [I|[->|[]]]; auto.
      destruct D as [D|(r' & E & B)]; [exfalso; now apply (D rs')|]. now inversion E; subst.
    - intros rs I. apply in_app_or in I as [I|[->|[]]]; auto.
      destruct D as [D|(r' & E & B)]; [exfalso; now apply (D rs)|]. now inversion E; subst. }
  destruct o as [p' v' rs|p' rs]; cbn [ephemeral_step].
  - unfold ephemeral_store_metadata. destruct (read_plain rs ""); cbn [fst ep_targets]; apply K; left; discriminate.
  - unfold ephemeral_store_target. destruct (plain_cases rs) as [(b & -> & Cb)|(k & b & -> & _ & B)]; cbn [fst ep_targets].
    + destruct (eqb_dec p p') as [E|N].
      * subst. rewrite lookup_insert_eq. exists ops, rs, []. repeat split; auto. intros rs' [].
      * rewrite lookup_insert_neq by auto. apply K. left. intros rs' E. inversion E; subst. congruence.
    + apply K. destruct (eqb_dec p p') as [E|N].
      * subst. right. eauto.
      * left. intros rs' E. inversion E; subst. congruence.
Qed.

(** ** File system *)

(** Progress of one store. *)
Definition job_ok (f : fs) (job : file_name * stream) (d : file_name * store_state) : Prop :=
  fst d = fst job /\
  match snd d with
  | StStart input => input = snd job
  | StCopying tmp i rest =>
      (exists n, temp_name n /\ tmp = n :: tl (fst job)) /\ lookup tmp (fs_names f) = Some i /\
      exists w, lookup i (fs_inodes f) = Some w /\ forall b e, contains rest b e -> contains (snd job) (w ++ b)%string e
  | StPersist tmp i =>
      (exists n, temp_name n /\ tmp = n :: tl (fst job)) /\ lookup tmp (fs_names f) = Some i /\
      exists b, lookup i (fs_inodes f) = Some b /\ complete (snd job) b
  | StDone => exists b, complete (snd job) b
  | StFailed => True
  end.

(** The temporary files in use. *)
Definition active1 (d : file_name * store_state) : list file_name :=
  match snd d with StCopying tmp _ _ | StPersist tmp _ => [tmp] | _ => [] end.
Definition active (sts : list (file_name * store_state)) : list file_name := flat_map active1 sts.

Record inv (f0 : fs) (jobs : list (file_name * stream)) (f : fs) (sts : list (file_name * store_state)) : Prop := {
  inv_jobs : Forall2 (job_ok f) jobs sts;
  inv_wf : fs_wf f;
  inv_nodup : NoDup (active sts);
  inv_private : forall tmp i n, In tmp (active sts) -> lookup tmp (fs_names f) = Some i ->
                  lookup n (fs_names f) = Some i -> n = tmp;
  inv_new : forall tmp, In tmp (active sts) -> lookup tmp (fs_names f0) = None;
  inv_fresh : forall tmp i, In tmp (active sts) -> lookup tmp (fs_names f) = Some i -> lookup i (fs_inodes f0) = None;
  inv_temp : forall n d, temp_name n -> ~ In (n :: d) (active sts) -> lookup (n :: d) (fs_names f) = lookup (n :: d) (fs_names f0);
  inv_old_inodes : forall i b, lookup i (fs_inodes f0) = Some b -> lookup i (fs_inodes f) = Some b;
  inv_untouched : forall p, ordinary p -> (forall st, In (p, st) sts -> st <> StDone) ->
                  lookup p (fs_names f) = lookup p (fs_names f0);
  inv_done : forall p, ordinary p -> In (p, StDone) sts ->
     exists k input b, nth_error jobs k = Some (p, input) /\ nth_error sts k = Some (p, StDone) /\
       complete input b /\ fs_content f p = Some b
}.

Lemma active_app a b : active (a ++ b) = active a ++ active b.
Proof. apply flat_map_app. Qed.

Lemma active_cons d b : active (d :: b) = active1 d ++ active b.
Proof. reflexivity. Qed.

Lemma active_temp f jobs sts tmp : Forall2 (job_ok f) jobs sts -> In tmp (active sts) ->
  (exists n d, temp_name n /\ tmp = n :: d) /\ exists i, lookup tmp (fs_names f) = Some i.
Proof.
  intros F I. apply in_flat_map in I as (d & I & J).
  assert (exists job, job_ok f job d) as (job & O).
  { induction F; [contradiction|]. destruct I as [->|I]; eauto. }
  destruct O as (_ & O). unfold active1 in J. destruct (snd d) as [inp|t i rest|t i| |]; try contradiction.
  - destruct J as [<-|[]]. destruct O as ((n & T & ->) & L & _). split; eauto.
  - destruct J as [<-|[]]. destruct O as ((n & T & ->) & L & _). split; eauto.
Qed.

Lemma not_ordinary n d : temp_name n -> ~ ordinary (n :: d).
Proof. intros T O. now apply (O n d). Qed.

(** Keeping what is said about the other stores. *)
Lemma job_ok_frame f f' job d : job_ok f job d ->
  (forall tmp, In tmp (active1 d) -> lookup tmp (fs_names f') = lookup tmp (fs_names f)) ->
  (forall tmp i, In tmp (active1 d) -> lookup tmp (fs_names f) = Some i ->
     lookup i (fs_inodes f') = lookup i (fs_inodes f)) ->
  job_ok f' job d.
Proof.
  destruct d as [dest st]. intros (E & H) N I. split; auto. unfold active1 in *. cbn [snd] in *.
  destruct st as [inp|t i rest|t i| |]; auto.
  - destruct H as (T & L & w & W & H). split; auto. rewrite N by (now left). split; auto.
    exists w. split; auto. rewrite (I t i); auto. now left.
  - destruct H as (T & L & w & W & H). split; auto. rewrite N by (now left). split; auto.
    exists w. split; auto. rewrite (I t i); auto. now left.
Qed.

Lemma Forall2_split {A B} (R : A -> B -> Prop) l b x a : Forall2 R l (b ++ x :: a) ->
  exists lb y la, l = lb ++ y :: la /\ Forall2 R lb b /\ R y x /\ Forall2 R la a.
Proof.
  intros H. apply Forall2_app_inv_r in H as (lb & l' & H1 & H2 & ->).
  inversion H2; subst. eauto 10.
Qed.

Lemma Forall2_impl_r {A B} (R R' : A -> B -> Prop) l m :
  (forall x y, In y m -> R x y -> R' x y) -> Forall2 R l m -> Forall2 R' l m.
Proof.
  intros H F. induction F; constructor.
  - apply H; auto. now left.
  - apply IHF. intros. apply H; auto. now right.
Qed.

Lemma Forall2_len {A B} (R : A -> B -> Prop) l m : Forall2 R l m -> length l = length m.
Proof. induction 1; cbn; congruence. Qed.

(** A rule for one step: only store [k] changes. *)
Section Step.
  Variables (f0 : fs) (jobs : list (file_name * stream)) (dest : file_name).
  Variables (before after : list (file_name * store_state)).

  Let with_st (st : store_state) := before ++ (dest, st) :: after.

  Lemma in_active_other st tmp : In tmp (active before ++ active after) -> In tmp (active (with_st st)).
  Proof.
    unfold with_st. rewrite active_app, active_cons. intros I. apply in_app_or in I as [I|I]; apply in_or_app; auto.
    right. apply in_or_app. auto.
  Qed.

  Lemma step_untouched (f f' : fs) st st' p :
    st' <> StDone -> st <> StDone ->
    (In (p, StDone) (with_st st) <-> In (p, StDone) (with_st st')).
  Proof.
    intros N N'. unfold with_st. rewrite !in_app_iff. cbn [In].
    split; (intros [I|[I|I]]; [now left| |now right; right]); inversion I; subst; congruence.
  Qed.
End Step.

Lemma nth_error_split_at {A} (b : list A) x y a k :
  k <> length b -> nth_error (b ++ x :: a) k = nth_error (b ++ y :: a) k.
Proof.
  intros N. destruct (Nat.lt_ge_cases k (length b)).
  - now rewrite !nth_error_app1.
  - rewrite !nth_error_app2 by auto. destruct (k - length b)%nat eqn:E; [lia|]. reflexivity.
Qed.

Lemma nth_error_mid {A} (b : list A) x a : nth_error (b ++ x :: a) (length b) = Some x.
Proof. rewrite nth_error_app2, Nat.sub_diag by auto. reflexivity. Qed.

(** Steps of a store that do not finish it: names may only change for its temporary
    file, contents only for its inode. *)
Lemma inv_quiet f0 jobs f f' dest before after st st' :
  inv f0 jobs f (before ++ (dest, st) :: after) ->
  st <> StDone -> st' <> StDone ->
  (* this store *)
  (forall job, job_ok f job (dest, st) -> job_ok f' job (dest, st')) ->
  fs_wf f' ->
  NoDup (active (before ++ (dest, st') :: after)) ->
  (forall tmp, In tmp (active1 (dest, st')) -> lookup tmp (fs_names f0) = None /\ exists n d, temp_name n /\ tmp = n :: d) ->
  (forall tmp i, In tmp (active1 (dest, st')) -> lookup tmp (fs_names f') = Some i -> lookup i (fs_inodes f0) = None) ->
  (* names *)
  (forall n, (~ In n (active1 (dest, st')) -> ~ In n (active1 (dest, st)) -> lookup n (fs_names f') = lookup n (fs_names f)) /\
             (~ In n (active1 (dest, st')) -> In n (active1 (dest, st)) -> lookup n (fs_names f') = None)) ->
  (forall tmp i, In tmp (active1 (dest, st')) -> lookup tmp (fs_names f') = Some i ->
     forall n, lookup n (fs_names f') = Some i -> n = tmp) ->
  (* contents *)
  (forall i b, lookup i (fs_inodes f) = Some b ->
     (forall tmp, In tmp (active1 (dest, st)) -> lookup tmp (fs_names f) <> Some i) ->
     lookup i (fs_inodes f') = Some b) ->
  inv f0 jobs f' (before ++ (dest, st') :: after).
Proof.
  intros I N N' Hjob Hwf Hnd Hnew Hfresh Hnames Hpriv Hcont.
  assert (Act : forall tmp, In tmp (active before ++ active after) ->
            ~ In tmp (active1 (dest, st')) /\ ~ In tmp (active1 (dest, st)) /\
            In tmp (active (before ++ (dest, st) :: after))).
  { intros tmp J. rewrite active_app, active_cons in Hnd.
    pose proof (inv_nodup _ _ _ _ I) as Hnd0. rewrite active_app, active_cons in Hnd0.
    assert (forall l, NoDup (active before ++ l ++ active after) -> ~ In tmp l) as K.
    { intros l ND J'. apply in_split in J' as (l1 & l2 & ->).
      replace (active before ++ (l1 ++ tmp :: l2) ++ active after)
        with ((active before ++ l1) ++ tmp :: l2 ++ active after) in ND by (now rewrite <- !app_assoc).
      apply List.NoDup_remove_2 in ND. apply ND. apply in_app_or in J as [J|J];
        apply in_or_app; [left; apply in_or_app; auto|right; apply in_or_app; auto]. }
    split; [now apply K|]. split; [now apply K|]. now apply in_active_other. }
  assert (Same : forall tmp, In tmp (active before ++ active after) -> lookup tmp (fs_names f') = lookup tmp (fs_names f)).
  { intros tmp J. apply Act in J as (J1 & J2 & _). now apply Hnames. }
  assert (In_st : forall tmp, In tmp (active1 (dest, st)) -> In tmp (active (before ++ (dest, st) :: after))).
  { intros tmp J. rewrite active_app, active_cons. apply in_or_app. right. apply in_or_app. now left. }
  assert (Keep : forall tmp i, In tmp (active before ++ active after) -> lookup tmp (fs_names f) = Some i ->
            lookup i (fs_inodes f') = lookup i (fs_inodes f)).
  { intros tmp i J L. destruct (inv_wf _ _ _ _ I _ _ L) as (b & B). rewrite B. apply Hcont; auto.
    intros tmp' J' L'. apply Act in J as (_ & J2 & J3).
    assert (tmp = tmp'). { eapply (inv_private _ _ _ _ I); eauto. } congruence. }
  destruct (Forall2_split _ _ _ _ _ (inv_jobs _ _ _ _ I)) as (jb & job & ja & -> & F1 & Fj & F2).
  assert (Fr : forall l m, Forall2 (job_ok f) l m -> (forall tmp, In tmp (active m) -> In tmp (active before ++ active after)) ->
            Forall2 (job_ok f') l m).
  { intros l m F Sub. apply Forall2_impl_r with (R := job_ok f); auto.
    intros x y Iy O. apply (job_ok_frame f); auto.
    - intros tmp J. apply Same, Sub. apply in_flat_map. eauto.
    - intros tmp i J. apply Keep, Sub. apply in_flat_map. eauto. }
  constructor.
  - apply Forall2_app; [|constructor]; auto.
    + apply Fr; auto. intros. apply in_or_app. auto.
    + apply Fr; auto. intros. apply in_or_app. auto.
  - auto.
  - auto.
  - intros tmp i n J L L'. rewrite active_app, active_cons in J.
    assert (In tmp (active1 (dest, st')) \/ In tmp (active before ++ active after)) as [J'|J'].
    { apply in_app_or in J as [J|J]; [right; apply in_or_app; auto|].
      apply in_app_or in J as [J|J]; auto. right. apply in_or_app; auto. }
    + eapply Hpriv; eauto.
    + destruct (Act tmp J') as (A1 & A2 & A3). rewrite (Same tmp J') in L.
      destruct (in_dec (list_eq_dec string_dec) n (active1 (dest, st'))) as [In'|Out'].
      * (* then tmp would be n *) exfalso. apply A1. rewrite <- (Same tmp J') in L.
        replace tmp with n; auto. symmetry. eapply Hpriv; eauto.
      * destruct (in_dec (list_eq_dec string_dec) n (active1 (dest, st))) as [In0|Out0].
        { destruct (Hnames n) as [_ H]. rewrite H in L' by auto. discriminate. }
        destruct (Hnames n) as [H _]. rewrite H in L' by auto. eapply (inv_private _ _ _ _ I); eauto.
  - intros tmp J. rewrite active_app, active_cons in J.
    apply in_app_or in J as [J|J]; [|apply in_app_or in J as [J|J]].
    + apply (inv_new _ _ _ _ I), in_active_other, in_or_app. auto.
    + now apply Hnew.
    + apply (inv_new _ _ _ _ I), in_active_other, in_or_app. auto.
  - intros tmp i J L. rewrite active_app, active_cons in J.
    apply in_app_or in J as [J|J]; [|apply in_app_or in J as [J|J]].
    + rewrite Same in L by (apply in_or_app; auto). eapply (inv_fresh _ _ _ _ I); eauto.
      apply in_active_other, in_or_app. auto.
    + eapply Hfresh; eauto.
    + rewrite Same in L by (apply in_or_app; auto). eapply (inv_fresh _ _ _ _ I); eauto.
      apply in_active_other, in_or_app. auto.
  - intros n d T J. rewrite active_app, active_cons, !in_app_iff in J.
    assert (J1 : ~ In (n :: d) (active1 (dest, st'))) by tauto.
    destruct (in_dec (list_eq_dec string_dec) (n :: d) (active1 (dest, st))) as [In0|Out0].
    + destruct (Hnames (n :: d)) as [_ H]. rewrite H by auto. symmetry. apply (inv_new _ _ _ _ I). auto.
    + destruct (Hnames (n :: d)) as [H _]. rewrite H by auto. apply (inv_temp _ _ _ _ I); auto.
      rewrite active_app, active_cons, !in_app_iff. tauto.
  - intros i b L. apply Hcont; [now apply (inv_old_inodes _ _ _ _ I)|]. intros tmp J L'.
    apply In_st in J. rewrite (inv_fresh _ _ _ _ I _ _ J L') in L. discriminate.
  - intros p O H.
    assert (NI : ~ In p (active1 (dest, st')) /\ ~ In p (active1 (dest, st))).
    { split; intros J.
      - destruct (Hnew _ J) as (_ & n & d & T & ->). now apply not_ordinary in O.
      - apply In_st in J. destruct (active_temp _ _ _ _ (inv_jobs _ _ _ _ I) J) as ((n & d & T & ->) & _).
        now apply not_ordinary in O. }
    destruct (Hnames p) as [E _]. rewrite E by tauto. apply (inv_untouched _ _ _ _ I); auto.
    intros s J Es. subst s. apply (step_untouched dest before after f f' st st' p) in J; auto. now apply (H _ J).
  - intros p O H.
    assert (NI : ~ In p (active1 (dest, st')) /\ ~ In p (active1 (dest, st))).
    { split; intros J.
      - destruct (Hnew _ J) as (_ & n & d & T & ->). now apply not_ordinary in O.
      - apply In_st in J. destruct (active_temp _ _ _ _ (inv_jobs _ _ _ _ I) J) as ((n & d & T & ->) & _).
        now apply not_ordinary in O. }
    apply (step_untouched dest before after f f' st st' p) in H; auto.
    destruct (inv_done _ _ _ _ I p O H) as (k & input & b & E1 & E2 & E3 & E4).
    exists k, input, b. split; auto. split.
    { rewrite <- E2. apply nth_error_split_at. intros ->. rewrite nth_error_mid in E2. inversion E2. congruence. }
    split; auto. unfold fs_content in *. destruct (Hnames p) as [E _]. rewrite E by tauto.
    destruct (lookup p (fs_names f)) as [i|] eqn:L; [|discriminate]. apply Hcont; auto.
    intros tmp J L'. apply In_st in J. assert (p = tmp) by (eapply (inv_private _ _ _ _ I); eauto). subst.
    destruct (active_temp _ _ _ _ (inv_jobs _ _ _ _ I) J) as ((n & d & T & ->) & _). now apply not_ordinary in O.
Qed.

Lemma contains_app_data w d b : (w ++ (d ++ b))%string = ((w ++ d) ++ b)%string.
Proof. now rewrite sapp_assoc. Qed.

(** The facts about the moving store. *)
Lemma inv_mover f0 jobs f dest st before after : inv f0 jobs f (before ++ (dest, st) :: after) ->
  exists job, In job jobs /\ job_ok f job (dest, st).
Proof.
  intros I. destruct (Forall2_split _ _ _ _ _ (inv_jobs _ _ _ _ I)) as (jb & job & ja & -> & F1 & Fj & F2).
  exists job. split; auto. apply in_or_app. right. now left.
Qed.

Lemma nodup_drop (a l c : list (list string)) : NoDup (a ++ l ++ c) -> NoDup (a ++ c).
Proof.
  intros H. revert H. induction l as [|x l IH]; cbn; auto. intros H. apply List.NoDup_remove_1 in H. auto.
Qed.

Lemma inv_fail f0 jobs f dest before after st tmp i : 
  inv f0 jobs f (before ++ (dest, st) :: after) ->
  active1 (dest, st) = [tmp] -> lookup tmp (fs_names f) = Some i -> st <> StDone ->
  inv f0 jobs (mkFs (remove tmp (fs_names f)) (fs_inodes f)) (before ++ (dest, StFailed) :: after).
Proof.
  intros I A L N. apply (inv_quiet f0 jobs f _ dest before after st StFailed); auto; cbn [fs_names fs_inodes]; try discriminate.
  - intros job (E & _). now split.
  - intros n j H. cbn [fs_names fs_inodes] in *. rewrite lookup_remove in H. destruct (eqb n tmp) eqn:Q; [discriminate|].
    now apply (inv_wf _ _ _ _ I n).
  - pose proof (inv_nodup _ _ _ _ I) as ND. rewrite active_app, active_cons in *. cbn [active1 snd app].
    now apply nodup_drop in ND.
  - intros t [].
  - intros t j [].
  - intros n. rewrite A. rewrite lookup_remove. destruct (eqb n tmp) eqn:Q.
    + apply eqb_eq in Q as ->. split; auto. intros _ H. exfalso. apply H. now left.
    + split; auto. intros _ [->|[]]. rewrite eqb_refl in Q. discriminate.
  - intros t j [].
Qed.

Lemma inv_step f0 jobs f f' dest before after st st' :
  inv f0 jobs f (before ++ (dest, st) :: after) -> ordinary dest ->
  store_step dest f st f' st' -> inv f0 jobs f' (before ++ (dest, st') :: after).
Proof.
  intros I Od Hs. destruct (inv_mover _ _ _ _ _ _ _ I) as (job & Ij & Fj). inversion Hs; subst.
  - (* create *)
    set (tmp := name :: tl dest) in *.
    assert (Na : ~ In tmp (active (before ++ (dest, StStart input) :: after))).
    { intros J. destruct (active_temp _ _ _ _ (inv_jobs _ _ _ _ I) J) as (_ & j & L). congruence. }
    assert (L0 : lookup tmp (fs_names f0) = None).
    { unfold tmp in *. rewrite <- (inv_temp _ _ _ _ I name (tl dest) H Na). exact H0. }
    apply (inv_quiet f0 jobs f _ dest before after (StStart input)); auto; cbn [fs_names fs_inodes]; try discriminate.
    + intros job' (E & E'). cbn [fst snd] in *. subst input. split; auto. cbn [snd fs_names fs_inodes].
      split; [exists name; rewrite <- E; auto|]. rewrite lookup_insert_eq. split; auto.
      exists "". rewrite lookup_insert_eq. split; auto.
    + intros n j H2. cbn [fs_names fs_inodes] in *. rewrite lookup_insert in H2. destruct (eqb n tmp).
      * inversion H2; subst. rewrite lookup_insert_eq. eauto.
      * rewrite lookup_insert. destruct (eqb j i); eauto. now apply (inv_wf _ _ _ _ I n).
    + rewrite active_app, active_cons in *. cbn [active1 snd app] in *. apply NoDup_Add with (a := tmp) (l := active before ++ active after).
      * apply Add_app.
      * split; auto. pose proof (inv_nodup _ _ _ _ I) as ND. rewrite active_app, active_cons in ND. exact ND.
    + intros t [<-|[]]. split; auto. exists name, (tl dest). auto.
    + intros t j [<-|[]]. rewrite lookup_insert_eq. intros E. inversion E; subst j.
      destruct (lookup i (fs_inodes f0)) as [b|] eqn:Q; auto. apply (inv_old_inodes _ _ _ _ I) in Q. congruence.
    + intros n. cbn [active1 snd]. split; [|intros _ []]. intros Hn _. rewrite lookup_insert_neq; auto.
      intros ->. apply Hn. now left.
    + intros t j [<-|[]]. rewrite lookup_insert_eq. intros E. inversion E; subst j. intros n Hn.
      rewrite lookup_insert in Hn. destruct (eqb n tmp) eqn:Q; [now apply eqb_eq in Q|].
      apply (inv_wf _ _ _ _ I) in Hn as (b & Hb). congruence.
    + intros j b L _. rewrite lookup_insert_neq; auto. intros ->. congruence.
  - (* wait *)
    destruct Fj as (_ & (n & T & Et) & L & w & W & Hc). cbn [fst snd] in *.
    apply (inv_quiet f0 jobs f' f' dest before after (StCopying tmp i (Pending :: rest))); auto; try discriminate.
    + intros job' (E & T' & L' & w' & W' & Hc'). cbn [fst snd] in *. split; auto. cbn [snd]. split; auto. split; auto.
      exists w'. split; auto. intros b e Hb. apply Hc'. now constructor.
    + apply (inv_wf _ _ _ _ I).
    + pose proof (inv_nodup _ _ _ _ I) as ND. rewrite active_app, active_cons in *. exact ND.
    + intros t [<-|[]]. split; [|subst; eauto]. apply (inv_new _ _ _ _ I). rewrite active_app, active_cons. apply in_or_app. right. now left.
    + intros t j [<-|[]] E. apply (inv_fresh _ _ _ _ I tmp); auto. rewrite active_app, active_cons. apply in_or_app. right. now left.
    + intros m. cbn [active1 snd]. split; auto. intros A B. contradiction.
    + intros t j [<-|[]] E m Em. eapply (inv_private _ _ _ _ I); eauto. rewrite active_app, active_cons. apply in_or_app. right. now left.
  - (* copy *)
    destruct Fj as (_ & (n & T & Et) & L & w & W & Hc). cbn [fst snd] in *. assert (w = old) by congruence. subst w.
    apply (inv_quiet f0 jobs f _ dest before after (StCopying tmp i (Ready d :: rest))); auto; cbn [fs_names fs_inodes]; try discriminate.
    + intros job' (E & T' & L' & w' & W' & Hc'). cbn [fst snd] in *. split; auto. cbn [snd fs_names fs_inodes]. split; auto. split; auto.
      exists (old ++ d)%string. rewrite lookup_insert_eq. split; auto. intros b e Hb. assert (w' = old) by congruence. subst.
      rewrite <- contains_app_data. apply Hc'. now constructor.
    + intros m j Hm. cbn [fs_names fs_inodes] in *. rewrite lookup_insert. destruct (eqb j i); eauto.
      now apply (inv_wf _ _ _ _ I m).
    + pose proof (inv_nodup _ _ _ _ I) as ND. rewrite active_app, active_cons in *. exact ND.
    + intros t [<-|[]]. split; [|subst; eauto]. apply (inv_new _ _ _ _ I). rewrite active_app, active_cons. apply in_or_app. right. now left.
    + intros t j [<-|[]] E. apply (inv_fresh _ _ _ _ I tmp); auto. rewrite active_app, active_cons. apply in_or_app. right. now left.
    + intros m. cbn [active1 snd]. split; auto. intros A B. contradiction.
    + intros t j [<-|[]] E m Em. eapply (inv_private _ _ _ _ I); eauto. rewrite active_app, active_cons. apply in_or_app. right. now left.
    + intros j b Lj Ht. rewrite lookup_insert_neq; auto. intros ->. apply (Ht tmp); [now left|auto].
  - (* end of list *)
    destruct Fj as (_ & (n & T & Et) & L & w & W & Hc). cbn [fst snd] in *.
    apply (inv_quiet f0 jobs f' f' dest before after (StCopying tmp i [])); auto; try discriminate.
    + intros job' (E & T' & L' & w' & W' & Hc'). cbn [fst snd] in *. split; auto. cbn [snd]. split; auto. split; auto.
      exists w'. split; auto. red. rewrite <- (sapp_nil_r w'). apply Hc'. constructor.
    + apply (inv_wf _ _ _ _ I).
    + pose proof (inv_nodup _ _ _ _ I) as ND. rewrite active_app, active_cons in *. exact ND.
    + intros t [<-|[]]. split; [|subst; eauto]. apply (inv_new _ _ _ _ I). rewrite active_app, active_cons. apply in_or_app. right. now left.
    + intros t j [<-|[]] E. apply (inv_fresh _ _ _ _ I tmp); auto. rewrite active_app, active_cons. apply in_or_app. right. now left.
    + intros m. cbn [active1 snd]. split; auto. intros A B. contradiction.
    + intros t j [<-|[]] E m Em. eapply (inv_private _ _ _ _ I); eauto. rewrite active_app, active_cons. apply in_or_app. right. now left.
  - (* end of stream *)
    destruct Fj as (_ & (n & T & Et) & L & w & W & Hc). cbn [fst snd] in *.
    apply (inv_quiet f0 jobs f' f' dest before after (StCopying tmp i (Ready "" :: rest))); auto; try discriminate.
    + intros job' (E & T' & L' & w' & W' & Hc'). cbn [fst snd] in *. split; auto. cbn [snd]. split; auto. split; auto.
      exists w'. split; auto. red. rewrite <- (sapp_nil_r w'). apply Hc'. constructor.
    + apply (inv_wf _ _ _ _ I).
    + pose proof (inv_nodup _ _ _ _ I) as ND. rewrite active_app, active_cons in *. exact ND.
    + intros t [<-|[]]. split; [|subst; eauto]. apply (inv_new _ _ _ _ I). rewrite active_app, active_cons. apply in_or_app. right. now left.
    + intros t j [<-|[]] E. apply (inv_fresh _ _ _ _ I tmp); auto. rewrite active_app, active_cons. apply in_or_app. right. now left.
    + intros m. cbn [active1 snd]. split; auto. intros A B. contradiction.
    + intros t j [<-|[]] E m Em. eapply (inv_private _ _ _ _ I); eauto. rewrite active_app, active_cons. apply in_or_app. right. now left.
  - (* input fails *)
    destruct Fj as (_ & _ & L & _). eapply inv_fail; eauto; discriminate.
  - (* persist *)
    destruct Fj as (Ed & (n & T & Et) & L & b & B & Cb). cbn [fst snd] in *. assert (j = i) by congruence. subst j.
    assert (Itmp : In tmp (active (before ++ (dest, StPersist tmp i) :: after))).
    { rewrite active_app, active_cons. apply in_or_app. right. now left. }
    assert (Nd : tmp <> dest). { intros Q. rewrite <- Q, Et in Od. now apply not_ordinary in Od. }
    pose proof (inv_nodup _ _ _ _ I) as ND. rewrite active_app, active_cons in ND. cbn [active1 snd app] in ND.
    assert (Act : forall t, In t (active (before ++ (dest, StDone) :: after)) ->
              t <> tmp /\ t <> dest /\ In t (active (before ++ (dest, StPersist tmp i) :: after))).
    { intros t J. rewrite active_app, active_cons in *. cbn [active1 snd app] in *.
      assert (In t (active before ++ tmp :: active after)) as J'.
      { apply in_app_or in J as [J|J]; apply in_or_app; [left|right; right]; auto. }
      split.
      { intros ->. apply List.NoDup_remove_2 in ND. contradiction. }
      split; auto. intros ->.
      destruct (active_temp _ _ _ dest (inv_jobs _ _ _ _ I)) as ((m & d & Tm & Em) & _).
      - rewrite active_app, active_cons. exact J'.
      - rewrite Em in Od. now apply not_ordinary in Od. }
    assert (Names : forall p, lookup p (insert dest i (remove tmp (fs_names f))) =
              if eqb p dest then Some i else if eqb p tmp then None else lookup p (fs_names f)).
    { intros p. rewrite lookup_insert. destruct (eqb p dest); auto. apply lookup_remove. }
    destruct (Forall2_split _ _ _ _ _ (inv_jobs _ _ _ _ I)) as (jb & job' & ja & Ejobs & F1 & Fj' & F2).
    assert (Pos : nth_error jobs (length before) = Some job').
    { rewrite Ejobs, <- (Forall2_len _ _ _ F1). apply nth_error_mid. }
    destruct Fj' as (E' & _ & L' & b' & B' & Cb'). cbn [fst snd] in *.
    assert (Fr : forall l m, Forall2 (job_ok f) l m -> (forall t, In t (active m) -> In t (active before ++ active after)) ->
      Forall2 (job_ok (mkFs (insert dest i (remove tmp (fs_names f))) (fs_inodes f))) l m).
    { intros l m F Sub. apply Forall2_impl_r with (R := job_ok f); auto.
      intros x y Iy O. apply (job_ok_frame f); auto. intros t J. cbn [fs_names]. rewrite Names.
      destruct (Act t) as (A1 & A2 & _).
      { rewrite active_app, active_cons. cbn [active1 snd app]. apply Sub, in_flat_map. eauto. }
      apply eqb_neq in A1, A2. now rewrite A1, A2. }
    constructor; cbn [fs_names fs_inodes].
    + rewrite Ejobs. apply Forall2_app; [|constructor].
      * apply Fr; auto. intros. apply in_or_app. auto.
      * split; auto. cbn [snd]. eauto.
      * apply Fr; auto. intros. apply in_or_app. auto.
    + intros p j H1. cbn [fs_names fs_inodes] in *. rewrite Names in H1. destruct (eqb p dest).
      * inversion H1; subst. eauto.
      * destruct (eqb p tmp); [discriminate|]. now apply (inv_wf _ _ _ _ I p).
    + rewrite active_app, active_cons. cbn [active1 snd app]. now apply List.NoDup_remove_1 in ND.
    + intros t j m J L1 L2. destruct (Act t J) as (A1 & A2 & A3). rewrite Names in L1, L2.
      apply eqb_neq in A1 as Q1, A2 as Q2. rewrite Q1, Q2 in L1. destruct (eqb m dest) eqn:Qm.
      * inversion L2; subst j. exfalso. apply A1. symmetry. eapply (inv_private _ _ _ _ I); eauto.
      * destruct (eqb m tmp); [discriminate|]. eapply (inv_private _ _ _ _ I); eauto.
    + intros t J. apply Act in J as (_ & _ & J). now apply (inv_new _ _ _ _ I).
    + intros t j J L1. destruct (Act t J) as (A1 & A2 & A3). rewrite Names in L1.
      apply eqb_neq in A1, A2. rewrite A1, A2 in L1. eapply (inv_fresh _ _ _ _ I); eauto.
    + intros m d Tm J. rewrite Names. destruct (eqb (m :: d) dest) eqn:Q1.
      { apply eqb_eq in Q1. rewrite <- Q1 in Od. now apply not_ordinary in Od. }
      destruct (eqb (m :: d) tmp) eqn:Q2.
      { apply eqb_eq in Q2. rewrite Q2. symmetry. now apply (inv_new _ _ _ _ I). }
      apply (inv_temp _ _ _ _ I); auto. rewrite active_app, active_cons in *. cbn [active1 snd app] in *.
      intros K. apply J. apply in_or_app. apply in_app_or in K as [K|[K|K]]; auto.
      subst tmp. rewrite <- K, eqb_refl in Q2. discriminate.
    + intros j c Lc. now apply (inv_old_inodes _ _ _ _ I).
    + intros p O H1. rewrite Names. destruct (eqb p dest) eqn:Q1.
      { apply eqb_eq in Q1 as ->. exfalso. apply (H1 StDone); auto. apply in_or_app. right. now left. }
      destruct (eqb p tmp) eqn:Q2.
      { apply eqb_eq in Q2 as ->. subst tmp. now apply not_ordinary in O. }
      apply (inv_untouched _ _ _ _ I); auto. intros s J Es. subst s.
      apply in_app_or in J as [J|[J|J]]; [|discriminate|]; apply (H1 StDone); auto; apply in_or_app; auto. right. now right.
    + intros p O H1. destruct (eqb p dest) eqn:Q1.
      * apply eqb_eq in Q1 as ->. exists (length before), (snd job'), b'. rewrite Pos. split; [rewrite E'; now destruct job'|].
        split; [apply nth_error_mid|]. split; auto. unfold fs_content. cbn [fs_names fs_inodes].
        rewrite Names, eqb_refl. auto.
      * assert (In (p, StDone) (before ++ (dest, StPersist tmp i) :: after)) as H2.
        { apply in_or_app. apply in_app_or in H1 as [H1|[H1|H1]]; [now left| |now right; right].
          inversion H1; subst. rewrite eqb_refl in Q1. discriminate. }
        destruct (inv_done _ _ _ _ I p O H2) as (k & input & c & K1 & K2 & K3 & K4).
        exists k, input, c. split; auto. split.
        { rewrite <- K2. apply nth_error_split_at. intros ->. rewrite nth_error_mid in K2. inversion K2. }
        split; auto. unfold fs_content in *. cbn [fs_names fs_inodes]. rewrite Names, Q1.
        destruct (eqb p tmp) eqn:Q2; auto. apply eqb_eq in Q2 as ->. subst tmp. now apply not_ordinary in O.
  - (* i/o errors *)
    apply (inv_quiet f0 jobs f' f' dest before after (StStart input)); auto; try discriminate.
    + intros job' (E & _). now split.
    + apply (inv_wf _ _ _ _ I).
    + pose proof (inv_nodup _ _ _ _ I) as ND. rewrite active_app, active_cons in *. exact ND.
    + intros t [].
    + intros t j [].
    + intros m. split; auto. intros _ [].
    + intros t j [].
  - destruct Fj as (_ & _ & L & _). eapply inv_fail; eauto; discriminate.
  - destruct Fj as (_ & _ & L & _). eapply inv_fail; eauto; discriminate.
Qed.

Lemma inv_begin f0 jobs : fs_wf f0 -> inv f0 jobs f0 (begin_stores jobs).
Proof.
  intros W. assert (A : active (begin_stores jobs) = []). { induction jobs; auto. }
  assert (D : forall p, ~ In (p, StDone) (begin_stores jobs)).
  { intros p I. apply in_map_iff in I as (j & E & _). discriminate. }
  constructor; rewrite ?A; auto.
  - clear. induction jobs as [|j jobs IH]; constructor; auto. split; reflexivity.
  - constructor.
  - intros tmp i n [].
  - intros tmp [].
  - intros tmp i [].
  - intros p O I. now apply D in I.
Qed.

Lemma steps_dests w w' : stores_steps w w' -> map fst (snd w') = map fst (snd w).
Proof.
  induction 1 as [|w w' w'' H IH S]; auto. rewrite <- IH. destruct S. cbn [snd]. rewrite !map_app. reflexivity.
Qed.

Lemma inv_steps f0 jobs w w' : inv f0 jobs (fst w) (snd w) -> (forall d, In d (map fst (snd w)) -> ordinary d) ->
  stores_steps w w' -> inv f0 jobs (fst w') (snd w').
Proof.
  intros I O S. induction S as [|w w' w'' S IH S']; auto. specialize (IH I O).
  pose proof (steps_dests _ _ S) as D. destruct S'. cbn [fst snd] in *.
  apply (inv_step f0 jobs f f' dest before after st st'); auto.
  apply O. rewrite <- D, map_app. apply in_or_app. right. now left.
Qed.

Lemma begin_dests jobs d : In d (map fst (begin_stores jobs)) -> exists rs, In (d, rs) jobs.
Proof.
  unfold begin_stores. rewrite map_map. intros I. apply in_map_iff in I as ([d' rs] & <- & I). eauto.
Qed.

(** An inode no store is writing to keeps its contents. *)
Definition settled (f : fs) (sts : list (file_name * store_state)) (i : nat) (b : bytes) : Prop :=
  lookup i (fs_inodes f) = Some b /\ forall tmp, In tmp (active sts) -> lookup tmp (fs_names f) <> Some i.

Lemma settled_step f0 jobs f f' dest before after st st' i b :
  inv f0 jobs f (before ++ (dest, st) :: after) -> ordinary dest ->
  store_step dest f st f' st' ->
  settled f (before ++ (dest, st) :: after) i b -> settled f' (before ++ (dest, st') :: after) i b.
Proof.
  intros I O S (L & H). pose proof (inv_step _ _ _ _ _ _ _ _ _ I O S) as I'.
  destruct (inv_mover _ _ _ _ _ _ _ I) as (job & _ & Fj).
  assert (H1 : forall tmp, In tmp (active1 (dest, st)) -> lookup tmp (fs_names f) <> Some i).
  { intros tmp J. apply H. rewrite active_app, active_cons. apply in_or_app. right. apply in_or_app. now left. }
  assert (H2 : forall tmp, In tmp (active before ++ active after) -> lookup tmp (fs_names f) <> Some i).
  { intros tmp J. apply H. now apply in_active_other. }
  assert (G : forall f2 st2, (forall tmp, In tmp (active1 (dest, st2)) -> lookup tmp (fs_names f2) <> Some i) ->
     (forall tmp, In tmp (active before ++ active after) -> lookup tmp (fs_names f2) <> Some i) ->
     forall tmp, In tmp (active (before ++ (dest, st2) :: after)) -> lookup tmp (fs_names f2) <> Some i).
  { intros f2 st2 K1 K2 tmp J. rewrite active_app, active_cons, !in_app_iff in J.
    destruct J as [J|[J|J]]; [apply K2; apply in_or_app; auto|now apply K1|apply K2; apply in_or_app; auto]. }
  split.
  - inversion S; subst; cbn [fs_inodes]; auto.
    + rewrite lookup_insert_neq; auto. intros ->. congruence.
    + rewrite lookup_insert_neq; auto. intros ->. destruct Fj as (_ & _ & Lt & _). apply (H1 tmp); [now left|auto].
  - apply G.
    + inversion S; subst; cbn [fs_names]; auto; try (intros tmp' []).
      * subst tmp'. rewrite lookup_insert_eq. intros Q. inversion Q; subst. congruence.
      * contradiction.
    + intros tmp J. inversion S; subst; cbn [fs_names]; auto.
      * rewrite lookup_insert. destruct (eqb tmp _); auto. intros Q. inversion Q; subst. congruence.
      * rewrite lookup_remove. destruct (eqb tmp _); [discriminate|auto].
      * rewrite lookup_insert, lookup_remove. destruct Fj as (_ & _ & Lt & _).
        destruct (eqb tmp dest) eqn:Q1; [|destruct (eqb tmp tmp0); [discriminate|auto]].
        intros Q. inversion Q; subst. apply (H1 tmp0); [now left|auto].
      * rewrite lookup_remove. destruct (eqb tmp _); [discriminate|auto].
      * rewrite lookup_remove. destruct (eqb tmp _); [discriminate|auto].
Qed.

Lemma settled_steps f0 jobs w w' i b : inv f0 jobs (fst w) (snd w) -> (forall d, In d (map fst (snd w)) -> ordinary d) ->
  stores_steps w w' -> settled (fst w) (snd w) i b -> settled (fst w') (snd w') i b.
Proof.
  intros I O S H. induction S as [|w w' w'' S IH S']; auto. specialize (IH I O H).
  pose proof (inv_steps _ _ _ _ I O S) as I'. pose proof (steps_dests _ _ S) as D. destruct S'. cbn [fst snd] in *.
  apply (settled_step f0 jobs f f' dest before after st st'); auto.
  apply O. rewrite <- D, map_app. apply in_or_app. right. now left.
Qed.

Lemma steps_trans w w' w'' : stores_steps w w' -> stores_steps w' w'' -> stores_steps w w''.
Proof.
  intros H K. revert H. induction K as [w0|w0 w1 w2 K IH S]; intros H'; [exact H'|].
  exact (stores_more _ _ _ (IH H') S).
Qed.

(** ** URLs *)

Open Scope N_scope.
Lemma all_chars_app f a b : all_chars f (a ++ b) = all_chars f a && all_chars f b.
Proof. induction a as [|c a IH]; cbn; auto. now rewrite IH, andb_assoc. Qed.

Lemma all_chars_has f s c : all_chars f s = true -> has_char c s -> f c = true.
Proof.
  induction s as [|d s IH]; cbn; [intros _ H; now apply has_char_nil in H|].
  intros H K. apply andb_true_iff in H as [H1 H2]. apply has_char_cons in K as [->|K]; auto.
Qed.

Definition all_ascii : list ascii := map (fun n => ascii_of_nat n) (seq 0 256).
Lemma all_ascii_in c : In c all_ascii.
Proof.
  unfold all_ascii. apply in_map_iff. exists (nat_of_ascii c). split; [apply ascii_nat_embedding|].
  apply in_seq. pose proof (nat_ascii_bounded c). lia.
Qed.
Lemma by_ascii (f : ascii -> bool) : forallb f all_ascii = true -> forall c, f c = true.
Proof. intros H c. rewrite forallb_forall in H. apply H, all_ascii_in. Qed.

Lemma encode_path_chars s : all_chars uri_path_char (url_encode s) = true.
Proof.
  induction s as [|c s IH]; auto. cbn [url_encode].
  assert (H := by_ascii (fun c => if url_must_encode c
     then uri_path_char (hex_digit_upper (N_of_ascii c / 16)) && uri_path_char (hex_digit_upper (N_of_ascii c mod 16))
     else uri_path_char c) eq_refl c). cbn beta in H.
  destruct (url_must_encode c); cbn [all_chars]; rewrite IH.
  - apply andb_true_iff in H as [-> ->]. reflexivity.
  - now rewrite H.
Qed.

Lemma encode_no_slash s : ~ has_char "/" s -> ~ has_char "/" (url_encode s).
Proof.
  induction s as [|c s IH]; auto. intros H. rewrite has_char_cons in H. cbn [url_encode].
  assert (K := by_ascii (fun c => if url_must_encode c
     then negb (Ascii.eqb "/" (hex_digit_upper (N_of_ascii c / 16))) && negb (Ascii.eqb "/" (hex_digit_upper (N_of_ascii c mod 16)))
     else true) eq_refl c). cbn beta in K.
  destruct (url_must_encode c).
  - rewrite !has_char_cons. apply andb_true_iff in K as [K1 K2]. apply negb_true_iff in K1, K2.
    apply Ascii.eqb_neq in K1, K2. intros [Q|[Q|[Q|Q]]]; [discriminate|congruence|congruence|]. tauto.
  - rewrite has_char_cons. tauto.
Qed.

Lemma decode_skip c r : c <> "%"%char -> url_decode (String c r) = String c (url_decode r).
Proof.
  intros N. cbn [url_decode]. apply Ascii.eqb_neq in N. rewrite N. destruct r as [|a [|b r]]; reflexivity.
Qed.

Lemma encode_decode s : ~ has_char "%" s -> url_decode (url_encode s) = s.
Proof.
  induction s as [|c s IH]; auto. intros H. rewrite has_char_cons in H. cbn [url_encode].
  assert (K := by_ascii (fun c => match hex_value (hex_digit_upper (N_of_ascii c / 16)), hex_value (hex_digit_upper (N_of_ascii c mod 16)) with
     | Some x, Some y => Ascii.eqb (ascii_of_N (16 * x + y)) c | _, _ => false end) eq_refl c). cbn beta in K.
  destruct (url_must_encode c).
  - cbn [url_decode]. change (Ascii.eqb "%" "%") with true. cbv iota.
    destruct (hex_value _); [|discriminate]. destruct (hex_value _); [|discriminate].
    apply Ascii.eqb_eq in K. rewrite K, IH by tauto. reflexivity.
  - rewrite decode_skip by (intros ->; tauto). now rewrite IH by tauto.
Qed.

Lemma cut_none c s : ~ has_char c s -> cut_at c s = (s, None).
Proof.
  induction s as [|d s IH]; auto. intros H. rewrite has_char_cons in H. cbn [cut_at].
  destruct (Ascii.eqb c d) eqn:E; [apply Ascii.eqb_eq in E; tauto|]. rewrite IH by tauto. reflexivity.
Qed.

Lemma cut_some c a b : ~ has_char c a -> cut_at c (a ++ String c b) = (a, Some b).
Proof.
  induction a as [|d s IH]; intros H; cbn [append cut_at].
  - now rewrite Ascii.eqb_refl.
  - rewrite has_char_cons in H. destruct (Ascii.eqb c d) eqn:E; [apply Ascii.eqb_eq in E; tauto|].
    rewrite IH by tauto. reflexivity.
Qed.

Lemma path_char_no c s : all_chars uri_path_char s = true -> uri_path_char c = false -> ~ has_char c s.
Proof. intros H N K. rewrite (all_chars_has _ _ _ H K) in N. discriminate. Qed.

Lemma parse_valid path query : uri_ok path query ->
  parse_path_and_query (match query with Some q => (path ++ "?" ++ q)%string | None => path end) = Ok (path, query).
Proof.
  intros [H K]. unfold parse_path_and_query.
  assert (P1 : ~ has_char "#" path) by (now apply path_char_no).
  assert (P2 : ~ has_char "?" path) by (now apply path_char_no).
  destruct query as [q|].
  - specialize (K q eq_refl). rewrite cut_none.
    + change ("?" ++ q)%string with (String "?" q). rewrite cut_some by auto. now rewrite H, K.
    + rewrite !has_char_app. intros [Q|[Q|Q]]; auto.
      * apply has_char_one in Q. discriminate.
      * pose proof (all_chars_has _ _ _ K Q). discriminate.
  - rewrite cut_none by auto. rewrite cut_none by auto. now rewrite H.
Qed.

Lemma pop_slash_eq s : exists t, (t = "" \/ t = "/") /\ s = (pop_slash s ++ t)%string.
Proof.
  unfold pop_slash. destruct (ends_with_slash s) eqn:E.
  - apply ends_with_slash_iff in E as (a & ->). exists "/". split; auto.
    rewrite slength_app. cbn [String.length]. replace (String.length a + 1 - 1)%nat with (String.length a) by lia.
    f_equal. clear. induction a as [|c a IH]; cbn; auto. now rewrite <- IH.
  - exists "". split; auto. now rewrite sapp_nil_r.
Qed.

Lemma split_chars f s x : all_chars f s = true -> In x (split_slash s) -> all_chars f x = true.
Proof.
  intros H I. apply split_component in I as (_ & pre & post & -> & _). rewrite !all_chars_app in H.
  apply andb_true_iff in H as [_ H]. apply andb_true_iff in H as [H _]. auto.
Qed.

Lemma join_chars f l : f "/"%char = true -> (forall x, In x l -> all_chars f x = true) -> all_chars f (join_slash l) = true.
Proof.
  intros S H. induction l as [|x l IH]; auto. destruct l as [|y l]; [apply H; now left|].
  rewrite join_cons, !all_chars_app. cbn [all_chars]. rewrite S, (H x) by (now left).
  apply IH. intros z I. apply H. now right.
Qed.

Lemma extend_uri_ok path query prefix comps : uri_ok path query ->
  extend_uri path query prefix comps =
  Ok (join_slash (split_slash (pop_slash path) ++ map url_encode (match prefix with Some p => p | None => [] end ++ comps)), query).
Proof.
  intros [H K]. unfold extend_uri. apply parse_valid. split; auto. apply join_chars; auto.
  intros x I. apply in_app_or in I as [I|I].
  - apply (split_chars uri_path_char (pop_slash path) x); auto. destruct (pop_slash_eq path) as (t & _ & E). rewrite E, all_chars_app in H.
    now apply andb_true_iff in H as [H _].
  - apply in_map_iff in I as (y & <- & _). apply encode_path_chars.
Qed.

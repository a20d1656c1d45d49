(** * Lemmas for C115 *)
From Coq Require Import String List NArith ZArith Bool Lia.
From Verif Require Import Base BaseFacts Metadata Verify Paths Tuf SpecVerify SpecTuf VerifyProofs TufProofs TufHistory
     Reader SpecReader Repo Client SpecClient ClientLogic ClientProofs ClientUpdates ClientHistory ClientTargets SpecAttack
     AttackProofs SpecAgree.
Import ListNotations.
Open Scope string_scope.
Open Scope list_scope.
Open Scope N_scope.

Lemma last_with_unique {A} (id : A -> string) i l x y : last_with id i l x -> last_with id i l y -> x = y.
Proof.
  revert x y. induction l as [|a l IH] using rev_ind; intros x y (l1 & l2 & E & I & N) (l1' & l2' & E' & I' & N').
  - destruct l1; discriminate.
  - destruct l2 as [|b l2 _] using rev_ind.
    + apply app_inj_tail in E as [_ ->]. destruct l2' as [|b' l2' _] using rev_ind.
      * apply app_inj_tail in E' as [_ ->]. reflexivity.
      * rewrite app_comm_cons, app_assoc in E'. apply app_inj_tail in E' as [_ ->].
        exfalso. apply (N' b'); [apply in_or_app; right; now left|exact I].
    + rewrite app_comm_cons, app_assoc in E. apply app_inj_tail in E as [E <-].
      destruct l2' as [|b' l2' _] using rev_ind.
      * apply app_inj_tail in E' as [_ E']. subst y.
        exfalso. apply (N a); [apply in_or_app; right; now left|exact I'].
      * rewrite app_comm_cons, app_assoc in E'. apply app_inj_tail in E' as [E' _].
        apply IH; [exists l1, l2|exists l1', l2']; (split; [assumption|]); (split; [assumption|]);
          intros z Z; [apply N|apply N']; apply in_or_app; now left.
Qed.

(** Two sets of ids that are large enough share one that is not bad. *)
Lemma quorums_meet (all bad a b : list string) :
  NoDup a -> NoDup b -> incl a all -> incl b all -> (length all + length bad < length a + length b)%nat ->
  exists i, In i a /\ In i b /\ ~ In i bad.
Proof.
  intros NA NB IA IB L.
  set (both := filter (fun i => if in_dec string_dec i b then true else false) a).
  assert (NBoth : NoDup both) by (apply NoDup_filter; exact NA).
  assert (U : (length a + length b <= length all + length both)%nat).
  { set (only := filter (fun i => if in_dec string_dec i b then false else true) a).
    assert (P : (length a = length both + length only)%nat).
    { subst both only. clear. induction a as [|x a IH]; [reflexivity|]. cbn [filter].
      destruct (in_dec string_dec x b); cbn [length]; lia. }
    assert (M : (length (only ++ b) <= length all)%nat).
    { apply NoDup_incl_length.
      - clear -NA NB. subst only. induction a as [|x a IH]; [exact NB|]. inversion NA as [|? ? NI NA']; subst.
        cbn [filter]. destruct (in_dec string_dec x b) as [H|H]; [now apply IH|]. cbn [app]. constructor; [|now apply IH].
        intros J. apply in_app_or in J as [J|J]; [|now apply H]. apply filter_In in J as [J _]. now apply NI.
      - intros x X. apply in_app_or in X as [X|X]; [|now apply IB]. apply IA. now apply filter_In in X as [X _]. }
    rewrite app_length in M. lia. }
  destruct (existsb (fun i => if in_dec string_dec i bad then false else true) both) eqn:X.
  - apply existsb_exists in X as (i & J & NBad). apply filter_In in J as [J1 J2]. exists i.
    split; [exact J1|]. split; [destruct (in_dec string_dec i b); [assumption|discriminate]|].
    destruct (in_dec string_dec i bad); [discriminate|assumption].
  - exfalso. assert (Inc : incl both bad).
    { intros i J. destruct (in_dec string_dec i bad) as [H|H]; [exact H|]. exfalso.
      assert (T : existsb (fun i => if in_dec string_dec i bad then false else true) both = true).
      { apply existsb_exists. exists i. split; [exact J|]. now destruct (in_dec string_dec i bad). }
      congruence. }
    pose proof (NoDup_incl_length NBoth Inc). lia.
Qed.

(** Of one role and version there is one document. *)
Lemma one_document E w r th keys raw raw' m m' :
  unforgeable (e_crypto E) w -> careful E w r keys -> majority w th keys ->
  authentic E r raw th keys m -> authentic E r raw' th keys m' ->
  document_version r m = document_version r m' -> m = m'.
Proof.
  intros U C (bad & B & L) (_ & sigs & sg & msg & _ & _ & (ids & ND & Len & G) & D)
         (_ & sigs' & sg' & msg' & _ & _ & (ids' & ND' & Len' & G') & D') V.
  assert (Inc : forall ids sigs msg, (forall i, In i ids -> good_id (e_crypto E) keys sigs msg i) ->
          incl ids (nodup string_dec (map pk_id keys))).
  { intros l s0 m0 H i J. apply nodup_In. destruct (H i J) as (k & s & (l1 & l2 & -> & I & _) & _).
    apply in_map_iff. exists k. split; [exact I|]. apply in_or_app. right. now left. }
  destruct (quorums_meet (nodup string_dec (map pk_id keys)) bad ids ids' ND ND' (Inc _ _ _ G) (Inc _ _ _ G')) as (i & J & J' & NB).
  { lia. }
  destruct (G i J) as (k & s & K & _ & (_ & Ve)). destruct (G' i J') as (k' & s' & K' & _ & (_ & Ve')).
  pose proof (last_with_unique _ _ _ _ _ K K') as <-.
  assert (IK : In k keys /\ pk_id k = i).
  { destruct K as (l1 & l2 & -> & I & _). split; [|exact I]. apply in_or_app. right. now left. }
  destruct IK as [IK <-].
  assert (NS : ~ stolen w (pk_scheme k) (pk_value k)) by (intros St; apply NB; now apply B).
  destruct (U _ _ _ _ Ve) as [St|S1]; [contradiction|]. destruct (U _ _ _ _ Ve') as [St|S2]; [contradiction|].
  exact (C k IK NS msg msg' m m' S1 S2 D D' V).
Qed.

Lemma one_trusted E w root r raw raw' m m' :
  unforgeable (e_crypto E) w -> undivided E w root r -> trusted_by E root r raw m -> trusted_by E root r raw' m' ->
  document_version r m = document_version r m' -> m = m'.
Proof. intros U [C M]. exact (one_document E w r _ _ raw raw' m m' U C M). Qed.

(** What a signature is worth does not depend on the order of a machine's hash maps. *)
Lemma trusted_other E E' root r raw m : e_crypto E' = e_crypto E -> e_ic E' = e_ic E ->
  trusted_by E' root r raw m -> trusted_by E root r raw m.
Proof.
  destruct E as [C o ic], E' as [C' o' ic']. cbn. intros -> ->. exact (fun H => H).
Qed.
Lemma chain_other E E' n r r' : e_crypto E' = e_crypto E -> e_ic E' = e_ic E -> root_chain E' n r r' -> root_chain E n r r'.
Proof.
  intros HC HI H. induction H as [|n r1 r2 r3 raw H IH (A & B & V)]; [constructor|].
  econstructor; [exact IH|]. split; [|split; [|exact V]]; eapply trusted_other; eauto.
Qed.

(** Chains from one root do not fork. *)
Lemma chain_prefix E n r r' k : root_chain E n r r' -> (k <= n)%nat ->
  exists r2, root_chain E k r r2 /\ root_chain E (n - k) r2 r'.
Proof.
  intros H. revert k. induction H as [r|n r1 r2 r3 raw H IH S]; intros k L.
  - exists r. assert (k = 0%nat) by lia. subst. split; constructor.
  - destruct (Nat.eq_dec k (Datatypes.S n)) as [->|NE].
    + exists r3. rewrite Nat.sub_diag. split; [econstructor; eauto|constructor].
    + destruct (IH k) as (r4 & A & B); [lia|]. exists r4. split; [exact A|].
      replace (Datatypes.S n - k)%nat with (Datatypes.S (n - k)) by lia. econstructor; eauto.
Qed.
Lemma chain_unique E w n r a b : unforgeable (e_crypto E) w ->
  (forall k root, (k < n)%nat -> root_chain E k r root -> undivided E w root Root) ->
  root_chain E n r a -> root_chain E n r b -> a = b.
Proof.
  intros U. revert a b. induction n as [|n IH]; intros a b H A B.
  - inversion A; inversion B; congruence.
  - inversion A as [|? ? ra ? rawa A1 SA]; subst. inversion B as [|? ? rb ? rawb B1 SB]; subst.
    assert (ra = rb) as <- by (apply IH; auto; intros k root L; apply H; lia).
    destruct SA as (TA & _ & VA & _), SB as (TB & _ & VB & _).
    apply (one_trusted E w ra Root rawa rawb a b U (H n ra (Nat.lt_succ_diag_r n) A1) TA TB). cbn. congruence.
Qed.

(** The trusted metadata of a client follow from the root it began with. *)
Lemma put_unique tr root root' : began_with tr root -> began_with tr root' -> root = root'.
Proof.
  intros (pre & t & post & E & N & R) (pre' & t' & post' & E' & N' & R').
  assert (H : forall pre post t, tr = pre ++ EvPut t :: post -> trusted_at pre = None ->
    forall pre', (exists post' t', tr = pre' ++ EvPut t' :: post' /\ trusted_at pre' = None) -> (length pre' <= length pre)%nat).
  { clear. intros pre post t E N pre' (post' & t' & E' & N').
    destruct (Nat.le_gt_cases (length pre') (length pre)) as [L|L]; [exact L|]. exfalso.
    assert (P : exists x, pre' = pre ++ EvPut t :: x).
    { assert (F : firstn (Datatypes.S (length pre)) tr = pre ++ [EvPut t]).
      { rewrite E. replace (pre ++ EvPut t :: post) with ((pre ++ [EvPut t]) ++ post) by (rewrite <- app_assoc; reflexivity).
        rewrite firstn_app, app_length. cbn [length]. replace (Datatypes.S (length pre) - (length pre + 1))%nat with 0%nat by lia.
        rewrite firstn_O, app_nil_r, firstn_all2; [reflexivity|]. rewrite app_length. cbn. lia. }
      rewrite E' in F. rewrite firstn_app in F.
      replace (Datatypes.S (length pre) - length pre')%nat with 0%nat in F by lia. rewrite firstn_O, app_nil_r in F.
      exists (skipn (Datatypes.S (length pre)) pre'). rewrite <- (firstn_skipn (Datatypes.S (length pre)) pre') at 1. rewrite F.
      rewrite <- app_assoc. reflexivity. }
    destruct P as (x & ->). clear -N'. revert N'. unfold trusted_at. rewrite fold_left_app. cbn [fold_left].
    generalize (fold_left (fun o e => match e with EvPut t => Some t | _ => o end) pre None). intros _.
    assert (K : forall l s, fold_left (fun o e => match e with EvPut t => Some t | _ => o end) l (Some s) <> None).
    { induction l as [|e l IH]; intros s; cbn; [discriminate|]. destruct e; apply IH. }
    intros H. exact (K _ _ H). }
  assert (L : length pre = length pre').
  { apply Nat.le_antisymm.
    - apply (H pre' post' t' E' N' pre). exists post, t. auto.
    - apply (H pre post t E N pre'). exists post', t'. auto. }
  rewrite E in E'. clear -E' L R R'. revert pre' L E'. induction pre as [|e pre IH]; intros [|e' pre'] L E'; try discriminate.
  - inversion E'. congruence.
  - inversion E' as [[Q1 Q2]]. cbn in L. apply (IH pre'); [lia|exact Q2].
Qed.

Lemma client_chain E cfg fuel c tr t root : history E cfg fuel c tr -> trusted_at tr = Some t -> began_with tr root ->
  exists n, root_chain E n root (t_root t).
Proof.
  intros H T B. apply history_sound in H.
  destruct (sound_from_first E cfg c tr H t T) as (pre & t0 & post & raw & ops & Eq & N & F & ->).
  assert (B' : began_with tr (t_root t0)) by (exists pre, t0, post; auto).
  rewrite (put_unique _ _ _ B B'). apply run_chain.
Qed.
Lemma client_reachable E cfg fuel c tr t : history E cfg fuel c tr -> trusted_at tr = Some t -> reachable E t.
Proof.
  intros H T. apply history_sound in H. destruct (sound_from_first E cfg c tr H t T) as (pre & t0 & post & raw & ops & _ & _ & F & ->).
  exists t0, ops. split; [|reflexivity]. eapply first_initial; eauto.
Qed.

(** Agreement on one role. *)
Lemma same_document E E' w t t' r m m' :
  e_crypto E' = e_crypto E -> e_ic E' = e_ic E -> unforgeable (e_crypto E) w -> r <> Root ->
  reachable E t -> reachable E' t' -> t_root t = t_root t' -> undivided E w (t_root t) r ->
  trusted_document t r = Some m -> trusted_document t' r = Some m' -> document_version r m = document_version r m' -> m = m'.
Proof.
  intros HC HI U NR R R' Eq Un M M' V.
  apply reachable_inv in R as (_ & S & _). apply reachable_inv in R' as (_ & S' & _).
  assert (A : exists raw, trusted_by E (t_root t) r raw m).
  { destruct S as (S1 & S2 & S3). destruct r; [congruence|apply S2|apply S3|apply S1]; exact M. }
  assert (A' : exists raw, trusted_by E (t_root t) r raw m').
  { rewrite Eq. destruct S' as (S1 & S2 & S3).
    assert (X : exists raw, trusted_by E' (t_root t') r raw m') by (destruct r; [congruence|apply S2|apply S3|apply S1]; exact M').
    destruct X as (raw & X). exists raw. eapply trusted_other; eauto. }
  destruct A as (raw & A), A' as (raw' & A'). exact (one_trusted E w (t_root t) r raw raw' m m' U Un A A' V).
Qed.

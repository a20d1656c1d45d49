(** * C91: updating again

    Nothing but the trusted metadata decides about an update: with the same remote
    repository the next one has nothing to do. *)
From Coq Require Import String List NArith ZArith Bool Lia.
From Verif Require Import Base BaseFacts Metadata Verify Paths Tuf SpecVerify SpecTuf VerifyProofs TufProofs TufHistory
     Reader SpecReader ReaderProofs Repo Client SpecClient SpecHonest ClientLogic ClientProofs ClientUpdates ClientHistory ClientRestart
     ClientHonest Props_Tuf Toy ClientToy Props_Client Props_Honest.
Import ListNotations.
Open Scope string_scope.
Open Scope list_scope.
Open Scope N_scope.

(** The remote repository answers the same question always in the same way. *)
Definition answers_as (remote : string -> meta_version -> result stream) (e : event) : Prop :=
  match e with
  | EvFetchMeta Remote path v _ _ ans => ans = remote path v
  | _ => True
  end.

(** The current root has not expired. *)
Definition root_fresh (t : tuf) (e : event) : Prop :=
  match e with EvNow c => fresh (rm_expires (t_root t)) (at_root c) | _ => True end.

(** All that happens in an update that finds nothing new: two requests, nothing is stored. *)
Definition idle (cfg : config) (t : tuf) (ans_root ans_timestamp : result stream) (c1 c2 : clock) : list event :=
  [ EvFetchMeta Remote "root" (VNumber (rm_version (t_root t) + 1)) (cf_max_root cfg) None ans_root;
    EvNow c1;
    EvFetchMeta Remote "timestamp" VNone (cf_max_timestamp cfg) None ans_timestamp;
    EvNow c2;
    EvPut t ].

Theorem C91_second_update_is_idle :
  forall (E : env) (cfg : config) (fuel fuel' : nat) (remote : string -> meta_version -> result stream)
         (t t' : tuf) (tr : list event) (b : bool),
  positive_versions (e_ic E) -> reachable E t -> fuel' <> O ->
  exec (update E cfg fuel t) tr (Ret (t', Ok b)) -> Forall (answers_as remote) tr ->
  (* whatever the local repository does, and even if the timestamp has expired *)
  (forall tr' q, exec (update E cfg fuel' t') tr' q -> Forall (answers_as remote) tr' -> Forall (root_fresh t') tr' ->
     q <> Panic /\ q <> OutOfFuel /\
     exists c1 c2 rest, let all := idle cfg t' (remote "root" (VNumber (rm_version (t_root t') + 1))) (remote "timestamp" VNone) c1 c2 in
       all = tr' ++ rest /\ forall x, q = Ret x -> x = (t', Ok false) /\ tr' = all) /\
  (exists tr', exec (update E cfg fuel' t') tr' (Ret (t', Ok false)) /\ Forall (answers_as remote) tr' /\ Forall (root_fresh t') tr').
Proof.
  intros E cfg fuel fuel' remote t t' tr b Pos R Fu X A. apply reachable_inv in R.
  destruct (wp_sound DT _ _ _ X _ [] (update_done E cfg Pos fuel t R) (along_true _ _)) as [_ W].
  cbn [wp app fst snd] in W. destruct (W b eq_refl) as ((_ & _ & Vu & ans1 & I1 & R1) & (ans2 & raw & ts & I2 & R2 & T & V) & K). clear W.
  rewrite Forall_forall in A. pose proof (A _ I1) as Q. cbn in Q. subst ans1. pose proof (A _ I2) as Q. cbn in Q. subst ans2.
  assert (Up : forall c, update_timestamp E t' c raw = (t', Ok None)).
  { intros c. eapply (proj1 (proj2 (C12_timestamp_rollback E t'))); eassumption. }
  assert (Sn : forall cons, update_snapshot_with_repos E Remote true cons t' = Ret (t', Ok false)).
  { intros cons. destruct K as (ts' & s & g & d & K1 & K2 & K3 & K4 & K5 & K6). unfold update_snapshot_with_repos.
    rewrite K1, K2, K4, N.leb_refl. reflexivity. }
  assert (Tg : forall cons, update_targets_with_repos E Remote true cons t' = Ret (t', Ok false)).
  { intros cons. destruct K as (ts' & s & g & d & K1 & K2 & K3 & K4 & K5 & K6). unfold update_targets_with_repos.
    change (from_role Targets) with "targets". rewrite K2, K5, K3, K6, N.leb_refl. reflexivity. }
  destruct fuel' as [|fuel']; [contradiction|]. apply N.leb_gt in Vu.
  assert (Run : forall tr' q, exec (update E cfg (S fuel') t') tr' q -> Forall (answers_as remote) tr' -> Forall (root_fresh t') tr' ->
     q <> Panic /\ q <> OutOfFuel /\
     exists c1 c2 rest, let all := idle cfg t' (remote "root" (VNumber (rm_version (t_root t') + 1))) (remote "timestamp" VNone) c1 c2 in
       all = tr' ++ rest /\ forall x, q = Ret x -> x = (t', Ok false) /\ tr' = all).
  { Ltac cut c1 c2 := split; [discriminate|]; split; [discriminate|]; exists c1, c2; eexists; split; [unfold idle; cbn [app]; reflexivity|discriminate].
    pose (c0 := mkClock 0 0 0 0 0 (fun _ => 0%Z)).
    intros tr' q Y F G. unfold update, update_root_with_repos in Y. cbn [root_loop] in Y. rewrite Vu in Y.
    unfold fetch_metadata at 1 in Y. change (repo_check Root (from_role Root)) with (@Ok unit tt) in Y. cbn [bind] in Y.
    inversion Y as [|s path v max hash k ans tr2 q2 Y2| | | | | |]; clear Y; subst; [cut c0 c0|].
    inversion F as [|? ? F1 F2]; clear F; subst. cbn in F1. subst ans. inversion G as [|? ? _ G2]; clear G; subst.
    rewrite R1 in Y2. cbn [bind] in Y2.
    inversion Y2 as [| | | | | |k1 c1 tr3 q3 Y3|]; clear Y2; subst; [cut c0 c0|].
    inversion F2 as [|? ? _ F3]; clear F2; subst. inversion G2 as [|? ? G1 G3]; clear G2; subst. cbn in G1.
    apply expired_false in G1. rewrite G1 in Y3. cbn [bind] in Y3.
    inversion Y3 as [|s path v max hash k2 ans tr4 q4 Y4| | | | | |]; clear Y3; subst; [cut c1 c0|].
    inversion F3 as [|? ? F4 F5]; clear F3; subst. cbn in F4. subst ans. inversion G3 as [|? ? _ G5]; clear G3; subst.
    rewrite R2 in Y4. cbn [bind] in Y4.
    inversion Y4 as [| | | | | |k3 c2 tr5 q5 Y5|]; clear Y4; subst; [cut c1 c0|].
    rewrite Up in Y5. cbn [bind] in Y5.
    inversion Y5 as [| | | | | | |t1 p1 tr6 q6 Y6]; clear Y5; subst; [cut c1 c2|].
    rewrite Sn in Y6. cbn [bind] in Y6. rewrite Tg in Y6. cbn [bind] in Y6. inversion Y6; subst.
    split; [discriminate|]. split; [discriminate|]. exists c1, c2, []. split; [reflexivity|]. intros x Q. inversion Q; subst. auto. }
  split; [exact Run|].
  set (good := fun e => answers_as remote e /\ root_fresh t' e).
  destruct (@exec_total good) with (q := update E cfg (S fuel') t') as (tr' & q & Y & F & O).
  - intros [] path v max hash; [exists (Err NotFound)|exists (remote path v)]; now split.
  - intros. now exists (Ok tt).
  - intros. now exists (Err NotFound).
  - intros. now exists (Ok tt).
  - intros. now exists None.
  - set (z := (rm_expires (t_root t') - 1)%Z). exists (mkClock z z z z z (fun _ => z)). split; [exact I|]. cbn. unfold fresh, z. lia.
  - intros. now split.
  - assert (F1 : Forall (answers_as remote) tr') by (eapply Forall_impl; [|exact F]; intros e H; apply H).
    assert (F2 : Forall (root_fresh t') tr') by (eapply Forall_impl; [|exact F]; intros e H; apply H).
    destruct (Run tr' q Y F1 F2) as (N1 & N2 & c1 & c2 & rest & _ & N3).
    destruct q; try contradiction. destruct (N3 _ eq_refl) as (-> & _). exists tr'. auto.
Qed.
Print Assumptions C91_second_update_is_idle.

(** The first update of the toy client brings everything, the second one nothing. *)
Example C91_case :
  positive_versions (e_ic Ec) /\ reachable Ec t_started /\
  exec (update Ec default_config 9 t_started) (fst (fst updated)) (Ret (t_updated, Ok true)) /\
  Forall (answers_as (ephemeral_fetch_metadata remote1)) (fst (fst updated)) /\
  length (filter (fun e => match e with EvFetchMeta _ _ _ _ _ _ | EvStoreMeta _ _ _ _ => true | _ => false end) (fst (fst updated))) = 10%nat.
Proof.
  destruct C77_case as (P & R & X & _). split; [exact P|]. split; [exact R|]. split; [exact X|]. split; [|vm_compute; reflexivity].
  assert (G : forall n l r c (q : prog (tuf * result bool)) tr l' q', drive n l r c q = (tr, l', q') -> Forall (answers_as (ephemeral_fetch_metadata r)) tr).
  { induction n as [|n IH]; intros l r c q tr l' q' H; cbn in H; [inversion H; constructor|].
    destruct q as [a| | |s path v max hash k|path v data k|path d k|path rs k|data k|k|t q]; try (inversion H; constructor).
    1: destruct (drive n l r c (k _)) as [[tr1 l1] q1] eqn:D; inversion H; subst; constructor; [destruct s; exact I || reflexivity|eauto].
    1: rewrite store_cursor in H; destruct (drive n _ r c _) as [[tr1 l1] q1] eqn:D; inversion H; subst; constructor; [exact I|eauto].
    1: destruct (drive n l r c _) as [[tr1 l1] q1] eqn:D; inversion H; subst; constructor; [exact I|eauto].
    1: destruct (ephemeral_store_target l path rs) as [l2 ans]; destruct (drive n l2 r c _) as [[tr1 l1] q1] eqn:D;
       inversion H; subst; constructor; [exact I|eauto].
    1-3: destruct (drive n l r c _) as [[tr1 l1] q1] eqn:D; inversion H; subst; constructor; [exact I|eauto]. }
  destruct updated as [[tr l] q] eqn:D. cbn [fst]. unfold updated in D. exact (G _ _ _ _ _ _ _ _ D).
Qed.

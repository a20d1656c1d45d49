(** * C49: restarting a client *)
From Coq Require Import String List NArith ZArith Bool Lia.
From Verif Require Import Base BaseFacts Metadata Verify Paths Tuf SpecVerify SpecTuf TufProofs TufHistory
     Reader SpecReader ReaderProofs Repo Client SpecClient SpecRestart ClientLogic ClientProofs ClientUpdates
     ClientRestart Toy ClientToy.
Import ListNotations.
Open Scope string_scope.
Open Scope list_scope.
Open Scope N_scope.

(** After a successful [update], and further calls, a client made from the same root and
    the same local repository trusts the same top-level metadata.  The full statement is
    false (see below); what is assumed beyond it:
    - the local repository is in memory; no root after the first is there in the beginning;
    - futures of [update] are not dropped;
    - a version of the snapshot or the targets is not described in two ways;
    - nobody delegates to roles named "timestamp" or "targets". *)
Theorem C49_restart_restores_partial :
  forall (E : env) (cfg : config) (fuel fuel' : nat) (raw : bytes) (t0 : tuf) (e0 : ephemeral)
         (tr : list event) (t : tuf) (e : ephemeral)
         (tr1 : list event) (t1 : tuf) (b : bool) (e1 : ephemeral)
         (tr2 : list event) (t2 : tuf) (e2 : ephemeral)
         (tr3 : list event) (q : prog (result tuf)) (e3 : ephemeral),
  from_trusted_root E raw = Ok t0 ->
  (forall n, rm_version (t_root t0) < n -> lookup ("root", VNumber n) (ep_metadata e0) = None) ->
  (* some sessions, the last one ending with a successful update and other calls *)
  sessions in_memory E cfg fuel raw e0 tr t e ->
  exec (update E cfg fuel t) tr1 (Ret (t1, Ok b)) -> in_memory e tr1 e1 ->
  other_calls in_memory E cfg fuel t1 e1 tr2 t2 e2 ->
  stable_descriptions (tr ++ tr1 ++ tr2) ->
  no_role_named "timestamp" (tr ++ tr1 ++ tr2) -> no_role_named "targets" (tr ++ tr1 ++ tr2) ->
  (* the restart *)
  exec (construct E cfg fuel' (FromRoot raw)) tr3 q -> in_memory e2 tr3 e3 ->
  (forall c, In (EvNow c) tr3 -> before_expiry t1 c) ->
  q <> Panic /\ forall r, q = Ret r -> exists t3, r = Ok t3 /\ same_trust t1 t3.
Proof.
  intros E cfg fuel fuel' raw t0 e0 tr t e tr1 t1 b e1 tr2 t2 e2 tr3 q e3 F Top Se X1 Y1 O2 Stb N1 N2 X3 Y3 B.
  refine (restart_restores ephemeral in_memory (fun n => n <> "timestamp" /\ n <> "targets")
            (fun e m => ep_metadata e = m) (fun n H => H) _ E cfg fuel fuel' raw t0 _ e0 tr t e tr1 t1 b e1 tr2 t2 e2 tr3 q e3
            F eq_refl Top Se X1 Y1 O2 Stb (no_role_every _ N1 N2) X3 Y3 B).
  intros m0 s tr' s' h R M _. exact (in_memory_mem _ _ _ R m0 h M).
Qed.
Print Assumptions C49_restart_restores_partial.

(** Two sessions; the last one updates and looks for a delegated target. *)
Definition restart_first := drive 50 ephemeral_new remote1 c50 (construct Ec default_config 9 (FromRoot "root1")).
Definition restart_again := drive 50 local_updated remote1 c50 (construct Ec default_config 9 (FromRoot "root1")).
Definition t_again : tuf := match result_of restart_again (Err NotFound) with Ok t => t | Err _ => tuf_of_root root1 end.
Definition update_again :=
  drive 50 (snd (fst restart_again)) remote1 c50 (update Ec default_config 9 t_again).
Definition t_again' : tuf := fst (result_of update_again (t_again, Err NotFound)).
Definition look :=
  drive 50 (snd (fst update_again)) remote1 c50 (call_prog Ec default_config 9 t_again' (CallDescription "a/x")).
Definition restart_last := drive 50 (snd (fst look)) remote1 c50 (construct Ec default_config 9 (FromRoot "root1")).

Lemma drive_run {A} n l r c (p : prog A) q : snd (drive n l r c p) = q ->
  exec p (fst (fst (drive n l r c p))) q /\ in_memory l (fst (fst (drive n l r c p))) (snd (fst (drive n l r c p))).
Proof. intros <-. destruct (drive n l r c p) as [[tr l'] q'] eqn:H. exact (drive_exec n l r c p tr l' q' H). Qed.

Definition described_once (ds dg : meta_desc) (e : event) : Prop :=
  match e with
  | EvPut t => match t_timestamp t with Some ts => tm_snapshot ts = ds | None => True end /\
               match t_snapshot t with
               | Some s => match lookup "targets" (sm_meta s) with Some d => d = dg | None => True end
               | None => True end
  | _ => True
  end.
Lemma described_once_stable ds dg tr : Forall (described_once ds dg) tr -> stable_descriptions tr.
Proof.
  rewrite Forall_forall. intros H. split.
  - intros t1 t2 ts1 ts2 I1 I2 Q1 Q2 _. apply H in I1 as [I1 _], I2 as [I2 _]. rewrite Q1 in I1. rewrite Q2 in I2. congruence.
  - intros t1 t2 s1 s2 d1 d2 I1 I2 Q1 Q2 L1 L2 _. apply H in I1 as [_ I1], I2 as [_ I2].
    rewrite Q1, L1 in I1. rewrite Q2, L2 in I2. congruence.
Qed.

Definition delegates_to (names : list string) (g : targets_metadata) : Prop :=
  match tg_delegations g with Some ds => Forall (fun d => In (dg_role d) names) (dgs_roles ds) | None => True end.
Definition delegating (names : list string) (e : event) : Prop :=
  match e with
  | EvPut t => match t_targets t with Some g => delegates_to names g | None => True end /\
               Forall (fun x => delegates_to names (snd x)) (t_delegations t)
  | _ => True
  end.
Lemma delegating_no_role names n tr : ~ In n names -> Forall (delegating names) tr -> no_role_named n tr.
Proof.
  rewrite Forall_forall. intros N H t tg ds d I K Q D Hn. apply H in I as [I1 I2]. apply N. rewrite <- Hn.
  assert (X : delegates_to names tg).
  { destruct K as [K|(r & K)]; [now rewrite K in I1|]. apply lookup_In in K. rewrite Forall_forall in I2.
    exact (I2 _ K). }
  unfold delegates_to in X. rewrite Q in X. rewrite Forall_forall in X. now apply X.
Qed.

Definition sessions_trace : list event :=
  (fst (fst started) ++ fst (fst updated)) ++ fst (fst restart_again).
Lemma sessions_toy : sessions in_memory Ec default_config 9 "root1" ephemeral_new sessions_trace t_again (snd (fst restart_again)).
Proof.
  destruct updated_ok as (E1 & E2 & _). destruct (drive_run _ _ _ _ _ _ E1) as [X1 Y1].
  destruct (drive_run _ _ _ _ _ _ E2) as [X2 Y2].
  assert (E3 : snd restart_again = Ret (Ok t_again)) by (vm_compute; reflexivity).
  destruct (drive_run _ _ _ _ _ _ E3) as [X3 Y3].
  eapply session_next; [|exact X3|exact Y3].
  eapply session_update; [|exact X2|exact Y2].
  apply session_first; [exact X1|exact Y1].
Qed.

Example C49_restart_case :
  from_trusted_root Ec "root1" = Ok (tuf_of_root root1) /\
  sessions in_memory Ec default_config 9 "root1" ephemeral_new sessions_trace t_again (snd (fst restart_again)) /\
  snd update_again = Ret (t_again', Ok false) /\
  other_calls in_memory Ec default_config 9 t_again' (snd (fst update_again)) (fst (fst look))
    (tuf_after t_again' (fst (fst look))) (snd (fst look)) /\
  stable_descriptions (sessions_trace ++ fst (fst update_again) ++ fst (fst look)) /\
  no_role_named "timestamp" (sessions_trace ++ fst (fst update_again) ++ fst (fst look)) /\
  no_role_named "targets" (sessions_trace ++ fst (fst update_again) ++ fst (fst look)) /\
  before_expiry t_again' c50 /\
  (* the theorem applies: what comes back is *)
  snd restart_last = Ret (Ok (mkTuf root2 (t_snapshot t_updated) (Some ctargets1) (t_timestamp t_updated) [])) /\
  (* while the delegation found in between is cached, too *)
  lookup "alice" (t_delegations (tuf_after t_again' (fst (fst look)))) = Some calice1 /\
  lookup ("alice", VNone) (ep_metadata (snd (fst look))) = Some "alice1".
Proof.
  split; [vm_compute; reflexivity|]. split; [exact sessions_toy|]. split; [vm_compute; reflexivity|].
  split. { rewrite <- (app_nil_r (fst (fst look))) at 1.
           eapply one_call with (k := CallDescription "a/x"); [discriminate|
             exact (proj1 (drive_run _ _ _ _ _ _ eq_refl))|exact (proj2 (drive_run _ _ _ _ _ _ eq_refl))|constructor]. }
  split. { apply described_once_stable with (ds := mdesc 1 "snap1") (dg := mdesc 1 "targets1").
           vm_compute. repeat constructor. }
  split. { apply delegating_no_role with (names := ["alice"; "bob"]); [cbn; intuition discriminate|].
           vm_compute. repeat first [left; reflexivity|right; left; reflexivity|constructor]. }
  split. { apply delegating_no_role with (names := ["alice"; "bob"]); [cbn; intuition discriminate|].
           vm_compute. repeat first [left; reflexivity|right; left; reflexivity|constructor]. }
  split. { intros n [<-|[<-|[<-|[<-|[<-|[]]]]]]; vm_compute; (split; [reflexivity|]);
           repeat split; intros x Q; inversion Q; reflexivity. }
  vm_compute. repeat split; reflexivity.
Qed.

(** ** What the full statement misses *)

Lemma all_before_expiry t1 c0 tr : before_expiry t1 c0 ->
  Forall (fun e => match e with EvNow c => c = c0 | _ => True end) tr ->
  forall c, In (EvNow c) tr -> before_expiry t1 c.
Proof. rewrite Forall_forall. intros B H c I. apply H in I. now subst. Qed.

(** (1) A new timestamp that describes the trusted version of the snapshot in another
    way is accepted by [update], which keeps the snapshot; a restart does not find it. *)
Definition remote_other : ephemeral := served "root2" "ts2-other".
Definition updated_other := drive 50 local_updated remote_other c50 (update Ec default_config 9 t_updated).
Definition t_other : tuf := fst (result_of updated_other (t_updated, Err NotFound)).
Definition restart_other :=
  drive 50 (snd (fst updated_other)) remote_other c50 (construct Ec default_config 9 (FromRoot "root1")).

Theorem C49_described_anew_refuted :
  exists E cfg fuel raw tr t e tr1 t1 e1 tr3 t3 e3,
    sessions in_memory E cfg fuel raw ephemeral_new tr t e /\
    exec (update E cfg fuel t) tr1 (Ret (t1, Ok true)) /\ in_memory e tr1 e1 /\
    exec (construct E cfg fuel (FromRoot raw)) tr3 (Ret (Ok t3)) /\ in_memory e1 tr3 e3 /\
    (forall c, In (EvNow c) tr3 -> before_expiry t1 c) /\
    t_root t3 = t_root t1 /\ t_timestamp t3 = t_timestamp t1 /\
    t_snapshot t1 <> None /\ t_targets t1 <> None /\ t_snapshot t3 = None /\ t_targets t3 = None.
Proof.
  destruct updated_ok as (E1 & E2 & _). destruct (drive_run _ _ _ _ _ _ E1) as [X1 Y1].
  destruct (drive_run _ _ _ _ _ _ E2) as [X2 Y2].
  assert (E3 : snd updated_other = Ret (t_other, Ok true)) by (vm_compute; reflexivity).
  destruct (drive_run _ _ _ _ _ _ E3) as [X3 Y3].
  assert (E4 : snd restart_other = Ret (Ok (mkTuf root2 None None (t_timestamp t_other) []))) by (vm_compute; reflexivity).
  destruct (drive_run _ _ _ _ _ _ E4) as [X4 Y4].
  exists Ec, default_config, 9%nat, "root1", (fst (fst started) ++ fst (fst updated)), t_updated, local_updated,
    (fst (fst updated_other)), t_other, (snd (fst updated_other)), (fst (fst restart_other)),
    (mkTuf root2 None None (t_timestamp t_other) []), (snd (fst restart_other)).
  split. { eapply session_update; [|exact X2|exact Y2]. apply session_first; [exact X1|exact Y1]. }
  split; [exact X3|]. split; [exact Y3|]. split; [exact X4|]. split; [exact Y4|].
  split. { apply all_before_expiry with (c0 := c50).
    - intros n [<-|[<-|[<-|[<-|[<-|[]]]]]]; vm_compute; (split; [reflexivity|]);
           repeat split; intros x Q; inversion Q; reflexivity.
    - vm_compute. repeat constructor. }
  split; [vm_compute; reflexivity|]. split; [vm_compute; reflexivity|]. split; [vm_compute; discriminate|].
  split; [vm_compute; discriminate|]. split; reflexivity.
Qed.
Print Assumptions C49_described_anew_refuted.

Lemma in_memory_trans e1 tr1 e2 tr2 e3 : in_memory e1 tr1 e2 -> in_memory e2 tr2 e3 -> in_memory e1 (tr1 ++ tr2) e3.
Proof. induction 1; cbn; auto. intros. econstructor; eauto. Qed.
Lemma forget_run p tr (q : prog (tuf * result bool)) : exec p tr q -> exists q', exec (forget p) tr q'.
Proof.
  unfold forget. induction 1; cbn [bind];
    try (destruct IHexec as [q' X]; exists q'; constructor; exact X). eexists. apply exec_here.
Qed.

(** (2) The future of an [update] dropped between the acceptance of a root and its
    storing: later updates succeed, but a restart stops at the old root. *)
Definition dropped := drive 2 (snd (fst started)) remote1 c50 (update Ec default_config 9 t_started).
Definition t_dropped : tuf := tuf_after t_started (fst (fst dropped)).
Definition after_drop := drive 50 (snd (fst dropped)) remote1 c50 (update Ec default_config 9 t_dropped).
Definition t_after_drop : tuf := fst (result_of after_drop (t_dropped, Err NotFound)).
Definition restart_drop :=
  drive 50 (snd (fst after_drop)) remote1 c50 (construct Ec default_config 9 (FromRoot "root1")).
Definition t_restart_drop : tuf := match result_of restart_drop (Err NotFound) with Ok t => t | Err _ => t_started end.

Theorem C49_dropped_update_refuted :
  exists E cfg fuel raw tr t e tr1 t1 e1 tr3 t3 e3,
    life E cfg fuel (FromRoot raw) tr t /\ in_memory ephemeral_new tr e /\
    exec (update E cfg fuel t) tr1 (Ret (t1, Ok true)) /\ in_memory e tr1 e1 /\
    exec (construct E cfg fuel (FromRoot raw)) tr3 (Ret (Ok t3)) /\ in_memory e1 tr3 e3 /\
    (forall c, In (EvNow c) tr3 -> before_expiry t1 c) /\
    stable_descriptions (tr ++ tr1) /\ no_role_named "timestamp" (tr ++ tr1) /\ no_role_named "targets" (tr ++ tr1) /\
    rm_version (t_root t1) = 2 /\ rm_version (t_root t3) = 1.
Proof.
  destruct updated_ok as (E1 & _). destruct (drive_run _ _ _ _ _ _ E1) as [X1 Y1].
  destruct (drive_run _ _ _ _ _ _ (eq_refl (snd dropped))) as [X2 Y2].
  assert (E3 : snd after_drop = Ret (t_after_drop, Ok true)) by (vm_compute; reflexivity).
  destruct (drive_run _ _ _ _ _ _ E3) as [X3 Y3].
  assert (E4 : snd restart_drop = Ret (Ok t_restart_drop)) by (vm_compute; reflexivity).
  destruct (drive_run _ _ _ _ _ _ E4) as [X4 Y4].
  destruct (forget_run _ _ _ X2) as [q2 X2'].
  exists Ec, default_config, 9%nat, "root1", (fst (fst started) ++ fst (fst dropped)), t_dropped, (snd (fst dropped)),
    (fst (fst after_drop)), t_after_drop, (snd (fst after_drop)), (fst (fst restart_drop)),
    t_restart_drop, (snd (fst restart_drop)).
  split. { eapply life_call with (k := CallUpdate); [apply life_new; exact X1|exact X2']. }
  split. { exact (in_memory_trans _ _ _ _ _ Y1 Y2). }
  split; [exact X3|]. split; [exact Y3|]. split; [exact X4|]. split; [exact Y4|].
  split. { apply all_before_expiry with (c0 := c50).
    - intros n [<-|[<-|[<-|[<-|[<-|[]]]]]]; vm_compute; (split; [reflexivity|]);
           repeat split; intros x Q; inversion Q; reflexivity.
    - vm_compute. repeat constructor. }
  split. { apply described_once_stable with (ds := mdesc 1 "snap1") (dg := mdesc 1 "targets1").
           vm_compute. repeat constructor. }
  split. { apply delegating_no_role with (names := ["alice"; "bob"]); [cbn; intuition discriminate|].
           vm_compute. repeat first [left; reflexivity|right; left; reflexivity|constructor]. }
  split. { apply delegating_no_role with (names := ["alice"; "bob"]); [cbn; intuition discriminate|].
           vm_compute. repeat first [left; reflexivity|right; left; reflexivity|constructor]. }
  split; vm_compute; reflexivity.
Qed.
Print Assumptions C49_dropped_update_refuted.

(** (3) A delegated role named "timestamp": looking for a target stores its metadata over
    the cached timestamp. *)
Definition trepo : toydb :=
  [ ("root1", (["kr1"; "kr2"], DRoot root1));
    ("ts1", (["kt"], DTimestamp (mkTimestamp 1 300 (mdesc 1 "snap1"))));
    ("snap1", (["ks"], DSnapshot (mkSnapshot 1 600 [("targets", mdesc 1 "targets1"); ("timestamp", mdesc 1 "evil1")])));
    ("targets1", (["kg"], DTargets (mkTargets 1 500 []
        (Some (mkDelegations (keys_of_names ["kd"]) [deleg "timestamp" false ["kd"] ["a/"]])))));
    ("evil1", (["kd"], DTargets (mkTargets 1 400 [] None))) ].
Definition Et : env := toy_env trepo.
Definition tremote : ephemeral :=
  mkEphemeral [(("timestamp", VNone), "ts1"); (("snapshot", VNone), "snap1"); (("targets", VNone), "targets1")] [].
(* the remote repository serves the delegated role while the target is looked for *)
Definition tremote' : ephemeral := mkEphemeral [(("timestamp", VNone), "evil1")] [].
Definition tstart := drive 50 ephemeral_new tremote c50 (construct Et default_config 9 (FromRoot "root1")).
Definition tupdate := drive 50 (snd (fst tstart)) tremote c50 (update Et default_config 9 (tuf_of_root root1)).
Definition t_tupdate : tuf := fst (result_of tupdate (tuf_of_root root1, Err NotFound)).
Definition tlook :=
  drive 50 (snd (fst tupdate)) tremote' c50 (call_prog Et default_config 9 t_tupdate (CallDescription "a/x")).
Definition trestart := drive 50 (snd (fst tlook)) tremote c50 (construct Et default_config 9 (FromRoot "root1")).

Theorem C49_role_named_timestamp_refuted :
  exists E cfg fuel raw tr t e tr1 t1 e1 tr2 t2 e2 tr3 t3 e3,
    sessions in_memory E cfg fuel raw ephemeral_new tr t e /\
    exec (update E cfg fuel t) tr1 (Ret (t1, Ok true)) /\ in_memory e tr1 e1 /\
    other_calls in_memory E cfg fuel t1 e1 tr2 t2 e2 /\
    exec (construct E cfg fuel (FromRoot raw)) tr3 (Ret (Ok t3)) /\ in_memory e2 tr3 e3 /\
    (forall c, In (EvNow c) tr3 -> before_expiry t1 c) /\
    stable_descriptions (tr ++ tr1 ++ tr2) /\ no_role_named "targets" (tr ++ tr1 ++ tr2) /\
    t_timestamp t1 <> None /\ t_timestamp t3 = None.
Proof.
  assert (E1 : snd tstart = Ret (Ok (tuf_of_root root1))) by (vm_compute; reflexivity).
  destruct (drive_run _ _ _ _ _ _ E1) as [X1 Y1].
  assert (E2 : snd tupdate = Ret (t_tupdate, Ok true)) by (vm_compute; reflexivity).
  destruct (drive_run _ _ _ _ _ _ E2) as [X2 Y2].
  destruct (drive_run _ _ _ _ _ _ (eq_refl (snd tlook))) as [X3 Y3].
  assert (E4 : snd trestart = Ret (Ok (tuf_of_root root1))) by (vm_compute; reflexivity).
  destruct (drive_run _ _ _ _ _ _ E4) as [X4 Y4].
  exists Et, default_config, 9%nat, "root1", (fst (fst tstart)), (tuf_of_root root1), (snd (fst tstart)),
    (fst (fst tupdate)), t_tupdate, (snd (fst tupdate)), (fst (fst tlook)), (tuf_after t_tupdate (fst (fst tlook))),
    (snd (fst tlook)), (fst (fst trestart)), (tuf_of_root root1), (snd (fst trestart)).
  split. { apply session_first; [exact X1|exact Y1]. }
  split; [exact X2|]. split; [exact Y2|].
  split. { rewrite <- (app_nil_r (fst (fst tlook))) at 1.
           eapply one_call with (k := CallDescription "a/x"); [discriminate|exact X3|exact Y3|constructor]. }
  split; [exact X4|]. split; [exact Y4|].
  split. { apply all_before_expiry with (c0 := c50).
    - intros n [<-|[<-|[<-|[<-|[<-|[]]]]]]; vm_compute; (split; [reflexivity|]);
           repeat split; intros x Q; inversion Q; reflexivity.
    - vm_compute. repeat constructor. }
  split. { apply described_once_stable with (ds := mdesc 1 "snap1") (dg := mdesc 1 "targets1").
           vm_compute. repeat constructor. }
  split. { apply delegating_no_role with (names := ["timestamp"]); [cbn; intuition discriminate|].
           vm_compute. repeat first [left; reflexivity|constructor]. }
  split; [vm_compute; discriminate|reflexivity].
Qed.
Print Assumptions C49_role_named_timestamp_refuted.

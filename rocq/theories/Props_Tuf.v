(** * C06-C22: the trusted-metadata state machine *)
From Coq Require Import String List NArith ZArith Bool Lia.
From Verif Require Import Base BaseFacts Metadata Verify Paths Tuf SpecVerify SpecTuf VerifyProofs
     TufProofs TufHistory Toy.
Import ListNotations.
Open Scope string_scope.
Open Scope list_scope.
Open Scope N_scope.

(** ** C06: the initial root *)

Theorem C06_initial_root_pinned_keys :
  forall (E : env) (raw : bytes) (th : N) (keys : list public_key) (t : tuf),
  from_root_with_trusted_keys E raw th keys = Ok t <->
  exists root, authentic E Root raw th keys root /\ trusted_by E root Root raw root /\
               t = mkTuf root None None None [].
Proof. exact from_keys_iff. Qed.
Print Assumptions C06_initial_root_pinned_keys.

Example C06_case_pinned :
  from_root_with_trusted_keys E0 "root1" 1 [toy_key "kr1"] = Ok t0 /\
  from_root_with_trusted_keys E0 "root1" 1 [toy_key "other"] = Err VerificationFailure.
Proof. vm_compute. split; reflexivity. Qed.

Theorem C06_initial_root_self_signed :
  forall (E : env) (raw : bytes) (t : tuf), faithful (e_ic E) ->
  (from_trusted_root E raw = Ok t <->
   exists root, trusted_by E root Root raw root /\ t = mkTuf root None None None []).
Proof.
  intros E raw t F. rewrite from_trusted_iff. split.
  - intros (sigs & signed & claimed & root & H1 & H2 & T & ->).
    assert (root = claimed) as ->; [|eauto].
    destruct T as (_ & s & g & msg & A1 & A2 & _ & A3).
    rewrite H1 in A1. inversion A1; subst. rewrite (F Root _ _ _ _ H1 A2) in A3. congruence.
  - intros (root & T & ->). pose proof T as (_ & s & g & msg & A1 & A2 & _ & A3).
    rewrite (F Root _ _ _ _ A1 A2) in A3. exists s, g, root, root. auto.
Qed.
Print Assumptions C06_initial_root_self_signed.

Lemma toy_faithful db : faithful (toy_ic db).
Proof. intros r b sigs raw msg _ H. inversion H. reflexivity. Qed.
Example C06_case_self_signed :
  from_trusted_root E0 "root1" = Ok t0 /\ from_trusted_root E0 "root2-unsigned" = Ok (tuf_of_root root2) /\
  from_trusted_root (toy_env [("r", (["kr1"], DRoot root1))]) "r" = Err VerificationFailure.
Proof. vm_compute. repeat split; reflexivity. Qed.

(** ** C07, C08, C09: root updates *)

Theorem C07_root_chain_of_trust :
  forall (E : env) (t : tuf) (ops : list op),
  exists n, root_chain E n (t_root t) (t_root (run E t ops)) /\
            rm_version (t_root (run E t ops)) = rm_version (t_root t) + N.of_nat n.
Proof.
  intros E t ops. destruct (run_chain E ops t) as (n & C). exists n. split; auto. now apply chain_version in C.
Qed.
Print Assumptions C07_root_chain_of_trust.

Example C07_case :
  rm_version (t_root (run E0 t0 [OpRoot "root2-unsigned"; OpTimestamp c50 "ts1"; OpRoot "root2"; OpRoot "root1"])) = 2
  /\ root_chain E0 1 root1 root2.
Proof.
  split; [vm_compute; reflexivity|].
  assert (H : update_root E0 t0 "root2" = (tuf_of_root root2, Ok tt)) by (vm_compute; reflexivity).
  apply update_root_ok in H as (new & S & E1). inversion E1; subst.
  econstructor; [constructor|exact S].
Qed.

Theorem C08_root_version_plus_one :
  forall (E : env) (t : tuf) (raw : bytes),
  (forall t', update_root E t raw = (t', Ok tt) ->
     rm_version (t_root t') = rm_version (t_root t) + 1 /\ rm_version (t_root t) < u32_max) /\
  (forall ops, rm_version (t_root t) <= rm_version (t_root (run E t ops))).
Proof.
  intros E t raw. split.
  - intros t' H. apply update_root_ok in H as (new & (_ & _ & V & B) & ->). auto.
  - intros ops. apply run_root_version.
Qed.
Print Assumptions C08_root_version_plus_one.

Example C08_case :
  snd (update_root E0 t0 "root2") = Ok tt /\
  (* the same root again, and a root that skips a version, are refused *)
  snd (update_root E0 t0 "root1") = Err VerificationFailure /\
  snd (update_root (toy_env [("r3", (["kr1"; "kr2"],
        DRoot (mkRoot 3 1000 false (rm_keys root1) (rm_root root1) (rm_snapshot root1) (rm_targets root1)
                      (rm_timestamp root1))))]) t0 "r3") = Err VerificationFailure.
Proof. vm_compute. repeat split; reflexivity. Qed.

Theorem C09_root_update_purges :
  forall (E : env) (t t' : tuf) (raw : bytes) (res : result unit),
  update_root E t raw = (t', res) ->
  match res with
  | Ok _ => exists new, root_step E (t_root t) raw new /\ t_root t' = new /\
              t_timestamp t' = None /\ t_snapshot t' = None /\ t_targets t' = None /\ t_delegations t' = []
  | Err _ => t' = t /\ forall new, ~ root_step E (t_root t) raw new
  end.
Proof.
  intros E t t' raw [[]|e] H.
  - apply update_root_ok in H as (new & S & ->). exists new. auto 10.
  - pose proof (update_root_err _ _ _ _ _ H) as ->. split; auto. intros new S.
    assert (update_root E t raw = (mkTuf new None None None [], Ok tt)) by (apply update_root_ok; eauto).
    congruence.
Qed.
Print Assumptions C09_root_update_purges.

(** A fully populated state. *)
Definition full_ops : list op :=
  [OpTimestamp c50 "ts1"; OpSnapshot c50 "snap1"; OpTargets c50 "targets1"; OpDelegation c50 "targets" "alice" "alice1"].
Definition t_full : tuf := run E0 t0 full_ops.
Example t_full_populated :
  t_timestamp t_full <> None /\ t_snapshot t_full <> None /\ t_targets t_full = Some targets1 /\
  lookup "alice" (t_delegations t_full) = Some alice1.
Proof. vm_compute. repeat split; discriminate. Qed.
Example C09_case : fst (update_root E0 t_full "root2") = tuf_of_root root2.
Proof. vm_compute. reflexivity. Qed.

(** ** C10, C11: failed updates *)

Theorem C10_failed_updates_change_nothing :
  forall (E : env) (t : tuf) (o : op),
  (forall c raw, o <> OpTimestamp c raw) ->
  snd (step E t o) <> Ok true -> fst (step E t o) = t.
Proof.
  intros E t o NT F. destruct o as [raw|c raw|c raw|c raw|c p r raw]; cbn in *.
  - destruct (update_root E t raw) as [t' [[]|e]] eqn:H; cbn in *; [congruence|]. now apply update_root_err in H.
  - now destruct (NT c raw).
  - destruct (update_snapshot E t c raw) as [t' res] eqn:H; cbn in *. apply update_snapshot_inv in H.
    destruct res as [[]|e]; [congruence|apply H|apply H].
  - destruct (update_targets E t c raw) as [t' res] eqn:H; cbn in *. apply update_targets_inv in H.
    destruct res as [[]|e]; [congruence|apply H|apply H].
  - destruct (update_delegation E t c p r raw) as [t' res] eqn:H; cbn in *. apply update_delegation_inv in H.
    destruct res as [[]|e]; [congruence|apply H|apply H].
Qed.
Print Assumptions C10_failed_updates_change_nothing.

Example C10_case :
  snd (step E0 t_full (OpTargets c50 "targets2-expired")) = Ok false /\
  snd (step E0 t_full (OpRoot "root2-unsigned")) = Err VerificationFailure /\
  snd (step E0 t_full (OpDelegation c50 "targets" "bob" "alice1")) = Err VerificationFailure.
Proof. vm_compute. repeat split; reflexivity. Qed.

(** C11 is false: an expired timestamp with a higher version is reported as an
    error, yet the trusted snapshot is gone. *)
Theorem C11_failed_timestamp_update_refuted :
  exists (E : env) (t t' : tuf) (c : clock) (raw : bytes) (e : error),
    reachable E t /\ update_timestamp E t c raw = (t', Err e) /\ t' <> t /\
    t_snapshot t <> None /\ t_snapshot t' = None.
Proof.
  exists E0, t_full, (fst (update_timestamp E0 t_full c50 "ts4-expired")), c50, "ts4-expired",
    (ExpiredMetadata Timestamp).
  split; [|vm_compute; repeat split; discriminate].
  exists t0, full_ops. split; [|reflexivity]. left. exists "root1", 1, [toy_key "kr1"]. vm_compute. reflexivity.
Qed.
Print Assumptions C11_failed_timestamp_update_refuted.

(** What does hold: only the snapshot can be lost, only through a correctly
    signed, newer, expired timestamp that lists another snapshot version. *)
Theorem C11_failed_timestamp_update_partial :
  forall (E : env) (t t' : tuf) (c : clock) (raw : bytes) (e : error),
  update_timestamp E t c raw = (t', Err e) ->
  t' = t \/
  (t' = mkTuf (t_root t) None (t_targets t) (t_timestamp t) (t_delegations t) /\
   e = ExpiredMetadata Timestamp /\
   exists new, trusted_by E (t_root t) Timestamp raw new /\
     timestamp_version t < tm_version new /\ ~ fresh (tm_expires new) (at_new c) /\
     snapshot_version t <> md_version (tm_snapshot new)).
Proof.
  intros E t t' c raw e H. apply update_timestamp_inv in H as (H1 & H2 & H3 & H4 & H5 & [H6|(H6 & H7 & H8)]); auto.
  right. split; auto. destruct t'; cbn in *. congruence.
Qed.
Print Assumptions C11_failed_timestamp_update_partial.

Example C11_case_unchanged :
  update_timestamp E0 (run E0 t0 [OpTimestamp c50 "ts2"]) c50 "ts1"
  = (run E0 t0 [OpTimestamp c50 "ts2"], Err VerificationFailure).
Proof. vm_compute. reflexivity. Qed.

(** ** C12: timestamps never go back *)

Theorem C12_timestamp_rollback :
  forall (E : env) (t : tuf),
  (forall ops, rm_version (t_root (run E t ops)) = rm_version (t_root t) ->
     timestamp_version t <= timestamp_version (run E t ops)) /\
  (forall c raw new, trusted_by E (t_root t) Timestamp raw new -> tm_version new = timestamp_version t ->
     update_timestamp E t c raw = (t, Ok None)) /\
  (forall c raw new, trusted_by E (t_root t) Timestamp raw new -> tm_version new < timestamp_version t ->
     update_timestamp E t c raw = (t, Err VerificationFailure)) /\
  (forall c raw new t', update_timestamp E t c raw = (t', Ok (Some new)) <->
     timestamp_acceptable E t c raw new /\
     t' = mkTuf (t_root t)
            (if snapshot_version t =? md_version (tm_snapshot new) then t_snapshot t else None)
            (t_targets t) (Some new) (t_delegations t)).
Proof.
  intros E t. split; [intros ops; apply run_timestamp_version|].
  split; [intros c raw new; apply update_timestamp_spec|].
  split; [intros c raw new; apply update_timestamp_spec|].
  intros c raw new t'. split.
  - intros H. apply update_timestamp_inv in H as (H1 & H2 & H3 & H4 & H5 & H6 & H7).
    split; auto. destruct t'; cbn in *. congruence.
  - intros (A & ->). apply update_timestamp_spec in A as (t' & H & H1 & H2 & H3 & H4 & H5).
    rewrite H. f_equal. destruct t'; cbn in *. congruence.
Qed.
Print Assumptions C12_timestamp_rollback.

Example C12_case :
  timestamp_version (run E0 t0 [OpTimestamp c50 "ts2"; OpTimestamp c50 "ts1"; OpSnapshot c50 "snap2"]) = 2 /\
  snd (update_timestamp E0 t_full c50 "ts1") = Ok None /\
  snd (update_timestamp E0 (run E0 t0 [OpTimestamp c50 "ts2"]) c50 "ts1") = Err VerificationFailure /\
  is_ok (snd (update_timestamp E0 t_full c50 "ts2")) = true.
Proof. vm_compute. repeat split; reflexivity. Qed.

(** ** C13, C14, C15: exact acceptance *)

Theorem C13_snapshot_acceptance :
  forall (E : env) (t : tuf) (c : clock) (raw : bytes),
  (snd (update_snapshot E t c raw) = Ok true <-> exists new, snapshot_acceptable E t c raw new) /\
  (forall new, snapshot_acceptable E t c raw new ->
     let t' := fst (update_snapshot E t c raw) in
     t_snapshot t' = Some new /\ t_root t' = t_root t /\ t_timestamp t' = t_timestamp t /\
     t_targets t' = (if targets_version t =? ver md_version (lookup "targets" (sm_meta new))
                     then t_targets t else None) /\
     forall r, lookup r (t_delegations t') =
       match lookup r (t_delegations t) with
       | None => None
       | Some d => if existsb (fun e => String.eqb r (fst e) && (md_version (snd e) <? tg_version d)) (sm_meta new)
                   then None else Some d
       end).
Proof.
  intros E t c raw. destruct (update_snapshot E t c raw) as [t' res] eqn:H. cbn.
  apply update_snapshot_inv in H. destruct res as [[]|e].
  - destruct H as (new & A & I). split; [split; eauto|].
    intros new' A'. assert (new' = new) as ->.
    { destruct A as (_ & ts & _ & _ & _ & T & _), A' as (_ & ts' & _ & _ & _ & T' & _).
      exact (authentic_fun E Snapshot raw _ _ _ _ _ _ T' T). }
    destruct I as (I1 & I2 & I3 & I4 & I5). auto.
  - destruct H as (-> & F & ts & Hts & F2 & Ev).
    assert (N : forall new, ~ snapshot_acceptable E t c raw new).
    { intros new (_ & ts' & Hts' & _ & L & _). rewrite Hts in Hts'. inversion Hts'; subst. lia. }
    split; [split; [discriminate|]|]; [intros (new & A)|intros new A]; now apply N in A.
  - destruct H as (-> & N). split; [split; [discriminate|]|]; [intros (new & A)|intros new A]; now apply N in A.
Qed.
Print Assumptions C13_snapshot_acceptance.

Example C13_case :
  snd (update_snapshot E0 (run E0 t0 [OpTimestamp c50 "ts1"]) c50 "snap1") = Ok true /\
  (* a snapshot of another version than listed *)
  snd (update_snapshot E0 (run E0 t0 [OpTimestamp c50 "ts1"]) c50 "snap2") = Err VerificationFailure /\
  (* a new snapshot drops the targets of another version but keeps the delegation *)
  (let t := run E0 t_full [OpTimestamp c50 "ts2"; OpSnapshot c50 "snap2"] in
   t_targets t = None /\ lookup "alice" (t_delegations t) = Some alice1).
Proof. vm_compute. repeat split; reflexivity. Qed.

Theorem C14_targets_acceptance :
  forall (E : env) (t : tuf) (c : clock) (raw : bytes),
  (snd (update_targets E t c raw) = Ok true <-> exists new, targets_acceptable E t c raw new) /\
  (forall new, targets_acceptable E t c raw new ->
     fst (update_targets E t c raw) =
     mkTuf (t_root t) (t_snapshot t) (Some new) (t_timestamp t) (t_delegations t)).
Proof.
  intros E t c raw. destruct (update_targets E t c raw) as [t' res] eqn:H. cbn.
  apply update_targets_inv in H. destruct res as [[]|e].
  - destruct H as (new & A & ->). split; [split; eauto|].
    intros new' A'. assert (new' = new) as ->; auto.
    destruct A as (_ & s & d & _ & _ & _ & _ & T & _), A' as (_ & s' & d' & _ & _ & _ & _ & T' & _).
    exact (authentic_fun E Targets raw _ _ _ _ _ _ T' T).
  - destruct H as (-> & F & s & desc & Hs & F2 & Ld & Ev).
    assert (N : forall new, ~ targets_acceptable E t c raw new).
    { intros new (_ & s' & d' & Hs' & _ & Ld' & L & _). rewrite Hs in Hs'. inversion Hs'; subst.
      rewrite Ld in Ld'. inversion Ld'; subst. lia. }
    split; [split; [discriminate|]|]; [intros (new & A)|intros new A]; now apply N in A.
  - destruct H as (-> & N). split; [split; [discriminate|]|]; [intros (new & A)|intros new A]; now apply N in A.
Qed.
Print Assumptions C14_targets_acceptance.

Example C14_case :
  let t := run E0 t0 [OpTimestamp c50 "ts1"; OpSnapshot c50 "snap1"] in
  snd (update_targets E0 t c50 "targets1") = Ok true /\
  snd (update_targets E0 t c50 "targets2") = Err VerificationFailure /\
  snd (update_targets E0 t c50 "alice1") = Err VerificationFailure /\
  snd (update_targets E0 t (now 600) "targets1") = Err (ExpiredMetadata Snapshot).
Proof. vm_compute. repeat split; reflexivity. Qed.

Lemma trusted_parent_fun t p a b : trusted_parent t p a -> trusted_parent t p b -> a = b.
Proof. intros [[-> H]|[N H]] [[E H']|[N' H']]; congruence. Qed.

Lemma first_delegation_fun l r a b : first_delegation l r a -> first_delegation l r b -> a = b.
Proof.
  intros (l1 & l2 & -> & Ea & Na) (l1' & l2' & Eq & Eb & Nb). revert l1' Eq Nb.
  induction l1 as [|x l1 IH]; intros [|y l1'] Eq Nb; cbn in Eq; inversion Eq; subst; auto.
  - exfalso. apply (Nb y); [now left|reflexivity].
  - exfalso. apply (Na b); [now left|exact Eb].
  - apply (IH (fun d' I => Na d' (or_intror I)) l1'); auto. intros d' I. apply Nb. now right.
Qed.

Theorem C15_delegation_acceptance :
  forall (E : env) (t : tuf) (c : clock) (parent r : string) (raw : bytes),
  (snd (update_delegation E t c parent r raw) = Ok true <->
     exists new, delegation_acceptable E t c parent r raw new) /\
  (forall new, delegation_acceptable E t c parent r raw new ->
     let t' := fst (update_delegation E t c parent r raw) in
     t_root t' = t_root t /\ t_snapshot t' = t_snapshot t /\ t_targets t' = t_targets t /\
     t_timestamp t' = t_timestamp t /\
     forall r', lookup r' (t_delegations t') = if String.eqb r' r then Some new else lookup r' (t_delegations t)).
Proof.
  intros E t c parent r raw. destruct (update_delegation E t c parent r raw) as [t' res] eqn:H. cbn [fst snd].
  apply update_delegation_inv in H. destruct res as [[]|e].
  - destruct H as (new & A & ->). split; [split; eauto|].
    intros new' A'. assert (new' = new) as ->.
    { destruct A as (d & (_ & s & g & p & _ & _ & _ & _ & _ & _ & Hp & ds & dg & Hd & Hf & T) & _).
      destruct A' as (d' & (_ & s' & g' & p' & _ & _ & _ & _ & _ & _ & Hp' & ds' & dg' & Hd' & Hf' & T') & _).
      exact (authentic_fun E Targets raw _ _ _ _ _ _ T' T). }
    cbn [t_root t_snapshot t_targets t_timestamp t_delegations]. do 4 (split; auto).
    intros r'. rewrite lookup_insert. reflexivity.
  - destruct H as (-> & new & desc & (_ & s & g & p & Hs & _ & _ & _ & _ & Ld & _) & Ev).
    assert (N : forall new, ~ delegation_acceptable E t c parent r raw new).
    { intros new' (d' & (_ & s' & g' & p' & Hs' & _ & _ & _ & _ & Ld' & _) & L & _).
      rewrite Hs in Hs'. inversion Hs'; subst. rewrite Ld in Ld'. inversion Ld'; subst. lia. }
    split; [split; [discriminate|]|]; [intros (n & A)|intros n A]; now apply N in A.
  - destruct H as (-> & N). split; [split; [discriminate|]|]; [intros (new & A)|intros new A]; now apply N in A.
Qed.
Print Assumptions C15_delegation_acceptance.

Example C15_case :
  let t := run E0 t0 [OpTimestamp c50 "ts1"; OpSnapshot c50 "snap1"; OpTargets c50 "targets1"] in
  snd (update_delegation E0 t c50 "targets" "alice" "alice1") = Ok true /\
  (* signed by the targets key instead of the delegate's *)
  snd (update_delegation E0 t c50 "targets" "alice" "targets1") = Err VerificationFailure /\
  (* unknown parent *)
  snd (update_delegation E0 t c50 "bob" "alice" "alice1") = Err VerificationFailure.
Proof. vm_compute. repeat split; reflexivity. Qed.

(** ** C16, C19: invariants of all reachable states *)

Theorem C16_versions_fit :
  forall (E : env) (t : tuf), reachable E t ->
  versions_fit t /\
  (* the branches that report a rollback are unreachable *)
  (forall ts, t_timestamp t = Some ts -> snapshot_version t <= md_version (tm_snapshot ts)) /\
  (forall s desc, t_snapshot t = Some s -> lookup "targets" (sm_meta s) = Some desc ->
     targets_version t <= md_version desc) /\
  (forall s r desc, t_snapshot t = Some s -> lookup r (sm_meta s) = Some desc ->
     delegation_version t r <= md_version desc).
Proof.
  intros E t R. apply reachable_inv in R as (V & _). split; auto.
  destruct V as (V1 & V2 & V3). split; [|split].
  - intros ts Hts. unfold snapshot_version. destruct (t_snapshot t) as [s|]; cbn; [|lia].
    destruct (V1 s eq_refl) as (ts' & Hts' & Ev). rewrite Hts in Hts'. inversion Hts'; subst. lia.
  - intros s desc Hs Ld. unfold targets_version. destruct (t_targets t) as [g|]; cbn; [|lia].
    destruct (V2 s g Hs eq_refl) as (d & Ld' & Ev). rewrite Ld in Ld'. inversion Ld'; subst. lia.
  - intros s r desc Hs Ld. unfold delegation_version.
    destruct (lookup r (t_delegations t)) as [d|] eqn:Lr; cbn; [|lia]. eauto.
Qed.
Print Assumptions C16_versions_fit.

Lemma t_full_reachable : reachable E0 t_full.
Proof.
  exists t0, full_ops. split; [|reflexivity]. left. exists "root1", 1, [toy_key "kr1"]. vm_compute. reflexivity.
Qed.
Example C16_case : reachable E0 t_full /\ t_snapshot t_full <> None /\ t_targets t_full <> None /\
                   t_delegations t_full <> [].
Proof. split; [exact t_full_reachable|]. vm_compute. repeat split; discriminate. Qed.

Theorem C19_signed_under_current_root :
  forall (E : env) (t : tuf), reachable E t -> signed_under_root E t.
Proof. intros E t R. now apply reachable_inv in R as (_ & S & _). Qed.
Print Assumptions C19_signed_under_current_root.

(** After a root change nothing signed under the old root survives, and the
    documents have to be presented again. *)
Example C19_case :
  let t := run E0 t_full [OpRoot "root2"; OpTimestamp c50 "ts2"; OpSnapshot c50 "snap2"; OpTargets c50 "targets2"] in
  reachable E0 t /\ t_root t = root2 /\ t_targets t = Some targets2 /\ t_delegations t = [].
Proof. split; [apply reachable_run, t_full_reachable|]. vm_compute. repeat split; reflexivity. Qed.

(** ** C17: snapshot rollback *)

(** False: the timestamp may list an older snapshot, which drops the trusted one
    and with it the memory of its version. *)
Theorem C17_snapshot_rollback_refuted :
  exists (E : env) (t : tuf) (ops : list op) (s s' : snapshot_metadata),
    reachable E t /\ rm_version (t_root (run E t ops)) = rm_version (t_root t) /\
    t_snapshot t = Some s /\ t_snapshot (run E t ops) = Some s' /\ sm_version s' < sm_version s.
Proof.
  exists E0, (run E0 t_full [OpTimestamp c50 "ts2"; OpSnapshot c50 "snap2"]),
    [OpTimestamp c50 "ts3-back"; OpSnapshot c50 "snap1"].
  eexists _, _. split; [apply reachable_run, t_full_reachable|]. vm_compute. repeat split; reflexivity.
Qed.
Print Assumptions C17_snapshot_rollback_refuted.

(** What holds: the versions of two snapshots trusted under the same root compare
    like the versions listed by the timestamps that authorised them, so a rollback
    takes a newer timestamp, signed by the timestamp keys, that lists the older
    snapshot; and a single update never lowers the version. *)
Theorem C17_snapshot_rollback_partial :
  (forall (E : env) (t : tuf) (ops : list op) (s s' : snapshot_metadata),
    reachable E t -> rm_version (t_root (run E t ops)) = rm_version (t_root t) ->
    t_snapshot t = Some s -> t_snapshot (run E t ops) = Some s' ->
    exists ts ts', t_timestamp t = Some ts /\ t_timestamp (run E t ops) = Some ts' /\
      tm_version ts <= tm_version ts' /\
      (exists raw, trusted_by E (t_root (run E t ops)) Timestamp raw ts') /\
      (sm_version s' < sm_version s <-> md_version (tm_snapshot ts') < md_version (tm_snapshot ts))) /\
  (forall (E : env) (t : tuf) (c : clock) (raw : bytes) (s : snapshot_metadata),
    t_snapshot t = Some s -> snd (update_snapshot E t c raw) = Ok true ->
    exists s', t_snapshot (fst (update_snapshot E t c raw)) = Some s' /\ sm_version s < sm_version s').
Proof.
  split.
  - intros E t ops s s' R V Hs Hs'.
    pose proof (reachable_inv _ _ R) as ((V1 & _) & _).
    pose proof (reachable_inv _ _ (reachable_run _ _ ops R)) as ((V1' & _) & (S1' & _) & _).
    destruct (V1 s Hs) as (ts & Hts & Ev). destruct (V1' s' Hs') as (ts' & Hts' & Ev').
    exists ts, ts'. split; auto. split; auto. split.
    + pose proof (run_timestamp_version E ops t V) as L. unfold timestamp_version in L.
      now rewrite Hts, Hts' in L.
    + split; [auto|]. lia.
  - intros E t c raw s Hs H. destruct (C13_snapshot_acceptance E t c raw) as [I F].
    apply I in H as (new & A). destruct (F new A) as (H1 & _).
    exists new. split; auto. destruct A as (_ & ts & _ & _ & L & _ & Ev).
    unfold snapshot_version in L. rewrite Hs in L. cbn in L. lia.
Qed.
Print Assumptions C17_snapshot_rollback_partial.

Example C17_case :
  let t := run E0 t_full [OpTimestamp c50 "ts2"; OpSnapshot c50 "snap2"] in
  ver sm_version (t_snapshot t_full) = 1 /\ ver sm_version (t_snapshot t) = 2.
Proof. vm_compute. split; reflexivity. Qed.

(** ** C18: targets rollback *)

Theorem C18_targets_rollback_refuted :
  (exists (E : env) (t : tuf) (ops : list op) (g g' : targets_metadata),
    reachable E t /\ rm_version (t_root (run E t ops)) = rm_version (t_root t) /\
    t_targets t = Some g /\ t_targets (run E t ops) = Some g' /\ tg_version g' < tg_version g) /\
  (exists (E : env) (t : tuf) (ops : list op) (r : string) (d d' : targets_metadata),
    reachable E t /\ rm_version (t_root (run E t ops)) = rm_version (t_root t) /\
    lookup r (t_delegations t) = Some d /\ lookup r (t_delegations (run E t ops)) = Some d' /\
    tg_version d' < tg_version d).
Proof.
  split.
  - exists E0, (run E0 t_full [OpTimestamp c50 "ts2"; OpSnapshot c50 "snap2"; OpTargets c50 "targets2"]),
      [OpTimestamp c50 "ts5"; OpSnapshot c50 "snap3"; OpTargets c50 "targets1"].
    eexists _, _. split; [apply reachable_run, t_full_reachable|]. vm_compute. repeat split; reflexivity.
  - pose (db := repo ++
      [("snapA", (["ks"], DSnapshot (mkSnapshot 1 600 [("targets", desc 1); ("alice", desc 2)])));
       ("snapB", (["ks"], DSnapshot (mkSnapshot 2 600 [("targets", desc 1); ("alice", desc 1)])));
       ("alice2", (["kd"], DTargets (mkTargets 2 400 [] None)))]).
    exists (toy_env db),
      (run (toy_env db) t0 [OpTimestamp c50 "ts1"; OpSnapshot c50 "snapA"; OpTargets c50 "targets1";
                            OpDelegation c50 "targets" "alice" "alice2"]),
      [OpTimestamp c50 "ts2"; OpSnapshot c50 "snapB"; OpDelegation c50 "targets" "alice" "alice1"], "alice".
    eexists _, _. split; [|vm_compute; repeat split; reflexivity].
    eexists t0, _. split; [|reflexivity]. left. exists "root1", 1, [toy_key "kr1"]. vm_compute. reflexivity.
Qed.
Print Assumptions C18_targets_rollback_refuted.

(** What holds: under one snapshot, versions cannot differ; a rollback takes a
    snapshot, signed by the snapshot keys, that lists the lower version; and a
    single update never lowers the version of a trusted document. *)
Theorem C18_targets_rollback_partial :
  (forall (E : env) (t : tuf) (ops : list op) s s' g g',
    reachable E t ->
    t_snapshot t = Some s -> t_snapshot (run E t ops) = Some s' ->
    t_targets t = Some g -> t_targets (run E t ops) = Some g' ->
    exists desc desc', lookup "targets" (sm_meta s) = Some desc /\ lookup "targets" (sm_meta s') = Some desc' /\
      (exists raw, trusted_by E (t_root (run E t ops)) Snapshot raw s') /\
      (tg_version g' < tg_version g <-> md_version desc' < md_version desc)) /\
  (forall (E : env) (t : tuf) (c : clock) (raw : bytes) (g : targets_metadata),
    t_targets t = Some g -> snd (update_targets E t c raw) = Ok true ->
    exists g', t_targets (fst (update_targets E t c raw)) = Some g' /\ tg_version g < tg_version g') /\
  (forall (E : env) (t : tuf) (c : clock) (parent r : string) (raw : bytes) (d : targets_metadata),
    lookup r (t_delegations t) = Some d -> snd (update_delegation E t c parent r raw) = Ok true ->
    exists d', lookup r (t_delegations (fst (update_delegation E t c parent r raw))) = Some d' /\
               tg_version d < tg_version d').
Proof.
  split; [|split].
  - intros E t ops s s' g g' R Hs Hs' Hg Hg'.
    pose proof (reachable_inv _ _ R) as ((_ & V2 & _) & _).
    pose proof (reachable_inv _ _ (reachable_run _ _ ops R)) as ((_ & V2' & _) & (_ & S2' & _) & _).
    destruct (V2 s g Hs Hg) as (d & L & Ev). destruct (V2' s' g' Hs' Hg') as (d' & L' & Ev').
    exists d, d'. split; auto. split; auto. split; auto. lia.
  - intros E t c raw g Hg H. destruct (C14_targets_acceptance E t c raw) as [I F].
    apply I in H as (new & A). rewrite (F new A). exists new. split; auto.
    destruct A as (_ & s & desc & _ & _ & _ & L & _ & Ev & _).
    unfold targets_version in L. rewrite Hg in L. cbn in L. lia.
  - intros E t c parent r raw d Hd H. destruct (C15_delegation_acceptance E t c parent r raw) as [I F].
    apply I in H as (new & A). destruct (F new A) as (_ & _ & _ & _ & Q). exists new.
    split; [rewrite Q, String.eqb_refl; auto|].
    destruct A as (desc & _ & L & Ev & _). unfold delegation_version in L. rewrite Hd in L. cbn in L. lia.
Qed.
Print Assumptions C18_targets_rollback_partial.

(** Newer targets metadata under a newer snapshot; and a newer snapshot with the old targets. *)
Example C18_case :
  let t := run E0 t_full [OpTimestamp c50 "ts2"; OpSnapshot c50 "snap2"; OpTargets c50 "targets2"] in
  ver tg_version (t_targets t_full) = 1 /\ ver tg_version (t_targets t) = 2 /\
  snd (update_targets E0 (run E0 t_full [OpTimestamp c50 "ts2"; OpSnapshot c50 "snap2"]) c50 "targets2") = Ok true /\
  ver tg_version (lookup "alice" (t_delegations t)) = 1.
Proof. vm_compute. repeat split; reflexivity. Qed.

(** ** C20: authority of delegations *)

(** False: new targets metadata that withdraws a delegate's key leaves the
    delegation in place that only that key signed. *)
Theorem C20_delegation_authority_refuted :
  exists (E : env) (t : tuf) (r : string) (d : targets_metadata),
    reachable E t /\ lookup r (t_delegations t) = Some d /\
    t_targets t <> None /\ t_snapshot t <> None /\
    forall parent p raw, trusted_parent t parent p -> ~ delegated_by E p r raw d.
Proof.
  exists E0, (run E0 t_full [OpTimestamp c50 "ts2"; OpSnapshot c50 "snap2"; OpTargets c50 "targets2"]), "alice", alice1.
  split; [apply reachable_run, t_full_reachable|].
  split; [vm_compute; reflexivity|]. split; [vm_compute; discriminate|]. split; [vm_compute; discriminate|].
  intros parent p raw Hp (ds & dg & Hds & Hf & A).
  assert (P : p = targets2 \/ p = alice1).
  { destruct Hp as [[_ H]|[_ H]].
    - vm_compute in H. inversion H. auto.
    - apply lookup_In in H. vm_compute in H. destruct H as [H|[]]. inversion H. auto. }
  destruct P as [->| ->]; [|discriminate].
  cbn in Hds. inversion Hds; subst ds; clear Hds.
  apply (find_role_first (mkDelegations (keys_of_names ["ke"]) [deleg "alice" false ["ke"] ["a/"]])) in Hf.
  vm_compute in Hf. inversion Hf; subst dg; clear Hf.
  apply verify_signatures_iff in A. rewrite <- listed_select in A.
  unfold verify_signatures in A. cbn [dg_threshold N.ltb N.compare] in A.
  destruct (lookup raw repo) as [[signers doc]|] eqn:L.
  2:{ cbn [e_ic E0 toy_env ic_envelope toy_ic] in A. rewrite L in A. discriminate. }
  apply lookup_In in L.
  repeat (destruct L as [L|L]; [inversion L; subst; vm_compute in A; discriminate|]). destruct L.
Qed.
Print Assumptions C20_delegation_authority_refuted.

(** What holds: every trusted delegation was, when it was accepted, listed in the
    trusted snapshot and signed as the then trusted parent demanded, and the root
    has not changed since. *)
Theorem C20_delegation_authority_partial :
  forall (E : env) (t0 : tuf) (ops : list op) (r : string) (d : targets_metadata),
  initial E t0 -> lookup r (t_delegations (run E t0 ops)) = Some d ->
  exists before c parent raw after,
    ops = before ++ OpDelegation c parent r raw :: after /\
    delegation_acceptable E (run E t0 before) c parent r raw d /\
    t_root (run E t0 before) = t_root (run E t0 ops).
Proof.
  intros E t0 ops r d I L. apply delegation_origin; auto.
  apply initial_shape in I as (root & ->). reflexivity.
Qed.
Print Assumptions C20_delegation_authority_partial.

Example C20_case : initial E0 t0 /\ lookup "alice" (t_delegations (run E0 t0 full_ops)) = Some alice1.
Proof.
  split; [|vm_compute; reflexivity]. left. exists "root1", 1, [toy_key "kr1"]. vm_compute. reflexivity.
Qed.

(** ** C21, C22: expiry *)

Theorem C21_expired_refused :
  (forall E t c raw new t', update_timestamp E t c raw = (t', Ok (Some new)) -> (at_new c < tm_expires new)%Z) /\
  (forall E t c raw, snd (update_snapshot E t c raw) = Ok true ->
     (at_root c < rm_expires (t_root t))%Z /\
     exists ts, t_timestamp t = Some ts /\ (at_timestamp c < tm_expires ts)%Z) /\
  (forall E t c raw, snd (update_targets E t c raw) = Ok true ->
     (at_root c < rm_expires (t_root t))%Z /\
     (exists s, t_snapshot t = Some s /\ (at_snapshot c < sm_expires s)%Z) /\
     exists new, t_targets (fst (update_targets E t c raw)) = Some new /\ (at_new c < tg_expires new)%Z) /\
  (forall E t c parent r raw, snd (update_delegation E t c parent r raw) = Ok true ->
     (at_root c < rm_expires (t_root t))%Z /\
     (exists s, t_snapshot t = Some s /\ (at_snapshot c < sm_expires s)%Z) /\
     (exists g, t_targets t = Some g /\ (at_targets c < tg_expires g)%Z) /\
     exists new, lookup r (t_delegations (fst (update_delegation E t c parent r raw))) = Some new /\
                 (at_new c < tg_expires new)%Z).
Proof.
  split; [|split; [|split]].
  - intros E t c raw new t' H. apply update_timestamp_inv in H as (_ & _ & _ & _ & (_ & _ & F) & _). exact F.
  - intros E t c raw H. apply C13_snapshot_acceptance in H as (new & F & ts & H1 & H2 & _). split; eauto.
  - intros E t c raw H. destruct (C14_targets_acceptance E t c raw) as [I F]. apply I in H as (new & A).
    rewrite (F new A). destruct A as (F1 & s & d & H1 & H2 & _ & _ & _ & _ & H3).
    split; auto. split; eauto. exists new. auto.
  - intros E t c parent r raw H. destruct (C15_delegation_acceptance E t c parent r raw) as [I F].
    apply I in H as (new & A). destruct (F new A) as (_ & _ & _ & _ & Q).
    destruct A as (desc & (F1 & s & g & p & H1 & H2 & H3 & H4 & _) & _ & _ & H5).
    split; auto. split; eauto. split; eauto. exists new. rewrite Q, String.eqb_refl. auto.
Qed.
Print Assumptions C21_expired_refused.

(** At the very second of expiry the document is refused. *)
Example C21_case :
  snd (update_timestamp E0 t0 (now 300) "ts1") = Err (ExpiredMetadata Timestamp) /\
  is_ok (snd (update_timestamp E0 t0 (now 299) "ts1")) = true /\
  snd (update_snapshot E0 (run E0 t0 [OpTimestamp c50 "ts1"]) (now 300) "snap1") = Err (ExpiredMetadata Timestamp) /\
  snd (update_snapshot E0 (run E0 t0 [OpTimestamp c50 "ts1"]) (now 299) "snap1") = Ok true.
Proof. vm_compute. repeat split; reflexivity. Qed.

(** C22 is false for [update_targets]: it says the snapshot expired. *)
Theorem C22_expiry_error_names_role_refuted :
  exists (E : env) (t : tuf) (c : clock) (raw : bytes) (new : targets_metadata),
    reachable E t /\
    (forall s, t_snapshot t = Some s -> fresh (sm_expires s) (at_snapshot c)) /\
    trusted_by E (t_root t) Targets raw new /\ ~ fresh (tg_expires new) (at_new c) /\
    snd (update_targets E t c raw) = Err (ExpiredMetadata Snapshot).
Proof.
  exists E0, (run E0 t_full [OpTimestamp c50 "ts2"; OpSnapshot c50 "snap2"]), c50, "targets2-expired",
    (mkTargets 2 10 [] None).
  split; [apply reachable_run, t_full_reachable|].
  split; [intros s H; vm_compute in H; inversion H; vm_compute; reflexivity|].
  split; [apply (verify_trusted E0 _ Targets); vm_compute; reflexivity|].
  split; [vm_compute; discriminate|]. vm_compute. reflexivity.
Qed.
Print Assumptions C22_expiry_error_names_role_refuted.

(** Exactly what the three functions answer to an otherwise acceptable, expired
    document. *)
Theorem C22_expiry_error_names_role_partial :
  (forall E t c raw new, trusted_by E (t_root t) Timestamp raw new -> timestamp_version t < tm_version new ->
     ~ fresh (tm_expires new) (at_new c) ->
     snd (update_timestamp E t c raw) = Err (ExpiredMetadata Timestamp)) /\
  (forall E t c parent r raw new desc, delegation_context E t c parent r raw new desc ->
     delegation_version t r < md_version desc -> tg_version new = md_version desc ->
     ~ fresh (tg_expires new) (at_new c) ->
     snd (update_delegation E t c parent r raw) = Err (ExpiredMetadata Targets)) /\
  (forall E t c raw new s desc, fresh (rm_expires (t_root t)) (at_root c) ->
     t_snapshot t = Some s -> fresh (sm_expires s) (at_snapshot c) ->
     lookup "targets" (sm_meta s) = Some desc -> targets_version t < md_version desc ->
     trusted_by E (t_root t) Targets raw new -> tg_version new = md_version desc ->
     ~ fresh (tg_expires new) (at_new c) ->
     snd (update_targets E t c raw) = Err (ExpiredMetadata Snapshot)).
Proof.
  split; [|split].
  - intros E t c raw new T L F.
    destruct (update_timestamp_spec E t c raw) as (_ & _ & _ & S & _).
    destruct (S new T L F) as (t' & -> & _). reflexivity.
  - intros E t c parent r raw new desc (F1 & s & g & p & Hs & F2 & Hg & F3 & Hd & Ld & Hp & Hdp) L Ev F.
    unfold update_delegation, trusted_root_unexpired, trusted_snapshot_unexpired, trusted_targets_unexpired.
    apply expired_false in F1, F2, F3. apply expired_true in F. rewrite F1, Hs, F2. cbn [rbind].
    rewrite Hg, F3. cbn [rbind]. destruct (tg_delegations g); [|congruence]. rewrite Ld.
    change (trusted_delegation_version t r) with (delegation_version t r).
    destruct (N.ltb_spec (md_version desc) (delegation_version t r)); [lia|].
    assert (exists threshold keys, find_delegation_threshold_and_keys t parent r = Some (threshold, keys) /\
       verify_signatures E Targets raw threshold keys = Ok new) as (th & ks & Hf & V).
    { apply find_threshold_iff. eauto. }
    rewrite Hf, V. cbn [rbind]. destruct (N.eqb_spec (delegation_version t r) (md_version desc)); [lia|].
    rewrite Ev, N.eqb_refl, F. reflexivity.
  - intros E t c raw new s desc F1 Hs F2 Ld L T Ev F.
    unfold update_targets, trusted_root_unexpired, trusted_snapshot_unexpired.
    apply expired_false in F1, F2. apply expired_true in F. rewrite F1, Hs, F2. cbn [rbind].
    change (from_role Targets) with "targets". rewrite Ld.
    change (trusted_targets_version t) with (targets_version t).
    rewrite (proj2 (N.compare_gt_iff _ _)) by lia.
    apply (verify_trusted E (t_root t) Targets) in T. cbn [role_def_of] in T.
    unfold targets_keys. rewrite T. cbn [rbind]. rewrite Ev, N.eqb_refl, F. reflexivity.
Qed.
Print Assumptions C22_expiry_error_names_role_partial.

Example C22_case :
  snd (update_timestamp E0 t_full c50 "ts4-expired") = Err (ExpiredMetadata Timestamp) /\
  snd (update_delegation E0 (run E0 t0 [OpTimestamp c50 "ts1"; OpSnapshot c50 "snap1"; OpTargets c50 "targets1"])
         (now 450) "targets" "alice" "alice1") = Err (ExpiredMetadata Targets).
Proof. vm_compute. split; reflexivity. Qed.

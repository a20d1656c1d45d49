(** * C110: time only takes away *)
From Coq Require Import String List NArith ZArith Bool Lia.
From Verif Require Import Base BaseFacts Metadata Verify Paths Tuf SpecTuf Reader Repo Client ClientLogic SpecTime TimeProofs Toy ClientToy.
Import ListNotations.
Open Scope string_scope.
Open Scope list_scope.

(** What a method of [Tuf] accepts, it also accepts at any earlier time, with the same effect;
    so does a sequence of calls that all succeed. *)
Theorem C110_methods :
  forall (E : env) (ops ops' : list op) (t t' : tuf),
  Forall2 earlier_call ops ops' -> succeed E t ops' t' -> succeed E t ops t'.
Proof. intros E ops ops' t t' L. now apply succeed_mono. Qed.
Print Assumptions C110_methods.

(** An update that succeeds would have succeeded at any earlier time with the same answers of
    the repositories: it asks for and stores the same, and leaves the same trusted. *)
Theorem C110_updates :
  forall (E : env) (cfg : config) (fuel : nat) (t t' : tuf) (b : bool) (tr tr' : list event),
  exec (update E cfg fuel t) tr' (Ret (t', Ok b)) -> earlier tr tr' -> exec (update E cfg fuel t) tr (Ret (t', Ok b)).
Proof. intros E cfg fuel t t' b tr tr' X L. exact (keeps_update E cfg fuel t tr' (t', Ok b) X eq_refl tr L). Qed.
Print Assumptions C110_updates.

(** A target that is found was found at any earlier time, with the same description: if it is
    listed by the top-level targets, or if no delegated role has expired in between. *)
Theorem C110_targets_partial :
  forall (t : tuf) (c c' : clock) (target : string) (d : target_desc),
  no_later c c' -> target_description t c' target = Some (Ok d) ->
  none_expires t c c' \/ (exists g, t_targets t = Some g /\ lookup target (tg_targets g) <> None) ->
  target_description t c target = Some (Ok d).
Proof.
  intros t c c' target d L X [N|(g & G & Lk)]; [now apply (same_description t c c')|].
  destruct (lookup target (tg_targets g)) as [d'|] eqn:Q; [|now elim Lk].
  destruct (listed_description t c c' g target d' L G Q d X) as [-> H]. exact H.
Qed.
Print Assumptions C110_targets_partial.

(** ** Two delegations *)

(** "alice" delegates to "carol", whose metadata expire early; "bob" comes after "alice". *)
Definition two : option delegations :=
  Some (mkDelegations (keys_of_names ["kd"]) [deleg "alice" false ["kd"] ["a/"]; deleg "bob" false ["kd"] ["a/"]]).
Definition over_carol : targets_metadata :=
  mkTargets 1 400 [] (Some (mkDelegations (keys_of_names ["kd"]) [deleg "carol" false ["kd"] ["a/"]])).
Definition from_carol (listed : list (string * target_desc)) (next : option delegations) : targets_metadata := mkTargets 1 100 listed next.
Definition all_listed : snapshot_metadata :=
  mkSnapshot 1 600 [("targets", desc 1); ("alice", desc 1); ("bob", desc 1); ("carol", desc 1)].
Definition db_with (carol : targets_metadata) : toydb :=
  [ ("root1", (["kr1"; "kr2"], DRoot root1)); ("ts", (["kt"], DTimestamp (mkTimestamp 1 300 (desc 1))));
    ("snap", (["ks"], DSnapshot all_listed)); ("targets", (["kg"], DTargets (mkTargets 1 500 [] two)));
    ("alice", (["kd"], DTargets over_carol)); ("bob", (["kd"], DTargets (mkTargets 1 400 [("a/x", tdesc 2)] None)));
    ("carol", (["kd"], DTargets carol)) ].
Definition loading (c : clock) : list op :=
  [OpTimestamp c "ts"; OpSnapshot c "snap"; OpTargets c "targets"; OpDelegation c "targets" "alice" "alice";
   OpDelegation c "targets" "bob" "bob"; OpDelegation c "alice" "carol" "carol"].

(** Here "carol" lists the target. *)
Definition carol_lists := from_carol [("a/x", tdesc 1)] None.
(** Here "carol" has a terminating delegation to a role that is not loaded. *)
Definition carol_ends := from_carol [] (Some (mkDelegations (keys_of_names ["kd"]) [deleg "dora" true ["kd"] ["a/"]])).
Definition trusting (carol : targets_metadata) : tuf :=
  mkTuf root1 (Some all_listed) (Some (mkTargets 1 500 [] two)) (Some (mkTimestamp 1 300 (desc 1)))
    [("carol", carol); ("bob", mkTargets 1 400 [("a/x", tdesc 2)] None); ("alice", over_carol)].

Lemma loaded carol : In carol [carol_lists; carol_ends] -> succeed (toy_env (db_with carol)) t0 (loading (now 50)) (trusting carol).
Proof.
  intros [<-|[<-|[]]]; unfold loading; repeat (eapply succeed_cons; [vm_compute; reflexivity|]);
    match goal with |- succeed _ ?a [] ?b => let x := eval vm_compute in a in change a with x; let y := eval vm_compute in b in change b with y end;
    constructor.
Qed.

Lemma trusting_reachable carol : In carol [carol_lists; carol_ends] -> reachable (toy_env (db_with carol)) (trusting carol).
Proof.
  intros H. exists t0, (loading (now 50)). split.
  - right. exists "root1". destruct H as [<-|[<-|[]]]; vm_compute; reflexivity.
  - apply loaded in H. revert H. generalize (loading (now 50)), t0. intros l t. generalize (trusting carol). intros t' S.
    induction S as [|t o b t1 rest t2 Q _ IH]; [reflexivity|]. unfold run in *. cbn [fold_left]. rewrite Q. exact IH.
Qed.

(** In general it is not so: a target that is not found can be found later, when a delegated
    role has expired whose own delegations ended the search. *)
Theorem C110_targets_refuted :
  exists (E : env) (t : tuf) (c c' : clock) (target : string) (d : target_desc),
  reachable E t /\ no_later c c' /\ target_description t c' target = Some (Ok d) /\
  target_description t c target = Some (Err TargetUnavailable).
Proof.
  exists (toy_env (db_with carol_ends)), (trusting carol_ends), (now 50), (now 200), "a/x", (tdesc 2).
  split; [apply trusting_reachable; right; now left|]. split; [vm_compute; repeat split; discriminate|]. split; vm_compute; reflexivity.
Qed.
Print Assumptions C110_targets_refuted.

(** Or the description changes, although nothing but the clock did: when the role that speaks
    first has expired, the next one is believed. *)
Theorem C110_same_description_refuted :
  exists (E : env) (t : tuf) (c c' : clock) (target : string) (d d' : target_desc),
  reachable E t /\ no_later c c' /\ target_description t c target = Some (Ok d) /\
  target_description t c' target = Some (Ok d') /\ d <> d'.
Proof.
  exists (toy_env (db_with carol_lists)), (trusting carol_lists), (now 50), (now 200), "a/x", (tdesc 1), (tdesc 2).
  split; [apply trusting_reachable; now left|]. split; [vm_compute; repeat split; discriminate|].
  split; [vm_compute; reflexivity|]. split; [vm_compute; reflexivity|]. discriminate.
Qed.
Print Assumptions C110_same_description_refuted.

(** The same calls as above, at an earlier time; a target found twice; an update. *)
Example C110_case :
  Forall2 earlier_call (loading (now 3)) (loading (now 50)) /\
  succeed (toy_env (db_with carol_lists)) t0 (loading (now 50)) (trusting carol_lists) /\
  none_expires (trusting carol_lists) (now 3) (now 50) /\
  target_description (trusting carol_lists) (now 50) "a/x" = Some (Ok (tdesc 1)).
Proof.
  assert (L : no_later (now 3) (now 50)) by (vm_compute; repeat split; discriminate).
  split; [repeat constructor; try exact L; vm_compute; discriminate|]. split; [apply loaded; now left|]. split; [|vm_compute; reflexivity].
  intros r g H. left. unfold trusting in H. cbn [t_delegations] in H. apply lookup_In in H.
  destruct H as [H|[H|[H|[]]]]; inversion H; subst; vm_compute; reflexivity.
Qed.
Example C110_update_case :
  exec (update Ec default_config 9 t_started) (fst (fst updated)) (Ret (t_updated, Ok true)) /\
  (let back := map (fun e => match e with EvNow _ => EvNow (now 3) | e => e end) (fst (fst updated)) in
   earlier back (fst (fst updated)) /\ back <> fst (fst updated)).
Proof.
  split.
  - destruct updated_ok as (_ & E2 & _). destruct updated as [[tr l] q] eqn:S. cbn [fst snd] in *.
    apply drive_exec in S as [X _]. rewrite E2 in X. exact X.
  - cbv zeta. assert (A : Forall (fun e => match e with EvNow c => no_later (now 3) c | _ => True end) (fst (fst updated))).
    { assert (B : Forall (fun e => match e with EvNow c => c = now 50 | _ => True end) (fst (fst updated))).
      { match goal with |- Forall _ ?l => let l' := eval vm_compute in l in change l with l' end.
        repeat apply Forall_cons; try exact I; try apply Forall_nil; reflexivity. }
      eapply Forall_impl; [|exact B]. intros e. destruct e; auto. intros ->. vm_compute; repeat split; discriminate. }
    split.
    + unfold earlier. induction A as [|e l P _ IH]; [constructor|]. cbn [map]. constructor; [|exact IH]. destruct e; auto.
    + intros H. assert (K : existsb (fun e => match e with EvNow c => (at_new c =? 50)%Z | _ => false end) (fst (fst updated)) = true) by (vm_compute; reflexivity).
      rewrite <- H in K. vm_compute in K. discriminate.
Qed.

(** * C23-C27: finding the description of a target in the trusted metadata *)
From Coq Require Import String List NArith ZArith Bool Lia.
From Verif Require Import Base BaseFacts Metadata Verify Paths Tuf SpecTuf SpecPaths PathProofs SpecLookup
     TufProofs LookupProofs Toy Props_Tuf.
Import ListNotations.
Open Scope string_scope.
Open Scope list_scope.
Open Scope N_scope.

(** ** A repository with several delegations, for the examples *)

(** bob is declared first but never loaded; carol delegates further to dave. *)
Definition many_targets : targets_metadata :=
  mkTargets 1 500 [("top", tdesc 1)]
    (Some (mkDelegations (keys_of_names ["kd"])
       [deleg "carol" true ["kd"] ["c/"]; deleg "bob" false ["kd"] ["b/"]; deleg "alice" false ["kd"] ["a/"]])).
Definition carol1 : targets_metadata :=
  mkTargets 1 400 [("c/own", tdesc 5)]
    (Some (mkDelegations (keys_of_names ["kd"]) [deleg "dave" false ["kd"] ["c/d/"]])).
Definition dave1 : targets_metadata := mkTargets 1 400 [("c/d/z", tdesc 6); ("c/q", tdesc 7)] None.
Definition many_repo : toydb :=
  repo ++
  [("snapM", (["ks"], DSnapshot (mkSnapshot 1 600
      [("targets", desc 1); ("alice", desc 1); ("bob", desc 1); ("carol", desc 1); ("dave", desc 1)])));
   ("targetsM", (["kg"], DTargets many_targets));
   ("carol1", (["kd"], DTargets carol1)); ("carol1-leaf", (["kd"], DTargets (mkTargets 1 400 [] None)));
   ("bob1", (["kd"], DTargets (mkTargets 1 400 [] None)));
   ("dave1", (["kd"], DTargets dave1))].
Definition EM : env := toy_env many_repo.
Definition many_ops : list op :=
  [OpTimestamp c50 "ts1"; OpSnapshot c50 "snapM"; OpTargets c50 "targetsM";
   OpDelegation c50 "targets" "alice" "alice1"].

Lemma EM_reachable ops : reachable EM (run EM t0 ops).
Proof.
  exists t0, ops. split; [|reflexivity]. left. exists "root1", 1, [toy_key "kr1"]. vm_compute. reflexivity.
Qed.

(** carol loaded with dave below; bob missing. *)
Definition tM : tuf :=
  run EM t0 (many_ops ++ [OpDelegation c50 "targets" "carol" "carol1"; OpDelegation c50 "carol" "dave" "dave1"]).
(** carol a leaf, bob loaded too. *)
Definition tM' : tuf :=
  run EM t0 (many_ops ++ [OpDelegation c50 "targets" "carol" "carol1-leaf";
                          OpDelegation c50 "targets" "bob" "bob1"]).

(** ** C23 *)

Theorem C23_target_description_sound :
  forall (t : tuf) (c : clock) (target : string) (desc : target_desc),
  target_description t c target = Some (Ok desc) ->
  exists s g, t_snapshot t = Some s /\ t_targets t = Some g /\
    fresh (rm_expires (t_root t)) (at_root c) /\ fresh (sm_expires s) (at_snapshot c) /\
    fresh (tg_expires g) (at_targets c) /\
    (lookup target (tg_targets g) = Some desc \/
     (lookup target (tg_targets g) = None /\
      exists ds p last, tg_delegations g = Some ds /\ route t (at_deleg c) ds p last /\
        lookup target (tg_targets last) = Some desc /\ NoDup (map dg_role p))).
Proof.
  intros t c target desc H.
  apply target_description_sound in H as (s & g & H1 & H2 & H3 & H4 & H5 & [H6|(H6 & ds & p & last & H7 & H8 & H9 & H10 & _)]);
    exists s, g; repeat (split; auto).
  right. split; auto. exists ds, p, last. auto.
Qed.
Print Assumptions C23_target_description_sound.

Theorem C23_top_level_wins :
  forall (t : tuf) (c : clock) (target : string) s g desc,
  t_snapshot t = Some s -> t_targets t = Some g ->
  fresh (rm_expires (t_root t)) (at_root c) -> fresh (sm_expires s) (at_snapshot c) ->
  fresh (tg_expires g) (at_targets c) -> lookup target (tg_targets g) = Some desc ->
  target_description t c target = Some (Ok desc).
Proof. exact target_description_top. Qed.
Print Assumptions C23_top_level_wins.

(** Otherwise the error names the metadata that is missing or has expired, of the root, the
    snapshot and the targets the first. *)
Theorem C23_the_error_names_the_metadata :
  forall (t : tuf) (c : clock) (target : string),
  (~ fresh (rm_expires (t_root t)) (at_root c) -> target_description t c target = Some (Err (ExpiredMetadata Root))) /\
  (fresh (rm_expires (t_root t)) (at_root c) ->
   (t_snapshot t = None -> target_description t c target = Some (Err (MissingMetadata Snapshot))) /\
   forall s, t_snapshot t = Some s ->
   (~ fresh (sm_expires s) (at_snapshot c) -> target_description t c target = Some (Err (ExpiredMetadata Snapshot))) /\
   (fresh (sm_expires s) (at_snapshot c) ->
    (t_targets t = None -> target_description t c target = Some (Err (MissingMetadata Targets))) /\
    forall g, t_targets t = Some g -> ~ fresh (tg_expires g) (at_targets c) ->
      target_description t c target = Some (Err (ExpiredMetadata Targets)))).
Proof.
  assert (X : forall e n, ~ fresh e n -> expired e n = true).
  { intros e n H. destruct (expired e n) eqn:Q; [reflexivity|]. elim H. now apply expired_false. }
  intros t c target. unfold target_description, trusted_root_unexpired, trusted_snapshot_unexpired, trusted_targets_unexpired.
  split; [intros H; now rewrite (X _ _ H)|]. intros Fr. apply expired_false in Fr. rewrite Fr. cbn [rbind].
  split; [now intros ->|]. intros s ->. split; [intros H; now rewrite (X _ _ H)|]. intros Fs. apply expired_false in Fs. rewrite Fs. cbn [rbind].
  split; [now intros ->|]. intros g -> H. now rewrite (X _ _ H).
Qed.
Print Assumptions C23_the_error_names_the_metadata.

Example C23_case :
  target_description tM c50 "top" = Some (Ok (tdesc 1)) /\
  target_description tM c50 "c/own" = Some (Ok (tdesc 5)) /\
  target_description tM c50 "c/d/z" = Some (Ok (tdesc 6)) /\
  target_description tM c50 "nothing" = Some (Err TargetUnavailable) /\
  target_description tM (now 450) "c/own" = Some (Err TargetUnavailable) /\
  target_description tM (now 550) "top" = Some (Err (ExpiredMetadata Targets)).
Proof. vm_compute. repeat split; reflexivity. Qed.

(** ** C24 *)

(** False: alice may only speak for "a/", but her description of "b/y" is returned. *)
Theorem C24_delegated_paths_refuted :
  exists (E : env) (t : tuf) (c : clock) (target : string) (desc : target_desc) (g : targets_metadata)
         (ds : delegations),
    reachable E t /\ target_description t c target = Some (Ok desc) /\ t_targets t = Some g /\
    lookup target (tg_targets g) = None /\ tg_delegations g = Some ds /\
    forall d, In d (dgs_roles ds) -> ~ permits d target.
Proof.
  exists E0, t_full, c50, "b/y", (tdesc 4), targets1, (mkDelegations (keys_of_names ["kd"]) [deleg "alice" false ["kd"] ["a/"]]).
  split; [exact t_full_reachable|]. do 4 (split; [vm_compute; reflexivity|]).
  intros d [<-|[]] (p & Ip & B). cbn in Ip. destruct Ip as [<-|[]].
  destruct B as [B|(_ & b & B)]; discriminate.
Qed.
Print Assumptions C24_delegated_paths_refuted.

(** What holds: all delegations on the route but the last one permit the target; the
    role that lists the target is not itself restricted to its paths. *)
Theorem C24_delegated_paths_partial :
  forall (t : tuf) (c : clock) (target : string) (desc : target_desc) (g : targets_metadata),
  target_description t c target = Some (Ok desc) ->
  t_targets t = Some g -> lookup target (tg_targets g) = None ->
  exists ds p last, tg_delegations g = Some ds /\ route t (at_deleg c) ds p last /\
    lookup target (tg_targets last) = Some desc /\
    forall d, In d (removelast p) -> permits d target.
Proof.
  intros t c target desc g H Hg L.
  apply target_description_sound in H as (s & g' & _ & Hg' & _ & _ & _ & H).
  rewrite Hg in Hg'. inversion Hg'; subst g'.
  destruct H as [H|(_ & ds & p & last & H7 & H8 & H9 & _ & H11)]; [congruence|].
  exists ds, p, last. auto.
Qed.
Print Assumptions C24_delegated_paths_partial.

(** The second route has two delegations; dave describes "c/q" outside his "c/d/". *)
Example C24_case :
  target_description tM c50 "c/q" = Some (Ok (tdesc 7)).
Proof. vm_compute. reflexivity. Qed.

(** ** C25 *)

Theorem C25_search_terminates :
  forall (t : tuf) (c : clock) (target : string),
  (exists r, target_description t c target = Some r) /\
  (* the search itself: the bound on the recursion is never hit, no matter how much higher
     it is, and the list of roles it marked as consulted has no repetition *)
  (forall ds, exists out visited, NoDup visited /\
     forall fuel, (lookup_fuel t <= fuel)%nat ->
       lookup_rec fuel t c target false 0 ds [] [] = Some (out, visited)).
Proof.
  intros t c target. split; [apply target_description_total|]. intros ds.
  destruct (lookup_fuel_suffices t c target ds) as (out & v & H). exists out, v. split.
  - apply (rec_once t c target (lookup_fuel t) _ _ _ _ _ _ _ H). constructor.
  - intros fuel L. now apply (rec_more_fuel t c target (lookup_fuel t)).
Qed.
Print Assumptions C25_search_terminates.

(** A cycle: alice delegates to bob, bob to alice. *)
Definition cyc_repo : toydb :=
  repo ++
  [("snapC", (["ks"], DSnapshot (mkSnapshot 1 600 [("targets", desc 1); ("alice", desc 1); ("bob", desc 1)])));
   ("aliceC", (["kd"], DTargets (mkTargets 1 400 []
      (Some (mkDelegations (keys_of_names ["kd"]) [deleg "bob" false ["kd"] ["a/"]])))));
   ("bobC", (["kd"], DTargets (mkTargets 1 400 []
      (Some (mkDelegations (keys_of_names ["kd"]) [deleg "alice" false ["kd"] ["a/"]])))))].
Definition tC : tuf :=
  run (toy_env cyc_repo) t0
    [OpTimestamp c50 "ts1"; OpSnapshot c50 "snapC"; OpTargets c50 "targets1";
     OpDelegation c50 "targets" "alice" "aliceC"; OpDelegation c50 "alice" "bob" "bobC"].
Example C25_case :
  target_description tC c50 "a/x" = Some (Err TargetUnavailable) /\
  exists ds, lookup_rec 3 tC c50 "a/x" false 0 ds [] [] = Some ((false, None), ["bob"; "alice"]).
Proof.
  split; [vm_compute; reflexivity|].
  exists (mkDelegations (keys_of_names ["kd"]) [deleg "alice" false ["kd"] ["a/"]]). vm_compute. reflexivity.
Qed.

(** ** C26 *)

(** False: bob is declared before alice, not terminating and not loaded; alice's
    description of "a/x" is then not found. *)
Theorem C26_dead_end_siblings_refuted :
  exists (E : env) (t : tuf) (c : clock) (target : string) (g : targets_metadata) ks d1 d2 desc,
    reachable E t /\ usable_targets t c g /\ lookup target (tg_targets g) = None /\
    tg_delegations g = Some (mkDelegations ks [d1; d2]) /\ dg_role d1 <> dg_role d2 /\
    dg_terminating d1 = false /\ lookup (dg_role d1) (t_delegations t) = None /\
    describes t (at_deleg c) target d2 desc /\ permits d2 target /\
    target_description t c target = Some (Err TargetUnavailable).
Proof.
  pose (g := mkTargets 1 500 []
    (Some (mkDelegations (keys_of_names ["kd"]) [deleg "bob" false ["kd"] ["b/"]; deleg "alice" false ["kd"] ["a/"]]))).
  pose (db := many_repo ++ [("targetsB", (["kg"], DTargets g))]).
  exists (toy_env db),
    (run (toy_env db) t0 [OpTimestamp c50 "ts1"; OpSnapshot c50 "snapM"; OpTargets c50 "targetsB";
                          OpDelegation c50 "targets" "alice" "alice1"]), c50, "a/x", g, (keys_of_names ["kd"]).
  eexists _, _, _. split.
  { eexists t0, _. split; [|reflexivity]. left. exists "root1", 1, [toy_key "kr1"]. vm_compute. reflexivity. }
  split.
  { split; [vm_compute; reflexivity|]. split; [vm_compute; reflexivity|]. split; [vm_compute; reflexivity|].
    eexists. split; vm_compute; reflexivity. }
  split; [reflexivity|]. split; [reflexivity|]. split; [discriminate|].
  split; [reflexivity|]. split; [vm_compute; reflexivity|].
  split; [eexists; vm_compute; repeat split; reflexivity|].
  split; [exists "a/"; split; [now left|right; split; [exists "a"|exists "x"]; reflexivity]|].
  vm_compute. reflexivity.
Qed.
Print Assumptions C26_dead_end_siblings_refuted.

(** What holds: delegations that are loaded, unexpired and without an entry or
    further delegations do not hide the ones after them. *)
Theorem C26_dead_end_siblings_partial :
  forall (t : tuf) (c : clock) (target : string) (g : targets_metadata) ks pre d post desc,
  usable_targets t c g -> lookup target (tg_targets g) = None ->
  tg_delegations g = Some (mkDelegations ks (pre ++ d :: post)) ->
  Forall (barren t (at_deleg c) target) pre -> NoDup (map dg_role (pre ++ [d])) ->
  describes t (at_deleg c) target d desc ->
  target_description t c target = Some (Ok desc).
Proof. intros. eapply after_barren; eauto. Qed.
Print Assumptions C26_dead_end_siblings_partial.

(** Here carol and bob are loaded and have nothing. *)
Example C26_case : target_description tM' c50 "a/x" = Some (Ok (tdesc 3)) /\
  forall d, In d [deleg "carol" true ["kd"] ["c/"]; deleg "bob" false ["kd"] ["b/"]] ->
    barren tM' (at_deleg c50) "a/x" d.
Proof.
  split; [vm_compute; reflexivity|].
  intros d [<-|[<-|[]]]; eexists; vm_compute; repeat split; reflexivity.
Qed.

(** ** C27 *)

(** False: carol's delegation is terminating and covers the target; carol is loaded
    and has nothing on it; the delegation after it is consulted all the same. *)
Theorem C27_terminating_refuted :
  exists (E : env) (t t' : tuf) (c : clock) (target : string) (g g' : targets_metadata) ks d post post',
    reachable E t /\ reachable E t' /\ usable_targets t c g /\ usable_targets t' c g' /\
    t_delegations t = t_delegations t' /\
    lookup target (tg_targets g) = None /\ lookup target (tg_targets g') = None /\
    tg_delegations g = Some (mkDelegations ks (d :: post)) /\
    tg_delegations g' = Some (mkDelegations ks (d :: post')) /\
    dg_terminating d = true /\ permits d target /\ lookup (dg_role d) (t_delegations t) <> None /\
    target_description t c target <> target_description t' c target.
Proof.
  pose (dc := deleg "carol" true ["kd"] ["a/"]).
  pose (da := deleg "alice" false ["kd"] ["a/"]).
  pose (db := deleg "bob" false ["kd"] ["a/"]).
  pose (ks := keys_of_names ["kd"]).
  pose (g0 := mkTargets 1 500 [] (Some (mkDelegations ks [dc; da; db]))).
  pose (g1 := mkTargets 2 500 [] (Some (mkDelegations ks [dc; da; db]))).
  pose (g2 := mkTargets 2 500 [] (Some (mkDelegations ks [dc]))).
  pose (R := many_repo ++ [("g0", (["kg"], DTargets g0)); ("g1", (["kg"], DTargets g1)); ("g2", (["kg"], DTargets g2))]).
  pose (ops := [OpTimestamp c50 "ts1"; OpSnapshot c50 "snapM"; OpTargets c50 "g0";
     OpDelegation c50 "targets" "carol" "carol1-leaf"; OpDelegation c50 "targets" "alice" "alice1";
     OpTimestamp c50 "ts2"; OpSnapshot c50 "snap2"]).
  exists (toy_env R), (run (toy_env R) t0 (ops ++ [OpTargets c50 "g1"])),
    (run (toy_env R) t0 (ops ++ [OpTargets c50 "g2"])), c50, "a/x", g1, g2, ks, dc, [da; db], [].
  split.
  { eexists t0, _. split; [|reflexivity]. left. exists "root1", 1, [toy_key "kr1"]. vm_compute. reflexivity. }
  split.
  { eexists t0, _. split; [|reflexivity]. left. exists "root1", 1, [toy_key "kr1"]. vm_compute. reflexivity. }
  do 2 (split; [split; [vm_compute; reflexivity|]; split; [vm_compute; reflexivity|];
                split; [vm_compute; reflexivity|]; eexists; split; vm_compute; reflexivity|]).
  split; [vm_compute; reflexivity|]. do 5 (split; [reflexivity|]).
  split; [exists "a/"; split; [now left|right; split; [exists "a"|exists "x"]; reflexivity]|].
  split; vm_compute; discriminate.
Qed.
Print Assumptions C27_terminating_refuted.

(** What holds, for any delegations [post] after it: a delegation that describes the
    target decides; one that is not loaded or expired ends the search (terminating or
    not); a terminating one that covers the target and whose own delegations are all
    loaded and have nothing ends the search too. *)
Theorem C27_terminating_partial :
  forall (t : tuf) (c : clock) (target : string) (g : targets_metadata) ks pre d post,
  usable_targets t c g -> lookup target (tg_targets g) = None ->
  tg_delegations g = Some (mkDelegations ks (pre ++ d :: post)) ->
  Forall (barren t (at_deleg c) target) pre ->
  (forall desc, NoDup (map dg_role (pre ++ [d])) -> describes t (at_deleg c) target d desc ->
     target_description t c target = Some (Ok desc)) /\
  (NoDup (map dg_role (pre ++ [d])) -> unusable t (at_deleg c) d ->
     target_description t c target = Some (Err TargetUnavailable)) /\
  (forall td kc children, NoDup (map dg_role ((pre ++ [d]) ++ children)) ->
     lookup (dg_role d) (t_delegations t) = Some td -> fresh (tg_expires td) (at_deleg c (dg_role d)) ->
     lookup target (tg_targets td) = None -> tg_delegations td = Some (mkDelegations kc children) ->
     permits d target -> Forall (barren t (at_deleg c) target) children -> dg_terminating d = true ->
     target_description t c target = Some (Err TargetUnavailable)).
Proof.
  intros t c target g ks pre d post U L D B. split; [|split].
  - intros desc ND H. eapply after_barren; eauto.
  - intros ND H. eapply after_barren; eauto.
  - intros td kc children ND Ld F LT Dc P Bc T. eapply after_children; eauto.
Qed.
Print Assumptions C27_terminating_partial.

(** carol is terminating, covers "c/x", and her only delegate dave has nothing on it;
    alice, later in the list, describes it in vain. *)
Example C27_case :
  let al := mkTargets 1 400 [("c/x", tdesc 9)] None in
  let E := toy_env (many_repo ++ [("al", (["kd"], DTargets al))]) in
  let t := run E t0 [OpTimestamp c50 "ts1"; OpSnapshot c50 "snapM"; OpTargets c50 "targetsM";
                     OpDelegation c50 "targets" "alice" "al"; OpDelegation c50 "targets" "carol" "carol1";
                     OpDelegation c50 "carol" "dave" "dave1"; OpDelegation c50 "targets" "bob" "bob1"] in
  lookup "alice" (t_delegations t) = Some al /\
  target_description t c50 "c/x" = Some (Err TargetUnavailable).
Proof. vm_compute. split; reflexivity. Qed.

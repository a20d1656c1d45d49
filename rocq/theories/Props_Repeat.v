(** * C118: repeated calls change nothing, and updates of unrelated roles commute *)
From Coq Require Import String List NArith ZArith Bool Lia.
From Verif Require Import Base BaseFacts Metadata Verify Paths Tuf SpecVerify SpecTuf VerifyProofs TufProofs Toy Props_Tuf SpecRepeat.
Import ListNotations.
Open Scope string_scope.
Open Scope list_scope.
Open Scope N_scope.

(** ** Repeated calls *)

Lemma again_root E t raw t1 : update_root E t raw = (t1, Ok tt) -> exists e, update_root E t1 raw = (t1, Err e).
Proof.
  intros H. destruct (proj1 (C08_root_version_plus_one E t raw) t1 H) as [V _].
  destruct (update_root E t1 raw) as [t2 [[]|e]] eqn:Q.
  - exfalso. apply update_root_ok in H as (new & S & ->). apply update_root_ok in Q as (new2 & S2 & ->).
    assert (new2 = new) as -> by exact (authentic_fun E Root raw _ _ _ _ _ _ (proj1 S2) (proj1 S)).
    destruct S2 as (_ & _ & V2 & _). cbn in V2. lia.
  - exists e. f_equal. unfold update_root in Q. destruct (rbind _ _); inversion Q; reflexivity.
Qed.
Lemma again_timestamp E t c c' raw t1 ts : update_timestamp E t c raw = (t1, Ok (Some ts)) -> update_timestamp E t1 c' raw = (t1, Ok None).
Proof.
  unfold update_timestamp. destruct (verify_signatures E Timestamp raw _ _) as [new|] eqn:V; [|discriminate].
  destruct (_ ?= _); try discriminate. destruct (expired _ _); [discriminate|]. intros H. inversion H; subst; clear H.
  assert (R : forall b : bool, t_root (set_timestamp (Some ts) (if b then set_snapshot None t else t)) = t_root t) by (intros []; reflexivity).
  rewrite R, V. assert (W : forall b : bool, trusted_timestamp_version (set_timestamp (Some ts) (if b then set_snapshot None t else t)) = tm_version ts) by (intros []; reflexivity).
  now rewrite W, N.compare_refl.
Qed.
Lemma again_snapshot E t c c' raw t1 : update_snapshot E t c raw = (t1, Ok true) ->
  fst (update_snapshot E t1 c' raw) = t1 /\ snd (update_snapshot E t1 c' raw) <> Ok true.
Proof.
  unfold update_snapshot at 1. unfold rbind. destruct (trusted_root_unexpired c t) as [root|] eqn:R; [|discriminate].
  destruct (trusted_timestamp_unexpired c t) as [ts|] eqn:T; [|discriminate]. destruct (_ ?= _); try discriminate.
  destruct (verify_signatures E Snapshot raw _ _) as [new|] eqn:V; [|discriminate]. destruct (N.eqb_spec (sm_version new) (md_version (tm_snapshot ts))) as [Q|]; [|discriminate].
  cbn [negb]. destruct (_ <? _); [discriminate|]. intros H. injection H as H1.
  assert (P : t_timestamp t1 = t_timestamp t /\ t_snapshot t1 = Some new).
  { subst t1. unfold purge_delegations. destruct (negb _); cbn; auto. }
  clear H1. destruct P as (P2 & P3).
  assert (TS : t_timestamp t = Some ts).
  { unfold trusted_timestamp_unexpired in T. destruct (t_timestamp t) as [x|]; [|discriminate]. destruct (expired _ _); inversion T; reflexivity. }
  unfold update_snapshot, rbind. destruct (trusted_root_unexpired c' t1); [|split; [reflexivity|discriminate]].
  unfold trusted_timestamp_unexpired. rewrite P2, TS. destruct (expired _ _); [split; [reflexivity|discriminate]|].
  unfold trusted_snapshot_version. rewrite P3, Q, N.compare_refl. split; [reflexivity|discriminate].
Qed.
Lemma again_targets E t c c' raw t1 : update_targets E t c raw = (t1, Ok true) ->
  fst (update_targets E t1 c' raw) = t1 /\ snd (update_targets E t1 c' raw) <> Ok true.
Proof.
  unfold update_targets at 1. unfold rbind. destruct (trusted_root_unexpired c t) as [root|] eqn:R; [|discriminate].
  destruct (trusted_snapshot_unexpired c t) as [s|] eqn:T; [|discriminate]. destruct (lookup (from_role Targets) (sm_meta s)) as [d|] eqn:L; [|discriminate].
  destruct (_ ?= _); try discriminate.
  destruct (verify_signatures E Targets raw _ _) as [new|] eqn:V; [|discriminate]. destruct (N.eqb_spec (tg_version new) (md_version d)) as [Q|]; [|discriminate].
  cbn [negb]. destruct (expired _ _); [discriminate|]. intros H. injection H as H1. subst t1.
  assert (TS : t_snapshot t = Some s).
  { unfold trusted_snapshot_unexpired in T. destruct (t_snapshot t) as [x|]; [|discriminate]. destruct (expired _ _); inversion T; reflexivity. }
  unfold update_targets, rbind. destruct (trusted_root_unexpired c' _); [|split; [reflexivity|discriminate]].
  unfold trusted_snapshot_unexpired. cbn [t_snapshot set_targets]. rewrite TS. destruct (expired _ _); [split; [reflexivity|discriminate]|].
  rewrite L. unfold trusted_targets_version. cbn [t_targets set_targets]. rewrite Q, N.compare_refl. split; [reflexivity|discriminate].
Qed.
Lemma again_delegation E t c c' p p' r raw t1 : update_delegation E t c p r raw = (t1, Ok true) ->
  fst (update_delegation E t1 c' p' r raw) = t1 /\ snd (update_delegation E t1 c' p' r raw) <> Ok true.
Proof.
  unfold update_delegation at 1. unfold rbind. destruct (trusted_root_unexpired c t) as [root|] eqn:R; [|discriminate].
  destruct (trusted_snapshot_unexpired c t) as [s|] eqn:T; [|discriminate]. destruct (trusted_targets_unexpired c t) as [g|] eqn:G; [|discriminate].
  destruct (tg_delegations g) as [ds|]; [|discriminate]. destruct (lookup r (sm_meta s)) as [d|] eqn:L; [|discriminate].
  destruct (_ <? _); [discriminate|]. destruct (find_delegation_threshold_and_keys t p r) as [[th ks]|]; [|discriminate].
  destruct (verify_signatures E Targets raw _ _) as [new|] eqn:V; [|discriminate]. destruct (_ =? _); [discriminate|].
  destruct (N.eqb_spec (tg_version new) (md_version d)) as [Q|]; [|discriminate].
  cbn [negb]. destruct (expired _ _); [discriminate|]. intros H. injection H as H1.
  assert (TS : t_snapshot t = Some s).
  { unfold trusted_snapshot_unexpired in T. destruct (t_snapshot t) as [x|]; [|discriminate]. destruct (expired _ _); inversion T; reflexivity. }
  assert (P1 : t_snapshot t1 = Some s) by (subst t1; exact TS).
  assert (W : trusted_delegation_version t1 r = md_version d).
  { subst t1. unfold trusted_delegation_version. cbn [t_delegations set_delegations]. now rewrite lookup_insert_eq. }
  clear H1. unfold update_delegation, rbind. destruct (trusted_root_unexpired c' _); [|split; [reflexivity|discriminate]].
  unfold trusted_snapshot_unexpired. rewrite P1. destruct (expired _ _); [split; [reflexivity|discriminate]|].
  destruct (trusted_targets_unexpired c' _) as [g'|]; [|split; [reflexivity|discriminate]]. destruct (tg_delegations g'); [|split; [reflexivity|discriminate]].
  rewrite L. rewrite W, N.ltb_irrefl, N.eqb_refl. destruct (find_delegation_threshold_and_keys _ p' r) as [[th' ks']|]; [|split; [reflexivity|discriminate]].
  destruct (verify_signatures E Targets raw th' ks'); split; try reflexivity; discriminate.
Qed.

(** Once a file has been accepted, presenting it again changes nothing and is not reported
    as a change, at whatever time.  A root that has been accepted is never accepted again,
    whatever happens in between. *)
Theorem C118_accepted_only_once :
  forall (E : env) (t t1 : tuf) (o o' : op),
  step E t o = (t1, Ok true) -> repeats o o' ->
  fst (step E t1 o') = t1 /\ snd (step E t1 o') <> Ok true /\
  (forall raw ops, o = OpRoot raw -> snd (step E (run E t1 ops) o') <> Ok true).
Proof.
  intros E t t1 o o' H R. assert (G : fst (step E t1 o') = t1 /\ snd (step E t1 o') <> Ok true).
  { destruct R; cbn [step] in *.
    - destruct (update_root E t b) as [x [[]|e]] eqn:Q; inversion H; subst. apply again_root in Q as (e & ->). split; [reflexivity|discriminate].
    - destruct (update_timestamp E t c b) as [x [[ts|]|e]] eqn:Q; inversion H; subst. apply (again_timestamp E t c c') in Q. rewrite Q. split; [reflexivity|discriminate].
    - exact (again_snapshot E t c c' b t1 H).
    - exact (again_targets E t c c' b t1 H).
    - exact (again_delegation E t c c' p p' r b t1 H). }
  destruct G as [G1 G2]. split; [exact G1|]. split; [exact G2|]. intros raw ops ->. inversion R; subst. cbn [step] in *.
  destruct (update_root E t raw) as [x [[]|e]] eqn:Q; inversion H; subst.
  pose proof (proj2 (C08_root_version_plus_one E t1 raw) ops) as M.
  destruct (update_root E (run E t1 ops) raw) as [y [[]|e]] eqn:Q2; [|discriminate]. exfalso.
  apply update_root_ok in Q as (new & S & ->). apply update_root_ok in Q2 as (new2 & S2 & ->).
  assert (new2 = new) as -> by exact (authentic_fun E Root raw _ _ _ _ _ _ (proj1 S2) (proj1 S)).
  destruct S2 as (_ & _ & V2 & _). cbn in M. lia.
Qed.
Print Assumptions C118_accepted_only_once.

(** And the very same call, accepted or not: twice is as good as once. *)
Theorem C118_twice_is_once :
  forall (E : env) (t : tuf) (o : op) (n : nat),
  run E t (repeat o (S n)) = fst (step E t o).
Proof.
  intros E t o n. assert (G : fst (step E (fst (step E t o)) o) = fst (step E t o)).
  { destruct (step E t o) as [t1 [[|]|e]] eqn:Q; cbn [fst].
    - apply (C118_accepted_only_once E t t1 o o Q). destruct o; constructor.
    - assert (t1 = t) as ->; [|now rewrite Q]. destruct o as [raw|c raw|c raw|c raw|c p r raw]; cbn [step] in Q.
      + destruct (update_root E t raw) as [x [[]|e]]; inversion Q.
      + unfold update_timestamp in Q. destruct (verify_signatures _ _ _ _ _); [|discriminate]. destruct (_ ?= _); try (inversion Q; reflexivity). destruct (expired _ _); inversion Q.
      + unfold update_snapshot in Q. destruct (rbind _ _) as [[?|]|]; inversion Q; reflexivity.
      + unfold update_targets in Q. destruct (rbind _ _) as [[?|]|]; inversion Q; reflexivity.
      + unfold update_delegation in Q. destruct (rbind _ _) as [[?|]|]; inversion Q; reflexivity.
    - destruct o as [raw|c raw|c raw|c raw|c p r raw]; cbn [step] in *.
      + assert (t1 = t) as ->; [|destruct (update_root E t raw) as [x [[]|e']]; inversion Q; reflexivity].
        unfold update_root in Q. destruct (rbind _ _); inversion Q; reflexivity.
      + unfold update_timestamp in *. destruct (verify_signatures E Timestamp raw _ _) as [new|] eqn:V; [|inversion Q; subst; now rewrite V].
        destruct (tm_version new ?= trusted_timestamp_version t) eqn:X; try (inversion Q; subst; rewrite V, X; reflexivity).
        destruct (expired (tm_expires new) (at_new c)) eqn:Ex; [|inversion Q]. injection Q as Q1 _.
        destruct (negb (trusted_snapshot_version t =? md_version (tm_snapshot new))) eqn:B.
        * subst t1. change (t_root (set_snapshot None t)) with (t_root t). rewrite V.
          change (trusted_timestamp_version (set_snapshot None t)) with (trusted_timestamp_version t). rewrite X, Ex. cbn [fst].
          destruct (negb (trusted_snapshot_version (set_snapshot None t) =? md_version (tm_snapshot new))); reflexivity.
        * subst t1. rewrite V, X, B, Ex. reflexivity.
      + assert (t1 = t) as ->; [|now rewrite Q]. unfold update_snapshot in Q. destruct (rbind _ _) as [[?|]|]; inversion Q; reflexivity.
      + assert (t1 = t) as ->; [|now rewrite Q]. unfold update_targets in Q. destruct (rbind _ _) as [[?|]|]; inversion Q; reflexivity.
      + assert (t1 = t) as ->; [|now rewrite Q]. unfold update_delegation in Q. destruct (rbind _ _) as [[?|]|]; inversion Q; reflexivity. }
  unfold run. cbn [repeat fold_left]. induction n as [|n IH]; cbn [repeat fold_left]; [reflexivity|]. now rewrite G.
Qed.
Print Assumptions C118_twice_is_once.

(** ** Unrelated roles *)

(** What an update of a delegated role looks at, and what it gives. *)
Lemma delegation_local E t c p r raw t' :
  t_root t' = t_root t -> t_snapshot t' = t_snapshot t -> t_targets t' = t_targets t ->
  lookup r (t_delegations t') = lookup r (t_delegations t) -> (p = "targets" \/ lookup p (t_delegations t') = lookup p (t_delegations t)) ->
  snd (update_delegation E t' c p r raw) = snd (update_delegation E t c p r raw) /\
  exists n : option targets_metadata, forall x, x = t \/ x = t' ->
    fst (update_delegation E x c p r raw) = match n with None => x | Some g => set_delegations (insert r g (t_delegations x)) x end.
Proof.
  intros R S T L P.
  assert (F : find_delegation_threshold_and_keys t' p r = find_delegation_threshold_and_keys t p r).
  { unfold find_delegation_threshold_and_keys. rewrite T. destruct P as [->|P]; [reflexivity|]. now rewrite P. }
  unfold update_delegation.
  assert (B : forall A (k : root_metadata -> result A) , rbind (trusted_root_unexpired c t') k = rbind (trusted_root_unexpired c t) k) by (intros; unfold trusted_root_unexpired; now rewrite R).
  unfold trusted_root_unexpired, trusted_snapshot_unexpired, trusted_targets_unexpired, trusted_delegation_version. rewrite R, S, T, L, F.
  match goal with |- context [rbind ?x ?k] => destruct (rbind x k) as [[g|]|e] eqn:Q end; (split; [reflexivity|]).
  - exists (Some g). intros x [->| ->]; [rewrite Q|rewrite R, S, T, L, F, Q]; reflexivity.
  - exists None. intros x [->| ->]; [rewrite Q|rewrite R, S, T, L, F, Q]; reflexivity.
  - exists None. intros x [->| ->]; [rewrite Q|rewrite R, S, T, L, F, Q]; reflexivity.
Qed.

(** Updates of two delegated roles neither of which is the parent of the other commute:
    each has the same result before and after the other, and in the end the same is trusted. *)
Theorem C118_unrelated_roles_commute :
  forall (E : env) (t : tuf) (c1 c2 : clock) (p1 p2 r1 r2 : string) (b1 b2 : bytes),
  r1 <> r2 -> apart p1 r2 -> apart p2 r1 ->
  let o1 := OpDelegation c1 p1 r1 b1 in let o2 := OpDelegation c2 p2 r2 b2 in
  same_trust (run E t [o1; o2]) (run E t [o2; o1]) /\
  snd (step E (fst (step E t o2)) o1) = snd (step E t o1) /\ snd (step E (fst (step E t o1)) o2) = snd (step E t o2).
Proof.
  intros E t c1 c2 p1 p2 r1 r2 b1 b2 N A1 A2 o1 o2.
  assert (G : forall c p r b, exists n : option targets_metadata, fst (update_delegation E t c p r b) = match n with None => t | Some g => set_delegations (insert r g (t_delegations t)) t end).
  { intros c p r b. destruct (delegation_local E t c p r b t) as (_ & n & X); auto. exists n. apply X. now left. }
  assert (H : forall c p r b c' p' r' b', r <> r' -> apart p r' -> exists n : option targets_metadata,
    snd (update_delegation E (fst (update_delegation E t c' p' r' b')) c p r b) = snd (update_delegation E t c p r b) /\
    forall x, x = t \/ x = fst (update_delegation E t c' p' r' b') ->
    fst (update_delegation E x c p r b) = match n with None => x | Some g => set_delegations (insert r g (t_delegations x)) x end).
  { intros c p r b c' p' r' b' D A. destruct (G c' p' r' b') as (n' & ->).
    set (t' := match n' with None => t | Some g => _ end).
    destruct (delegation_local E t c p r b t') as (X & n & Y); try (destruct n'; reflexivity).
    - destruct n'; [|reflexivity]. cbn [t' t_delegations set_delegations]. now rewrite lookup_insert_neq.
    - destruct A as [->|A]; [now left|right]. destruct n'; [|reflexivity]. cbn [t' t_delegations set_delegations]. now rewrite lookup_insert_neq.
    - exists n. auto. }
  destruct (H c1 p1 r1 b1 c2 p2 r2 b2 N A1) as (n1 & S1 & X1).
  destruct (H c2 p2 r2 b2 c1 p1 r1 b1 (not_eq_sym N) A2) as (n2 & S2 & X2).
  split; [|split; [exact S1|exact S2]]. unfold run, o1, o2. cbn [fold_left step].
  rewrite (X2 _ (or_intror eq_refl)), (X1 _ (or_intror eq_refl)), (X1 _ (or_introl eq_refl)), (X2 _ (or_introl eq_refl)).
  destruct n1 as [g1|], n2 as [g2|]; (split; [|split; [|split; [|split]]]; [reflexivity..|]); intros r; try reflexivity.
  cbn [t_delegations set_delegations]. destruct (string_dec r r1) as [->|E1].
  - rewrite (lookup_insert_neq r1 r2) by exact N. now rewrite !lookup_insert_eq.
  - rewrite (lookup_insert_neq r r1 g1 (insert r2 _ _)) by exact E1. destruct (string_dec r r2) as [->|E2].
    + now rewrite !lookup_insert_eq.
    + now rewrite !lookup_insert_neq by auto.
Qed.
Print Assumptions C118_unrelated_roles_commute.

(** ** Cases *)

(** The targets role delegates to alice and carol, and alice to bob. *)
Definition two_targets : targets_metadata :=
  mkTargets 1 500 [] (Some (mkDelegations (keys_of_names ["kd"; "ke"]) [deleg "alice" false ["kd"] ["a/"]; deleg "carol" false ["ke"] ["c/"]])).
Definition two_alice : targets_metadata :=
  mkTargets 1 400 [("a/x", tdesc 3)] (Some (mkDelegations (keys_of_names ["kd"]) [deleg "bob" false ["kd"] ["a/b/"]])).
Definition two_repo : toydb :=
  [ ("root2", (["kr1"; "kr2"; "kr3"], DRoot root2)); ("ts1", (["kt"], DTimestamp (mkTimestamp 1 300 (desc 1)))); ("ts9", (["kt"], DTimestamp (mkTimestamp 9 10 (desc 9))));
    ("snap1", (["ks"], DSnapshot (mkSnapshot 1 600 [("targets", desc 1); ("alice", desc 1); ("bob", desc 1); ("carol", desc 1)])));
    ("targets1", (["kg"], DTargets two_targets)); ("alice1", (["kd"], DTargets two_alice));
    ("bob1", (["kd"], DTargets (mkTargets 1 400 [("a/b/y", tdesc 4)] None))); ("carol1", (["ke"], DTargets (mkTargets 1 400 [("c/z", tdesc 5)] None))) ].
Definition E2 : env := toy_env two_repo.
Definition two_t : tuf := run E2 t0 [OpTimestamp c50 "ts1"; OpSnapshot c50 "snap1"; OpTargets c50 "targets1"].
Definition to_alice := OpDelegation c50 "targets" "alice" "alice1".
Definition to_bob := OpDelegation c50 "alice" "bob" "bob1".
Definition to_carol := OpDelegation c50 "targets" "carol" "carol1".

Example C118_nonvacuous_once :
  snd (step E2 t0 (OpRoot "root2")) = Ok true /\ snd (step E2 t0 (OpTimestamp c50 "ts1")) = Ok true /\
  snd (step E2 two_t to_alice) = Ok true /\ snd (step E2 (run E2 two_t [to_alice]) to_alice) = Ok false /\
  (* a rejected timestamp that has an effect nevertheless, once *)
  snd (step E2 two_t (OpTimestamp c50 "ts9")) = Err (ExpiredMetadata Timestamp) /\ fst (step E2 two_t (OpTimestamp c50 "ts9")) <> two_t.
Proof.
  split; [|split; [|split; [|split; [|split]]]]; try (vm_compute; reflexivity).
  intros Q. apply (f_equal t_snapshot) in Q. vm_compute in Q. discriminate.
Qed.

Example C118_nonvacuous_commute :
  "alice" <> "carol" /\ apart "targets" "carol" /\ apart "targets" "alice" /\
  t_delegations (run E2 two_t [to_alice; to_carol]) <> t_delegations two_t /\
  map fst (t_delegations (run E2 two_t [to_alice; to_carol])) <> [] /\
  snd (step E2 two_t to_alice) = Ok true /\ snd (step E2 (run E2 two_t [to_alice]) to_carol) = Ok true /\
  (* bob's parent is alice, so only carol may change places with either *)
  apart "alice" "carol" /\ ~ apart "alice" "alice".
Proof.
  split; [discriminate|]. split; [now left|]. split; [now left|].
  split; [intros Q; apply (f_equal (@length _)) in Q; vm_compute in Q; discriminate|]. split; [vm_compute; discriminate|].
  split; [vm_compute; reflexivity|]. split; [vm_compute; reflexivity|]. split; [right; discriminate|]. intros [Q|Q]; [discriminate|now apply Q].
Qed.

(** A role and its parent do not commute: the parent has to come first. *)
Theorem C118_parents_come_first :
  exists (E : env) (t : tuf) (c : clock) (p r p2 : string) (b b2 : bytes),
  let parent := OpDelegation c p2 p b2 in let child := OpDelegation c p r b in
  p <> r /\ apart p2 r /\ ~ same_trust (run E t [parent; child]) (run E t [child; parent]) /\
  snd (step E (fst (step E t parent)) child) = Ok true /\ snd (step E t child) = Err VerificationFailure.
Proof.
  exists E2, two_t, c50, "alice", "bob", "targets", "bob1", "alice1". cbv zeta. split; [discriminate|]. split; [now left|]. split.
  - intros (_ & _ & _ & _ & L). specialize (L "bob"). vm_compute in L. discriminate.
  - split; vm_compute; reflexivity.
Qed.
Print Assumptions C118_parents_come_first.

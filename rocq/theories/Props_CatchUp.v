(** * C120: a client that missed updates catches up with the next one *)
From Coq Require Import String List NArith ZArith Bool Lia.
From Verif Require Import Base BaseFacts Metadata Verify Paths Tuf SpecVerify SpecTuf VerifyProofs TufProofs Reader Repo Client Toy ClientToy SpecFootprint.
Import ListNotations.
Open Scope string_scope.
Open Scope list_scope.
Open Scope N_scope.

(** ** Specification *)

(** A call of [update_root]. *)
Definition about_root (o : op) : bool := match o with OpRoot _ => true | _ => false end.

(** Snapshot and targets metadata trusted in [b] are of other versions than in [t]. *)
Definition other_versions (b t : tuf) : Prop :=
  (forall s s', t_snapshot b = Some s -> t_snapshot t = Some s' -> sm_version s <> sm_version s') /\
  (forall g g', t_targets b = Some g -> t_targets t = Some g' -> tg_version g <> tg_version g').

(** ** Proofs *)

Definition behind (b t : tuf) : Prop := t_root b = t_root t /\ trusted_timestamp_version b <= trusted_timestamp_version t.
Lemma behind_step E b t o : behind b t -> behind (if about_root o then fst (step E b o) else b) (fst (step E t o)).
Proof.
  intros [R V]. destruct o as [raw|c raw|c raw|c raw|c p r raw]; cbn [about_root step].
  - unfold update_root, rbind. rewrite R. destruct (verify_signatures E Root raw _ (root_keys (t_root t))) as [m|e]; [|now split].
    destruct (verify_signatures E Root raw _ (root_keys m)) as [m'|e]; [|now split]. destruct (_ <=? _); [now split|]. destruct (negb _); [now split|].
    split; [reflexivity|]. apply N.le_refl.
  - unfold update_timestamp. destruct (verify_signatures _ _ _ _ _) as [new|]; [|now split].
    destruct (tm_version new ?= trusted_timestamp_version t) eqn:Q; [now split|now split|]. apply N.compare_gt_iff in Q.
    destruct (negb _), (expired _ _); split; try exact R; try exact V; cbn; lia.
  - unfold update_snapshot. destruct (rbind _ _) as [[s|]|]; [|now split|now split]. unfold purge_delegations. destruct (negb _); now split.
  - unfold update_targets. destruct (rbind _ _) as [[s|]|]; now split.
  - unfold update_delegation. destruct (rbind _ _) as [[s|]|]; now split.
Qed.
Lemma behind_run E ops : forall b t, behind b t -> behind (run E b (filter about_root ops)) (run E t ops).
Proof.
  unfold run. induction ops as [|o ops IH]; cbn [filter fold_left]; intros b t B; [exact B|].
  pose proof (behind_step E b t o B) as B'. destruct (about_root o); cbn [fold_left]; now apply IH.
Qed.

(** Take any sequence of calls, and a client [b] that has seen nothing of it but the roots.
    If then a timestamp, a snapshot and targets metadata are accepted by the one that has
    seen everything, they are accepted by [b], provided the snapshot and targets metadata
    are not of the versions that [b] has; and then both trust the same root, timestamp,
    snapshot and targets metadata. *)
Theorem C120_catching_up :
  forall (E : env) (t t1 t2 t3 : tuf) (ops : list op) (c1 c2 c3 : clock) (ts sn ta : bytes),
  step E (run E t ops) (OpTimestamp c1 ts) = (t1, Ok true) ->
  step E t1 (OpSnapshot c2 sn) = (t2, Ok true) ->
  step E t2 (OpTargets c3 ta) = (t3, Ok true) ->
  let b := run E t (filter about_root ops) in
  other_versions b t3 ->
  exists b1 b2 b3,
    step E b (OpTimestamp c1 ts) = (b1, Ok true) /\ step E b1 (OpSnapshot c2 sn) = (b2, Ok true) /\
    step E b2 (OpTargets c3 ta) = (b3, Ok true) /\ same_top b3 t3.
Proof.
  intros E t t1 t2 t3 ops c1 c2 c3 ts sn ta H1 H2 H3 b O.
  destruct (behind_run E ops t t (conj eq_refl (N.le_refl _))) as [R V]. fold b in R, V. revert R V H1. generalize (run E t ops). clearbody b. clear t ops.
  intros t R V H1.
  cut (exists b1, step E b (OpTimestamp c1 ts) = (b1, Ok true) /\
       exists b2, step E b1 (OpSnapshot c2 sn) = (b2, Ok true) /\ exists b3, step E b2 (OpTargets c3 ta) = (b3, Ok true) /\ same_top b3 t3).
  { intros (b1 & G1 & b2 & G2 & b3 & G3 & G4). exists b1, b2, b3. auto. }
  cbn [step] in *.
  (* the timestamp *)
  unfold update_timestamp in *. rewrite R. destruct (verify_signatures E Timestamp ts _ _) as [new|]; [|discriminate].
  destruct (tm_version new ?= trusted_timestamp_version t) eqn:Q; [discriminate|discriminate|]. apply N.compare_gt_iff in Q.
  replace (tm_version new ?= trusted_timestamp_version b) with Gt by (symmetry; apply N.compare_gt_iff; lia).
  destruct (expired (tm_expires new) (at_new c1)) eqn:X1; [discriminate|]. injection H1 as H1.
  assert (A1 : t_root t1 = t_root t /\ t_timestamp t1 = Some new) by (subst t1; destruct (negb _); now split). clear H1. destruct A1 as [A1 A2].
  eexists. split; [reflexivity|].
  match goal with |- context [update_snapshot E ?x c2 sn] => set (b1 := x) end.
  assert (B1 : t_root b1 = t_root t1 /\ t_timestamp b1 = Some new) by (subst b1; destruct (negb _); cbn; rewrite A1; now split). destruct B1 as [B1 B2].
  assert (B3 : t_targets b1 = t_targets b) by (subst b1; destruct (negb _); reflexivity).
  assert (B4 : t_snapshot b1 = None \/ (t_snapshot b1 = t_snapshot b /\ trusted_snapshot_version b = md_version (tm_snapshot new))).
  { subst b1. destruct (N.eqb_spec (trusted_snapshot_version b) (md_version (tm_snapshot new))) as [q|q]; cbn; auto. }
  clearbody b1.
  (* the snapshot *)
  unfold update_snapshot, rbind in *.
  unfold trusted_root_unexpired in H2 |- *. rewrite B1. destruct (expired (rm_expires (t_root t1)) _); [discriminate|].
  unfold trusted_timestamp_unexpired in H2 |- *. rewrite A2 in H2. rewrite B2. destruct (expired (tm_expires new) _); [discriminate|].
  destruct (md_version (tm_snapshot new) ?= trusted_snapshot_version t1) eqn:Q2; [discriminate|discriminate|]. apply N.compare_gt_iff in Q2.
  destruct (verify_signatures E Snapshot sn _ _) as [s|]; [|discriminate].
  destruct (N.eqb_spec (sm_version s) (md_version (tm_snapshot new))) as [Qs|]; [|discriminate]. cbn [negb] in *. destruct (_ <? _); [discriminate|].
  injection H2 as H2.
  assert (C1 : t_root t2 = t_root t1 /\ t_timestamp t2 = t_timestamp t1 /\ t_snapshot t2 = Some s) by (subst t2; unfold purge_delegations; destruct (negb _); now repeat split).
  clear H2. destruct C1 as (C1 & C2 & C3).
  assert (S3 : t_snapshot t3 = Some s /\ t_root t3 = t_root t2 /\ t_timestamp t3 = t_timestamp t2).
  { unfold update_targets in H3. destruct (rbind _ _) as [[g|]|]; inversion H3; subst. now repeat split. }
  assert (B5 : t_snapshot b1 = None).
  { destruct B4 as [B4|[B4 B6]]; [exact B4|]. destruct (t_snapshot b1) as [x|] eqn:Qb; [|reflexivity]. exfalso. symmetry in B4.
    unfold trusted_snapshot_version in B6. rewrite B4 in B6. apply (proj1 O x s B4 (proj1 S3)). congruence. }
  replace (md_version (tm_snapshot new) ?= trusted_snapshot_version b1) with Gt by (symmetry; apply N.compare_gt_iff; unfold trusted_snapshot_version; rewrite B5; lia).
  replace (sm_version s <? trusted_snapshot_version b1) with false by (symmetry; apply N.ltb_ge; unfold trusted_snapshot_version; rewrite B5; lia).
  eexists. split; [reflexivity|].
  match goal with |- context [update_targets E ?x c3 ta] => set (b2 := x) end.
  assert (D : t_root b2 = t_root t2 /\ t_timestamp b2 = t_timestamp t2 /\ t_snapshot b2 = Some s).
  { subst b2. unfold purge_delegations. destruct (negb _); cbn; rewrite C1, C2, A2, B1, B2; now repeat split. }
  assert (D4 : t_targets b2 = None \/ (t_targets b2 = t_targets b /\ trusted_targets_version b1 = match lookup (from_role Targets) (sm_meta s) with Some m => md_version m | None => 0 end)).
  { subst b2. unfold purge_delegations. destruct (N.eqb_spec (trusted_targets_version b1) (match lookup (from_role Targets) (sm_meta s) with Some m => md_version m | None => 0 end)) as [q|q]; [right; split; [exact B3|exact q]|left; reflexivity]. }
  clearbody b2. destruct D as (D1 & D2 & D3).
  (* the targets *)
  unfold update_targets, rbind in *. unfold trusted_root_unexpired in H3 |- *. rewrite D1. destruct (expired (rm_expires (t_root t2)) _); [discriminate|].
  unfold trusted_snapshot_unexpired in H3 |- *. rewrite C3 in H3. rewrite D3. destruct (expired (sm_expires s) _); [discriminate|].
  destruct (lookup (from_role Targets) (sm_meta s)) as [desc|]; [|discriminate].
  destruct (md_version desc ?= trusted_targets_version t2) eqn:Q3; [discriminate|discriminate|]. apply N.compare_gt_iff in Q3.
  destruct (verify_signatures E Targets ta _ _) as [g|]; [|discriminate].
  destruct (N.eqb_spec (tg_version g) (md_version desc)) as [Qg|]; [|discriminate]. cbn [negb] in *. destruct (expired (tg_expires g) _); [discriminate|].
  injection H3 as H3.
  assert (D5 : t_targets b2 = None).
  { destruct D4 as [D4|[D4 D6]]; [exact D4|]. destruct (t_targets b2) as [x|] eqn:Qb; [|reflexivity]. exfalso. symmetry in D4.
    unfold trusted_targets_version in D6. rewrite B3, D4 in D6. apply (proj2 O x g D4); [subst t3; reflexivity|]. congruence. }
  replace (md_version desc ?= trusted_targets_version b2) with Gt by (symmetry; apply N.compare_gt_iff; unfold trusted_targets_version; rewrite D5; lia).
  eexists. split; [reflexivity|]. subst t3. repeat split; cbn; congruence.
Qed.
Print Assumptions C120_catching_up.

(** The condition on the versions is needed: a client that has a snapshot of the version
    that the timestamp lists keeps it, and says so. *)
Theorem C120_same_version_is_kept :
  forall (E : env) (b : tuf) (c1 c2 : clock) (ts sn : bytes) (b1 : tuf) (s : snapshot_metadata) (new : timestamp_metadata),
  step E b (OpTimestamp c1 ts) = (b1, Ok true) -> t_timestamp b1 = Some new ->
  t_snapshot b = Some s -> sm_version s = md_version (tm_snapshot new) ->
  t_snapshot b1 = Some s /\ fst (step E b1 (OpSnapshot c2 sn)) = b1 /\ snd (step E b1 (OpSnapshot c2 sn)) <> Ok true.
Proof.
  intros E b c1 c2 ts sn b1 s new H T S V. cbn [step] in *. unfold update_timestamp in H. destruct (verify_signatures E Timestamp ts _ _) as [n|]; [|discriminate].
  destruct (_ ?= _); try discriminate. destruct (expired _ _); [discriminate|]. injection H as H.
  assert (n = new) as -> by (subst b1; cbn in T; congruence).
  assert (Q : trusted_snapshot_version b = md_version (tm_snapshot new)) by (unfold trusted_snapshot_version; now rewrite S).
  rewrite Q, N.eqb_refl in H. cbn [negb] in H. assert (S1 : t_snapshot b1 = Some s) by (subst b1; exact S). split; [exact S1|]. clear H.
  unfold update_snapshot, rbind. destruct (trusted_root_unexpired c2 b1); [|split; [reflexivity|discriminate]].
  unfold trusted_timestamp_unexpired. rewrite T. destruct (expired _ _); [split; [reflexivity|discriminate]|].
  unfold trusted_snapshot_version. rewrite S1, V, N.compare_refl. split; [reflexivity|discriminate].
Qed.
Print Assumptions C120_same_version_is_kept.

(** The same for targets metadata of the version that the snapshot lists. *)
Theorem C120_same_targets_are_kept :
  forall (E : env) (b : tuf) (c1 c2 : clock) (sn ta : bytes) (b1 : tuf) (g : targets_metadata) (new : snapshot_metadata) (d : meta_desc),
  step E b (OpSnapshot c1 sn) = (b1, Ok true) -> t_snapshot b1 = Some new -> lookup "targets" (sm_meta new) = Some d ->
  t_targets b = Some g -> tg_version g = md_version d ->
  t_targets b1 = Some g /\ fst (step E b1 (OpTargets c2 ta)) = b1 /\ snd (step E b1 (OpTargets c2 ta)) <> Ok true.
Proof.
  intros E b c1 c2 sn ta b1 g new d H S L G V. cbn [step] in *. unfold update_snapshot in H. destruct (rbind _ _) as [[n|]|]; try discriminate. injection H as H.
  assert (P : t_snapshot b1 = Some n /\ t_targets b1 = if negb (trusted_targets_version b =? match lookup (from_role Targets) (sm_meta n) with Some m => md_version m | None => 0 end) then None else t_targets b).
  { subst b1. unfold purge_delegations. destruct (negb _); now split. }
  clear H. destruct P as [P1 P2]. assert (n = new) as -> by congruence.
  change (from_role Targets) with "targets" in P2. rewrite L in P2.
  assert (Q : trusted_targets_version b = md_version d) by (unfold trusted_targets_version; now rewrite G).
  rewrite Q, N.eqb_refl in P2. cbn [negb] in P2. rewrite G in P2. split; [exact P2|].
  unfold update_targets, rbind. destruct (trusted_root_unexpired c2 b1); [|split; [reflexivity|discriminate]].
  unfold trusted_snapshot_unexpired. rewrite S. destruct (expired _ _); [split; [reflexivity|discriminate]|].
  change (from_role Targets) with "targets". rewrite L. unfold trusted_targets_version. rewrite P2, V, N.compare_refl. split; [reflexivity|discriminate].
Qed.
Print Assumptions C120_same_targets_are_kept.

(** ** A client that saw the first versions of everything, and missed the second ones *)

Definition u_snap (v w : N) : snapshot_metadata := mkSnapshot v 600 [("targets", mdesc w "any")].
Definition u_stock : toydb :=
  [ ("root1", (["kr1"; "kr2"], DRoot root1)); ("root2", (["kr1"; "kr2"; "kr3"], DRoot root2));
    ("ts1", (["kt"], DTimestamp (mkTimestamp 1 300 (mdesc 1 "any")))); ("snap1", (["ks"], DSnapshot (u_snap 1 1)));
    ("targets1", (["kg"], DTargets (mkTargets 1 500 [] None)));
    ("ts2", (["kt"], DTimestamp (mkTimestamp 2 300 (mdesc 2 "any")))); ("snap2", (["ks"], DSnapshot (u_snap 2 2)));
    ("targets2", (["kg"], DTargets (mkTargets 2 500 [] None)));
    ("ts3", (["kt"], DTimestamp (mkTimestamp 3 300 (mdesc 3 "any")))); ("snap3", (["ks"], DSnapshot (u_snap 3 3)));
    ("targets3", (["kg"], DTargets (mkTargets 3 500 [] None))) ].
Definition Eu : env := toy_env u_stock.
Definition u_first : tuf := run Eu (tuf_of_root root1) [OpTimestamp c50 "ts1"; OpSnapshot c50 "snap1"; OpTargets c50 "targets1"].
Definition u_second (root : list op) : list op := [OpTimestamp c50 "ts2"; OpSnapshot c50 "snap2"] ++ root ++ [OpTargets c50 "targets2"].
Definition accepted_all (t : tuf) : Prop :=
  exists t1 t2 t3, step Eu t (OpTimestamp c50 "ts3") = (t1, Ok true) /\ step Eu t1 (OpSnapshot c50 "snap3") = (t2, Ok true) /\
    step Eu t2 (OpTargets c50 "targets3") = (t3, Ok true).

Example C120_case : forall root, root = [] \/ root = [OpRoot "root2"] ->
  accepted_all (run Eu u_first (u_second root)) /\ filter about_root (u_second root) = root /\
  trusted_targets_version u_first = 1 /\
  other_versions (run Eu u_first root) (run Eu (run Eu u_first (u_second root)) [OpTimestamp c50 "ts3"; OpSnapshot c50 "snap3"; OpTargets c50 "targets3"]).
Proof.
  intros root [->| ->]; (split; [eexists _, _, _; split; [vm_compute; reflexivity|]; split; vm_compute; reflexivity|]);
    (split; [reflexivity|]); (split; [vm_compute; reflexivity|]); split; intros s s'; vm_compute; intros [= <-] [= <-]; discriminate.
Qed.
Example C120_kept_case :
  let b := run Eu u_first [OpTimestamp c50 "ts2"; OpSnapshot c50 "snap2"] in
  option_map sm_version (t_snapshot b) = Some 2 /\ snd (step Eu b (OpSnapshot c50 "snap2")) = Ok false /\
  exists E' b1 new s, step E' u_first (OpTimestamp c50 "ts2") = (b1, Ok true) /\ t_timestamp b1 = Some new /\ t_snapshot u_first = Some s /\
    sm_version s = md_version (tm_snapshot new).
Proof.
  split; [vm_compute; reflexivity|]. split; [vm_compute; reflexivity|].
  exists (toy_env [("ts2", (["kt"], DTimestamp (mkTimestamp 2 300 (mdesc 1 "any"))))]). eexists _, _, _.
  split; [vm_compute; reflexivity|]. split; [vm_compute; reflexivity|]. split; vm_compute; reflexivity.
Qed.
Example C120_targets_case :
  exists E' b b1 new d g, b = run E' u_first [OpTimestamp c50 "ts2"] /\ step E' b (OpSnapshot c50 "snap2") = (b1, Ok true) /\ t_snapshot b1 = Some new /\
    lookup "targets" (sm_meta new) = Some d /\ t_targets b = Some g /\ tg_version g = md_version d.
Proof.
  exists (toy_env [("ts2", (["kt"], DTimestamp (mkTimestamp 2 300 (mdesc 2 "any")))); ("snap2", (["ks"], DSnapshot (u_snap 2 1)))]).
  eexists _, _, _, _, _. split; [reflexivity|]. split; [vm_compute; reflexivity|]. split; [vm_compute; reflexivity|]. split; [vm_compute; reflexivity|].
  split; vm_compute; reflexivity.
Qed.

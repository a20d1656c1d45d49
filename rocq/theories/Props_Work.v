(** * C100: how much a call of the client asks for and writes *)
From Coq Require Import String List NArith ZArith Bool Lia.
From Verif Require Import Base BaseFacts Metadata Verify Paths Tuf Reader SpecReader Repo Client SpecClient ClientLogic SpecWork WorkProofs TreeWorkProofs Toy ClientToy.
Import ListNotations.
Open Scope string_scope.
Open Scope list_scope.
Open Scope N_scope.

(** ** Updates and constructors *)

(** An update asks at most once for each new root, and four times more: for the root that
    does not exist yet, the timestamp, the snapshot and the targets.  It stores each new
    root twice, and at most three other documents.  All this also if it is dropped on the
    way, whatever the repositories answer. *)
Theorem C100_work_of_an_update :
  forall (E : env) (cfg : config) (fuel : nat) (t : tuf) (tr : list event) (q : prog (tuf * result bool)),
  exec (update E cfg fuel t) tr q ->
  requests tr + rm_version (t_root t) <= rm_version (t_root (tuf_after t tr)) + 4 /\
  stores tr + 2 * rm_version (t_root t) <= 2 * rm_version (t_root (tuf_after t tr)) + 3.
Proof. exact update_work. Qed.
Print Assumptions C100_work_of_an_update.

(** Constructors: the same number of requests, and those for the root to start from; only
    that root is stored. *)
Theorem C100_work_of_a_constructor :
  forall (E : env) (cfg : config) (fuel : nat) (c : ctor) (tr : list event) (q : prog (result tuf)),
  exec (construct E cfg fuel c) tr q ->
  match first_trusted tr with
  | Some t => requests tr + rm_version (t_root t) <= rm_version (t_root (tuf_after t tr)) + 4 + looked_up c
  | None => requests tr <= looked_up c
  end /\
  stores tr <= kept_root c.
Proof. exact construct_work. Qed.
Print Assumptions C100_work_of_a_constructor.

(** The bounds are met: one new root. *)
Example C100_update_case :
  exec (update Ec default_config 9 t_started) (fst (fst updated)) (Ret (t_updated, Ok true)) /\
  requests (fst (fst updated)) = 5 /\ stores (fst (fst updated)) = 5 /\
  rm_version (t_root t_started) = 1 /\ rm_version (t_root (tuf_after t_started (fst (fst updated)))) = 2 /\
  requests (fst (fst started)) = 2 /\ stores (fst (fst started)) = 0 /\
  first_trusted (fst (fst started)) = Some (tuf_of_root root1).
Proof.
  split.
  - destruct updated_ok as (_ & E2 & _). destruct updated as [[tr l] q] eqn:S. cbn [fst snd] in *.
    apply drive_exec in S as [X _]. rewrite E2 in X. exact X.
  - vm_compute. repeat split; reflexivity.
Qed.

(** ** Looking for targets *)

(** The other calls: with at most [w] delegations in any role, there are at most
    [w + w^2 + ...] roles to look at, up to the depth the client is configured with;
    each is asked for at most twice and stored at most once. *)
Theorem C100_work_of_a_search_partial :
  forall (E : env) (cfg : config) (fuel : nat) (t : tuf) (k : call) (w : nat) (tr : list event) (q : prog (tuf * result unit)),
  k <> CallUpdate -> exec (call_prog E cfg fuel t k) tr q ->
  narrow w t -> (forall t', In (EvPut t') tr -> narrow w t') ->
  requests tr <= spread 2 (N.of_nat w) (S (N.to_nat (cf_max_depth cfg))) + downloads k /\
  stores tr <= spread 1 (N.of_nat w) (S (N.to_nat (cf_max_depth cfg))) + saves k.
Proof. exact call_work. Qed.
Print Assumptions C100_work_of_a_search_partial.

Example C100_search_case :
  let x := drive 50 local_updated remote1 c50 (call_prog Ec default_config 10 t_updated (CallDescription "a/b/y")) in
  requests (fst (fst x)) = 4 /\ stores (fst (fst x)) = 2 /\ narrow 1 t_updated /\
  (forall t', In (EvPut t') (fst (fst x)) -> narrow 1 t') /\
  spread 2 1 (S (N.to_nat (cf_max_depth default_config))) = 18.
Proof.
  assert (Nw : forall t g, t_targets t = Some g -> at_most 1 g -> Forall (fun x => at_most 1 (snd x)) (t_delegations t) -> narrow 1 t).
  { intros t g T A F. split; [intros g' H; congruence|]. intros r g' L. rewrite Forall_forall in F.
    apply lookup_In in L. exact (F _ L). }
  cbv zeta. split; [vm_compute; reflexivity|]. split; [vm_compute; reflexivity|]. split.
  - eapply Nw; [vm_compute; reflexivity|vm_compute; lia|vm_compute; constructor].
  - split; [|vm_compute; reflexivity]. intros t' H.
    assert (F : Forall (fun e => match e with EvPut t' => narrow 1 t' | _ => True end)
      (fst (fst (drive 50 local_updated remote1 c50 (call_prog Ec default_config 10 t_updated (CallDescription "a/b/y")))))).
    { match goal with |- Forall _ ?l => let l' := eval vm_compute in l in change (Forall (fun e => match e with EvPut t' => narrow 1 t' | _ => True end) l') end.
      repeat apply Forall_cons; try exact I; try apply Forall_nil.
      all: eapply Nw; [reflexivity|vm_compute; lia|cbn [t_delegations]; repeat apply Forall_cons; try apply Forall_nil; vm_compute; try exact I; lia]. }
    rewrite Forall_forall in F. exact (F _ H).
Qed.

(** *** Once for each role of a tree *)

(** While the delegations the client trusts form a tree, a call asks for no role a second
    time in the same repository, however wide and deep the tree is. *)
Theorem C100_each_role_once_in_a_tree :
  forall (E : env) (cfg : config) (fuel : nat) (t : tuf) (k : call) (parent : string -> string) (rank : string -> nat)
         (tr : list event) (q : prog (tuf * result unit)),
  k <> CallUpdate -> exec (call_prog E cfg fuel t k) tr q ->
  tree_shaped parent rank t -> (forall t', In (EvPut t') tr -> tree_shaped parent rank t') ->
  forall pre e post s r, tr = pre ++ e :: post -> asks_for s r e -> forall e', In e' pre -> ~ asks_for s r e'.
Proof.
  intros E cfg fuel t k parent rank tr q N X T H pre e post s r Q A e' I' A'.
  destruct (wp_sound (DT parent rank) _ _ _ X _ [] (wp_tree_call parent rank E cfg fuel t k N T)) as [G _].
  - intros pre' e0 post' Q'. destruct e0; cbn; try exact I. apply H. rewrite Q'. apply in_or_app. right. now left.
  - apply (G pre e post Q s r A). now exists e'.
Qed.
Print Assumptions C100_each_role_once_in_a_tree.

(** "targets" delegates to "alice", "alice" to "bob". *)
Definition above (r : string) : string := if String.eqb r "bob" then "alice" else "targets".
Definition level (r : string) : nat := if String.eqb r "bob" then 2 else if String.eqb r "alice" then 1 else 0.
Example C100_tree_case :
  let x := drive 50 local_updated remote1 c50 (call_prog Ec default_config 10 t_updated (CallDescription "a/b/y")) in
  requests (fst (fst x)) = 4 /\ exec (call_prog Ec default_config 10 t_updated (CallDescription "a/b/y")) (fst (fst x)) (snd x) /\
  tree_shaped above level t_updated /\ (forall t', In (EvPut t') (fst (fst x)) -> tree_shaped above level t').
Proof.
  assert (Nw : forall t g, t_targets t = Some g -> grows above level "targets" g ->
                Forall (fun x => grows above level (fst x) (snd x)) (t_delegations t) -> tree_shaped above level t).
  { intros t g T A F. split; [intros g' H; congruence|]. intros r g' L. rewrite Forall_forall in F.
    apply lookup_In in L. exact (F _ L). }
  assert (One : forall r d, above (dg_role d) = r -> (level r < level (dg_role d))%nat ->
     NoDup (map dg_role [d]) /\ forall d', In d' [d] -> above (dg_role d') = r /\ (level r < level (dg_role d'))%nat).
  { intros r d P L. split; [cbn; constructor; [intros []|constructor]|]. intros d' [<-|[]]. now split. }
  cbv zeta. split; [vm_compute; reflexivity|]. split.
  { destruct (drive 50 local_updated remote1 c50 (call_prog Ec default_config 10 t_updated (CallDescription "a/b/y"))) as [[tr l] q] eqn:D.
    apply drive_exec in D as [X _]. exact X. }
  split.
  - eapply Nw; [vm_compute; reflexivity|unfold grows; cbn [tg_delegations]; apply One; vm_compute; [reflexivity|lia]|vm_compute; constructor].
  - intros t' H.
    assert (F : Forall (fun e => match e with EvPut t' => tree_shaped above level t' | _ => True end)
      (fst (fst (drive 50 local_updated remote1 c50 (call_prog Ec default_config 10 t_updated (CallDescription "a/b/y")))))).
    { match goal with |- Forall _ ?l => let l' := eval vm_compute in l in change (Forall (fun e => match e with EvPut t' => tree_shaped above level t' | _ => True end) l') end.
      repeat apply Forall_cons; try exact I; try apply Forall_nil.
      all: eapply Nw; [reflexivity|unfold grows; cbn [tg_delegations]; apply One; vm_compute; [reflexivity|lia]|].
      all: cbn [t_delegations]; repeat apply Forall_cons; try apply Forall_nil; unfold grows; cbn [fst snd tg_delegations dgs_roles]; try exact I;
        apply One; vm_compute; [reflexivity|lia]. }
    rewrite Forall_forall in F. exact (F _ H).
Qed.

(** *** More than once for a role *)

(** "alice" and "bob" delegate to each other and to themselves. *)
Definition both : option delegations :=
  Some (mkDelegations (keys_of_names ["kd"]) [deleg "alice" false ["kd"] ["a/"]; deleg "bob" false ["kd"] ["a/"]]).
Definition ring_targets : targets_metadata := mkTargets 1 500 [] both.
Definition ring_role : targets_metadata := mkTargets 1 400 [] both.
Definition ring_snapshot : snapshot_metadata :=
  mkSnapshot 1 600 [("targets", mdesc 1 "targets1"); ("alice", mdesc 1 "alice1"); ("bob", mdesc 1 "bob1")].
Definition ring_timestamp : timestamp_metadata := mkTimestamp 1 300 (mdesc 1 "snap1").
Definition ring_db : toydb :=
  [ ("root1", (["kr1"; "kr2"], DRoot root1)); ("ts1", (["kt"], DTimestamp ring_timestamp));
    ("snap1", (["ks"], DSnapshot ring_snapshot)); ("targets1", (["kg"], DTargets ring_targets));
    ("alice1", (["kd"], DTargets ring_role)); ("bob1", (["kd"], DTargets ring_role)) ].
Definition Er : env := toy_env ring_db.
Definition ring_remote : ephemeral :=
  mkEphemeral [(("timestamp", VNone), "ts1"); (("snapshot", VNone), "snap1"); (("targets", VNone), "targets1");
               (("alice", VNone), "alice1"); (("bob", VNone), "bob1")] [].

(** The metadata of a client, with the delegated roles it has met. *)
Definition ring_tuf (ds : list string) : tuf :=
  mkTuf root1 (Some ring_snapshot) (Some ring_targets) (Some ring_timestamp) (map (fun r => (r, ring_role)) ds).
Definition deep (n : N) : config := mkConfig None None n default_real_to_virtual.

Definition ring_started n f := drive 50 ephemeral_new ring_remote c50 (construct Er (deep n) (S f) (FromRoot "root1")).
Definition ring_updated n f := drive 50 ephemeral_new ring_remote c50 (update Er (deep n) (S f) (tuf_of_root root1)).

Lemma ring_life n f : life Er (deep n) (S f) (FromRoot "root1")
  (fst (fst (ring_started n f)) ++ fst (fst (ring_updated n f))) (ring_tuf []).
Proof.
  assert (S : snd (ring_started n f) = Ret (Ok (tuf_of_root root1))) by (vm_compute; reflexivity).
  assert (U : snd (ring_updated n f) = Ret (ring_tuf [], Ok true)) by (vm_compute; reflexivity).
  assert (T : tuf_after (tuf_of_root root1) (fst (fst (ring_updated n f))) = ring_tuf []) by (vm_compute; reflexivity).
  rewrite <- T. apply life_call with (k := CallUpdate) (q := Ret (ring_tuf [], Ok tt)).
  - apply life_new. destruct (ring_started n f) as [[tr l] q] eqn:D. cbn [fst snd] in *. subst q.
    now apply drive_exec in D as [X _].
  - cbn [call_prog]. unfold forget. destruct (ring_updated n f) as [[tr l] q] eqn:D. cbn [fst snd] in *. subst q.
    apply drive_exec in D as [X _]. rewrite <- (app_nil_r tr). eapply exec_bind; [exact X|]. constructor.
Qed.

(** One step of the walk, the role being in the local repository. *)
Lemma walk_step E recur dt depth target snapshot trole d rest t t' b c desc hash ans raw meta t'' res q tr1 tr2 :
  existsb (fun p => is_child target p) (dg_paths d) = true -> lookup (dg_role d) (sm_meta snapshot) = Some desc ->
  hash_preference (md_hashes desc) = Ok hash -> repo_check Targets (dg_role d) = Ok tt ->
  read_metadata (e_crypto E) (Some (md_length desc)) (Some hash) ans = Ok raw ->
  update_delegation E t c trole (dg_role d) raw = (t', Ok b) -> lookup (dg_role d) (t_delegations t') = Some meta ->
  depth < u32_max -> exec (recur t' (dg_terminating d) (depth + 1) (Some (meta, dg_role d))) tr1 (Ret (t'', (false, res))) ->
  exec (walk_loop E recur dt depth target snapshot trole rest t'') tr2 q ->
  exists tr, exec (walk_loop E recur dt depth target snapshot trole (d :: rest) t) tr q /\
    requests tr = 1 + requests tr1 + requests tr2 /\
    forall P : tuf -> Prop, P t' -> (forall x, In (EvPut x) tr1 -> P x) -> (forall x, In (EvPut x) tr2 -> P x) ->
      forall x, In (EvPut x) tr -> P x.
Proof.
  intros H1 H2 H3 H4 H5 H6 H7 H8 X1 X2.
  exists (EvFetchMeta Local (dg_role d) VNone (Some (md_length desc)) (Some hash) ans :: EvNow c :: EvPut t' ::
          EvStoreMeta (dg_role d) VNone raw (Ok tt) :: tr1 ++ tr2).
  split; [|split].
  - cbn [walk_loop]. rewrite H1, H2, H3. cbn [negb]. unfold fetch_metadata at 1. rewrite H4. cbn [bind].
    apply exec_fetch_meta. rewrite H5. cbn [bind]. apply exec_now. rewrite H6. apply exec_put.
    unfold store_metadata. rewrite H4. cbn [bind]. apply exec_store_meta. rewrite H7.
    destruct (N.leb_spec u32_max depth); [lia|]. eapply exec_bind; [exact X1|]. cbn [andb]. exact X2.
  - cbn [requests]. assert (R : forall a b, requests (a ++ b) = requests a + requests b).
    { induction a as [|e a IH]; intros b0; [reflexivity|]. destruct e; cbn [requests app]; rewrite IH; lia. }
    rewrite R. lia.
  - intros P Pt P1 P2 x [Hx|[Hx|[Hx|[Hx|Hx]]]]; try discriminate; [inversion Hx; subst; exact Pt|].
    apply in_app_or in Hx as [Hx|Hx]; auto.
Qed.

(** The delegated roles met so far, and the role whose delegations are looked at. *)
Definition met (ds : list string) (trole : string) : Prop :=
  ds = [] /\ trole = "targets" \/
  ds = ["alice"] /\ (trole = "targets" \/ trole = "alice") \/
  ds = ["bob"; "alice"] /\ (trole = "targets" \/ trole = "alice" \/ trole = "bob").

Lemma visit_alice ds trole : met ds trole -> exists b ds', ds' = (if existsb (String.eqb "bob") ds then ds else ["alice"]) /\
  update_delegation Er (ring_tuf ds) c50 trole "alice" "alice1" = (ring_tuf ds', Ok b) /\
  lookup "alice" (t_delegations (ring_tuf ds')) = Some ring_role /\ met ds' "alice" /\ met ds' trole.
Proof.
  unfold met. intros [[-> ->]|[[-> [-> | ->]]|[-> [-> |[-> | ->]]]]];
    (eexists; eexists; split; [reflexivity|]; split; [vm_compute; reflexivity|]; split; [reflexivity|]; cbn; split; tauto).
Qed.

Lemma visit_bob ds trole : met ds trole -> ds <> [] -> exists b,
  update_delegation Er (ring_tuf ds) c50 trole "bob" "bob1" = (ring_tuf ["bob"; "alice"], Ok b) /\
  lookup "bob" (t_delegations (ring_tuf ["bob"; "alice"])) = Some ring_role.
Proof.
  unfold met. intros [[-> ->]|[[-> [-> | ->]]|[-> [-> |[-> | ->]]]]] N; try (now elim N);
    (eexists; split; [vm_compute; reflexivity|reflexivity]).
Qed.

Definition few (t : tuf) : Prop := (length (t_delegations t) <= 2)%nat.

Lemma few_met ds trole : met ds trole -> few (ring_tuf ds).
Proof. unfold met, few. intros [[-> _]|[[-> _]|[-> _]]]; cbn; lia. Qed.

Section Ring.
  Variable n : nat.
  Hypothesis small : N.of_nat n < u32_max.
  Notation cfg := (deep (N.of_nat n)).

  (** [k] levels are left to be searched. *)
  Lemma ring_walk k : forall f ds trole dt depth, met ds trole -> (k <= f)%nat -> depth + N.of_nat k = N.of_nat n ->
    exists tr ds', exec (walk_loop Er (fun t dt dep tgs => lookup_target_description Er cfg (S f) t dt dep "a/x" ring_snapshot tgs)
                           dt depth "a/x" ring_snapshot trole
                           [deleg "alice" false ["kd"] ["a/"]; deleg "bob" false ["kd"] ["a/"]] (ring_tuf ds)) tr
                        (Ret (ring_tuf ds', (dt, Err NotFound))) /\
      met ds' trole /\ ds' = ["bob"; "alice"] /\ 2 ^ (N.of_nat k + 2) = requests tr + 2 /\ (forall x, In (EvPut x) tr -> few x).
  Proof.
    induction k as [|k IH]; intros f ds trole dt depth M F D.
    - destruct (visit_alice ds trole M) as (b1 & d1 & E1 & U1 & L1 & M1 & M1').
      assert (Nd : d1 <> []) by (rewrite E1; destruct M as [[-> _]|[[-> _]|[-> _]]]; discriminate).
      destruct (visit_bob d1 trole M1' Nd) as (b2 & U2 & L2).
      assert (Leaf : forall t x, exec (lookup_target_description Er cfg (S f) t false (depth + 1) "a/x" ring_snapshot x) []
                       (Ret (t, (false, Err NotFound)))).
      { intros t x. cbn [lookup_target_description]. cbn [deep cf_max_depth]. destruct (N.ltb_spec (N.of_nat n) (depth + 1)); [constructor|lia]. }
      destruct (walk_step Er (fun t dt dep tgs => lookup_target_description Er cfg (S f) t dt dep "a/x" ring_snapshot tgs) dt depth "a/x"
        ring_snapshot trole (deleg "bob" false ["kd"] ["a/"]) [] (ring_tuf d1) (ring_tuf ["bob"; "alice"]) b2 c50
        (mdesc 1 "bob1") (Sha256, "2bob1") (Ok (cursor "bob1")) "bob1" ring_role (ring_tuf ["bob"; "alice"]) (Err NotFound)
        (Ret (ring_tuf ["bob"; "alice"], (dt, Err NotFound))) [] []) as (tr2 & X2 & R2 & P2);
        [vm_compute; reflexivity|reflexivity|reflexivity|reflexivity|vm_compute; reflexivity|exact U2|exact L2|lia|apply Leaf|constructor|].
      destruct (walk_step Er (fun t dt dep tgs => lookup_target_description Er cfg (S f) t dt dep "a/x" ring_snapshot tgs) dt depth "a/x"
        ring_snapshot trole (deleg "alice" false ["kd"] ["a/"]) [deleg "bob" false ["kd"] ["a/"]] (ring_tuf ds) (ring_tuf d1) b1 c50
        (mdesc 1 "alice1") (Sha256, "2alice1") (Ok (cursor "alice1")) "alice1" ring_role (ring_tuf d1) (Err NotFound)
        (Ret (ring_tuf ["bob"; "alice"], (dt, Err NotFound))) [] tr2) as (tr & X & R & P);
        [vm_compute; reflexivity|reflexivity|reflexivity|reflexivity|vm_compute; reflexivity|exact U1|exact L1|lia|apply Leaf|exact X2|].
      exists tr, ["bob"; "alice"]. split; [exact X|]. split; [|split; [reflexivity|split]].
      + unfold met in *. destruct M as [[_ ->]|[[_ [-> | ->]]|[_ [-> |[-> | ->]]]]]; tauto.
      + rewrite R, R2. reflexivity.
      + apply P; [eapply few_met; exact M1'|intros x []|]. apply P2; [cbn; unfold few; cbn; lia|intros x []|intros x []].
    - destruct f as [|f]; [lia|].
      destruct (visit_alice ds trole M) as (b1 & d1 & E1 & U1 & L1 & M1 & M1').
      assert (In_ : forall ds0 role dt0, met ds0 role ->
        exists tr, exec (lookup_target_description Er cfg (S (S f)) (ring_tuf ds0) dt0 (depth + 1) "a/x" ring_snapshot (Some (ring_role, role))) tr
          (Ret (ring_tuf ["bob"; "alice"], (dt0, Err NotFound))) /\ 2 ^ (N.of_nat k + 2) = requests tr + 2 /\ (forall x, In (EvPut x) tr -> few x)).
      { intros ds0 role dt0 M0. destruct (IH f ds0 role dt0 (depth + 1) M0) as (tr & ds' & X & _ & -> & R & Fw); [lia|lia|].
        exists tr. split; [|auto]. remember (S f) as f1. cbn [lookup_target_description]. cbn [deep cf_max_depth].
        destruct (N.ltb_spec (N.of_nat n) (depth + 1)); [lia|]. cbn [ring_role tg_targets tg_delegations both lookup dgs_roles]. exact X. }
      destruct (In_ d1 "alice" false M1) as (tra & Xa & Ra & Fa).
      assert (M2 : met ["bob"; "alice"] trole).
      { unfold met in *. destruct M as [[_ ->]|[[_ [-> | ->]]|[_ [-> |[-> | ->]]]]]; tauto. }
      destruct (visit_bob ["bob"; "alice"] trole M2) as (b2 & U2 & L2); [discriminate|].
      destruct (In_ ["bob"; "alice"] "bob" false) as (trb & Xb & Rb & Fb); [unfold met; tauto|].
      destruct (walk_step Er (fun t dt dep tgs => lookup_target_description Er cfg (S (S f)) t dt dep "a/x" ring_snapshot tgs) dt depth "a/x"
        ring_snapshot trole (deleg "bob" false ["kd"] ["a/"]) [] (ring_tuf ["bob"; "alice"]) (ring_tuf ["bob"; "alice"]) b2 c50
        (mdesc 1 "bob1") (Sha256, "2bob1") (Ok (cursor "bob1")) "bob1" ring_role (ring_tuf ["bob"; "alice"]) (Err NotFound)
        (Ret (ring_tuf ["bob"; "alice"], (dt, Err NotFound))) trb []) as (tr2 & X2 & R2 & P2);
        [vm_compute; reflexivity|reflexivity|reflexivity|reflexivity|vm_compute; reflexivity|exact U2|exact L2|lia|exact Xb|constructor|].
      destruct (walk_step Er (fun t dt dep tgs => lookup_target_description Er cfg (S (S f)) t dt dep "a/x" ring_snapshot tgs) dt depth "a/x"
        ring_snapshot trole (deleg "alice" false ["kd"] ["a/"]) [deleg "bob" false ["kd"] ["a/"]] (ring_tuf ds) (ring_tuf d1) b1 c50
        (mdesc 1 "alice1") (Sha256, "2alice1") (Ok (cursor "alice1")) "alice1" ring_role (ring_tuf ["bob"; "alice"]) (Err NotFound)
        (Ret (ring_tuf ["bob"; "alice"], (dt, Err NotFound))) tra tr2) as (tr & X & R & P);
        [vm_compute; reflexivity|reflexivity|reflexivity|reflexivity|vm_compute; reflexivity|exact U1|exact L1|lia|exact Xa|exact X2|].
      exists tr, ["bob"; "alice"]. split; [exact X|]. split; [exact M2|]. split; [reflexivity|]. split.
      + rewrite R, R2. cbn [requests]. rewrite Nat2N.inj_succ.
        replace (N.succ (N.of_nat k) + 2) with (N.succ (N.of_nat k + 2)) by lia. rewrite N.pow_succ_r'. lia.
      + apply P; [eapply few_met; exact M1'|exact Fa|]. apply P2; [unfold few; cbn; lia|exact Fb|intros x []].
  Qed.
End Ring.

(** A search may be expected to ask for a role once, or once in each repository.  But the
    client does not remember where it has been: with two delegated roles it makes more than
    [2 ^ n] requests, where [n] is the depth it is configured with. *)
Theorem C100_each_role_once_refuted :
  exists (E : env), forall (n : nat), N.of_nat n < u32_max ->
  exists (cfg : config) (fuel : nat) (c : ctor) (h : list event) (t t' : tuf) (tr : list event),
  cf_max_depth cfg = N.of_nat n /\ life E cfg fuel c h t /\
  exec (fetch_target_description E cfg fuel t "a/x") tr (Ret (t', Err NotFound)) /\
  (* at no time are there more than two delegated roles *)
  (forall x, In (EvPut x) tr -> (length (t_delegations x) <= 2)%nat) /\
  2 ^ (N.of_nat n + 2) = requests tr + 2.
Proof.
  exists Er. intros n Sm.
  destruct (ring_walk n Sm n (S n) [] "targets" false 0) as (tr & ds' & X & _ & _ & R & F); [left; auto|lia|lia|].
  exists (deep (N.of_nat n)), (S (S (S n))), (FromRoot "root1"), (fst (fst (ring_started (N.of_nat n) (S (S n)))) ++ fst (fst (ring_updated (N.of_nat n) (S (S n))))),
    (ring_tuf []), (ring_tuf ds'), tr.
  split; [reflexivity|]. split; [apply ring_life|]. split; [|split; [exact F|exact R]].
  unfold fetch_target_description. change (cf_translate (deep (N.of_nat n)) "a/x") with (path_new "a/x").
  replace (path_new "a/x") with (@Ok string "a/x") by (vm_compute; reflexivity). cbn [ring_tuf t_snapshot].
  rewrite <- (app_nil_r tr). apply exec_bind with (a := (ring_tuf ds', (false, Err NotFound))); [|constructor].
  remember (S (S n)) as f1. cbn [lookup_target_description]. cbn [deep cf_max_depth].
  destruct (N.ltb_spec (N.of_nat n) 0); [lia|]. cbn [ring_tuf t_targets ring_targets tg_targets tg_delegations both lookup dgs_roles]. exact X.
Qed.
Print Assumptions C100_each_role_once_refuted.

(** With the default depth, about a thousand requests. *)
Example C100_default_depth :
  cf_max_depth default_config = 8 /\
  requests (fst (fst (drive (60 * 100) ephemeral_new ring_remote c50 (fetch_target_description Er default_config 12 (ring_tuf []) "a/x")))) = 1024.
Proof. vm_compute. repeat split; reflexivity. Qed.

(** * C43-C58, C72: the client *)
From Coq Require Import String List NArith ZArith Bool Lia.
From Verif Require Import Base BaseFacts Metadata Verify Paths Tuf SpecVerify SpecTuf TufProofs TufHistory
     StringFacts SpecPaths PathProofs Reader SpecReader ReaderProofs Repo SpecRepo RepoProofs Props_Repo
     Client SpecClient ClientLogic ClientProofs ClientUpdates ClientWalk ClientTargets ClientHistory Toy ClientToy.
Import ListNotations.
Open Scope string_scope.
Open Scope list_scope.
Open Scope N_scope.

(** ** C43 *)

(** [history] covers every behaviour of both repositories, every clock, and every point
    at which a future is dropped. *)
Theorem C43_trust_only_through_verification :
  forall (E : env) (cfg : config) (fuel : nat) (c : ctor) (tr : list event),
  history E cfg fuel c tr ->
  (* each assignment to the trusted metadata is the result of verifying a document that
     was just fetched *)
  (forall pre t' post, tr = pre ++ EvPut t' :: post -> exists raw res place, changes E cfg c pre raw t' res place) /\
  (* so they come from the first ones by a sequence of updates *)
  (forall t, trusted_at tr = Some t ->
     exists raw t0 ops, first_trust E c raw t0 /\ t = run E t0 ops /\ reachable E t).
Proof.
  intros E cfg fuel c tr H. apply history_sound in H. split.
  - intros pre t' post ->. exact (H pre (EvPut t') post eq_refl).
  - intros t T. destruct (sound_follows _ _ _ _ H t T) as (raw & t0 & ops & F & ->). exists raw, t0, ops.
    split; [exact F|]. split; [reflexivity|]. apply (follows_reachable E c). exists raw, t0, ops. auto.
Qed.
Print Assumptions C43_trust_only_through_verification.

(** The field is what the events say. *)
Theorem C43_the_field_is_tracked :
  forall (E : env) (cfg : config) (fuel : nat) (c : ctor) (tr : list event) (t : tuf),
  life E cfg fuel c tr t -> trusted_at tr = Some t /\ history E cfg fuel c tr.
Proof. intros E cfg fuel c tr t L. split; [now apply life_sound in L|now apply life_history in L]. Qed.
Print Assumptions C43_the_field_is_tracked.

Example C43_case : history Ec default_config 9 (FromRoot "root1") (fst (fst started) ++ fst (fst updated)) /\
  trusted_at (fst (fst started) ++ fst (fst updated)) = Some t_updated /\
  length (filter (fun e => match e with EvPut _ => true | _ => false end) (fst (fst started) ++ fst (fst updated))) = 5%nat.
Proof. split; [exact (life_history _ _ _ _ _ _ life_updated)|]. vm_compute. split; reflexivity. Qed.

(** ** C44 *)

Theorem C44_only_verified_metadata_is_stored :
  forall (E : env) (cfg : config) (fuel : nat) (c : ctor) (tr pre post : list event) (path : string)
         (v : meta_version) (raw : bytes) (ans : result unit),
  history E cfg fuel c tr -> tr = pre ++ EvStoreMeta path v raw ans :: post ->
  (* just before, up to other stores of the same document, it was accepted *)
  exists h t' stores res place,
    pre = h ++ EvPut t' :: stores /\ Forall is_store stores /\
    changes E cfg c h raw t' (Ok res) place /\ place path v.
Proof. intros E cfg fuel c tr pre post path v raw ans H ->. exact (history_sound _ _ _ _ _ H pre _ post eq_refl). Qed.
Print Assumptions C44_only_verified_metadata_is_stored.

Example C44_case : exists pre post,
  fst (fst started) ++ fst (fst updated) = pre ++ EvStoreMeta "snapshot" VNone "snap1" (Ok tt) :: post.
Proof.
  destruct (in_split (EvStoreMeta "snapshot" VNone "snap1" (Ok tt)) (fst (fst started) ++ fst (fst updated))) as (pre & post & H).
  - vm_compute. tauto.
  - exists pre, post. exact H.
Qed.

(** ** C45 *)

Theorem C45_update_reports_truthfully :
  forall (E : env) (cfg : config) (fuel : nat) (t t' : tuf) (tr : list event) (b : bool),
  exec (update E cfg fuel t) tr (Ret (t', Ok b)) ->
  tuf_after t tr = t' /\
  (b = false -> t' = t) /\
  (b = true -> t_root t' <> t_root t \/ t_timestamp t' <> t_timestamp t \/
               t_snapshot t' <> t_snapshot t \/ t_targets t' <> t_targets t).
Proof.
  intros E cfg fuel t t' tr b X. split.
  - assert (T : trusted_at [EvPut t] = Some t) by reflexivity.
    destruct (wp_sound (D0 E cfg FromLocal) _ _ _ X _ _ (wp_update E cfg FromLocal fuel t _ T) (along_D0 _ _ _ _ _)) as [_ W].
    cbn [wp] in W. unfold tracked in W. rewrite (tuf_after_trusted _ _ _ T) in W. cbn [fst] in W. now inversion W.
  - destruct (wp_sound DT _ _ _ X _ [] (update_truthful E cfg fuel t []) (along_true _ _)) as [_ W].
    cbn [wp app] in W. unfold truthful in W. cbn [fst snd] in W.
    destruct W as [W1 W2]. split; intros ->; auto.
Qed.
Print Assumptions C45_update_reports_truthfully.

(** Both answers occur. *)
Example C45_case :
  snd updated = Ret (t_updated, Ok true) /\
  snd (drive 50 local_updated remote1 c50 (update Ec default_config 9 t_updated)) = Ret (t_updated, Ok false).
Proof. vm_compute. split; reflexivity. Qed.

(** ** C46 *)

(** The requests for roots during some events that began with trusted metadata [t]. *)
Definition root_requests_in_order (t : tuf) (tr : list event) : Prop :=
  let v := rm_version (t_root t) in
  let n := length (root_requests tr) in
  root_requests tr = consecutive (v + 1) n /\ v + N.of_nat n <= u32_max /\
  (* each one is for the version after the one trusted by then, so nothing is requested
     after a version that is missing or was rejected *)
  (forall pre s w max hash ans post, tr = pre ++ EvFetchMeta s "root" w max hash ans :: post ->
     w = VNumber (rm_version (t_root (tuf_after t pre)) + 1)).

(** [OutOfFuel] is the model giving up; it never does with as many rounds as there are
    versions left. *)
Theorem C46_root_loop_terminates :
  forall (E : env) (cfg : config) (fuel : nat) (t : tuf),
  rm_version (t_root t) <= u32_max -> u32_max - rm_version (t_root t) < N.of_nat fuel ->
  (forall tr q, exec (update E cfg fuel t) tr q -> q <> OutOfFuel /\ root_requests_in_order t tr) /\
  (forall tr q, exec (client_new E cfg fuel t) tr q -> q <> OutOfFuel /\ root_requests_in_order t tr).
Proof.
  intros E cfg fuel t B F.
  assert (K : forall tr, along (orderly t) [] tr -> root_requests_in_order t tr).
  { intros tr A. split; [|split].
    - pose proof (orderly_consecutive t tr [] A) as H. cbn [root_requests length] in H. rewrite N.add_0_r in H. exact H.
    - pose proof (orderly_bounded t tr []) as H. cbn [root_requests length app] in H. apply H; [lia|exact A].
    - intros pre s w max hash ans post ->. specialize (A pre _ post eq_refl). cbn [app] in A.
      destruct (A _ _ _ _ _ eq_refl) as (-> & _ & V). f_equal. lia. }
  assert (R : forall h tr, along (rely (D46 t)) h tr) by (intros h tr pre e post _; exact I).
  split; intros tr q X.
  - destruct (wp_sound (D46 t) _ _ _ X _ [] (update_orderly E cfg t fuel F) (R _ _)) as [G W]. split; [|now apply K].
    intros ->. exact W.
  - destruct (wp_sound (D46 t) _ _ _ X _ [] (new_orderly E cfg t fuel F) (R _ _)) as [G W]. split; [|now apply K].
    intros ->. exact W.
Qed.
Print Assumptions C46_root_loop_terminates.

(** A chain of two roots, the second one the last there can be. *)
Example C46_case :
  let t := tuf_of_root (mkRoot (u32_max - 2) 1000 false (rm_keys root1) (rm_root root1) (rm_snapshot root1)
                               (rm_targets root1) (rm_timestamp root1)) in
  let remote := mkEphemeral [(("root", VNumber (u32_max - 1)), "rootmax-1")] [] in
  rm_version (t_root t) <= u32_max /\ u32_max - rm_version (t_root t) < N.of_nat 5 /\
  root_requests (fst (fst (drive 50 ephemeral_new remote c50 (update Ec default_config 5 t)))) =
    [VNumber 4294967294; VNumber 4294967295] /\
  root_requests (fst (fst updated)) = [VNumber 2; VNumber 3].
Proof. vm_compute. repeat split; discriminate. Qed.

(** ** C47 *)

(** False: a trusted root with the greatest version makes every constructor call panic
    (unless the arithmetic is built without overflow checks). *)
Theorem C47_version_overflow_refuted :
  exists (E : env) (cfg : config) (raw : bytes) (t : tuf),
  from_trusted_root E raw = Ok t /\
  forall fuel, fuel <> 0%nat -> exec (construct E cfg fuel (FromRoot raw)) [EvPut t] Panic.
Proof.
  exists Ec, default_config, "rootmax", (tuf_of_root root_max). split; [vm_compute; reflexivity|].
  intros [|fuel] F; [now destruct F|]. cbn [construct]. unfold with_trusted_root.
  replace (from_trusted_root Ec "rootmax") with (Ok (tuf_of_root root_max)) by (vm_compute; reflexivity).
  constructor. unfold client_new, update_root_with_repos. cbn [root_loop].
  replace (u32_max <=? rm_version (t_root (tuf_of_root root_max))) with true by (vm_compute; reflexivity).
  constructor.
Qed.
Print Assumptions C47_version_overflow_refuted.

(** That is the only panic of the constructors and of update(). *)
Theorem C47_version_overflow_partial :
  forall (E : env) (cfg : config) (fuel : nat) (c : ctor),
  (forall tr, exec (construct E cfg fuel c) tr Panic ->
     exists t, trusted_at tr = Some t /\ u32_max <= rm_version (t_root t)) /\
  (forall tr t tr', life E cfg fuel c tr t -> exec (update E cfg fuel t) tr' Panic ->
     u32_max <= rm_version (t_root (tuf_after t tr'))).
Proof.
  intros E cfg fuel c. split.
  - intros tr X. destruct (wp_sound DP _ _ _ X _ [] (construct_panics E cfg fuel c) (along_DP _ _)) as [_ W]. exact W.
  - intros tr t tr' L X. apply life_sound in L as [_ T].
    destruct (wp_sound DP _ _ _ X _ tr (update_panics E cfg fuel t tr T) (along_DP _ _)) as [_ (t' & T' & V)].
    rewrite (tuf_after_trusted _ _ _ T) in T'. inversion T'; subst. exact V.
Qed.
Print Assumptions C47_version_overflow_partial.

(** A panic during construction that comes only from the local cache: a chain of roots
    ending with the last version. *)
Example C47_case :
  let local := mkEphemeral [(("root", VNumber u32_max), "rootmax")] [] in
  snd (drive 50 local ephemeral_new c50 (construct Ec default_config 9 (FromRoot "rootmax-1"))) = Panic.
Proof. vm_compute. reflexivity. Qed.

(** ** C48, C54 *)

(** In every client state: looking for a target makes no panic, does not run out of
    rounds, and requests only metadata of roles that a role at most
    [max_delegation_depth] delegations below the top-level targets delegates the path to.
    [positive_versions] holds for JSON (Props_Json.v). *)
Theorem C54_walk_is_bounded :
  forall (E : env) (cfg : config) (fuel : nat) (c : ctor) (h : list event) (t : tuf) (target virt : string)
         (tr : list event) (q : prog (tuf * result target_desc)),
  positive_versions (e_ic E) -> cf_max_depth cfg < u32_max -> cf_max_depth cfg + 1 < N.of_nat fuel ->
  life E cfg fuel c h t -> cf_translate cfg target = Ok virt ->
  exec (fetch_target_description E cfg fuel t target) tr q ->
  q <> OutOfFuel /\ q <> Panic /\
  forall pre s path v max hash ans post, tr = pre ++ EvFetchMeta s path v max hash ans :: post ->
    walk_request t pre (cf_max_depth cfg) virt path.
Proof.
  intros E cfg fuel c h t target virt tr q P B F L TR X.
  assert (R : reachable E t).
  { apply life_sound in L as [A T]. apply (follows_reachable E c). exact (sound_follows _ _ _ _ A t T). }
  assert (AR : along (rely (D54 cfg t virt)) [] tr) by (intros pre e post _; exact I).
  destruct (wp_sound (D54 cfg t virt) _ _ _ X _ [] (description_fine E cfg fuel t target virt R P B F TR) AR) as [G W].
  split; [intros ->; exact W|]. split; [intros ->; exact W|].
  intros pre s path v max hash ans post ->. specialize (G pre _ post eq_refl). cbn [app] in G.
  exact (G _ _ _ _ _ _ eq_refl).
Qed.
Print Assumptions C54_walk_is_bounded.

Lemma wp_no_panic {A} cfg t virt (p : prog A) : forall (Q : list event -> A -> Prop) h, wp (D54 cfg t virt) p Q h ->
  wp (mkDemands (fun _ _ => True) (fun _ _ => True) (fun _ => False) True) p (fun _ _ => True) h.
Proof.
  induction p; cbn; intros Q h W; auto;
    try (intros ans _; destruct (W ans I) as [_ W']; split; [exact I|]; eapply H; exact W').
  intros _. destruct (W I) as [_ W']. split; [exact I|]. eapply IHp. exact W'.
Qed.

(** No call for a description or a target panics. *)
Theorem C48_walk_never_panics :
  forall (E : env) (cfg : config) (fuel : nat) (c : ctor) (h : list event) (t : tuf) (k : call)
         (tr : list event) (q : prog (tuf * result unit)),
  positive_versions (e_ic E) -> cf_max_depth cfg < u32_max -> cf_max_depth cfg + 1 < N.of_nat fuel ->
  life E cfg fuel c h t -> k <> CallUpdate -> exec (call_prog E cfg fuel t k) tr q -> q <> Panic.
Proof.
  intros E cfg fuel c h t k tr q P B F L NU X.
  assert (R : reachable E t).
  { apply life_sound in L as [A T]. apply (follows_reachable E c). exact (sound_follows _ _ _ _ A t T). }
  assert (W : wp (mkDemands (fun _ _ => True) (fun _ _ => True) (fun _ => False) True)
                 (call_prog E cfg fuel t k) (fun _ _ => True) []).
  { set (D := mkDemands _ _ _ _).
    assert (WD : forall p, wp D (fetch_target_description E cfg fuel t p) (fun _ _ => True) []).
    { intros p. destruct (cf_translate cfg p) as [virt|e] eqn:TR.
      - exact (wp_no_panic _ _ _ _ _ _ (description_fine E cfg fuel t p virt R P B F TR)).
      - unfold fetch_target_description. rewrite TR. exact I. }
    assert (WR : forall p, wp D (fetch_target_reader E cfg fuel t p) (fun _ _ => True) []).
    { intros p. unfold fetch_target_reader. eapply wp_seq; [apply WD|]. intros h1 [t1 [d|e]] _; [|exact I].
      unfold fetch_target_stream. destruct (rm_consistent (t_root t1)).
      - destruct (rbind _ _); [|exact I]. destruct (hash_preference _); [|exact I]. cbn. intros ans _. split; exact I.
      - destruct (hash_preference _); [|exact I]. cbn. intros ans _. split; exact I. }
    destruct k as [|p|p|p]; cbn [call_prog]; [now destruct NU| | |].
    - unfold forget. eapply wp_seq; [apply WD|]. intros h1 [t1 r] _. exact I.
    - unfold fetch_target. eapply wp_seq; [apply WR|]. intros h1 [t1 [rs|e]] _; [|exact I]. cbn. intros ans _. split; exact I.
    - unfold fetch_target_to_writer. eapply wp_seq; [apply WR|]. intros h1 [t1 [rs|e]] _; [|exact I].
      eapply (wp_seq D _ _ (fun _ _ => True)); [|intros h2 r _; exact I].
      revert h1. induction rs as [|[| |data] rs IH]; intros h1; cbn [copy_to_writer]; [exact I|apply IH|exact I|].
      destruct (_ =? _); [exact I|]. cbn. intros [e|] _; (split; [exact I|]); [exact I|apply IH]. }
  intros ->. destruct (wp_sound _ _ _ _ X _ [] W (fun _ _ _ _ => I)) as [_ Z]. exact Z.
Qed.
Print Assumptions C48_walk_never_panics.

(** The example repository meets the hypotheses; a search that walks two delegations down. *)
Definition snapshot_positive (d : toydoc) : bool :=
  match d with DSnapshot m => forallb (fun x => 1 <=? md_version (snd x)) (sm_meta m) | _ => true end.
Lemma toy_positive db : forallb (fun x => snapshot_positive (snd (snd x))) db = true -> positive_versions (toy_ic db).
Proof.
  intros H b s r d. cbn. destruct (lookup b db) as [[signers doc]|] eqn:L; [|discriminate].
  apply lookup_In in L. rewrite forallb_forall in H. specialize (H _ L). cbn [snd] in H.
  destruct doc as [m|m|m|m]; cbn; try discriminate. intros Q. inversion Q; subst. intros Ls. apply lookup_In in Ls.
  cbn in H. rewrite forallb_forall in H. specialize (H _ Ls). cbn [snd] in H. now apply N.leb_le.
Qed.
Definition requested (tr : list event) : list string :=
  flat_map (fun e => match e with EvFetchMeta _ path _ _ _ _ => [path] | _ => [] end) tr.
Example C48_C54_case :
  positive_versions (e_ic Ec) /\ cf_max_depth default_config < u32_max /\
  cf_max_depth default_config + 1 < N.of_nat 10 /\ cf_translate default_config "a/b/y" = Ok "a/b/y" /\
  let x := drive 50 local_updated remote1 c50 (fetch_target_description Ec default_config 10 t_updated "a/b/y") in
  requested (fst (fst x)) = ["alice"; "alice"; "bob"; "bob"] /\
  (* with a limit of one delegation "bob" is still fetched, but not searched *)
  requested (fst (fst (drive 50 local_updated remote1 c50 (fetch_target_description Ec
    (mkConfig None None 0 default_real_to_virtual) 10 t_updated "a/b/y")))) = ["alice"; "alice"].
Proof.
  split; [apply toy_positive; vm_compute; reflexivity|]. vm_compute. repeat split; reflexivity.
Qed.

(** ** C53 *)

(** False: "alice" is trusted, her delegation covers "a/", she lists "a/x", and her
    metadata are fetched and accepted during the call, but the description is dropped. *)
Theorem C53_delegated_targets_refuted :
  exists (E : env) (cfg : config) (fuel : nat) (c : ctor) (h tr : list event) (t t' : tuf)
         (tg alice : targets_metadata) (ds : delegations) (d : delegation) (desc : target_desc),
  life E cfg fuel c h t /\ t_targets t = Some tg /\ tg_delegations tg = Some ds /\ In d (dgs_roles ds) /\
  is_child "a/x" "a/" = true /\ dg_paths d = ["a/"] /\
  exec (fetch_target_description E cfg fuel t "a/x") tr (Ret (t', Err NotFound)) /\
  In (EvPut t') tr /\ lookup (dg_role d) (t_delegations t') = Some alice /\ lookup "a/x" (tg_targets alice) = Some desc.
Proof.
  set (x := drive 50 local_updated remote1 c50 (fetch_target_description Ec default_config 9 t_updated "a/x")).
  assert (Q : snd x = Ret (fst (result_of x (t_updated, Err NotFound)), Err NotFound)) by (vm_compute; reflexivity).
  exists Ec, default_config, 9%nat, (FromRoot "root1"), (fst (fst started) ++ fst (fst updated)), (fst (fst x)),
    t_updated, (fst (result_of x (t_updated, Err NotFound))), ctargets1, calice1,
    (mkDelegations (keys_of_names ["kd"]) [deleg "alice" false ["kd"] ["a/"]]),
    (deleg "alice" false ["kd"] ["a/"]), (content_desc "world").
  split; [exact life_updated|]. split; [reflexivity|]. split; [reflexivity|]. split; [now left|].
  split; [reflexivity|]. split; [reflexivity|]. split.
  - rewrite <- Q. destruct x as [[tr l] q] eqn:S. now apply drive_exec in S as [X _].
  - vm_compute. repeat split. tauto.
Qed.
Print Assumptions C53_delegated_targets_refuted.

(** What the call does return, exactly: the descriptions in the trusted top-level targets
    metadata, without any request; a delegated target is never found. *)
Theorem C53_delegated_targets_partial :
  forall (E : env) (cfg : config) (fuel : nat) (t t' : tuf) (target : string) (d : target_desc) (tr : list event),
  fuel <> 0%nat ->
  (exec (fetch_target_description E cfg fuel t target) tr (Ret (t', Ok d)) <->
   tr = [] /\ t' = t /\ t_snapshot t <> None /\ listed cfg t target d).
Proof.
  intros E cfg fuel t t' target d tr F. rewrite description_ok_iff. unfold listed. split.
  - intros (_ & -> & -> & s & tg & virt & S & T & V & L). repeat split; [congruence|]. eauto.
  - intros (-> & -> & S & tg & virt & T & V & L). destruct (t_snapshot t) as [s|]; [|now destruct S].
    repeat split; auto. exists s, tg, virt. auto.
Qed.
Print Assumptions C53_delegated_targets_partial.

(** The search does ask for delegated metadata: that of the first role to which one of the
    paths of the delegation leads, if no delegation before is terminating. *)
Theorem C53_covering_role_is_asked_for_partial :
  forall (E : env) (cfg : config) (fuel : nat) (t t' : tuf) (target virt : string) (s : snapshot_metadata)
         (tg : targets_metadata) (ds : delegations) (before after : list delegation) (d : delegation) (p : string)
         (desc : meta_desc) (alg : hash_alg) (value : bytes) (r : result target_desc) (tr : list event),
  t_snapshot t = Some s -> t_targets t = Some tg -> cf_translate cfg target = Ok virt ->
  lookup virt (tg_targets tg) = None -> tg_delegations tg = Some ds -> dgs_roles ds = before ++ d :: after ->
  (forall b, In b before -> dg_terminating b = false /\ forall q, In q (dg_paths b) -> is_child virt q = false) ->
  In p (dg_paths d) -> is_child virt p = true -> ~ In (dg_role d) ["root"; "snapshot"] ->
  lookup (dg_role d) (sm_meta s) = Some desc -> preferred (md_hashes desc) alg value ->
  exec (fetch_target_description E cfg fuel t target) tr (Ret (t', r)) ->
  exists ans rest,
    tr = EvFetchMeta Local (dg_role d) VNone (Some (md_length desc)) (Some (alg, value)) ans :: rest.
Proof.
  intros E cfg fuel t t' target virt s tg ds before after d p desc alg value r tr Hs Hg Ht Hl Hd Hr Hb Ip Ic Nr Ld Pf X.
  unfold fetch_target_description in X. rewrite Ht, Hs in X.
  destruct fuel as [|fuel]; [inversion X|]. cbn [lookup_target_description] in X.
  assert (L0 : (cf_max_depth cfg <? 0) = false) by (apply N.ltb_ge; lia). rewrite L0, Hg, Hl, Hd, Hr in X.
  apply hash_preference_iff in Pf.
  assert (W : forall recur, exists k, walk_loop E recur false 0 virt s (from_role Targets) (before ++ d :: after) t =
    FetchMeta Local (dg_role d) VNone (Some (md_length desc)) (Some (alg, value)) k).
  { intros recur. clear X Hr. induction before as [|b before IH].
    - cbn [app walk_loop]. assert (Ex : existsb (fun q => is_child virt q) (dg_paths d) = true) by (apply existsb_exists; eauto).
      rewrite Ex. cbn [negb]. rewrite Ld, Pf. unfold fetch_metadata.
      assert (Ck : repo_check Targets (dg_role d) = Ok tt).
      { unfold repo_check. cbn [fuzzy_matches_path]. destruct (String.eqb_spec (dg_role d) "targets") as [->|N1]; [reflexivity|].
        cbn [In] in Nr. unfold mem. cbn.
        destruct (String.eqb_spec (dg_role d) "root") as [Q|_]; [elim Nr; left; now symmetry|].
        destruct (String.eqb_spec (dg_role d) "snapshot") as [Q|_]; [elim Nr; right; left; now symmetry|].
        destruct (String.eqb_spec (dg_role d) "targets") as [Q|_]; [now elim N1|]. reflexivity. }
      rewrite Ck. cbn [bind]. eauto.
    - cbn [app walk_loop]. destruct (Hb b (or_introl eq_refl)) as [Tb Cb].
      assert (Ex : existsb (fun q => is_child virt q) (dg_paths b) = false).
      { destruct (existsb _ _) eqn:Q; [|reflexivity]. apply existsb_exists in Q as (q & I & Q). rewrite (Cb q I) in Q. discriminate. }
      rewrite Ex, Tb. cbn [negb]. apply IH. intros b' I. apply Hb. now right. }
  destruct (W (fun t dt dep tgs => lookup_target_description E cfg fuel t dt dep virt s tgs)) as (k & Q).
  rewrite Q in X. cbn [bind] in X. inversion X; subst. eauto.
Qed.
Print Assumptions C53_covering_role_is_asked_for_partial.

(** "a/x" lies in "a/", the only path of alice's delegation. *)
Example C53_case_asked :
  let ds := mkDelegations (keys_of_names ["kd"]) [deleg "alice" false ["kd"] ["a/"]] in
  let x := drive 50 local_updated remote1 c50 (fetch_target_description Ec default_config 9 t_updated "a/x") in
  t_targets t_updated = Some ctargets1 /\ lookup "a/x" (tg_targets ctargets1) = None /\ tg_delegations ctargets1 = Some ds /\
  is_child "a/x" "a/" = true /\
  (exists s desc alg value, t_snapshot t_updated = Some s /\ lookup "alice" (sm_meta s) = Some desc /\ preferred (md_hashes desc) alg value) /\
  exists t' r, exec (fetch_target_description Ec default_config 9 t_updated "a/x") (fst (fst x)) (Ret (t', r)).
Proof.
  intros ds x. split; [reflexivity|]. split; [reflexivity|]. split; [reflexivity|]. split; [reflexivity|]. split.
  - eexists _, _, _, _. split; [vm_compute; reflexivity|]. split; [vm_compute; reflexivity|]. apply hash_preference_iff. vm_compute. reflexivity.
  - assert (Q : snd x = Ret (fst (result_of x (t_updated, Err NotFound)), Err NotFound)) by (vm_compute; reflexivity).
    eexists _, _. rewrite <- Q. unfold x. destruct (drive 50 _ _ _ _) as [[tr l'] q'] eqn:H. exact (proj1 (drive_exec _ _ _ _ _ _ _ _ H)).
Qed.

Example C53_case : listed default_config t_updated "top" (content_desc "hello") /\ t_snapshot t_updated <> None.
Proof. split; [|vm_compute; discriminate]. exists ctargets1, "top". vm_compute. repeat split; reflexivity. Qed.

(** ** C51 *)

Theorem C51_downloaded_targets_are_authentic :
  forall (E : env) (cfg : config) (fuel : nat) (t t' : tuf) (target : string) (tr : list event),
  exec (fetch_target E cfg fuel t target) tr (Ret (t', Ok tt)) ->
  exists d path src rs,
    (* the trusted targets metadata describe it *)
    listed cfg t target d /\ target_place t target d path /\
    (* the reader the local repository got ends normally only after the described bytes *)
    tr = [EvFetchTarget path d (Ok src); EvStoreTarget target rs (Ok tt)] /\
    (forall b, contains rs b None -> contains src b None /\ target_authentic (e_crypto E) d b) /\
    (* so that the in-memory repository now holds them *)
    (forall l l', in_memory l tr l' -> exists b, ep_targets l' = insert target b (ep_targets l) /\
       contains src b None /\ target_authentic (e_crypto E) d b).
Proof.
  intros E cfg fuel t t' target tr X. apply fetch_target_runs in X. inversion X; subst.
  - discriminate.
  - exists d, p', src, rs. split; [auto|]. split; [auto|]. split; [reflexivity|]. split; [auto|].
    intros l l' M. inversion M as [|? ? l1 ? ? S1 M1]; subst. inversion M1 as [|? ? l2 ? ? S2 M2]; subst.
    inversion M2; subst. cbn in S1, S2. subst l1. unfold ephemeral_store_target in S2.
    destruct (read_plain rs "") as [b|k] eqn:RP; inversion S2; subst. apply read_plain_iff in RP.
    exists b. split; [reflexivity|auto].
Qed.
Print Assumptions C51_downloaded_targets_are_authentic.

Theorem C51_written_targets_are_authentic :
  forall (E : env) (cfg : config) (fuel : nat) (t t' : tuf) (target : string) (tr : list event),
  exec (fetch_target_to_writer E cfg fuel t target) tr (Ret (t', Ok tt)) ->
  exists d path src, listed cfg t target d /\ target_place t target d path /\
    In (EvFetchTarget path d (Ok src)) tr /\ contains src (written tr) None /\
    target_authentic (e_crypto E) d (written tr).
Proof.
  intros E cfg fuel t t' target tr X. apply to_writer_runs in X as (_ & p' & d & src & tr' & L & P & -> & _ & H & A).
  exists d, p', src. split; [exact L|]. split; [exact P|]. split; [now left|]. split; [exact H|exact A].
Qed.
Print Assumptions C51_written_targets_are_authentic.

Example C51_case :
  let x := drive 50 local_updated remote1 c50 (fetch_target Ec default_config 9 t_updated "top") in
  snd x = Ret (t_updated, Ok tt) /\ lookup "top" (ep_targets (snd (fst x))) = Some "hello" /\
  let y := drive 50 local_updated remote1 c50 (fetch_target_to_writer Ec default_config 9 t_updated "top") in
  snd y = Ret (t_updated, Ok tt) /\ written (fst (fst y)) = "hello".
Proof. vm_compute. repeat split; reflexivity. Qed.

(** With consistent snapshots the target is asked for under its hash. *)
Example C51_case_consistent :
  let x := drive 50 ephemeral_new (served "root2c" "ts1") c50 (construct Ec default_config 9 (FromRoot "root1")) in
  match result_of x (Err NotFound) with
  | Err _ => False
  | Ok t =>
      let y := drive 50 (snd (fst x)) (served "root2c" "ts1") c50 (update Ec default_config 9 t) in
      let t1 := fst (result_of y (t, Err NotFound)) in
      let z := drive 50 (snd (fst y)) (served "root2c" "ts1") c50 (fetch_target Ec default_config 9 t1 "top") in
      rm_consistent (t_root t1) = true /\ snd z = Ret (t1, Ok tt) /\
      exists src, fst (fst z) = [EvFetchTarget "3568656c6c6f.top" (content_desc "hello") src;
                                 EvStoreTarget "top" [Ready "hello"; Ready ""] (Ok tt)]
  end.
Proof. vm_compute. repeat split; eauto. Qed.

(** ** C52 *)

(** At any point of a download, the targets in memory are as before, unless it has ended
    with [Ok]. *)
Theorem C52_failed_download_keeps_stored_target :
  forall (E : env) (cfg : config) (fuel : nat) (t : tuf) (target : string) (tr : list event)
         (q : prog (tuf * result unit)) (l l' : ephemeral),
  exec (fetch_target E cfg fuel t target) tr q -> in_memory l tr l' -> q <> Ret (t, Ok tt) ->
  ep_targets l' = ep_targets l.
Proof.
  intros E cfg fuel t target tr q l l' X M N. apply fetch_target_runs in X.
  destruct X as [tr q Q W|p' d k L P|p' d ans e L P|p' d src rs L P H|p' d src rs a L P H].
  - eapply quiet_keeps_targets; eauto.
  - inversion M; subst. reflexivity.
  - inversion M as [|? ? l1 ? ? S1 M1]; subst. inversion M1; subst. cbn in S1. now subst.
  - inversion M as [|? ? l1 ? ? S1 M1]; subst. inversion M1; subst. cbn in S1. now subst.
  - inversion M as [|? ? l1 ? ? S1 M1]; subst. inversion M1 as [|? ? l2 ? ? S2 M2]; subst. inversion M2; subst.
    cbn in S1, S2. subst l1. unfold ephemeral_store_target in S2.
    destruct (read_plain rs "") as [b|k]; inversion S2; subst; [now destruct N|reflexivity].
Qed.
Print Assumptions C52_failed_download_keeps_stored_target.

(** The same for the file system: whenever a download stores, it stores to its own
    target, and however far that gets ([st], also if it is interrupted for good, also next
    to other stores), the file is as before or complete and authentic.  With the
    directories of [FileSystemRepository::new], metadata never go to a target's file. *)
Theorem C52_failed_download_keeps_stored_file :
  forall (E : env) (cfg : config) (fuel : nat) (t : tuf) (target path : string) (tr : list event) (rs : stream)
         (k : result unit -> prog (tuf * result unit)) (dir : list string) (f f' : fs) (st : store_state),
  exec (fetch_target E cfg fuel t target) tr (StoreTarget path rs k) ->
  let dest := fs_path dir (target_components path) in
  fs_wf f -> ordinary dest -> stores_steps (f, begin_stores [(dest, rs)]) (f', [(dest, st)]) ->
  path = target /\
  (forall p, ordinary p -> p <> dest -> fs_content f' p = fs_content f p) /\
  (st <> StDone -> fs_content f' dest = fs_content f dest) /\
  (st = StDone -> exists d b, listed cfg t target d /\ target_authentic (e_crypto E) d b /\ fs_content f' dest = Some b).
Proof.
  intros E cfg fuel t target path tr rs k dir f f' st X dest WF O S. apply fetch_target_runs in X.
  assert (A : path = target /\ exists d, listed cfg t target d /\
                forall b, contains rs b None -> target_authentic (e_crypto E) d b).
  { inversion X as [? ? Q W| | |p' d src rs' L P H|]; subst.
    - exfalso. cbn in W. destruct (W (Ok tt) I) as [W1 _]. exact W1.
    - split; [reflexivity|]. exists d. split; [exact L|]. intros b B. now apply H in B as [_ B]. }
  destruct A as [-> (d & L & A)].
  assert (OJ : forall d0 input, In (d0, input) [(dest, rs)] -> ordinary d0).
  { intros d0 input [Q|[]]. inversion Q; subst. exact O. }
  destruct (C42_stores_are_atomic f [(dest, rs)] f' [(dest, st)] WF OJ S) as (H & _).
  split; [reflexivity|]. split; [|split].
  - intros p Op N. destruct (H p Op) as [[_ Q]|([|k0] & input & b & J1 & _)]; [exact Q| |]; cbn in J1.
    + inversion J1. congruence.
    + destruct k0; discriminate.
  - intros N. destruct (H dest O) as [[_ Q]|([|k0] & input & b & J1 & J2 & _)]; [exact Q| |]; cbn in J2.
    + inversion J2. congruence.
    + destruct k0; discriminate.
  - intros ->. destruct (H dest O) as [[Q _]|([|k0] & input & b & J1 & J2 & B & C)].
    + exfalso. apply (Q StDone); [now left|reflexivity].
    + cbn in J1. inversion J1; subst. exists d, b. auto.
    + cbn in J1. destruct k0; discriminate.
Qed.
Print Assumptions C52_failed_download_keeps_stored_file.

Theorem C52_metadata_files_are_apart :
  forall (root : list string) (extension target role : string) (v : meta_version),
  fs_path ("metadata" :: root) (metadata_components extension role v) <>
  fs_path ("targets" :: root) (target_components target).
Proof. intros. apply apart. Qed.
Print Assumptions C52_metadata_files_are_apart.

(** A download with the wrong bytes. *)
Example C52_case :
  let l := mkEphemeral [] [("top", "old")] in
  let bad := mkEphemeral [] [("top", "hellx")] in
  let x := drive 50 l bad c50 (fetch_target Ec default_config 9 t_updated "top") in
  snd x = Ret (t_updated, Err Opaque) /\ ep_targets (snd (fst x)) = [("top", "old")] /\
  (* stopped after the first answer, the store is what comes next *)
  exists rs k, snd (drive 1 l bad c50 (fetch_target Ec default_config 9 t_updated "top")) = StoreTarget "top" rs k.
Proof. vm_compute. repeat split; eauto. Qed.

(** ** C50 *)

(** Each change of trusted metadata comes from a document obtained by a request that
    limits its length, and below the timestamp also names its hash; it was judged by the
    time read after that. *)
Theorem C50_metadata_downloads_are_bounded :
  forall (E : env) (cfg : config) (fuel : nat) (c : ctor) (tr pre post : list event) (t t' : tuf),
  history E cfg fuel c tr -> tr = pre ++ EvPut t' :: post -> trusted_at pre = Some t ->
  (t_root t' <> t_root t -> exists raw, just_fetched pre "root" (VNumber (rm_version (t_root t) + 1)) raw /\
     fits_length (cf_max_root cfg) raw /\ root_step E (t_root t) raw (t_root t')) /\
  (forall ts, t_timestamp t' = Some ts -> t_timestamp t' <> t_timestamp t ->
     exists raw cl, just_fetched pre "timestamp" VNone raw /\ just_read pre cl /\ fits_length (cf_max_timestamp cfg) raw /\
       timestamp_acceptable E t cl raw ts) /\
  (forall s, t_snapshot t' = Some s -> t_snapshot t' <> t_snapshot t ->
     exists raw cl v ts, just_fetched pre "snapshot" v raw /\ just_read pre cl /\ t_timestamp t = Some ts /\
       as_described (e_crypto E) (tm_snapshot ts) raw /\ snapshot_acceptable E t cl raw s) /\
  (forall g, t_targets t' = Some g -> t_targets t' <> t_targets t ->
     exists raw cl v s d, just_fetched pre "targets" v raw /\ just_read pre cl /\ t_snapshot t = Some s /\
       lookup "targets" (sm_meta s) = Some d /\ as_described (e_crypto E) d raw /\ targets_acceptable E t cl raw g).
Proof.
  intros E cfg fuel c tr pre post t t' H -> T. apply history_sound in H.
  destruct (H pre (EvPut t') post eq_refl) as (raw & res & place & Ch).
  inversion Ch as [? ? T0 _ _|t1 o t2 res' path v T1 St W A J K]; subst; [cbn [app] in T0; congruence|].
  cbn [app] in T1. rewrite T in T1. inversion T1; subst t1. cbn [app] in J, K.
  split; [|split; [|split]].
  - intros N. destruct (step_root_change _ _ _ _ _ St N) as (raw & -> & R). destruct A as [-> ->]. exists raw. auto.
  - intros ts S N. destruct (step_timestamp_change _ _ _ _ _ _ St S N) as (cl & raw & -> & R). destruct A as [-> ->].
    exists raw, cl. specialize (K cl eq_refl). auto.
  - intros s S N. destruct (step_snapshot_change _ _ _ _ _ _ St S N) as (cl & raw & -> & R). destruct A as [-> _].
    destruct W as (d & (ts & TS & ->) & D). exists raw, cl, v, ts. specialize (K cl eq_refl). auto 6.
  - intros g S N. destruct (step_targets_change _ _ _ _ _ _ St S N) as (cl & raw & -> & R). destruct A as [-> _].
    destruct W as (d & (s & TS & L) & D). exists raw, cl, v, s, d. specialize (K cl eq_refl). auto 7.
Qed.
Print Assumptions C50_metadata_downloads_are_bounded.

(** Delegated metadata: every change of them is one of a single role, by a document the
    snapshot describes. *)
Theorem C50_delegation_downloads_are_bounded :
  forall (E : env) (cfg : config) (fuel : nat) (c : ctor) (tr pre post : list event) (t t' : tuf) (r : string)
         (g : targets_metadata),
  history E cfg fuel c tr -> tr = pre ++ EvPut t' :: post -> trusted_at pre = Some t ->
  lookup r (t_delegations t') = Some g -> lookup r (t_delegations t') <> lookup r (t_delegations t) ->
  exists raw cl parent v s d, just_fetched pre r v raw /\ just_read pre cl /\ t_snapshot t = Some s /\ lookup r (sm_meta s) = Some d /\
    as_described (e_crypto E) d raw /\ delegation_acceptable E t cl parent r raw g.
Proof.
  intros E cfg fuel c tr pre post t t' r g H -> T L N. apply history_sound in H.
  destruct (H pre (EvPut t') post eq_refl) as (raw & res & place & Ch).
  inversion Ch as [? ? T0 _ _|t1 o t2 res' path v T1 St W A J K]; subst; [cbn [app] in T0; congruence|].
  cbn [app] in T1. rewrite T in T1. inversion T1; subst t1. cbn [app] in J, K.
  destruct (step_delegation_change _ _ _ _ _ _ _ St L N) as (cl & parent & raw & -> & R). destruct A as [-> _].
  destruct W as (d & (s & TS & Ls) & D). exists raw, cl, parent, v, s, d. specialize (K cl eq_refl). auto 7.
Qed.
Print Assumptions C50_delegation_downloads_are_bounded.

Example C50_case : exists pre post t t',
  fst (fst started) ++ fst (fst updated) = pre ++ EvPut t' :: post /\ trusted_at pre = Some t /\
  t_snapshot t = None /\ option_map sm_version (t_snapshot t') = Some 1.
Proof.
  set (tr := fst (fst started) ++ fst (fst updated)).
  exists (firstn 16 tr), (skipn 17 tr).
  destruct (nth_error tr 16) as [[]|] eqn:Nth; vm_compute in Nth; try discriminate.
  inversion Nth. eexists _, _. split; [vm_compute; reflexivity|]. vm_compute. repeat split; reflexivity.
Qed.

(** ** C55 *)

(** False: after everything has expired, targets are still served from the trusted
    metadata; the call does not look at the clock. *)
Theorem C55_expired_metadata_refuted :
  exists (E : env) (cfg : config) (fuel : nat) (c : ctor) (h tr : list event) (t : tuf) (target : string),
  life E cfg fuel c h t /\ exec (fetch_target E cfg fuel t target) tr (Ret (t, Ok tt)) /\
  (* whatever the time is *)
  (forall cl, ~ In (EvNow cl) tr) /\
  rm_expires (t_root t) = 1000%Z /\ option_map tm_expires (t_timestamp t) = Some 300%Z.
Proof.
  exists Ec, default_config, 9%nat, (FromRoot "root1"), (fst (fst started) ++ fst (fst updated)),
    (fst (fst (drive 50 local_updated remote1 c50 (fetch_target Ec default_config 9 t_updated "top")))), t_updated, "top".
  split; [exact life_updated|]. split; [|split].
  - destruct (drive 50 local_updated remote1 c50 (fetch_target Ec default_config 9 t_updated "top")) as [[tr l] q] eqn:S.
    assert (Q : q = Ret (t_updated, Ok tt)).
    { change q with (snd (tr, l, q)). rewrite <- S. vm_compute. reflexivity. }
    subst q. now apply drive_exec in S as [X _].
  - intros cl. vm_compute. intros [H|[H|[]]]; discriminate.
  - vm_compute. split; reflexivity.
Qed.
Print Assumptions C55_expired_metadata_refuted.

(** What is true: a successful update looked at the clock when the root was not expired
    yet, and targets metadata were not expired when they were accepted, nor were the root
    and the snapshot that authorised them. *)
Theorem C55_expired_metadata_partial :
  forall (E : env) (cfg : config) (fuel : nat) (c : ctor) (h : list event) (t : tuf),
  life E cfg fuel c h t ->
  (forall tr t' b, exec (update E cfg fuel t) tr (Ret (t', Ok b)) ->
     exists cl, In (EvNow cl) tr /\ fresh (rm_expires (t_root t')) (at_root cl)) /\
  (forall g, t_targets t = Some g ->
     exists raw0 t0 before cl raw after,
       first_trust E c raw0 t0 /\ t = run E t0 (before ++ OpTargets cl raw :: after) /\
       targets_acceptable E (run E t0 before) cl raw g).
Proof.
  intros E cfg fuel c h t L. split.
  - intros tr t' b X. destruct (wp_sound DT _ _ _ X _ [] (update_fresh E cfg fuel t []) (along_DT _ _)) as [_ W].
    exact (W b eq_refl).
  - intros g G. apply life_sound in L as [A T]. destruct (sound_follows _ _ _ _ A t T) as (raw0 & t0 & ops & F & ->).
    assert (N : t_targets t0 = None).
    { apply first_initial in F. apply initial_shape in F as [root ->]. reflexivity. }
    destruct (targets_origin E t0 ops g N G) as (before & cl & raw & after & -> & TA).
    exists raw0, t0, before, cl, raw, after. auto.
Qed.
Print Assumptions C55_expired_metadata_partial.

(** And an update with an expired root fails. *)
Example C55_case :
  snd (drive 50 local_updated remote1 (now 1000) (update Ec default_config 9 t_updated)) =
    Ret (t_updated, Err (ExpiredMetadata Root)) /\
  t_targets t_updated <> None /\ snd updated = Ret (t_updated, Ok true).
Proof. vm_compute. repeat split; discriminate. Qed.

(** ** C56 *)

(** False: pinned to version 2, a client accepts version 1. *)
Theorem C56_pinned_version_refuted :
  exists (E : env) (cfg : config) (fuel : nat) (keys : list public_key) (tr : list event) (t : tuf),
  exec (construct E cfg fuel (FromKeys (VNumber 2) 2 keys)) tr (Ret (Ok t)) /\ rm_version (t_root t) = 1.
Proof.
  set (x := drive 50 ephemeral_new (mkEphemeral [(("root", VNumber 2), "root1")] []) c50
              (construct Ec default_config 9 (FromKeys (VNumber 2) 2 [toy_key "kr1"; toy_key "kr2"]))).
  exists Ec, default_config, 9%nat, [toy_key "kr1"; toy_key "kr2"], (fst (fst x)), (tuf_of_root root1).
  split; [|reflexivity].
  assert (Q : snd x = Ret (Ok (tuf_of_root root1))) by (vm_compute; reflexivity).
  destruct x as [[tr l] q] eqn:S. cbn [fst snd] in *. subst q. now apply drive_exec in S as [X _].
Qed.
Print Assumptions C56_pinned_version_refuted.

(** The rest of the claim: it was served for the pinned version, and is signed by
    [threshold] of the given keys; the root finally trusted follows from it by a chain. *)
Theorem C56_pinned_version_partial :
  forall (E : env) (cfg : config) (fuel : nat) (v : meta_version) (th : N) (keys : list public_key) (tr : list event)
         (t : tuf),
  life E cfg fuel (FromKeys v th keys) tr t ->
  exists pre t0 post raw n, tr = pre ++ EvPut t0 :: post /\ trusted_at pre = None /\
    just_fetched pre "root" v raw /\ fits_length (cf_max_root cfg) raw /\
    authentic E Root raw th keys (t_root t0) /\
    root_chain E n (t_root t0) (t_root t).
Proof.
  intros E cfg fuel v th keys tr t L. apply life_sound in L as [A T].
  assert (Sp : exists pre t0 post, tr = pre ++ EvPut t0 :: post /\ trusted_at pre = None).
  { clear A. revert t T. induction tr as [|e tr IH] using rev_ind; intros t T; [discriminate|].
    destruct (trusted_at tr) as [t1|] eqn:T1.
    - destruct (IH t1 eq_refl) as (pre & t0 & post & -> & N). exists pre, t0, (post ++ [e]). rewrite <- app_assoc. auto.
    - rewrite trusted_at_snoc in T. destruct e as [| | | | | |t2]; try congruence. exists tr, t2, []. auto. }
  destruct Sp as (pre & t0 & post & -> & N).
  destruct (A pre (EvPut t0) post eq_refl) as (raw & res & place & Ch). cbn [app] in Ch.
  inversion Ch as [? ? T0 F M|t1 o t2 res' path v' T1]; subst; [|congruence]. destruct M as [J Fi].
  assert (T0' : trusted_at (pre ++ [EvPut t0]) = Some t0) by exact (trusted_at_snoc _ (EvPut t0)).
  change (pre ++ EvPut t0 :: post) with (pre ++ [EvPut t0] ++ post) in A, T. rewrite app_assoc in A, T.
  rewrite (tuf_after_trusted _ _ _ T0') in T. inversion T; subst t. apply along_app in A as [_ A].
  destruct (sound_run E cfg _ _ _ _ T0' A) as [ops ->]. destruct (run_chain E ops t0) as [n R].
  exists pre, t0, post, raw, n. split; [reflexivity|]. split; [exact N|]. split; [exact J|]. split; [exact Fi|].
  split; [|exact R]. cbn in F. apply from_keys_iff in F as (root & Au & _ & ->). exact Au.
Qed.
Print Assumptions C56_pinned_version_partial.

Example C56_case :
  let x := drive 50 ephemeral_new remote1 c50
             (construct Ec default_config 9 (FromKeys (VNumber 1) 2 [toy_key "kr1"; toy_key "kr2"])) in
  exists t, snd x = Ret (Ok t) /\ rm_version (t_root t) = 1.
Proof. vm_compute. eauto. Qed.

(** ** C57 *)

(** False, because of the overflow of C47: a cache with the last possible root. *)
Theorem C57_damaged_cache_refuted :
  exists (E : env) (cfg : config) (fuel : nat) (raw : bytes) (t0 : tuf) (tr : list event),
  from_trusted_root E raw = Ok t0 /\ rm_version (t_root t0) < u32_max /\
  exec (construct E cfg fuel (FromRoot raw)) tr Panic.
Proof.
  set (x := drive 50 (mkEphemeral [(("root", VNumber u32_max), "rootmax")] []) ephemeral_new c50
              (construct Ec default_config 9 (FromRoot "rootmax-1"))).
  exists Ec, default_config, 9%nat, "rootmax-1", (tuf_of_root root_before_max), (fst (fst x)).
  split; [vm_compute; reflexivity|]. split; [vm_compute; reflexivity|].
  assert (Q : snd x = Panic) by (vm_compute; reflexivity).
  destruct x as [[tr l] q] eqn:S. cbn [fst snd] in *. subst q. now apply drive_exec in S as [X _].
Qed.
Print Assumptions C57_damaged_cache_refuted.

(** Otherwise true: whatever the local repository holds, if the given root is good,
    construction succeeds (or panics there), and what it trusts was verified. *)
Theorem C57_damaged_cache_partial :
  forall (E : env) (cfg : config) (fuel : nat) (raw : bytes) (t0 : tuf) (tr : list event) (q : prog (result tuf)),
  from_trusted_root E raw = Ok t0 -> u32_max - rm_version (t_root t0) < N.of_nat fuel ->
  exec (construct E cfg fuel (FromRoot raw)) tr q ->
  match q with
  | Ret r => exists t ops, r = Ok t /\ t = run E t0 ops
  | Panic => exists t, trusted_at tr = Some t /\ u32_max <= rm_version (t_root t)
  | OutOfFuel => False
  | _ => True
  end /\ forall t, trusted_at tr = Some t -> exists ops, t = run E t0 ops.
Proof.
  intros E cfg fuel raw t0 tr q F0 FU X. split.
  2:{ intros t T. assert (H : history E cfg fuel (FromRoot raw) tr) by (eapply history_new; exact X).
      destruct (proj2 (C43_trust_only_through_verification _ _ _ _ _ H) t T) as (raw' & t1 & ops & [-> F1] & -> & _).
      rewrite F0 in F1. inversion F1; subst. now exists ops. }
  assert (W : match q with Ret r => exists t, r = Ok t | OutOfFuel => False | _ => True end).
  { cbn [construct] in X. unfold with_trusted_root in X. rewrite F0 in X. inversion X as [|? ? ? ? ? ? ? ? ? ?| | | | | |t p tr' q' X']; subst; [exact I|].
    assert (AR : along (rely (D46 t0)) [] tr') by (intros pre e post _; exact I).
    destruct (wp_sound (D46 t0) _ _ _ X' _ [] (new_orderly E cfg t0 fuel FU) AR) as [_ W].
    destruct q; try exact I; exact W. }
  destruct q as [r| | | | | | | | |]; try exact I; try exact W.
  - destruct W as [t ->]. assert (L : life E cfg fuel (FromRoot raw) tr t) by (now apply life_new).
    destruct (C43_the_field_is_tracked _ _ _ _ _ _ L) as [T H].
    destruct (proj2 (C43_trust_only_through_verification _ _ _ _ _ H) t T) as (raw' & t1 & ops & [-> F1] & -> & _).
    rewrite F0 in F1. inversion F1; subst. eexists _, _. split; reflexivity.
  - exact (proj1 (C47_version_overflow_partial E cfg fuel (FromRoot raw)) tr X).
Qed.
Print Assumptions C57_damaged_cache_partial.

(** A cache full of the wrong documents. *)
Example C57_case :
  let junk := mkEphemeral [(("root", VNumber 2), "root2"); (("root", VNumber 3), "junk"); (("timestamp", VNone), "root1");
                           (("snapshot", VNone), "?"); (("targets", VNone), "ts1")] [] in
  exists t, snd (drive 50 junk ephemeral_new c50 (construct Ec default_config 9 (FromRoot "root1"))) = Ret (Ok t) /\
    t = tuf_of_root root2.
Proof. vm_compute. eauto. Qed.

(** ** C58 *)

(** False of later states: the timestamp then lists another hash for the same version. *)
Theorem C58_listed_hashes_refuted :
  exists (E : env) (cfg : config) (fuel : nat) (c : ctor) (h : list event) (t : tuf) (ts : timestamp_metadata)
         (s : snapshot_metadata),
  life E cfg fuel c h t /\ t_timestamp t = Some ts /\ t_snapshot t = Some s /\
  (* the trusted snapshot was decoded from a document, but from none with the listed hash *)
  (exists raw, ic_from_slice (e_ic E) Snapshot raw = Ok s) /\
  forall raw, ic_from_slice (e_ic E) Snapshot raw = Ok s -> ~ as_described (e_crypto E) (tm_snapshot ts) raw.
Proof.
  set (x := drive 50 local_updated (served "root2" "ts2-other") c50 (update Ec default_config 9 t_updated)).
  assert (X : exec (update Ec default_config 9 t_updated) (fst (fst x)) (snd x)).
  { destruct x as [[tr l] q] eqn:S. now apply drive_exec in S as [X _]. }
  exists Ec, default_config, 9%nat, (FromRoot "root1"), ((fst (fst started) ++ fst (fst updated)) ++ fst (fst x)),
    (tuf_after t_updated (fst (fst x))), (mkTimestamp 2 300 (mdesc 1 "other")),
    (mkSnapshot 1 600 [("targets", mdesc 1 "targets1"); ("alice", mdesc 1 "alice1"); ("bob", mdesc 1 "bob1")]).
  split.
  { eapply life_call with (k := CallUpdate); [exact life_updated|]. cbn [call_prog]. unfold forget.
    assert (Q : snd x = Ret (result_of x (t_updated, Err NotFound))) by (vm_compute; reflexivity).
    rewrite Q in X. rewrite <- (app_nil_r (fst (fst x))). eapply exec_bind; [exact X|]. constructor. }
  split; [vm_compute; reflexivity|]. split; [vm_compute; reflexivity|].
  split; [exists "snap1"; vm_compute; reflexivity|].
  intros raw D [_ (alg & value & P & Dg)].
  assert (Raw : raw = "other").
  { destruct P as [[-> P]|(-> & _ & P)]; cbn in P; [discriminate|]. inversion P as [V]. rewrite <- V in Dg. cbn in Dg.
    now inversion Dg. }
  subst raw. vm_compute in D. discriminate.
Qed.
Print Assumptions C58_listed_hashes_refuted.

(** What is true: they match when they are accepted, and the versions keep matching. *)
Theorem C58_listed_hashes_partial :
  forall (E : env) (cfg : config) (fuel : nat) (c : ctor) (tr : list event),
  history E cfg fuel c tr ->
  (forall pre post t t' s, tr = pre ++ EvPut t' :: post -> trusted_at pre = Some t ->
     t_snapshot t' = Some s -> t_snapshot t' <> t_snapshot t ->
     exists raw ts, trusted_by E (t_root t') Snapshot raw s /\ t_timestamp t' = Some ts /\
       as_described (e_crypto E) (tm_snapshot ts) raw) /\
  (forall pre post t t' g, tr = pre ++ EvPut t' :: post -> trusted_at pre = Some t ->
     t_targets t' = Some g -> t_targets t' <> t_targets t ->
     exists raw s d, trusted_by E (t_root t') Targets raw g /\ t_snapshot t' = Some s /\
       lookup "targets" (sm_meta s) = Some d /\ as_described (e_crypto E) d raw) /\
  (forall t, trusted_at tr = Some t -> versions_fit t).
Proof.
  intros E cfg fuel c tr H. split; [|split].
  - intros pre post t t' s Eq T S N. pose proof H as H'. apply history_sound in H'.
    destruct (H' pre (EvPut t') post Eq) as (raw & res & place & Ch).
    inversion Ch as [? ? T0 _ _|t1 o t2 res' path v T1 St W A J]; subst; [cbn [app] in T0; congruence|].
    cbn [app] in T1. rewrite T in T1. inversion T1; subst t1.
    destruct (step_snapshot_change _ _ _ _ _ _ St S N) as (cl & raw & -> & R). cbn in St.
    destruct (update_snapshot E t cl raw) as [t1 r1] eqn:U. inversion St; subst. apply update_snapshot_inv in U.
    destruct W as (d & (ts & TS & ->) & D). exists raw, ts.
    destruct res as [[]|]; [|destruct U; congruence..]. destruct U as (new & _ & (Rr & Rt & _)).
    rewrite Rr, Rt. destruct R as (_ & ts' & _ & _ & _ & Tr & _). auto.
  - intros pre post t t' g Eq T S N. pose proof H as H'. apply history_sound in H'.
    destruct (H' pre (EvPut t') post Eq) as (raw & res & place & Ch).
    inversion Ch as [? ? T0 _ _|t1 o t2 res' path v T1 St W A J]; subst; [cbn [app] in T0; congruence|].
    cbn [app] in T1. rewrite T in T1. inversion T1; subst t1.
    destruct (step_targets_change _ _ _ _ _ _ St S N) as (cl & raw & -> & R). cbn in St.
    destruct (update_targets E t cl raw) as [t1 r1] eqn:U. inversion St; subst. apply update_targets_inv in U.
    destruct W as (d & (s & TS & L) & D). exists raw, s, d.
    destruct res as [[]|]; [|destruct U; congruence..]. destruct U as (new & _ & ->). cbn [t_root t_snapshot].
    destruct R as (_ & s' & d' & _ & _ & _ & _ & Tr & _). auto.
  - intros t T. destruct (proj2 (C43_trust_only_through_verification _ _ _ _ _ H) t T) as (_ & _ & _ & _ & _ & R).
    now apply reachable_inv in R as (V & _).
Qed.
Print Assumptions C58_listed_hashes_partial.

(** A history in which a snapshot and targets metadata are accepted. *)
Example C58_case :
  let tr := fst (fst started) ++ fst (fst updated) in
  history Ec default_config 9 (FromRoot "root1") tr /\
  existsb (fun n => match trusted_at (firstn n tr), trusted_at (firstn (S n) tr) with
                    | Some t, Some t' => match t_snapshot t, t_snapshot t' with None, Some _ => true | _, _ => false end
                    | _, _ => false end) (seq 0 (length tr)) = true /\
  existsb (fun n => match trusted_at (firstn n tr), trusted_at (firstn (S n) tr) with
                    | Some t, Some t' => match t_targets t, t_targets t' with None, Some _ => true | _, _ => false end
                    | _, _ => false end) (seq 0 (length tr)) = true.
Proof. split; [exact (life_history _ _ _ _ _ _ life_updated)|]. vm_compute. split; reflexivity. Qed.

(** ** C72 *)

Theorem C72_default_translator_is_the_identity :
  forall (s p : string), path_new s = Ok p -> p = s /\ default_real_to_virtual p = Ok s /\ default_virtual_to_real p = Ok s.
Proof.
  intros s p H. assert (p = s) as ->.
  { unfold path_new in H. destruct (safe_path s); [now inversion H|discriminate]. }
  unfold default_real_to_virtual, default_virtual_to_real. auto.
Qed.
Print Assumptions C72_default_translator_is_the_identity.

Example C72_case : path_new "a/b.txt" = Ok "a/b.txt" /\ is_ok (path_new "../a") = false.
Proof. vm_compute. split; reflexivity. Qed.

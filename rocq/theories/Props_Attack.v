(** * C85, C86, C87: attackers who run the repository but lack the keys *)
From Coq Require Import String List NArith ZArith Bool Lia.
From Verif Require Import Base BaseFacts Metadata Verify Paths Tuf SpecVerify SpecTuf VerifyProofs TufProofs TufHistory
     Reader SpecReader Repo Client SpecClient SpecHonest ClientLogic ClientProofs ClientUpdates ClientHistory ClientTargets
     Toy ClientToy Props_Client Props_Honest SpecAttack AttackProofs.
Import ListNotations.
Open Scope string_scope.
Open Scope list_scope.
Open Scope N_scope.

(** ** C85 *)

(** Whatever the repositories and the clock do: if in every published root too few root
    keys are in wrong hands, then the client only ever trusts published roots. *)
Theorem C85_only_published_roots :
  forall (E : env) (w : holders) (publish : root_metadata -> Prop)
         (cfg : config) (fuel : nat) (c : ctor) (tr : list event) (t : tuf),
  unforgeable (e_crypto E) w -> (forall root, publish root -> kept_role E w root Root publish) ->
  good_start E w publish c tr -> history E cfg fuel c tr -> trusted_at tr = Some t ->
  publish (t_root t).
Proof.
  intros E w P cfg fuel c tr t U K G H T. apply history_sound in H.
  exact (roots_published E w U cfg c tr P H K G t T).
Qed.
Print Assumptions C85_only_published_roots.

(** The same for each other role whose keys are kept well under the trusted root, however
    many keys of the remaining roles, or of former roots for this role, are in wrong
    hands; and for delegated roles, if all delegations on the way are kept well. *)
Theorem C85_only_published_metadata :
  forall (E : env) (w : holders) (cfg : config) (fuel : nat) (c : ctor) (tr : list event) (t : tuf),
  unforgeable (e_crypto E) w -> history E cfg fuel c tr -> trusted_at tr = Some t ->
  (forall (r : role) (publish : metadata_of r -> Prop) (m : metadata_of r), r <> Root ->
     kept_role E w (t_root t) r publish -> trusted_document t r = Some m -> publish m) /\
  (forall (publish : string -> targets_metadata -> Prop) (r : string) (g : targets_metadata),
     kept_role E w (t_root t) Targets (publish "targets") -> kept_delegations E w publish ->
     lookup r (t_delegations t) = Some g -> publish r g).
Proof.
  intros E w cfg fuel c tr t U H T. apply history_sound in H.
  destruct (sound_follows _ _ _ _ H t T) as (raw & t0 & ops & F & ->). apply first_initial in F. split.
  - intros r P m NR K M. apply (documents_published E w U (run E t0 ops) r P); auto. exists t0, ops. auto.
  - intros P r g KT KD L. exact (delegations_published E w U t0 P F KD _ ops eq_refl KT r g L).
Qed.
Print Assumptions C85_only_published_metadata.

(** So every file that is downloaded is one that published targets metadata describe;
    with thieves among the holders of all other keys but the root's. *)
Theorem C85_only_published_targets :
  forall (E : env) (w : holders) (roots : root_metadata -> Prop) (targets : targets_metadata -> Prop)
         (cfg : config) (fuel : nat) (c : ctor) (h tr : list event) (t t' : tuf) (path : string),
  unforgeable (e_crypto E) w ->
  (forall root, roots root -> kept_role E w root Root roots /\ kept_role E w root Targets targets) ->
  good_start E w roots c h -> life E cfg fuel c h t ->
  let genuine g virt d b :=
    targets g /\ cf_translate cfg path = Ok virt /\ lookup virt (tg_targets g) = Some d /\
    target_authentic (e_crypto E) d b /\
    forall b', target_authentic (e_crypto E) d b' -> b' = b \/ exists alg, collision (e_crypto E) alg b b' in
  (exec (fetch_target E cfg fuel t path) tr (Ret (t', Ok tt)) ->
   forall l l', in_memory l tr l' ->
   exists g virt d b, ep_targets l' = insert path b (ep_targets l) /\ genuine g virt d b) /\
  (exec (fetch_target_to_writer E cfg fuel t path) tr (Ret (t', Ok tt)) ->
   exists g virt d, genuine g virt d (written tr)).
Proof.
  intros E w PR PG cfg fuel c h tr t t' path U K G L genuine.
  destruct (C43_the_field_is_tracked _ _ _ _ _ _ L) as [T H].
  assert (R : PR (t_root t)) by (apply (C85_only_published_roots E w PR cfg fuel c h t U); auto; intros root Hr; now apply K).
  destruct (K _ R) as [_ KG].
  assert (Ge : forall d b, listed cfg t path d -> target_authentic (e_crypto E) d b -> exists g virt, genuine g virt d b).
  { intros d b (g & virt & TG & TR & LD) A. exists g, virt. split; [|split; [exact TR|split; [exact LD|split; [exact A|]]]].
    - now apply (proj1 (C85_only_published_metadata E w cfg fuel c h t U H T) Targets PG g).
    - intros b' A'. destruct (string_dec b' b) as [Q|Q]; [now left|right].
      destruct A as (_ & alg & v & P & D). destruct A' as (_ & alg' & v' & P' & D'). exists alg. split; [congruence|].
      assert (alg = alg' /\ v = v') as [<- <-].
      { destruct P as [[-> X]|(-> & X & Y)], P' as [[-> X']|(-> & X' & Y')]; rewrite X in X'; try discriminate.
        - inversion X'. auto.
        - rewrite Y in Y'. inversion Y'. auto. }
      congruence. }
  split; intros X.
  - intros l l' M. destruct (C51_downloaded_targets_are_authentic _ _ _ _ _ _ _ X) as (d & p & src & rs & LD & _ & _ & _ & S).
    destruct (S l l' M) as (b & Eq & _ & A). destruct (Ge d b LD A) as (g & virt & Gg). exists g, virt, d, b. auto.
  - destruct (C51_written_targets_are_authentic _ _ _ _ _ _ _ X) as (d & p & src & LD & _ & _ & _ & A).
    destruct (Ge d _ LD A) as (g & virt & Gg). exists g, virt, d. exact Gg.
Qed.
Print Assumptions C85_only_published_targets.

(** *** A world with a thief *)

(** [stock]: documents with the signatures they carry; [honest]: who has really signed. *)
Definition watched_crypto (thief : list string) (honest : list (string * list string)) : crypto :=
  mkCrypto (fun _ key msg sig => String.eqb sig (key ++ "!" ++ msg)%string &&
              (existsb (String.eqb key) thief ||
               existsb (fun e => String.eqb msg (fst e) && existsb (String.eqb key) (snd e)) honest))
           (ring_digest toy_crypto).
Definition watched_world (thief : list string) (honest : list (string * list string)) : holders :=
  mkHolders (fun _ key => In key thief) (fun _ key msg => exists l, In (msg, l) honest /\ In key l).

Lemma watched_unforgeable thief honest : unforgeable (watched_crypto thief honest) (watched_world thief honest).
Proof.
  intros sch key msg sg V. cbn in V. apply andb_true_iff in V as [_ V]. apply orb_true_iff in V as [V|V].
  - left. apply existsb_exists in V as (k & I & Q). apply String.eqb_eq in Q. now subst.
  - right. apply existsb_exists in V as ([m l] & I & Q). cbn in Q. apply andb_true_iff in Q as [Q1 Q2].
    apply String.eqb_eq in Q1. subst. apply existsb_exists in Q2 as (k & J & Q2). apply String.eqb_eq in Q2. subst. exists l. auto.
Qed.

(** The repository of the other examples, and what the thief of kr1 adds to it. *)
Definition thief : list string := ["kr1"].
Definition honest : list (string * list string) :=
  [ ("root1", ["kr1"; "kr2"]); ("root2", ["kr1"; "kr2"; "kr3"]); ("ts1", ["kt"]); ("ts2", ["kt"]);
    ("snap1", ["ks"]); ("snap2", ["ks"]); ("targets1", ["kg"]); ("alice1", ["kd"]); ("bob1", ["kd"]) ].
Definition root2_evil : root_metadata :=
  mkRoot 2 1000 false (keys_of_names ["kx"]) (rd 1 ["kx"]) (rd 1 ["kx"]) (rd 1 ["kx"]) (rd 1 ["kx"]).
Definition stock : toydb :=
  [ ("root1", (["kr1"; "kr2"], DRoot root1)); ("root2", (["kr1"; "kr2"; "kr3"], DRoot root2));
    ("ts1", (["kt"], DTimestamp ts_one)); ("ts2", (["kt"], DTimestamp ts_two));
    ("snap1", (["ks"], DSnapshot sn_one)); ("snap2", (["ks"], DSnapshot sn_two));
    ("targets1", (["kg"], DTargets ctargets1)); ("alice1", (["kd"], DTargets calice1)); ("bob1", (["kd"], DTargets cbob1));
    (* signed with kr1; the other signatures are invented *)
    ("root2-evil", (["kr1"; "kr2"; "kx"], DRoot root2_evil));
    ("targets1-evil", (["kg"; "kr1"], DTargets (mkTargets 1 500 [("top", content_desc "virus")] None))) ].
Definition Ew : env := mkEnv (watched_crypto thief honest) id_order (toy_ic stock).
Definition ww : holders := watched_world thief honest.

Definition pub_roots (r : root_metadata) : Prop := r = root1 \/ r = root2.
Definition pub_ts (ts : timestamp_metadata) : Prop := ts = ts_one \/ ts = ts_two.
Definition pub_sn (s : snapshot_metadata) : Prop := s = sn_one \/ s = sn_two.
(** kd signs for alice and for bob, so that the two can be exchanged. *)
Definition pub_tg (r : string) (g : targets_metadata) : Prop :=
  if String.eqb r "targets" then g = ctargets1 else g = calice1 \/ g = cbob1.

Lemma few_stolen th keys : (forall k k', In k keys -> In k' keys -> In (pk_value k) thief -> In (pk_value k') thief -> pk_id k = pk_id k') ->
  1 < th -> outnumbered ww th keys.
Proof.
  intros H L ids ND S. destruct ids as [|i [|j ids]]; cbn; [lia|lia|]. exfalso.
  destruct (S i) as (k & I & <- & T); [now left|]. destruct (S j) as (k' & I' & <- & T'); [right; now left|].
  inversion ND as [|? ? N _]; subst. apply N. left. symmetry. now apply H.
Qed.
Lemma none_stolen th keys : (forall k, In k keys -> ~ In (pk_value k) thief) -> 0 < th -> outnumbered ww th keys.
Proof.
  intros H L ids ND S. destruct ids as [|i ids]; cbn; [lia|]. exfalso.
  destruct (S i) as (k & I & _ & T); [now left|]. exact (H k I T).
Qed.

Ltac toy_keys I := vm_compute in I; repeat (destruct I as [<-|I]); [..|contradiction I].
Ltac toy_signed := let S := fresh "S" in let L := fresh "L" in let J := fresh "J" in
  intros S; destruct S as (? & L & J); vm_compute in L;
  repeat (destruct L as [L|L]; [inversion L; subst; clear L; try (exfalso; revert J; vm_compute; intuition discriminate); vm_compute;
    let Q := fresh in intros Q; try discriminate; inversion Q; subst; vm_compute; auto|]); contradiction L.

Lemma ww_roots root : pub_roots root -> kept_role Ew ww root Root pub_roots.
Proof.
  intros R. split.
  - destruct R as [-> | ->].
    + apply few_stolen; [|vm_compute; reflexivity]. intros k k' I I' S S'. toy_keys I; toy_keys I'; try reflexivity;
        vm_compute in S, S'; intuition discriminate.
    + apply few_stolen; [|vm_compute; reflexivity]. intros k k' I I' S S'. toy_keys I; toy_keys I'; try reflexivity;
        vm_compute in S, S'; intuition discriminate.
  - intros k msg m I. destruct R as [-> | ->]; toy_keys I; toy_signed.
Qed.
Lemma ww_timestamps root : pub_roots root -> kept_role Ew ww root Timestamp pub_ts.
Proof.
  intros R. split.
  - destruct R as [-> | ->]; (apply none_stolen; [|vm_compute; reflexivity]); intros k I; toy_keys I; vm_compute; intuition discriminate.
  - intros k msg m I. destruct R as [-> | ->]; toy_keys I; toy_signed.
Qed.
Lemma ww_snapshots root : pub_roots root -> kept_role Ew ww root Snapshot pub_sn.
Proof.
  intros R. split.
  - destruct R as [-> | ->]; (apply none_stolen; [|vm_compute; reflexivity]); intros k I; toy_keys I; vm_compute; intuition discriminate.
  - intros k msg m I. destruct R as [-> | ->]; toy_keys I; toy_signed.
Qed.
Lemma ww_targets root : pub_roots root -> kept_role Ew ww root Targets (pub_tg "targets").
Proof.
  intros R. split.
  - destruct R as [-> | ->]; (apply none_stolen; [|vm_compute; reflexivity]); intros k I; toy_keys I; vm_compute; intuition discriminate.
  - intros k msg m I. destruct R as [-> | ->]; toy_keys I; toy_signed.
Qed.
Lemma ww_delegations : kept_delegations Ew ww pub_tg.
Proof.
  intros r g ds d P D I.
  assert (X : ds = mkDelegations (keys_of_names ["kd"]) [deleg "alice" false ["kd"] ["a/"]] \/
              ds = mkDelegations (keys_of_names ["kd"]) [deleg "bob" true ["kd"] ["a/b/"]]).
  { unfold pub_tg in P. destruct (String.eqb r "targets"); [subst|destruct P as [-> | ->]]; cbn in D; inversion D; auto. }
  destruct X as [-> | ->]; destruct I as [<-|[]]; (split;
  [ apply none_stolen; [|vm_compute; reflexivity]; intros k I; toy_keys I; vm_compute; intuition discriminate
  | intros k msg m I; toy_keys I; toy_signed ]).
Qed.

(** A client of the honest repository, then of the thief's; and a new client of the
    thief's. *)
Definition w_started := drive 50 ephemeral_new remote1 c50 (construct Ew default_config 9 (FromRoot "root1")).
Definition w_t1 : tuf := match result_of w_started (Err NotFound) with Ok t => t | Err _ => tuf_of_root root1 end.
Definition w_updated := drive 50 (snd (fst w_started)) remote1 c50 (update Ew default_config 9 w_t1).
Definition w_t2 : tuf := fst (result_of w_updated (w_t1, Err NotFound)).
Definition thiefs_root : ephemeral := served "root2-evil" "ts1".
Definition thiefs_targets : ephemeral :=
  mkEphemeral [(("root", VNumber 1), "root1"); (("timestamp", VNone), "ts1"); (("snapshot", VNone), "snap1");
               (("targets", VNone), "targets1-evil")] [("top", "virus")].

Lemma drive_new E cfg fuel c n l r cl t x : drive n l r cl (construct E cfg fuel c) = x -> snd x = Ret (Ok t) ->
  life E cfg fuel c (fst (fst x)) t.
Proof.
  intros D Q. destruct x as [[tr l'] q]. cbn [fst snd] in *. subst q. apply drive_exec in D as [X _]. now apply life_new.
Qed.
Lemma drive_update E cfg fuel c h t n l r cl t' b x : life E cfg fuel c h t ->
  drive n l r cl (update E cfg fuel t) = x -> snd x = Ret (t', Ok b) -> life E cfg fuel c (h ++ fst (fst x)) t'.
Proof.
  intros L D Q. destruct x as [[tr l'] q]. cbn [fst snd] in *. subst q. apply drive_exec in D as [X _].
  rewrite <- (proj1 (C45_update_reports_truthfully _ _ _ _ _ _ _ X)). eapply life_call with (k := CallUpdate); [exact L|].
  cbn [call_prog]. unfold forget. rewrite <- (app_nil_r tr). eapply exec_bind; [exact X|]. constructor.
Qed.
Lemma w_life : life Ew default_config 9 (FromRoot "root1") (fst (fst w_started) ++ fst (fst w_updated)) w_t2.
Proof.
  eapply drive_update; [eapply drive_new; [reflexivity|]|reflexivity|]; vm_compute; reflexivity.
Qed.

Example C85_case :
  unforgeable (e_crypto Ew) ww /\ (forall root, pub_roots root -> kept_role Ew ww root Root pub_roots) /\
  good_start Ew ww pub_roots (FromRoot "root1") (fst (fst w_started) ++ fst (fst w_updated)) /\
  life Ew default_config 9 (FromRoot "root1") (fst (fst w_started) ++ fst (fst w_updated)) w_t2 /\
  t_root w_t2 = root2 /\ t_targets w_t2 = Some ctargets1 /\
  (* a root key is in wrong hands *)
  (exists k, In k (listed_keys (rm_keys root1) (rd_key_ids (rm_root root1))) /\ stolen ww (pk_scheme k) (pk_value k)) /\
  (* the forgeries *)
  snd (drive 50 ephemeral_new thiefs_root c50 (update Ew default_config 9 (tuf_of_root root1))) =
    Ret (tuf_of_root root1, Err VerificationFailure) /\
  snd (step Ew (run Ew (tuf_of_root root1) [OpTimestamp c50 "ts1"; OpSnapshot c50 "snap1"]) (OpTargets c50 "targets1-evil")) =
    Err VerificationFailure /\
  snd (step Ew (run Ew (tuf_of_root root1) [OpTimestamp c50 "ts1"; OpSnapshot c50 "snap1"]) (OpTargets c50 "targets1")) = Ok true.
Proof.
  split; [apply watched_unforgeable|]. split; [exact ww_roots|]. split.
  { intros t H. vm_compute in H. inversion H. left. reflexivity. }
  split; [exact w_life|]. split; [vm_compute; reflexivity|]. split; [vm_compute; reflexivity|].
  split; [exists (toy_key "kr1"); vm_compute; auto|].
  split; [vm_compute; reflexivity|]. split; vm_compute; reflexivity.
Qed.

(** The rest of the hypotheses, with a delegation and a download. *)
Definition w_walked := drive 50 (snd (fst w_updated)) remote1 c50 (fetch_target_description Ew default_config 9 w_t2 "a/x").
Example C85_case_targets :
  (forall root, pub_roots root -> kept_role Ew ww root Targets (pub_tg "targets")) /\ kept_delegations Ew ww pub_tg /\
  lookup "alice" (t_delegations (fst (result_of w_walked (w_t2, Err NotFound)))) = Some calice1 /\
  snd (drive 50 (snd (fst w_updated)) remote1 c50 (fetch_target Ew default_config 9 w_t2 "top")) = Ret (w_t2, Ok tt) /\
  snd (drive 50 (snd (fst w_updated)) thiefs_targets c50 (fetch_target Ew default_config 9 w_t2 "top")) = Ret (w_t2, Err Opaque).
Proof.
  split; [exact ww_targets|]. split; [exact ww_delegations|]. split; [vm_compute; reflexivity|].
  split; vm_compute; reflexivity.
Qed.

(** ** C86 *)

(** Under one root, the versions of the trusted metadata only grow: the timestamp's in
    any case, the snapshot's if timestamps are published in order and their keys are kept
    well, and those of targets metadata and delegated roles if that holds of snapshots
    too.  The remaining keys may be in wrong hands.  Missing: changes of the root. *)
Theorem C86_no_rollback_partial :
  forall (E : env) (w : holders) (timestamps : timestamp_metadata -> Prop) (snapshots : snapshot_metadata -> Prop)
         (cfg : config) (fuel : nat) (c : ctor) (tr tr' : list event) (t t' : tuf),
  history E cfg fuel c (tr ++ tr') -> trusted_at tr = Some t -> trusted_at (tr ++ tr') = Some t' ->
  rm_version (t_root t') = rm_version (t_root t) ->
  timestamp_version t <= timestamp_version t' /\
  (unforgeable (e_crypto E) w -> kept_role E w (t_root t) Timestamp timestamps -> timestamps_in_order timestamps ->
   (forall s s', t_snapshot t = Some s -> t_snapshot t' = Some s' -> sm_version s <= sm_version s') /\
   (kept_role E w (t_root t) Snapshot snapshots -> snapshots_in_order snapshots ->
    (forall g g', t_targets t = Some g -> t_targets t' = Some g' -> tg_version g <= tg_version g') /\
    (forall r g g', lookup r (t_delegations t) = Some g -> lookup r (t_delegations t') = Some g' ->
       tg_version g <= tg_version g'))).
Proof.
  intros E w PT PS cfg fuel c tr tr' t t' H T T' V. apply history_sound in H.
  destruct (sound_between _ _ _ _ _ _ _ H T T') as (ops & ->).
  assert (R : reachable E t).
  { apply along_app in H as [H _]. apply (follows_reachable E c). exact (sound_follows _ _ _ _ H t T). }
  split; [exact (run_timestamp_version E ops t V)|]. intros U KT OT. split.
  - intros s s' S S'. exact (snapshot_forward E w t PT U R KT OT ops s s' V S S').
  - intros KS OS. split.
    + intros g g' G G'. exact (targets_forward E w t PT PS U R KT OT KS OS ops g g' V G G').
    + intros r g g' G G'. exact (delegation_forward E w t PT PS U R KT OT KS OS r ops g g' V G G').
Qed.
Print Assumptions C86_no_rollback_partial.

(** What the thief serves: an old timestamp and snapshot, with the next root. *)
Definition serving (root2 : bool) (ts sn : string) : ephemeral :=
  mkEphemeral ((("root", VNumber 1), "root1") :: (if root2 then [(("root", VNumber 2), "root2")] else []) ++
               [(("timestamp", VNone), ts); (("snapshot", VNone), sn); (("targets", VNone), "targets1")]) [].
Definition b_started := drive 50 ephemeral_new (serving false "ts1" "snap1") c50 (construct Ew default_config 9 (FromRoot "root1")).
Definition b_t1 : tuf := match result_of b_started (Err NotFound) with Ok t => t | Err _ => tuf_of_root root1 end.
Definition b_updated1 := drive 50 (snd (fst b_started)) (serving false "ts1" "snap1") c50 (update Ew default_config 9 b_t1).
Definition b_t2 : tuf := fst (result_of b_updated1 (b_t1, Err NotFound)).
Definition b_updated2 := drive 50 (snd (fst b_updated1)) (serving false "ts2" "snap2") c50 (update Ew default_config 9 b_t2).
Definition b_t3 : tuf := fst (result_of b_updated2 (b_t2, Err NotFound)).
Definition b_updated3 := drive 50 (snd (fst b_updated2)) (serving true "ts1" "snap1") c50 (update Ew default_config 9 b_t3).
Definition b_t4 : tuf := fst (result_of b_updated3 (b_t3, Err NotFound)).
Definition b_h : list event := (fst (fst b_started) ++ fst (fst b_updated1)) ++ fst (fst b_updated2).

Lemma b_life2 : life Ew default_config 9 (FromRoot "root1") (fst (fst b_started) ++ fst (fst b_updated1)) b_t2.
Proof. eapply drive_update; [eapply drive_new; [reflexivity|]|reflexivity|]; vm_compute; reflexivity. Qed.
Lemma b_life3 : life Ew default_config 9 (FromRoot "root1") b_h b_t3.
Proof. eapply drive_update; [exact b_life2|reflexivity|]; vm_compute; reflexivity. Qed.
Lemma b_life4 : life Ew default_config 9 (FromRoot "root1") (b_h ++ fst (fst b_updated3)) b_t4.
Proof. eapply drive_update; [exact b_life3|reflexivity|]; vm_compute; reflexivity. Qed.

Lemma pub_ts_in_order : timestamps_in_order pub_ts.
Proof. intros ts ts' [-> | ->] [-> | ->]; vm_compute; intuition. Qed.
Lemma pub_sn_in_order : snapshots_in_order pub_sn.
Proof.
  intros s s' r d d' [-> | ->] [-> | ->] V; [| |vm_compute in V; now destruct V|].
  - intros L L'. rewrite L in L'. inversion L'. lia.
  - unfold sn_one, sn_two. cbn -[md_version]. unfold eqb; cbn -[md_version].
    destruct (String.eqb r "targets"); [intros A B; inversion A; inversion B; vm_compute; discriminate|].
    destruct (String.eqb r "alice"); [intros A B; inversion A; inversion B; vm_compute; discriminate|]. discriminate.
  - intros L L'. rewrite L in L'. inversion L'. lia.
Qed.

(** With the same keys for timestamps and snapshots in all published roots, all of them
    kept well, and everything published in order, a new root nevertheless lets the
    attacker bring back old documents, since it makes the client forget its versions. *)
Theorem C86_no_rollback_refuted :
  exists (E : env) (w : holders) (roots : root_metadata -> Prop) (timestamps : timestamp_metadata -> Prop)
         (snapshots : snapshot_metadata -> Prop) (cfg : config) (fuel : nat) (c : ctor) (tr tr' : list event) (t t' : tuf)
         (s s' : snapshot_metadata),
  unforgeable (e_crypto E) w /\
  (forall root, roots root -> kept_role E w root Root roots /\ kept_role E w root Timestamp timestamps /\
     kept_role E w root Snapshot snapshots) /\
  (forall root root', roots root -> roots root' -> rm_timestamp root = rm_timestamp root' /\ rm_snapshot root = rm_snapshot root') /\
  timestamps_in_order timestamps /\ snapshots_in_order snapshots /\
  good_start E w roots c (tr ++ tr') /\ life E cfg fuel c tr t /\ life E cfg fuel c (tr ++ tr') t' /\
  timestamp_version t' < timestamp_version t /\
  t_snapshot t = Some s /\ t_snapshot t' = Some s' /\ sm_version s' < sm_version s.
Proof.
  exists Ew, ww, pub_roots, pub_ts, pub_sn, default_config, 9%nat, (FromRoot "root1"), b_h, (fst (fst b_updated3)), b_t3, b_t4, sn_two, sn_one.
  split; [apply watched_unforgeable|]. split.
  { intros root P. split; [exact (ww_roots root P)|]. split; [exact (ww_timestamps root P)|exact (ww_snapshots root P)]. }
  split; [intros ? ? [-> | ->] [-> | ->]; split; reflexivity|].
  split; [exact pub_ts_in_order|]. split; [exact pub_sn_in_order|].
  split; [intros t H; vm_compute in H; inversion H; left; reflexivity|].
  split; [exact b_life3|]. split; [exact b_life4|].
  split; [vm_compute; reflexivity|]. split; [vm_compute; reflexivity|]. split; [vm_compute; reflexivity|]. vm_compute; reflexivity.
Qed.
Print Assumptions C86_no_rollback_refuted.

Example C86_case :
  life Ew default_config 9 (FromRoot "root1") (fst (fst b_started) ++ fst (fst b_updated1)) b_t2 /\
  life Ew default_config 9 (FromRoot "root1") b_h b_t3 /\ rm_version (t_root b_t3) = rm_version (t_root b_t2) /\
  kept_role Ew ww (t_root b_t2) Timestamp pub_ts /\ kept_role Ew ww (t_root b_t2) Snapshot pub_sn /\
  t_snapshot b_t2 = Some sn_one /\ t_snapshot b_t3 = Some sn_two /\ t_targets b_t3 = Some ctargets1 /\
  (* going back *)
  snd (drive 50 (snd (fst b_updated2)) (serving false "ts1" "snap1") c50 (update Ew default_config 9 b_t3)) = Ret (b_t3, Err VerificationFailure).
Proof.
  split; [exact b_life2|]. split; [exact b_life3|]. split; [vm_compute; reflexivity|].
  assert (R : t_root b_t2 = root1) by (vm_compute; reflexivity). rewrite R.
  split; [apply ww_timestamps; now left|]. split; [apply ww_snapshots; now left|].
  split; [vm_compute; reflexivity|]. split; [vm_compute; reflexivity|]. split; vm_compute; reflexivity.
Qed.

(** Documents from different releases are never combined: if the keys are kept well, what
    a client trusts was published together.  In particular after every successful
    update, when it has all three (C77). *)
Theorem C86_no_mix_and_match :
  forall (E : env) (w : holders) (timestamps : timestamp_metadata -> Prop) (snapshots : snapshot_metadata -> Prop)
         (targets : targets_metadata -> Prop)
         (released : timestamp_metadata -> snapshot_metadata -> targets_metadata -> Prop)
         (cfg : config) (fuel : nat) (c : ctor) (tr : list event) (t : tuf),
  unforgeable (e_crypto E) w -> history E cfg fuel c tr -> trusted_at tr = Some t ->
  kept_role E w (t_root t) Timestamp timestamps -> kept_role E w (t_root t) Snapshot snapshots ->
  kept_role E w (t_root t) Targets targets ->
  releases timestamps snapshots targets released ->
  one_per_version sm_version snapshots -> one_per_version tg_version targets ->
  (forall ts s g, t_timestamp t = Some ts -> t_snapshot t = Some s -> t_targets t = Some g -> released ts s g) /\
  (forall tr' t' b, positive_versions (e_ic E) -> exec (update E cfg fuel t) tr' (Ret (t', Ok b)) -> t_root t' = t_root t ->
     exists ts s g, t_timestamp t' = Some ts /\ t_snapshot t' = Some s /\ t_targets t' = Some g /\ released ts s g).
Proof.
  intros E w PT PS PG rel cfg fuel c tr t U H T KT KS KG Re OS OG.
  assert (R : reachable E t).
  { apply history_sound in H. apply (follows_reachable E c). exact (sound_follows _ _ _ _ H t T). }
  assert (M : forall x, reachable E x -> t_root x = t_root t -> forall ts s g,
            t_timestamp x = Some ts -> t_snapshot x = Some s -> t_targets x = Some g -> rel ts s g).
  { intros x Rx Ex ts s g Ts S G.
    assert (PTs : PT ts) by (apply (documents_published E w U x Timestamp PT Rx); [now rewrite Ex|discriminate|exact Ts]).
    assert (PSs : PS s) by (apply (documents_published E w U x Snapshot PS Rx); [now rewrite Ex|discriminate|exact S]).
    assert (PGg : PG g) by (apply (documents_published E w U x Targets PG Rx); [now rewrite Ex|discriminate|exact G]).
    apply reachable_inv in Rx as ((V1 & V2 & _) & _). destruct (V1 s S) as (ts' & Ts' & Fs).
    rewrite Ts in Ts'. inversion Ts'; subst ts'. destruct (V2 s g S G) as (d & D & Fg).
    destruct (Re ts PTs) as (s' & g' & d' & Rl & Ps' & Pg' & Fs' & D' & Fg').
    assert (s' = s) as -> by (apply OS; auto; congruence). rewrite D in D'. inversion D'; subst d'.
    assert (g' = g) as -> by (apply OG; auto; congruence). exact Rl. }
  split; [intros ts s g; apply M; auto|].
  intros tr' t' b Pos X Eq.
  destruct (C77_success_is_thorough_partial _ _ _ _ _ _ _ Pos R X) as (_ & _ & _ & (ts & s & g & d & A1 & A2 & A3 & _)).
  exists ts, s, g. repeat split; auto. apply (M t'); auto.
  assert (T0 : trusted_at [EvPut t] = Some t) by reflexivity.
  destruct (wp_sound (D0 E cfg FromLocal) _ _ _ X _ _ (wp_update E cfg FromLocal fuel t _ T0) (along_D0 _ _ _ _ _)) as [G _].
  destruct (sound_run _ _ _ _ _ _ T0 G) as (ops & O).
  rewrite (proj1 (C45_update_reports_truthfully _ _ _ _ _ _ _ X)) in O. rewrite O. now apply reachable_run.
Qed.
Print Assumptions C86_no_mix_and_match.

Definition released (ts : timestamp_metadata) (s : snapshot_metadata) (g : targets_metadata) : Prop :=
  (ts = ts_one /\ s = sn_one /\ g = ctargets1) \/ (ts = ts_two /\ s = sn_two /\ g = ctargets1).
Example C86_case_releases :
  history Ew default_config 9 (FromRoot "root1") b_h /\ trusted_at b_h = Some b_t3 /\
  kept_role Ew ww (t_root b_t3) Timestamp pub_ts /\ kept_role Ew ww (t_root b_t3) Snapshot pub_sn /\
  kept_role Ew ww (t_root b_t3) Targets (pub_tg "targets") /\
  releases pub_ts pub_sn (pub_tg "targets") released /\
  one_per_version sm_version pub_sn /\ one_per_version tg_version (pub_tg "targets") /\
  t_timestamp b_t3 = Some ts_two /\ t_snapshot b_t3 = Some sn_two /\ t_targets b_t3 = Some ctargets1.
Proof.
  destruct (C43_the_field_is_tracked _ _ _ _ _ _ b_life3) as [T H]. split; [exact H|]. split; [exact T|].
  assert (R : t_root b_t3 = root1) by (vm_compute; reflexivity). rewrite R.
  split; [apply ww_timestamps; now left|]. split; [apply ww_snapshots; now left|]. split; [apply ww_targets; now left|].
  split.
  { intros ts [-> | ->].
    - exists sn_one, ctargets1, (mdesc 1 "targets1"). split; [left; auto|]. split; [now left|]. repeat split; reflexivity.
    - exists sn_two, ctargets1, (mdesc 1 "targets1"). split; [right; auto|]. split; [now right|]. repeat split; reflexivity. }
  split; [intros a b [-> | ->] [-> | ->] V; vm_compute in V; congruence|].
  split; [intros a b A B _; cbv in A, B; congruence|].
  split; [vm_compute; reflexivity|]. split; vm_compute; reflexivity.
Qed.

(** ** C87 *)

(** If the repository keeps answering with the timestamp that the client has, an update
    succeeds and changes nothing, whatever the time is, until the root expires: whether
    the timestamp or the other documents have expired is not looked at. *)
Theorem C87_replay_goes_unnoticed :
  forall (E : env) (cfg : config) (fuel : nat) (t : tuf) (raw : bytes) (ts : timestamp_metadata),
  complete t -> fuel <> O -> rm_version (t_root t) < u32_max ->
  trusted_by E (t_root t) Timestamp raw ts -> tm_version ts = timestamp_version t ->
  fetchable (cf_max_timestamp cfg) raw ->
  forall tr q, exec (update E cfg fuel t) tr q -> Forall (replay t raw) tr ->
  q <> Panic /\ q <> OutOfFuel /\ forall t' r, q = Ret (t', r) -> t' = t /\ r = Ok false.
Proof.
  intros E cfg fuel t raw ts Co Fu B Tr V F tr q X G.
  destruct (wp_sound (DR t raw) _ _ _ X _ [] (wp_update_replay E cfg fuel t raw ts [] Co Fu B Tr V F)) as [_ W].
  { intros pre e post ->. apply Forall_app in G as [_ G]. inversion G; subst. assumption. }
  split; [intros ->; exact W|]. split; [intros ->; exact W|]. intros t' r ->. cbn in W. inversion W. auto.
Qed.
Print Assumptions C87_replay_goes_unnoticed.

(** So a successful update does not mean that the metadata are still valid. *)
Definition replayed := drive 50 local_updated remote1 (now 350) (update Ec default_config 9 t_updated).
Theorem C87_freeze_noticed_refuted :
  exists (E : env) (cfg : config) (fuel : nat) (c : ctor) (h tr : list event) (t : tuf),
  life E cfg fuel c h t /\ exec (update E cfg fuel t) tr (Ret (t, Ok false)) /\
  (exists cl, In (EvNow cl) tr) /\
  (* the time is 350 *)
  (forall cl, In (EvNow cl) tr -> cl = now 350) /\ ~ nothing_expired t 350.
Proof.
  exists Ec, default_config, 9%nat, (FromRoot "root1"), (fst (fst started) ++ fst (fst updated)), (fst (fst replayed)), t_updated.
  split; [exact life_updated|]. split.
  { destruct replayed as [[tr l] q] eqn:S. assert (Q : q = Ret (t_updated, Ok false)).
    { change q with (snd (tr, l, q)). rewrite <- S. vm_compute. reflexivity. }
    subst q. now apply drive_exec in S as [X _]. }
  split; [exists (now 350); vm_compute; auto|]. split.
  - intros cl H. vm_compute in H. repeat (destruct H as [H|H]; [try discriminate; now inversion H|]). destruct H.
  - intros (_ & H & _). destruct (t_timestamp t_updated) as [ts|] eqn:T; [|vm_compute in T; discriminate].
    specialize (H ts eq_refl). vm_compute in T. inversion T; subst. vm_compute in H. discriminate.
Qed.
Print Assumptions C87_freeze_noticed_refuted.

(** The conditions of the first theorem are met. *)
Example C87_case : complete t_updated /\ trusted_by Ec (t_root t_updated) Timestamp "ts1" ts_one /\
  tm_version ts_one = timestamp_version t_updated /\ fetchable (cf_max_timestamp default_config) "ts1" /\
  rm_version (t_root t_updated) < u32_max /\
  Forall (replay t_updated "ts1") (fst (fst replayed)) /\ fst (fst replayed) <> [].
Proof.
  split. { exists ts_one, sn_one, ctargets1, (mdesc 1 "targets1"). repeat split; vm_compute; reflexivity. }
  split. { apply (verify_trusted Ec (t_root t_updated) Timestamp). vm_compute. reflexivity. }
  split; [vm_compute; reflexivity|]. split; [split; [intros m M; inversion M; subst|]; vm_compute; discriminate|].
  split; [vm_compute; reflexivity|]. split; [|vm_compute; discriminate].
  vm_compute. repeat constructor; intros; try discriminate; try reflexivity.
  exists [Ready "ts1"]. split; [reflexivity|]. apply (contains_data "ts1" [] "" None); [discriminate|constructor].
Qed.

(** What an update does look at: the time of its last look at the root; and whatever it
    replaces.  A new timestamp had not expired; with a new snapshot, neither the root nor
    the timestamp (but maybe the snapshot itself); with new targets metadata, neither
    they nor the root nor the snapshot. *)
Theorem C87_freeze_noticed_partial :
  forall (E : env) (cfg : config) (fuel : nat) (t t' : tuf) (tr : list event) (b : bool),
  exec (update E cfg fuel t) tr (Ret (t', Ok b)) ->
  (exists cl, In (EvNow cl) tr /\ fresh (rm_expires (t_root t')) (at_root cl)) /\
  (forall ts, t_timestamp t' = Some ts -> t_timestamp t <> Some ts ->
     exists cl, In (EvNow cl) tr /\ fresh (tm_expires ts) (at_new cl)) /\
  (forall s, t_snapshot t' = Some s -> t_snapshot t <> Some s ->
     exists cl ts, In (EvNow cl) tr /\ fresh (rm_expires (t_root t')) (at_root cl) /\
       t_timestamp t' = Some ts /\ fresh (tm_expires ts) (at_timestamp cl)) /\
  (forall g, t_targets t' = Some g -> t_targets t <> Some g ->
     exists cl s, In (EvNow cl) tr /\ fresh (rm_expires (t_root t')) (at_root cl) /\
       t_snapshot t' = Some s /\ fresh (sm_expires s) (at_snapshot cl) /\ fresh (tg_expires g) (at_new cl)).
Proof.
  intros E cfg fuel t t' tr b X.
  destruct (wp_sound DT _ _ _ X _ [] (update_fresh E cfg fuel t []) (along_true _ _)) as [_ W1].
  destruct (wp_sound DT _ _ _ X _ [] (update_all_fresh E cfg t fuel []) (along_true _ _)) as [_ W2].
  cbn [wp app fst snd] in W1, W2. destruct (W2 b eq_refl) as (A & B & C).
  split; [exact (W1 b eq_refl)|]. split; [|split].
  - intros ts T N. destruct (A ts T); [contradiction|assumption].
  - intros s T N. destruct (B s T); [contradiction|assumption].
  - intros g T N. destruct (C g T); [contradiction|assumption].
Qed.
Print Assumptions C87_freeze_noticed_partial.

(** An expired timestamp is noticed if it is new, and an expired snapshot if new targets
    metadata depend on it, but not otherwise. *)
Definition Ex : env := toy_env
  (("ts3", (["kt"], DTimestamp (mkTimestamp 3 300 (mdesc 3 "snap3")))) ::
   ("snap3", (["ks"], DSnapshot (mkSnapshot 3 100 [("targets", mdesc 1 "targets1")]))) :: crepo).
Definition outcome (E : env) (t : tuf) (ts sn : string) (z : Z) : tuf * result bool :=
  result_of (drive 50 ephemeral_new (serving true ts sn) (now z) (update E default_config 9 t)) (t, Err NotFound).
Example C87_case_partial :
  exec (update Ec default_config 9 t_started) (fst (fst updated)) (Ret (t_updated, Ok true)) /\
  t_timestamp t_started = None /\ t_timestamp t_updated = Some ts_one /\ t_snapshot t_updated = Some sn_one /\
  t_targets t_updated = Some ctargets1 /\
  snd (outcome Ex t_started "ts1" "snap1" 350) = Err (ExpiredMetadata Timestamp) /\
  snd (outcome Ex t_started "ts3" "snap3" 150) = Err (ExpiredMetadata Snapshot) /\
  snd (outcome Ex t_updated "ts3" "snap3" 150) = Ok true /\
  option_map sm_expires (t_snapshot (fst (outcome Ex t_updated "ts3" "snap3" 150))) = Some 100%Z.
Proof.
  split.
  { destruct updated as [[tr l] q] eqn:S. assert (Q : q = Ret (t_updated, Ok true)).
    { change q with (snd (tr, l, q)). rewrite <- S. vm_compute. reflexivity. }
    subst q. now apply drive_exec in S as [X _]. }
  repeat (split; [vm_compute; reflexivity|]). vm_compute; reflexivity.
Qed.

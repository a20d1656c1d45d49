(** * Proofs about the updates of the client: C45, C46, C47 *)
From Coq Require Import String List NArith ZArith Bool Lia.
From Verif Require Import Base BaseFacts Metadata Verify Paths Tuf SpecVerify SpecTuf TufProofs TufHistory
     Reader SpecReader ReaderProofs Repo Client SpecClient ClientLogic ClientProofs.
Import ListNotations.
Open Scope string_scope.
Open Scope list_scope.
Open Scope N_scope.

(** Runs of fetches and stores only matter through their result. *)
Section Effects.
  Variable E : env.
  Variable D : demands.

  Lemma wp_fetch_any s r path v max hash (Q : list event -> result bytes -> Prop) h :
    (forall e, Q h (Err e)) ->
    (forall ans, let e := EvFetchMeta s path v max hash ans in rely D h e ->
       guar D h e /\ Q (h ++ [e]) (read_metadata (e_crypto E) max hash ans)) ->
    wp D (fetch_metadata E s r path v max hash) Q h.
  Proof. intros H1 H2. unfold fetch_metadata. destruct (repo_check r path); cbn; auto. Qed.

  Lemma wp_store_any r path v raw (Q : list event -> result unit -> Prop) h :
    (forall e, Q h (Err e)) ->
    (forall ans, let e := EvStoreMeta path v raw ans in rely D h e -> guar D h e /\ Q (h ++ [e]) ans) ->
    wp D (store_metadata r path v raw) Q h.
  Proof. intros H1 H2. unfold store_metadata. destruct (repo_check r path); cbn; auto. Qed.
End Effects.

Definition DT : demands := mkDemands (fun _ _ => True) (fun _ _ => True) (fun _ => True) True.

Lemma along_true h tr : along (fun _ _ => True) h tr.
Proof. intros pre e post _. exact I. Qed.

Lemma wp_fetch_true E s r path v max hash (Q : list event -> result bytes -> Prop) h : (forall h r, Q h r) ->
  wp DT (fetch_metadata E s r path v max hash) Q h.
Proof. intros H. apply wp_fetch_any; [auto|]. intros ans e _. split; [exact I|auto]. Qed.
Lemma wp_store_true r path v raw (Q : list event -> result unit -> Prop) h : (forall h r, Q h r) -> wp DT (store_metadata r path v raw) Q h.
Proof. intros H. apply wp_store_any; [auto|]. intros ans e _. split; [exact I|auto]. Qed.

Section Truthful.
  Variable E : env.
  Variable cfg : config.

  (** *** C45 *)

  Lemma step_ok_frame t o t' b : step E t o = (t', Ok b) ->
    (b = false -> t' = t) /\
    match o with
    | OpRoot _ => rm_version (t_root t) < rm_version (t_root t')
    | OpTimestamp _ _ => t_root t' = t_root t /\ (b = true -> t_timestamp t' <> t_timestamp t)
    | OpSnapshot _ _ => t_root t' = t_root t /\ t_timestamp t' = t_timestamp t /\
                        (b = true -> t_snapshot t' <> t_snapshot t)
    | OpTargets _ _ => t_root t' = t_root t /\ t_timestamp t' = t_timestamp t /\ t_snapshot t' = t_snapshot t /\
                       (b = true -> t_targets t' <> t_targets t)
    | OpDelegation _ _ _ _ => t_root t' = t_root t /\ t_timestamp t' = t_timestamp t /\ t_snapshot t' = t_snapshot t /\
                       t_targets t' = t_targets t
    end.
  Proof.
    destruct o as [raw|cl raw|cl raw|cl raw|cl p r raw]; cbn [step].
    - destruct (update_root E t raw) as [t1 [[]|e]] eqn:U; intros H; inversion H; subst.
      apply update_root_ok in U as (new & (_ & _ & V & _) & ->). cbn. split; [discriminate|lia].
    - destruct (update_timestamp E t cl raw) as [t1 [[ts|]|e]] eqn:U; intros H; inversion H; subst;
        apply update_timestamp_inv in U as (R & _ & _ & _ & U).
      + destruct U as ((_ & V & _) & T & _). split; [discriminate|]. split; auto. intros _ Q. rewrite Q in T.
        unfold timestamp_version in V. rewrite T in V. cbn in V. lia.
      + destruct U as [-> _]. split; auto. split; auto. discriminate.
    - intros U. apply update_snapshot_inv in U. destruct b.
      + destruct U as (new & (_ & ts & Hts & _ & V & _ & Ev) & (I1 & I2 & I3 & _)).
        split; [discriminate|]. split; auto. split; auto. intros _ Q. rewrite Q in I3.
        unfold snapshot_version in V. rewrite I3 in V. cbn in V. lia.
      + destruct U as [-> _]. split; auto. split; auto. split; auto. discriminate.
    - intros U. apply update_targets_inv in U. destruct b.
      + destruct U as (new & (_ & s & d & Hs & _ & Ld & V & _ & Ev & _) & ->).
        split; [discriminate|]. cbn. split; auto. split; auto. split; auto. intros _ Q.
        unfold targets_version in V. rewrite <- Q in V. cbn in V. lia.
      + destruct U as [-> _]. split; auto. split; auto. split; auto. split; auto. discriminate.
    - intros U. pose proof (update_delegation_frame E _ _ _ _ _ _ _ U) as (F1 & F2 & F3 & F4).
      split; [|auto]. intros ->. apply update_delegation_inv in U. now destruct U as [-> _].
  Qed.

  Definition truthful_root (t : tuf) : list event -> tuf * result bool -> Prop := fun _ x =>
    match snd x with
    | Ok false => fst x = t
    | Ok true => rm_version (t_root t) < rm_version (t_root (fst x))
    | Err _ => True
    end.

  Lemma root_loop_truthful fuel s persist : forall t (updated : bool) h,
    wp DT (root_loop E cfg fuel s persist t updated)
       (fun _ x => match snd x with
                   | Ok false => updated = false /\ fst x = t
                   | Ok true => if updated then rm_version (t_root t) <= rm_version (t_root (fst x))
                                else rm_version (t_root t) < rm_version (t_root (fst x))
                   | Err _ => True end) h.
  Proof.
    induction fuel as [|fuel IH]; intros t updated h; [exact I|]. cbn [root_loop].
    destruct (u32_max <=? _); [exact I|].
    eapply (wp_seq DT _ _ (fun _ _ => True)); [now apply wp_fetch_true|]. intros h1 r1 _.
    destruct r1 as [raw|[]]; try exact I.
    2: { cbn. destruct updated; auto. lia. }
    destruct (update_root E t raw) as [t' r] eqn:U. cbn [wp]. intros _. split; [exact I|].
    destruct r as [[]|e]; [|exact I].
    assert (V : rm_version (t_root t) < rm_version (t_root t')).
    { apply update_root_ok in U as (new & (_ & _ & V & _) & ->). cbn. lia. }
    assert (K : forall h, wp DT (root_loop E cfg fuel s persist t' true)
       (fun _ x => match snd x with
                   | Ok false => updated = false /\ fst x = t
                   | Ok true => if updated then rm_version (t_root t) <= rm_version (t_root (fst x))
                                else rm_version (t_root t) < rm_version (t_root (fst x))
                   | Err _ => True end) h).
    { intros h2. eapply wp_mono; [|apply IH]. intros h3 [t3 [[|]|e]] H; cbn in *; auto.
      - destruct updated; lia.
      - destruct H; discriminate. }
    destruct persist; [|apply K].
    eapply (wp_seq DT _ _ (fun _ _ => True)); [now apply wp_store_true|]. intros h2 [[]|e] _; [|exact I].
    eapply (wp_seq DT _ _ (fun _ _ => True)); [now apply wp_store_true|]. intros h3 [[]|e] _; [|exact I].
    apply K.
  Qed.

  Lemma update_root_truthful fuel s persist t h :
    wp DT (update_root_with_repos E cfg fuel s persist t) (truthful_root t) h.
  Proof.
    unfold update_root_with_repos. eapply wp_seq; [apply root_loop_truthful|].
    intros h1 [t1 [[|]|e]] H; cbn in H; [| |exact I]; cbn [wp]; intros cl _; (split; [exact I|]);
      destruct (expired _ _); try exact I; [exact H|exact (proj2 H)].
  Qed.

  (** What a later part may have done to the earlier documents. *)
  Definition truthful_ts (t : tuf) : list event -> tuf * result bool -> Prop := fun _ x =>
    forall b, snd x = Ok b -> (b = false -> fst x = t) /\ t_root (fst x) = t_root t /\
      (b = true -> t_timestamp (fst x) <> t_timestamp t).
  Definition truthful_sn (t : tuf) : list event -> tuf * result bool -> Prop := fun _ x =>
    forall b, snd x = Ok b -> (b = false -> fst x = t) /\ t_root (fst x) = t_root t /\
      t_timestamp (fst x) = t_timestamp t /\ (b = true -> t_snapshot (fst x) <> t_snapshot t).
  Definition truthful_tg (t : tuf) : list event -> tuf * result bool -> Prop := fun _ x =>
    forall b, snd x = Ok b -> (b = false -> fst x = t) /\ t_root (fst x) = t_root t /\
      t_timestamp (fst x) = t_timestamp t /\ t_snapshot (fst x) = t_snapshot t /\
      (b = true -> t_targets (fst x) <> t_targets t).

  Lemma persist_truthful r path raw (persist : bool) t' (Q : list event -> tuf * result bool -> Prop) h : (forall e h, Q h (t', Err e)) -> (forall h, Q h (t', Ok true)) ->
    wp DT (if persist then do r1 <- store_metadata r path VNone raw in
             match r1 with Err e => Ret (t', Err e) | Ok _ => Ret (t', Ok true) end
           else Ret (t', Ok true)) Q h.
  Proof.
    intros H1 H2. destruct persist; [|apply H2].
    eapply (wp_seq DT _ _ (fun _ _ => True)); [now apply wp_store_true|]. intros h2 [[]|e] _; [apply H2|apply H1].
  Qed.

  Lemma update_timestamp_truthful s persist t h :
    wp DT (update_timestamp_with_repos E cfg s persist t) (truthful_ts t) h.
  Proof.
    unfold update_timestamp_with_repos.
    eapply (wp_seq DT _ _ (fun _ _ => True)); [now apply wp_fetch_true|]. intros h1 [raw|e] _; [|discriminate].
    cbn [wp]. intros cl _. split; [exact I|].
    pose proof (step_ok_frame t (OpTimestamp cl raw)) as F. cbn [step] in F.
    destruct (update_timestamp E t cl raw) as [t' r]. cbn [wp]. intros _. split; [exact I|].
    destruct r as [[x|]|e]; [|destruct (F t' false eq_refl) as (F1 & F2 & F3)|discriminate].
    - destruct (F t' true eq_refl) as (F1 & F2 & F3).
      apply persist_truthful; [discriminate|]. intros h2 b Q. inversion Q; subst. auto.
    - intros b Q. inversion Q; subst. auto.
  Qed.

  Lemma update_snapshot_truthful s persist consistent t h :
    wp DT (update_snapshot_with_repos E s persist consistent t) (truthful_sn t) h.
  Proof.
    unfold update_snapshot_with_repos. destruct (t_timestamp t) as [ts|]; [|discriminate].
    destruct (_ <=? _). { intros b Q. inversion Q; subst. repeat split; auto. discriminate. }
    destruct (hash_preference _) as [hash|e]; [|discriminate].
    eapply (wp_seq DT _ _ (fun _ _ => True)); [now apply wp_fetch_true|]. intros h1 [raw|e] _; [|discriminate].
    cbn [wp]. intros cl _. split; [exact I|].
    pose proof (step_ok_frame t (OpSnapshot cl raw)) as F. cbn [step] in F.
    destruct (update_snapshot E t cl raw) as [t' r]. cbn [wp]. intros _. split; [exact I|].
    destruct r as [[|]|e]; [|destruct (F t' false eq_refl) as (F1 & F2 & F3 & F4)|discriminate].
    - destruct (F t' true eq_refl) as (F1 & F2 & F3 & F4).
      apply persist_truthful; [discriminate|]. intros h2 b Q. inversion Q; subst. auto.
    - intros b Q. inversion Q; subst. auto.
  Qed.

  Lemma update_targets_truthful s persist consistent t h :
    wp DT (update_targets_with_repos E s persist consistent t) (truthful_tg t) h.
  Proof.
    unfold update_targets_with_repos. destruct (t_snapshot t) as [sn|] eqn:Esn; [|discriminate].
    destruct (lookup _ _) as [d|]; [|discriminate].
    destruct (_ <=? _). { intros b Q. inversion Q; subst. repeat split; auto. discriminate. }
    destruct (hash_preference _) as [hash|e]; [|discriminate].
    eapply (wp_seq DT _ _ (fun _ _ => True)); [now apply wp_fetch_true|]. intros h1 [raw|e] _; [|discriminate].
    cbn [wp]. intros cl _. split; [exact I|].
    pose proof (step_ok_frame t (OpTargets cl raw)) as F. cbn [step] in F.
    destruct (update_targets E t cl raw) as [t' r]. cbn [wp]. intros _. split; [exact I|].
    destruct r as [[|]|e]; [|destruct (F t' false eq_refl) as (F1 & F2 & F3 & F4 & F5)|discriminate].
    - destruct (F t' true eq_refl) as (F1 & F2 & F3 & F4 & F5).
      apply persist_truthful; [discriminate|]. intros h2 b Q. inversion Q; subst. auto.
    - intros b Q. inversion Q; subst. auto.
  Qed.

  Definition truthful (t : tuf) : list event -> tuf * result bool -> Prop := fun _ x =>
    (snd x = Ok false -> fst x = t) /\
    (snd x = Ok true -> t_root (fst x) <> t_root t \/ t_timestamp (fst x) <> t_timestamp t \/
                        t_snapshot (fst x) <> t_snapshot t \/ t_targets (fst x) <> t_targets t).

  Lemma update_truthful fuel t h : wp DT (update E cfg fuel t) (truthful t) h.
  Proof.
    unfold update. eapply wp_seq; [apply update_root_truthful|]. intros h1 [t1 [r|e]] H1; [|split; discriminate].
    eapply wp_seq; [apply update_timestamp_truthful|]. intros h2 [t2 [ts|e]] H2; [|split; discriminate].
    eapply wp_seq; [apply update_snapshot_truthful|]. intros h3 [t3 [sn|e]] H3; [|split; discriminate].
    eapply wp_seq; [apply update_targets_truthful|]. intros h4 [t4 [ta|e]] H4; [|split; discriminate].
    cbn [wp]. unfold truthful_root in H1. cbn [fst snd] in H1.
    destruct (H2 ts eq_refl) as (A1 & A2 & A3). destruct (H3 sn eq_refl) as (B1 & B2 & B3 & B4).
    destruct (H4 ta eq_refl) as (C1 & C2 & C3 & C4 & C5). cbn [fst] in *. clear H2 H3 H4.
    split; cbn [fst snd].
    - intros Q. inversion Q as [Q']. apply orb_false_iff in Q' as [Q' ->]. apply orb_false_iff in Q' as [Q' ->].
      apply orb_false_iff in Q' as [-> ->]. rewrite C1, B1, A1; auto.
    - intros Q. destruct r.
      { left. rewrite C2, B2, A2. intros Q'. rewrite Q' in H1. lia. }
      subst t1. destruct ts.
      { right. left. rewrite C3, B3. auto. }
      rewrite (A1 eq_refl) in *. destruct sn.
      { right. right. left. rewrite C4. auto. }
      rewrite (B1 eq_refl) in *. destruct ta; [auto|discriminate].
  Qed.
End Truthful.

(** *** C46, C47: root requests, fuel and panics *)

Lemma tuf_after_app t a b : tuf_after t (a ++ b) = tuf_after (tuf_after t a) b.
Proof. revert t. induction a as [|e a IH]; intros t; [reflexivity|]. destruct e; cbn; auto. Qed.

Lemma root_requests_app a b : root_requests (a ++ b) = root_requests a ++ root_requests b.
Proof.
  induction a as [|e a IH]; [reflexivity|]. destruct e; cbn; auto. destruct (string_dec path "root"); cbn; now rewrite IH.
Qed.

Section Calm.
  (** Parts that make no request for a root meet any demands on those. *)
  Variable E : env.
  Variable cfg : config.
  Variable D : demands.
  Hypothesis calm : forall h e, (forall s v max hash ans, e <> EvFetchMeta s "root" v max hash ans) -> guar D h e.

  Lemma calm_fetch s r path v max hash h : path <> "root" ->
    wp D (fetch_metadata E s r path v max hash) (fun _ _ => True) h.
  Proof.
    intros N. apply wp_fetch_any; [auto|]. intros ans e _. split; [|exact I]. apply calm. unfold e. congruence.
  Qed.
  Lemma calm_store r path v raw h : wp D (store_metadata r path v raw) (fun _ _ => True) h.
  Proof. apply wp_store_any; [auto|]. intros ans e _. split; [|exact I]. apply calm. discriminate. Qed.

  Ltac calm_put := cbn [wp]; intros _; split; [apply calm; discriminate|].

  Lemma calm_persist r path raw (persist : bool) t' h :
    wp D (if persist then do r1 <- store_metadata r path VNone raw in
             match r1 with Err e => Ret (t', Err e) | Ok _ => Ret (t', Ok true) end
           else Ret (t', Ok true)) (fun _ (_ : tuf * result bool) => True) h.
  Proof.
    destruct persist; [|exact I]. eapply (wp_seq D _ _ (fun _ _ => True)); [apply calm_store|]. intros h2 [[]|e] _; exact I.
  Qed.

  Lemma calm_timestamp s persist t h : wp D (update_timestamp_with_repos E cfg s persist t) (fun _ _ => True) h.
  Proof.
    unfold update_timestamp_with_repos. eapply (wp_seq D _ _ (fun _ _ => True)); [now apply calm_fetch|]. intros h1 [raw|e] _; [|exact I].
    cbn [wp]. intros cl _. split; [apply calm; discriminate|].
    destruct (update_timestamp E t cl raw) as [t' [[x|]|e]]; calm_put; [apply calm_persist|exact I..].
  Qed.
  Lemma calm_snapshot s persist consistent t h :
    wp D (update_snapshot_with_repos E s persist consistent t) (fun _ _ => True) h.
  Proof.
    unfold update_snapshot_with_repos. destruct (t_timestamp t) as [ts|]; [|exact I]. destruct (_ <=? _); [exact I|].
    destruct (hash_preference _); [|exact I].
    eapply (wp_seq D _ _ (fun _ _ => True)); [now apply calm_fetch|]. intros h1 [raw|e] _; [|exact I].
    cbn [wp]. intros cl _. split; [apply calm; discriminate|].
    destruct (update_snapshot E t cl raw) as [t' [[|]|e]]; calm_put; [apply calm_persist|exact I..].
  Qed.
  Lemma calm_targets s persist consistent t h :
    wp D (update_targets_with_repos E s persist consistent t) (fun _ _ => True) h.
  Proof.
    unfold update_targets_with_repos. destruct (t_snapshot t) as [sn|]; [|exact I]. destruct (lookup _ _) as [d|]; [|exact I].
    destruct (_ <=? _); [exact I|]. destruct (hash_preference _); [|exact I].
    eapply (wp_seq D _ _ (fun _ _ => True)); [now apply calm_fetch|]. intros h1 [raw|e] _; [|exact I].
    cbn [wp]. intros cl _. split; [apply calm; discriminate|].
    destruct (update_targets E t cl raw) as [t' [[|]|e]]; calm_put; [apply calm_persist|exact I..].
  Qed.

  Lemma calm_update fuel t h :
    wp D (root_loop E cfg fuel Remote true t false) (fun _ _ => True) h -> wp D (update E cfg fuel t) (fun _ _ => True) h.
  Proof.
    intros W. unfold update. eapply (wp_seq D _ _ (fun _ _ => True)).
    { unfold update_root_with_repos. eapply (wp_seq D _ _ (fun _ _ => True)); [exact W|]. intros h1 [t1 [u|e]] _; [|exact I].
      cbn [wp]. intros cl _. split; [apply calm; discriminate|]. destruct (expired _ _); exact I. }
    intros h1 [t1 [r|e]] _; [|exact I].
    eapply (wp_seq D _ _ (fun _ _ => True)); [apply calm_timestamp|]. intros h2 [t2 [ts|e]] _; [|exact I].
    eapply (wp_seq D _ _ (fun _ _ => True)); [apply calm_snapshot|]. intros h3 [t3 [sn|e]] _; [|exact I].
    eapply (wp_seq D _ _ (fun _ _ => True)); [apply calm_targets|]. intros h4 [t4 [ta|e]] _; exact I.
  Qed.
  Lemma calm_new fuel t h :
    wp D (root_loop E cfg fuel Local false t false) (fun _ _ => True) h ->
    wp D (client_new E cfg fuel t) (fun _ r => exists t', r = Ok t') h.
  Proof.
    intros W. unfold client_new. eapply (wp_seq D _ _ (fun _ _ => True)).
    { unfold update_root_with_repos. eapply (wp_seq D _ _ (fun _ _ => True)); [exact W|]. intros h1 [t1 [u|e]] _; [|exact I].
      cbn [wp]. intros cl _. split; [apply calm; discriminate|]. destruct (expired _ _); exact I. }
    intros h1 [t1 [r|e]] _; [|cbn; eauto].
    eapply (wp_seq D _ _ (fun _ _ => True)); [apply calm_timestamp|]. intros h2 [t2 [ts|e]] _; [|cbn; eauto].
    eapply (wp_seq D _ _ (fun _ _ => True)); [apply calm_snapshot|]. intros h3 [t3 [sn|e]] _; [|cbn; eauto].
    eapply (wp_seq D _ _ (fun _ _ => True)); [apply calm_targets|]. intros h4 [t4 x] _. cbn. eauto.
  Qed.
End Calm.

Section RootLoop.
  Variable E : env.
  Variable cfg : config.
  Variable t0 : tuf.

  Notation v0 := (rm_version (t_root t0)).
  Notation asked h := (N.of_nat (length (root_requests h))).
  Notation version h := (rm_version (t_root (tuf_after t0 h))).

  (** Each request is for the version after the trusted one, which has gone up by one
      with each earlier request. *)
  Definition orderly (h : list event) (e : event) : Prop :=
    forall s v max hash ans, e = EvFetchMeta s "root" v max hash ans ->
      v = VNumber (v0 + 1 + asked h) /\ v0 + 1 + asked h <= u32_max /\ version h = v0 + asked h.

  Definition D46 : demands :=
    mkDemands (fun _ _ => True) orderly (fun h => u32_max <= version h) False.

  Lemma D46_calm h e : (forall s v max hash ans, e <> EvFetchMeta s "root" v max hash ans) -> guar D46 h e.
  Proof. intros H s v max hash ans ->. now destruct (H s v max hash ans). Qed.

  Lemma root_loop_orderly fuel s persist : forall t updated h,
    tuf_after t0 h = t -> rm_version (t_root t) = v0 + asked h -> u32_max - rm_version (t_root t) < N.of_nat fuel ->
    wp D46 (root_loop E cfg fuel s persist t updated) (fun _ _ => True) h.
  Proof.
    induction fuel as [|fuel IH]; intros t updated h T V F; [lia|]. cbn [root_loop].
    destruct (N.leb_spec u32_max (rm_version (t_root t))) as [L|L]; [cbn; now rewrite T|].
    eapply (wp_seq D46 _ _ (fun h' r => forall raw, r = Ok raw -> tuf_after t0 h' = t /\ asked h' = asked h + 1)).
    { apply wp_fetch_any; [discriminate|]. intros ans e _. split.
      - intros s' v' m' h' a' Q. unfold e in Q. inversion Q; subst. rewrite V. split; [f_equal; lia|]. split; [lia|auto].
      - intros raw _. rewrite tuf_after_app, T. split; [reflexivity|].
        rewrite root_requests_app. cbn. rewrite app_length. cbn. lia. }
    intros h1 [raw|e] H1; [|destruct e; exact I]. destruct (H1 raw eq_refl) as [T1 A1]. clear H1.
    destruct (update_root E t raw) as [t' r] eqn:U. cbn [wp]. intros _. split; [apply D46_calm; discriminate|].
    destruct r as [[]|e]; [|exact I].
    assert (V' : rm_version (t_root t') = rm_version (t_root t) + 1).
    { apply update_root_ok in U as (new & (_ & _ & V' & _) & ->). exact V'. }
    assert (P : tuf_after t0 (h1 ++ [EvPut t']) = t' /\ asked (h1 ++ [EvPut t']) = asked h + 1).
    { rewrite tuf_after_app, root_requests_app. cbn. now rewrite app_nil_r. }
    assert (K : forall h2, tuf_after t0 h2 = t' /\ asked h2 = asked h + 1 ->
              wp D46 (root_loop E cfg fuel s persist t' true) (fun _ _ => True) h2).
    { intros h2 [T2 A2]. apply IH; auto; lia. }
    destruct persist; [|now apply K].
    assert (KS : forall h2 path v raw ans, tuf_after t0 h2 = t' /\ asked h2 = asked h + 1 ->
                   tuf_after t0 (h2 ++ [EvStoreMeta path v raw ans]) = t' /\
                   asked (h2 ++ [EvStoreMeta path v raw ans]) = asked h + 1).
    { intros h2 path v b ans [T2 A2]. rewrite tuf_after_app, root_requests_app, T2. cbn. now rewrite app_nil_r. }
    eapply (wp_seq D46 _ _ (fun h2 r => forall u, r = Ok u -> tuf_after t0 h2 = t' /\ asked h2 = asked h + 1)).
    { apply wp_store_any; [discriminate|]. intros ans e _. split; [apply D46_calm; discriminate|]. intros _ _. now apply KS. }
    intros h2 [u|e] H2; [|exact I]. specialize (H2 u eq_refl).
    eapply (wp_seq D46 _ _ (fun h2 r => forall u, r = Ok u -> tuf_after t0 h2 = t' /\ asked h2 = asked h + 1)).
    { apply wp_store_any; [discriminate|]. intros ans e _. split; [apply D46_calm; discriminate|]. intros _ _. now apply KS. }
    intros h3 [u'|e] H3; [|exact I]. apply K. apply (H3 u' eq_refl).
  Qed.

  Lemma orderly_consecutive tr : forall h, along orderly h tr ->
    root_requests tr = consecutive (v0 + 1 + asked h) (length (root_requests tr)).
  Proof.
    induction tr as [|e tr IH]; intros h A; [reflexivity|]. apply along_cons in A as [A1 A2]. specialize (IH _ A2).
    rewrite root_requests_app in IH.
    destruct e; cbn [root_requests] in *; try (rewrite app_nil_r in IH; exact IH).
    destruct (string_dec path "root") as [->|N]; [|rewrite app_nil_r in IH; exact IH].
    destruct (A1 _ _ _ _ _ eq_refl) as (-> & _). cbn [length consecutive]. f_equal.
    rewrite app_length in IH. cbn in IH. rewrite IH at 1. f_equal. lia.
  Qed.
  Lemma orderly_bounded tr : forall h, v0 + asked h <= u32_max -> along orderly h tr -> v0 + asked (h ++ tr) <= u32_max.
  Proof.
    induction tr as [|e tr IH]; intros h L A; [now rewrite app_nil_r|]. apply along_cons in A as [A1 A2].
    replace (h ++ e :: tr) with ((h ++ [e]) ++ tr) by now rewrite <- app_assoc. apply IH; [|exact A2].
    rewrite root_requests_app. destruct e; cbn; try (rewrite app_nil_r; exact L).
    destruct (string_dec path "root") as [->|N]; cbn; [|rewrite app_nil_r; exact L].
    destruct (A1 _ _ _ _ _ eq_refl) as (_ & B & _). rewrite app_length. cbn. lia.
  Qed.

  Definition rounds_suffice (fuel : nat) : Prop := u32_max - v0 < N.of_nat fuel.

  Lemma update_orderly fuel : rounds_suffice fuel -> wp D46 (update E cfg fuel t0) (fun _ _ => True) [].
  Proof.
    intros F. apply calm_update; [exact D46_calm|]. apply root_loop_orderly; auto. cbn. lia.
  Qed.
  Lemma new_orderly fuel : rounds_suffice fuel ->
    wp D46 (client_new E cfg fuel t0) (fun _ r => exists t', r = Ok t') [].
  Proof.
    intros F. apply calm_new; [exact D46_calm|]. apply root_loop_orderly; auto. cbn. lia.
  Qed.
End RootLoop.

(** * Proofs about the names in the requests of a client *)
From Coq Require Import String List NArith ZArith Bool Lia.
From Verif Require Import Base BaseFacts Metadata Verify Paths Tuf SpecVerify SpecTuf TufProofs TufHistory
     Reader SpecReader ReaderProofs Repo Client SpecClient ClientLogic ClientProofs ClientUpdates ClientHistory SpecPaths SpecNames.
Import ListNotations.
Open Scope string_scope.
Open Scope list_scope.
Open Scope N_scope.

Lemma delegated_more h h' r : incl h h' -> delegated_to h r -> delegated_to h' r.
Proof. intros S (t & tg & ds & d & I & H). exists t, tg, ds, d. split; [now apply S|exact H]. Qed.

Lemma trusted_put_in h t : trusted_at h = Some t -> In (EvPut t) h.
Proof.
  induction h as [|e h IH] using rev_ind; intros T; [discriminate|]. rewrite trusted_at_snoc in T.
  apply in_app_iff. destruct e; try (left; now apply IH). inversion T. right. now left.
Qed.

Lemma incl_more {A} (h : list A) e : incl h (h ++ [e]).
Proof. intros x I. apply in_app_iff. auto. Qed.

Section Names.
  Variable E : env.
  Variable cfg : config.
  Variable c : ctor.
  (** The target of the call. *)
  Variable want : option string.

  Definition named (h : list event) (e : event) : Prop :=
    match e with
    | EvFetchMeta _ path v max hash _ => asks cfg c h path v max hash
    | EvStoreMeta path v _ _ => keeps h path v
    | EvFetchTarget path d _ => exists p t, want = Some p /\ trusted_at h = Some t /\ target_place t p d path
    | EvStoreTarget path _ _ => want = Some path
    | _ => True
    end.
  Definition DN : demands := mkDemands (fun _ _ => True) named (fun _ => True) True.

  (** Returned trusted metadata is current, events have only been added. *)
  Definition on {A} (h : list event) : list event -> tuf * A -> Prop :=
    fun h' x => trusted_at h' = Some (fst x) /\ incl h h'.

  Lemma DN_fetch s r path v max hash t h : trusted_at h = Some t -> asks cfg c h path v max hash ->
    wp DN (fetch_metadata E s r path v max hash) (fun h' _ => trusted_at h' = Some t /\ incl h h') h.
  Proof.
    intros T A. apply wp_fetch_any; [intros _; split; [exact T|apply incl_refl]|].
    intros ans e _. split; [exact A|]. split; [now rewrite trusted_at_snoc|apply incl_more].
  Qed.

  Lemma DN_store r path v raw t h : trusted_at h = Some t -> keeps h path v ->
    wp DN (store_metadata r path v raw) (fun h' _ => trusted_at h' = Some t /\ incl h h') h.
  Proof.
    intros T A. apply wp_store_any; [intros _; split; [exact T|apply incl_refl]|].
    intros ans e _. split; [exact A|]. split; [now rewrite trusted_at_snoc|apply incl_more].
  Qed.

  Lemma DN_roots fuel s persist : forall t updated h, trusted_at h = Some t ->
    wp DN (root_loop E cfg fuel s persist t updated) tracked h.
  Proof.
    induction fuel as [|fuel IH]; intros t updated h T; [exact I|]. cbn [root_loop].
    destruct (u32_max <=? rm_version (t_root t)); [exact I|].
    eapply wp_seq; [apply (DN_fetch _ _ _ _ _ _ t h T); now apply asks_next_root|].
    intros h9 r [T9 _]. clear h T. rename h9 into h, T9 into T. destruct r as [raw|[]]; try exact T.
    destruct (update_root E t raw) as [t' r] eqn:U. cbn [wp]. intros _. split; [exact I|].
    assert (T' : trusted_at (h ++ [EvPut t']) = Some t') by now rewrite trusted_at_snoc.
    set (h1 := h ++ [EvPut t']) in *. clearbody h1. clear h T.
    destruct r as [[]|e]; [|exact T']. destruct persist; [|now apply IH].
    assert (RV : rm_version (t_root t') = rm_version (t_root t) + 1).
    { apply update_root_ok in U as (new & (_ & _ & V & _) & ->). exact V. }
    eapply wp_seq; [apply (DN_store _ _ _ _ t' h1 T'); apply keeps_plain; now left|].
    intros h2 [[]|e] [T2 _]; [|exact T2].
    eapply wp_seq; [apply (DN_store _ _ _ _ t' h2 T2); rewrite <- RV; now apply keeps_root|].
    intros h3 [[]|e] [T3 _]; [|exact T3]. now apply IH.
  Qed.

  Lemma DN_root fuel s persist t h : trusted_at h = Some t ->
    wp DN (update_root_with_repos E cfg fuel s persist t) tracked h.
  Proof.
    intros T. unfold update_root_with_repos. eapply wp_seq; [now apply DN_roots|].
    clear T t h. intros h [t [u|e]] T; [|exact T]. cbn [fst] in T. cbn [wp]. intros cl _. split; [exact I|].
    destruct (expired _ _); cbn [wp]; unfold tracked; now rewrite trusted_skip.
  Qed.

  Lemma DN_last (persist : bool) r path raw (t' : tuf) h : trusted_at h = Some t' ->
    In path ["root"; "timestamp"; "snapshot"; "targets"] ->
    wp DN (if persist then do r1 <- store_metadata r path VNone raw in
             match r1 with Err e => Ret (t', Err e) | Ok _ => Ret (t', Ok true) end
           else Ret (t', Ok true)) tracked h.
  Proof.
    intros T P. destruct persist; [|exact T].
    eapply wp_seq; [apply (DN_store _ _ _ _ t' h T); now apply keeps_plain|]. intros h1 [[]|e] [T1 _]; exact T1.
  Qed.

  Lemma DN_timestamp s persist t h : trusted_at h = Some t ->
    wp DN (update_timestamp_with_repos E cfg s persist t) tracked h.
  Proof.
    intros T. unfold update_timestamp_with_repos.
    eapply wp_seq; [apply (DN_fetch _ _ _ _ _ _ t h T); now apply (asks_timestamp _ _ _ t)|].
    intros h9 [raw|e] [T9 _]; clear h T; rename h9 into h, T9 into T; [|exact T]. cbn [wp]. intros cl _. split; [exact I|].
    destruct (update_timestamp E t cl raw) as [t' r]. cbn [wp]. intros _. split; [exact I|].
    assert (T' : trusted_at ((h ++ [EvNow cl]) ++ [EvPut t']) = Some t') by now rewrite trusted_at_snoc.
    destruct r as [[x|]|e]; [|exact T'|exact T']. apply DN_last; [exact T'|]. cbn. auto.
  Qed.

  Lemma DN_snapshot s persist consistent t h : trusted_at h = Some t ->
    (consistent = true -> rm_consistent (t_root t) = true) ->
    wp DN (update_snapshot_with_repos E s persist consistent t) tracked h.
  Proof.
    intros T HC. unfold update_snapshot_with_repos. destruct (t_timestamp t) as [ts|] eqn:Ets; [|exact T].
    destruct (_ <=? _); [exact T|].
    destruct (hash_preference _) as [[alg w]|e] eqn:HP; [|exact T]. apply hash_preference_iff in HP.
    eapply wp_seq; [apply (DN_fetch _ _ _ _ _ _ t h T); apply (asks_described cfg c h t); [exact T| |destruct consistent; auto|exact HP]|].
    { left. split; [reflexivity|]. exists ts. auto. }
    intros h9 [raw|e] [T9 _]; clear h T; rename h9 into h, T9 into T; [|exact T]. cbn [wp]. intros cl _. split; [exact I|].
    destruct (update_snapshot E t cl raw) as [t' r]. cbn [wp]. intros _. split; [exact I|].
    assert (T' : trusted_at ((h ++ [EvNow cl]) ++ [EvPut t']) = Some t') by now rewrite trusted_at_snoc.
    destruct r as [[|]|e]; [|exact T'|exact T']. apply DN_last; [exact T'|]. cbn. auto.
  Qed.

  Lemma DN_targets s persist consistent t h : trusted_at h = Some t ->
    (consistent = true -> rm_consistent (t_root t) = true) ->
    wp DN (update_targets_with_repos E s persist consistent t) tracked h.
  Proof.
    intros T HC. unfold update_targets_with_repos. destruct (t_snapshot t) as [sn|] eqn:Esn; [|exact T].
    destruct (lookup (from_role Targets) (sm_meta sn)) as [d|] eqn:Ed; [|exact T].
    destruct (_ <=? _); [exact T|].
    destruct (hash_preference _) as [[alg w]|e] eqn:HP; [|exact T]. apply hash_preference_iff in HP.
    eapply wp_seq; [apply (DN_fetch _ _ _ _ _ _ t h T); apply (asks_described cfg c h t); [exact T| |destruct consistent; auto|exact HP]|].
    { right. split; [now left|]. exists sn. auto. }
    intros h9 [raw|e] [T9 _]; clear h T; rename h9 into h, T9 into T; [|exact T]. cbn [wp]. intros cl _. split; [exact I|].
    destruct (update_targets E t cl raw) as [t' r]. cbn [wp]. intros _. split; [exact I|].
    assert (T' : trusted_at ((h ++ [EvNow cl]) ++ [EvPut t']) = Some t') by now rewrite trusted_at_snoc.
    destruct r as [[|]|e]; [|exact T'|exact T']. apply DN_last; [exact T'|]. cbn. auto.
  Qed.

  Lemma DN_update fuel t h : trusted_at h = Some t -> wp DN (update E cfg fuel t) tracked h.
  Proof.
    intros T. unfold update. eapply wp_seq; [now apply DN_root|].
    clear T t h. intros h [t [r|e]] T; [|exact T].
    eapply wp_seq; [now apply DN_timestamp|].
    clear T t h. intros h [t [ts|e]] T; [|exact T].
    eapply wp_seq; [now apply DN_snapshot|].
    clear T t h. intros h [t [sn|e]] T; [|exact T].
    eapply wp_seq; [now apply DN_targets|].
    clear T t h. intros h [t [ta|e]] T; exact T.
  Qed.

  Lemma DN_new fuel t h : trusted_at h = Some t -> wp DN (client_new E cfg fuel t) (fun _ _ => True) h.
  Proof.
    intros T. unfold client_new. eapply wp_seq; [now apply DN_root|].
    clear T t h. intros h [t [r|e]] T; [|exact I].
    eapply wp_seq; [now apply DN_timestamp|].
    clear T t h. intros h [t [ts|e]] T; [|exact I].
    eapply wp_seq; [apply DN_snapshot; [exact T|discriminate]|].
    clear T t h. intros h [t [sn|e]] T; [|exact I].
    eapply wp_seq; [apply DN_targets; [exact T|discriminate]|].
    clear T t h. intros h [t x] T. exact I.
  Qed.

  (** Before there is trusted metadata. *)
  Lemma DN_fetch_first s r v h : trusted_at h = None -> asks cfg c h "root" v (cf_max_root cfg) None ->
    wp DN (fetch_metadata E s r "root" v (cf_max_root cfg) None) (fun h' _ => trusted_at h' = None) h.
  Proof.
    intros T A. apply wp_fetch_any; [auto|]. intros ans e _. split; [exact A|]. now rewrite trusted_at_snoc.
  Qed.

  Lemma DN_construct fuel : wp DN (construct E cfg fuel c) (fun _ _ => True) [].
  Proof.
    assert (PutNew : forall t h, wp DN (Put t (client_new E cfg fuel t)) (fun _ _ => True) h).
    { intros t h. cbn [wp]. intros _. split; [exact I|]. apply DN_new. now rewrite trusted_at_snoc. }
    destruct c as [|raw|v th keys] eqn:Ec; cbn [construct].
    - unfold with_trusted_local.
      eapply wp_seq; [apply (DN_fetch_first Local Root (VNumber 1) []); [reflexivity|]|].
      + rewrite Ec. now apply asks_first_root.
      + intros h [raw|e] _; [|exact I]. destruct (from_trusted_root E raw) as [t|e]; [apply PutNew|exact I].
    - unfold with_trusted_root. destruct (from_trusted_root E raw) as [t|e]; [apply PutNew|exact I].
    - unfold with_trusted_root_keys.
      eapply (wp_seq DN _ _ (fun h _ => trusted_at h = None)).
      + assert (A : forall h, trusted_at h = None -> asks cfg c h "root" v (cf_max_root cfg) None).
        { intros h T. rewrite Ec. now apply (asks_given_root _ _ _ v th keys). }
        unfold fetch_metadata_from_local_or_else_remote.
        eapply wp_seq; [apply (DN_fetch_first Local Root v []); [reflexivity|now apply A]|].
        intros h r T. destruct r as [raw|[]]; try exact T.
        eapply wp_seq; [apply (DN_fetch_first Remote Root v h); [exact T|now apply A]|].
        intros h2 [raw|e] T2; exact T2.
      + intros h [[fetched raw]|e] _; [|exact I].
        destruct (from_root_with_trusted_keys E raw th keys) as [t|e]; [|exact I].
        destruct fetched; [|apply PutNew]. cbn [wp]. intros _. split; [exact I|].
        assert (T : trusted_at (h ++ [EvPut t]) = Some t) by now rewrite trusted_at_snoc.
        eapply wp_seq; [apply (DN_store _ _ _ _ t _ T); now apply keeps_root|].
        intros h3 [[]|e'] [T3 _]; [now apply DN_new|exact I].
  Qed.

  (** ** Lookup of targets *)

  Definition seen (h : list event) (tg : targets_metadata) : Prop :=
    exists t, In (EvPut t) h /\ (t_targets t = Some tg \/ exists r, lookup r (t_delegations t) = Some tg).

  Definition strolled {A} (snapshot : snapshot_metadata) (h : list event) : list event -> tuf * A -> Prop := fun h' x =>
    trusted_at h' = Some (fst x) /\ t_snapshot (fst x) = Some snapshot /\ incl h h'.

  Lemma DN_walk recur dt depth target snapshot trole :
    (forall t dt dep tg r h, trusted_at h = Some t -> t_snapshot t = Some snapshot -> seen h tg ->
       wp DN (recur t dt dep (Some (tg, r))) (strolled snapshot h) h) ->
    forall roles t h, trusted_at h = Some t -> t_snapshot t = Some snapshot ->
      (forall d, In d roles -> delegated_to h (dg_role d)) ->
      wp DN (walk_loop E recur dt depth target snapshot trole roles t) (strolled snapshot h) h.
  Proof.
    intros HR. induction roles as [|d rest IH]; intros t h0 T S Del; [split; [exact T|split; [exact S|apply incl_refl]]|].
    cbn [walk_loop].
    assert (Cont : forall t h, trusted_at h = Some t -> t_snapshot t = Some snapshot -> incl h0 h ->
       wp DN (walk_loop E recur dt depth target snapshot trole rest t) (strolled snapshot h0) h).
    { intros t1 h1 T1 S1 I1. eapply wp_mono; [|apply IH; [exact T1|exact S1|]].
      - intros h2 x (T2 & S2 & I2). split; [exact T2|]. split; [exact S2|]. intros y I. auto.
      - intros d' I. apply (delegated_more h0); [exact I1|]. apply Del. now right. }
    assert (HC : forall t h, trusted_at h = Some t -> t_snapshot t = Some snapshot -> incl h0 h ->
              forall r, wp DN (if dg_terminating d then Ret (t, (true, Err r)) else
                walk_loop E recur dt depth target snapshot trole rest t) (strolled snapshot h0) h).
    { intros t1 h1 T1 S1 I1 r. destruct (dg_terminating d); [now repeat split|now apply Cont]. }
    pose proof (incl_refl h0) as I0.
    destruct (negb _); [now apply HC|].
    destruct (lookup (dg_role d) (sm_meta snapshot)) as [desc|] eqn:Ed; [|now apply HC].
    destruct (hash_preference _) as [[alg w]|e] eqn:HP; [|now repeat split]. apply hash_preference_iff in HP.
    assert (A : forall h v, trusted_at h = Some t -> incl h0 h ->
       (v = VNone \/ rm_consistent (t_root t) = true /\ v = VNumber (md_version desc)) ->
       asks cfg c h (dg_role d) v (Some (md_length desc)) (Some (alg, w))).
    { intros h v Th Ih V. apply (asks_described cfg c h t); auto. right. split.
      - right. apply (delegated_more h0); [exact Ih|]. apply Del. now left.
      - exists snapshot. auto. }
    eapply wp_seq; [apply (DN_fetch _ _ _ _ _ _ t h0 T); apply A; auto|]. intros h1 r1 [T1 I1].
    eapply (wp_seq DN _ _ (fun h' _ => trusted_at h' = Some t /\ incl h0 h')).
    { destruct r1 as [raw|e]; [now split|].
      eapply wp_mono; [|apply (DN_fetch _ _ _ _ _ _ t h1 T1); apply A; auto].
      - intros h2 r2 [T2 I2]. split; [exact T2|]. intros y I. auto.
      - destruct (rm_consistent (t_root t)); auto. }
    clear r1 h1 T1 I1. intros h1 [raw|e] [T1 I1]; [|now apply HC].
    cbn [wp]. intros cl _. split; [exact I|].
    destruct (update_delegation E t cl trole (dg_role d) raw) as [t' r] eqn:U. cbn [wp]. intros _. split; [exact I|].
    apply update_delegation_frame in U as (S' & _). rewrite S in S'.
    set (h2 := (h1 ++ [EvNow cl]) ++ [EvPut t']).
    assert (T2 : trusted_at h2 = Some t') by (unfold h2; now rewrite trusted_at_snoc).
    assert (I2 : incl h0 h2) by (intros y I; unfold h2; rewrite !in_app_iff; auto).
    clearbody h2. destruct r as [b|e]; [|now apply HC].
    eapply wp_seq; [apply (DN_store _ _ _ _ t' h2 T2); apply keeps_delegated, (delegated_more h0); [exact I2|apply Del; now left]|].
    intros h3 _ [T3 I3]. destruct (lookup (dg_role d) (t_delegations t')) as [meta|] eqn:Lm; [|exact I].
    destruct (u32_max <=? depth); [exact I|].
    eapply wp_seq; [apply HR; [exact T3|exact S'|]|].
    { exists t'. split; [now apply trusted_put_in|]. right. now exists (dg_role d). }
    intros h4 [t4 [term res]] (T4 & S4 & I4). cbn [fst] in T4, S4.
    assert (I5 : incl h0 h4) by (intros y I; apply I4, I3, I2, I).
    destruct (term && negb (is_ok res)); [now repeat split|now apply Cont].
  Qed.

  Lemma DN_lookup fuel target snapshot : forall t dt depth tgs h, trusted_at h = Some t -> t_snapshot t = Some snapshot ->
    (forall tg r, tgs = Some (tg, r) -> seen h tg) ->
    wp DN (lookup_target_description E cfg fuel t dt depth target snapshot tgs) (strolled snapshot h) h.
  Proof.
    induction fuel as [|fuel IH]; intros t dt depth tgs h T S HT; [exact I|]. cbn [lookup_target_description].
    assert (R : forall x, strolled snapshot h h (t, (dt, x) : bool * result target_desc))
      by (split; [exact T|split; [exact S|apply incl_refl]]).
    destruct (_ <? _); [apply R|].
    destruct (match tgs with Some x => Some x | None => _ end) as [[tg trole]|] eqn:Et; [|apply R].
    assert (Kn : seen h tg).
    { destruct tgs as [[tg' r']|]; [inversion Et; subst; eauto|].
      destruct (t_targets t) as [g|] eqn:G; [|discriminate]. inversion Et; subst.
      exists t. split; [now apply trusted_put_in|auto]. }
    destruct (lookup target (tg_targets tg)); [apply R|].
    destruct (tg_delegations tg) as [ds|] eqn:Ds; [|apply R].
    apply DN_walk; auto.
    - intros t1 dt1 dep1 tg1 r1 h1 T1 S1 K1. apply IH; [exact T1|exact S1|]. intros tg2 r2 Q. inversion Q; subst. exact K1.
    - intros d I. destruct Kn as (t1 & P1 & K1). exists t1, tg, ds, d. auto.
  Qed.

  Lemma DN_description fuel t target h : trusted_at h = Some t ->
    wp DN (fetch_target_description E cfg fuel t target) tracked h.
  Proof.
    intros T. unfold fetch_target_description. destruct (cf_translate cfg target) as [virt|e]; [|exact T].
    destruct (t_snapshot t) as [sn|] eqn:S; [|exact T].
    eapply wp_seq; [apply DN_lookup; [exact T|exact S|discriminate]|]. intros h' [t' [b r]] (T' & _). exact T'.
  Qed.

  Lemma DN_reader fuel t target h : want = Some target -> trusted_at h = Some t ->
    wp DN (fetch_target_reader E cfg fuel t target) tracked h.
  Proof.
    intros Wt T. unfold fetch_target_reader. eapply wp_seq; [now apply DN_description|].
    clear t h T. intros h [t [d|e]] T; [|exact T]. cbn [fst] in T. unfold fetch_target_stream.
    destruct (rm_consistent (t_root t)) eqn:Cs.
    - destruct (hash_preference (td_hashes d)) as [[alg value]|e] eqn:HP; [|exact T]. cbn [rbind].
      destruct (with_hash_prefix target value) as [p|e] eqn:Pf; [|exact T].
      cbn. intros ans _. split; [|unfold tracked; now rewrite trusted_skip].
      exists target, t. repeat split; auto. unfold target_place. rewrite Cs. apply hash_preference_iff in HP. eauto.
    - destruct (hash_preference _); [|exact T]. cbn. intros ans _. split; [|unfold tracked; now rewrite trusted_skip].
      exists target, t. repeat split; auto. unfold target_place. now rewrite Cs.
  Qed.

  Lemma DN_call fuel t k h : want = wanted k -> trusted_at h = Some t ->
    wp DN (call_prog E cfg fuel t k) (fun _ _ => True) h.
  Proof.
    intros Wt T. destruct k as [|p|p|p]; cbn [call_prog wanted] in *.
    - eapply wp_seq; [now apply DN_update|]. intros h' [t' r] T'. exact I.
    - eapply wp_seq; [now apply DN_description|]. intros h' [t' r] T'. exact I.
    - unfold fetch_target. eapply wp_seq; [now apply DN_reader|]. intros h' [t' [rs|e]] T'; [|exact I].
      cbn. intros ans _. split; [exact Wt|exact I].
    - unfold fetch_target_to_writer. eapply wp_seq; [now apply DN_reader|]. intros h' [t' [rs|e]] T'; [|exact I].
      eapply (wp_seq DN _ _ (fun _ _ => True)); [|intros h2 r2 _; exact I]. clear T'.
      revert h'. induction rs as [|[| |data] rs IH]; intros h'; cbn [copy_to_writer]; [exact I|apply IH|exact I|].
      destruct (_ =? _); [exact I|]. cbn. intros [k|] _; (split; [exact I|]); [exact I|apply IH].
  Qed.
End Names.

(** The events of a constructor and a call. *)
Lemma construct_named E cfg c fuel tr q : exec (construct E cfg fuel c) tr q -> along (named cfg c None) [] tr.
Proof.
  intros X. destruct (wp_sound (DN cfg c None) _ _ _ X _ _ (DN_construct E cfg c None fuel)) as [G _].
  { intros pre e post _. exact I. }
  exact G.
Qed.
Lemma call_named E cfg c fuel h t k tr q : trusted_at h = Some t -> exec (call_prog E cfg fuel t k) tr q ->
  along (named cfg c (wanted k)) h tr.
Proof.
  intros T X. destruct (wp_sound (DN cfg c (wanted k)) _ _ _ X _ _ (DN_call E cfg c (wanted k) fuel t k h eq_refl T)) as [G _].
  { intros pre e post _. exact I. }
  exact G.
Qed.

(** What is demanded of metadata only. *)
Definition named_meta (cfg : config) (c : ctor) (h : list event) (e : event) : Prop :=
  match e with
  | EvFetchMeta _ path v max hash _ => asks cfg c h path v max hash
  | EvStoreMeta path v _ _ => keeps h path v
  | _ => True
  end.
Lemma along_mono (R R' : list event -> event -> Prop) h tr :
  (forall h e, R h e -> R' h e) -> along R h tr -> along R' h tr.
Proof. intros H A pre e post Q. apply H. eapply A; eauto. Qed.
Lemma named_is_meta cfg c w h e : named cfg c w h e -> named_meta cfg c h e.
Proof. destruct e; cbn; auto. Qed.

Lemma life_named E cfg fuel c tr t : life E cfg fuel c tr t -> along (named_meta cfg c) [] tr.
Proof.
  induction 1 as [tr t X|tr t k tr' q L IH X].
  - eapply along_mono; [apply (named_is_meta cfg c None)|]. now apply construct_named in X.
  - apply along_app. split; [exact IH|]. apply life_sound in L as [_ T].
    eapply along_mono; [apply (named_is_meta cfg c (wanted k))|]. eapply call_named; eauto.
Qed.
Lemma history_named E cfg fuel c tr : history E cfg fuel c tr -> along (named_meta cfg c) [] tr.
Proof.
  intros [tr' q X|tr' t k tr2 q L X].
  - eapply along_mono; [apply (named_is_meta cfg c None)|]. now apply construct_named in X.
  - apply along_app. split; [now apply life_named in L|]. apply life_sound in L as [_ T].
    eapply along_mono; [apply (named_is_meta cfg c (wanted k))|]. eapply call_named; eauto.
Qed.

(** All that is ever trusted is reachable. *)
Lemma sound_reachable E cfg c tr t : along (sound_event E cfg c) [] tr -> In (EvPut t) tr -> reachable E t.
Proof.
  intros A I. apply in_split in I as (a & b & ->). replace (a ++ EvPut t :: b) with ((a ++ [EvPut t]) ++ b) in A by now rewrite <- app_assoc.
  apply along_app in A as [A _]. eapply follows_reachable, (sound_follows E cfg c (a ++ [EvPut t]) A).
  now rewrite trusted_at_snoc.
Qed.

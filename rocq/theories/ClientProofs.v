(** * Proofs about the client *)
From Coq Require Import String List NArith ZArith Bool Lia.
From Verif Require Import Base BaseFacts Metadata Verify Paths Tuf SpecVerify SpecTuf TufProofs TufHistory
     Reader SpecReader ReaderProofs Repo Client SpecClient ClientLogic.
Import ListNotations.
Open Scope string_scope.
Open Scope list_scope.
Open Scope N_scope.

Lemma trusted_at_app a b : trusted_at (a ++ b) =
  fold_left (fun o e => match e with EvPut t => Some t | _ => o end) b (trusted_at a).
Proof. apply fold_left_app. Qed.
Lemma trusted_at_snoc a e : trusted_at (a ++ [e]) = match e with EvPut t => Some t | _ => trusted_at a end.
Proof. rewrite trusted_at_app. reflexivity. Qed.

Lemma tuf_after_trusted tr : forall h t, trusted_at h = Some t -> trusted_at (h ++ tr) = Some (tuf_after t tr).
Proof.
  induction tr as [|e tr IH]; intros h t H; [now rewrite app_nil_r|].
  replace (h ++ e :: tr) with ((h ++ [e]) ++ tr) by now rewrite <- app_assoc.
  destruct e; cbn [tuf_after]; apply IH; rewrite trusted_at_snoc; auto.
Qed.

Lemma hash_preference_iff hashes alg v : hash_preference hashes = Ok (alg, v) <-> preferred hashes alg v.
Proof.
  unfold hash_preference, preferred. cbn [hash_alg_prefs hash_preference_loop].
  destruct (lookup Sha512 hashes) as [v5|] eqn:L5; destruct (lookup Sha256 hashes) as [v2|] eqn:L2;
    (split; [intros H; inversion H; subst; auto|intros [(-> & H)|(-> & H & H')]; congruence]).
Qed.

Lemma read_metadata_ok C max hash ans raw : read_metadata C max hash ans = Ok raw ->
  answered ans raw /\ fits_length max raw /\ hash_ok C hash raw.
Proof.
  unfold read_metadata. intros H. apply rbind_Ok in H as (rs & -> & H). apply rbind_Ok in H as (s & S & H).
  apply (read_to_end_ok C _ _ _ _ _ S) in H as (H1 & H2 & H3 & H4). split; [now exists rs|]. split; auto.
  intros m ->. exact H2.
Qed.

Section Main.
  Variable E : env.
  Variable cfg : config.
  Variable c : ctor.

  Definition sound_event (h : list event) (e : event) : Prop :=
    match e with
    | EvPut t' => exists raw res place, changes E cfg c h raw t' res place
    | EvStoreMeta path v raw _ => exists h1 t' stores res place,
        h = h1 ++ EvPut t' :: stores /\ Forall is_store stores /\
        changes E cfg c h1 raw t' (Ok res) place /\ place path v
    | _ => True
    end.

  Definition D0 : demands := mkDemands (fun _ _ => True) sound_event (fun _ => True) True.

  Lemma wp_fetch s r path v max hash (Q : list event -> result bytes -> Prop) h :
    (forall e, Q h (Err e)) ->
    (forall ans, Q (h ++ [EvFetchMeta s path v max hash ans]) (read_metadata (e_crypto E) max hash ans)) ->
    wp D0 (fetch_metadata E s r path v max hash) Q h.
  Proof.
    intros H1 H2. unfold fetch_metadata. destruct (repo_check r path); cbn; auto.
  Qed.

  Lemma wp_store r path v raw h1 t' stores res place (Q : list event -> result unit -> Prop) h :
    h = h1 ++ EvPut t' :: stores -> Forall is_store stores ->
    changes E cfg c h1 raw t' (Ok res) place -> place path v ->
    (forall e, Q h (Err e)) ->
    (forall ans, Q (h1 ++ EvPut t' :: stores ++ [EvStoreMeta path v raw ans]) ans) ->
    wp D0 (store_metadata r path v raw) Q h.
  Proof.
    intros -> F Ch P H1 H2. unfold store_metadata. destruct (repo_check r path); cbn [wp]; auto.
    intros ans _. split; [cbn [guar D0 sound_event]; eauto 10|]. rewrite <- app_assoc. cbn. apply H2.
  Qed.

  Lemma trusted_put h1 t' stores : Forall is_store stores -> trusted_at (h1 ++ EvPut t' :: stores) = Some t'.
  Proof.
    intros F. replace (h1 ++ EvPut t' :: stores) with ((h1 ++ [EvPut t']) ++ stores) by now rewrite <- app_assoc.
    rewrite trusted_at_app, trusted_at_snoc. induction F as [|e l He F IH]; cbn; auto. destruct e; cbn in He; tauto.
  Qed.

  Lemma trusted_skip h e : (forall t, e <> EvPut t) -> trusted_at (h ++ [e]) = trusted_at h.
  Proof. intros H. rewrite trusted_at_snoc. destruct e; auto. now destruct (H t). Qed.

  (** The trusted metadata returned are those assigned last. *)
  Definition tracked {A} : list event -> tuf * A -> Prop := fun h x => trusted_at h = Some (fst x).

  Lemma wp_root_loop fuel s persist : forall t updated h,
    trusted_at h = Some t -> wp D0 (root_loop E cfg fuel s persist t updated) tracked h.
  Proof.
    induction fuel as [|fuel IH]; intros t updated h T; [exact I|]. cbn [root_loop].
    destruct (u32_max <=? rm_version (t_root t)); [exact I|].
    eapply wp_seq; [apply (wp_fetch _ _ _ _ _ _
      (fun h' r => trusted_at h' = Some t /\
         match r with Ok raw => exists h0 ans, h' = h0 ++ [EvFetchMeta s (from_role Root) (VNumber (rm_version (t_root t) + 1)) (cf_max_root cfg) None ans]
                       /\ answered ans raw /\ fits_length (cf_max_root cfg) raw | Err _ => True end))|].
    - auto.
    - intros ans. split; [now rewrite trusted_skip|].
      destruct (read_metadata _ _ _ ans) eqn:R; auto. apply read_metadata_ok in R as (R1 & R2 & _). eauto.
    - clear h T. intros h' r [T H]. destruct r as [raw|[]]; try exact T.
      destruct H as (h0 & ans & -> & A & L).
      destruct (update_root E t raw) as [t' r] eqn:U. cbn [wp]. intros _.
      set (h' := h0 ++ _) in *.
      assert (Ch : changes E cfg c h' raw t' (match r with Ok _ => Ok true | Err e => Err e end) (kept_at t' (OpRoot raw))).
      { apply (next_change E cfg c h' t (OpRoot raw) t' _ "root" (VNumber (rm_version (t_root t) + 1))); auto.
        - cbn [step]. now rewrite U.
        - now split.
        - exists h0, s, (cf_max_root cfg), None, ans, []. auto.
        - discriminate. }
      split; [cbn; eauto|].
      assert (T' : trusted_at (h' ++ [EvPut t']) = Some t') by now rewrite trusted_at_snoc.
      destruct r as [[]|e]; [|exact T'].
      destruct persist; [|now apply IH].
      assert (RV : rm_version (t_root t') = rm_version (t_root t) + 1).
      { apply update_root_ok in U as (new & (_ & _ & V & _) & ->). exact V. }
      eapply (wp_seq D0 _ _ (fun h r => match r with Ok _ => exists ans, h = h' ++ EvPut t' :: [] ++ [EvStoreMeta (from_role Root) VNone raw ans] | Err _ => trusted_at h = Some t' end)).
      + eapply (wp_store _ _ _ _ h' t' []); [reflexivity|constructor|exact Ch|split; auto|auto|].
        intros a. destruct a as [u|e']; [eauto|]. cbn. change ([EvPut t'; ?x]) with (EvPut t' :: [x]).
        apply trusted_put. constructor; [exact I|constructor].
      + intros h2 r2 H2. destruct r2 as [[]|e]; [|exact H2]. destruct H2 as (a & ->).
        eapply (wp_seq D0 _ _ (fun h r => trusted_at h = Some t')).
        * eapply (wp_store _ _ _ _ h' t' [EvStoreMeta (from_role Root) VNone raw a]); [reflexivity|constructor; [exact I|constructor]|exact Ch| | |].
          -- split; auto. right. now rewrite RV.
          -- intros e. apply trusted_put. constructor; [exact I|constructor].
          -- intros a'. apply trusted_put. constructor; [exact I|constructor; [exact I|constructor]].
        * intros h3 [[]|e] H3; [now apply IH|exact H3].
  Qed.

  Lemma wp_update_root fuel s persist t h : trusted_at h = Some t ->
    wp D0 (update_root_with_repos E cfg fuel s persist t) tracked h.
  Proof.
    intros T. unfold update_root_with_repos. eapply wp_seq; [now apply wp_root_loop|].
    clear T t h. intros h [t [u|e]] T; [|exact T]. cbn [fst] in T. cbn [wp]. intros cl _. split; [exact I|].
    destruct (expired _ _); cbn [wp]; unfold tracked; now rewrite trusted_skip.
  Qed.

  Definition fetched h t s path v max hash : list event -> result bytes -> Prop := fun h' r =>
    trusted_at h' = Some t /\
    forall raw, r = Ok raw -> exists ans, h' = h ++ [EvFetchMeta s path v max hash ans] /\
      answered ans raw /\ fits_length max raw /\ hash_ok (e_crypto E) hash raw.

  Lemma wp_fetched s r path v max hash h t : trusted_at h = Some t ->
    wp D0 (fetch_metadata E s r path v max hash) (fetched h t s path v max hash) h.
  Proof.
    intros T. apply wp_fetch.
    - intros e. split; [exact T|discriminate].
    - intros ans. split; [now rewrite trusted_skip|]. intros raw R. apply read_metadata_ok in R as (R1 & R2 & R3). eauto.
  Qed.

  Lemma changes_now h s path v max hash ans cl t o t' r :
    trusted_at (h ++ [EvFetchMeta s path v max hash ans]) = Some t -> answered ans (op_raw o) ->
    within_limits (e_crypto E) cfg t o -> asked_for t o path v -> op_clock o = Some cl -> step E t o = (t', r) ->
    changes E cfg c ((h ++ [EvFetchMeta s path v max hash ans]) ++ [EvNow cl]) (op_raw o) t' r (kept_at t' o).
  Proof.
    intros T A W F K S. apply (next_change E cfg c _ t o t' r path v); auto.
    - now rewrite trusted_skip.
    - exists h, s, max, hash, ans, [EvNow cl]. rewrite <- app_assoc. eauto.
    - intros cl' K'. rewrite K in K'. inversion K'. eexists. reflexivity.
  Qed.

  Lemma wp_persist r path raw h1 t' res place (persist : bool) :
    changes E cfg c h1 raw t' (Ok res) place -> place path VNone ->
    wp D0 (if persist then do r1 <- store_metadata r path VNone raw in
             match r1 with Err e => Ret (t', Err e) | Ok _ => Ret (t', Ok true) end
           else Ret (t', Ok true)) tracked (h1 ++ [EvPut t']).
  Proof.
    intros Ch P. assert (T : trusted_at (h1 ++ [EvPut t']) = Some t') by now rewrite trusted_at_snoc.
    destruct persist; [|exact T].
    eapply (wp_seq D0 _ _ (fun h _ => trusted_at h = Some t')).
    - eapply (wp_store _ _ _ _ h1 t' []); eauto. intros a. apply trusted_put. constructor; [exact I|constructor].
    - intros h [|] H; exact H.
  Qed.

  Lemma wp_update_timestamp s persist t h : trusted_at h = Some t ->
    wp D0 (update_timestamp_with_repos E cfg s persist t) tracked h.
  Proof.
    intros T. unfold update_timestamp_with_repos. eapply wp_seq; [exact (wp_fetched _ _ _ _ _ _ _ t T)|].
    intros h' r [T' F]. destruct r as [raw|e]; [|exact T']. destruct (F raw eq_refl) as (ans & -> & A & L & _).
    cbn [wp]. intros cl _. split; [exact I|]. destruct (update_timestamp E t cl raw) as [t' r] eqn:U.
    assert (Ch := changes_now h s _ _ _ _ ans cl t (OpTimestamp cl raw) t'
                    (match r with Ok (Some _) => Ok true | Ok None => Ok false | Err e => Err e end)
                    T' A L (conj eq_refl eq_refl) eq_refl). cbn [step] in Ch. rewrite U in Ch. specialize (Ch eq_refl).
    cbn [wp]. intros _. split; [cbn; eauto|].
    destruct r as [[x|]|e]; [|exact (trusted_at_snoc _ (EvPut t'))..].
    eapply wp_persist; [exact Ch|split; reflexivity].
  Qed.

  Lemma asked_version (b : bool) n : (if b then VNumber n else VNone) = VNone \/ b = true /\ (if b then VNumber n else VNone) = VNumber n.
  Proof. destruct b; auto. Qed.

  Lemma wp_update_snapshot s persist consistent t h : trusted_at h = Some t ->
    (consistent = true -> rm_consistent (t_root t) = true) ->
    wp D0 (update_snapshot_with_repos E s persist consistent t) tracked h.
  Proof.
    intros T HC. unfold update_snapshot_with_repos. destruct (t_timestamp t) as [ts|] eqn:Ets; [|exact T].
    destruct (md_version (tm_snapshot ts) <=? _); [exact T|].
    destruct (hash_preference _) as [[alg w]|e] eqn:HP; [|exact T]. apply hash_preference_iff in HP.
    eapply wp_seq; [exact (wp_fetched _ _ _ _ _ _ _ t T)|].
    intros h' r [T' F]. destruct r as [raw|e]; [|exact T']. destruct (F raw eq_refl) as (ans & -> & A & L & Hh).
    cbn [wp]. intros cl _. split; [exact I|]. destruct (update_snapshot E t cl raw) as [t' r] eqn:U.
    assert (Ch : changes E cfg c ((h ++ [EvFetchMeta s (from_role Snapshot) (if consistent then VNumber (md_version (tm_snapshot ts)) else VNone)
                 (Some (md_length (tm_snapshot ts))) (Some (alg, w)) ans]) ++ [EvNow cl]) raw t' r (kept_at t' (OpSnapshot cl raw))).
    { apply (changes_now h s _ _ _ _ ans cl t (OpSnapshot cl raw)); auto.
      - exists (tm_snapshot ts). split; [now exists ts|]. split; [now apply L|]. exists alg, w. auto.
      - split; auto. exists (tm_snapshot ts). split; [now exists ts|].
        destruct (asked_version consistent (md_version (tm_snapshot ts))) as [-> | [H ->]]; auto. }
    cbn [wp]. intros _. split; [cbn; eauto|].
    destruct r as [[|]|e]; [|exact (trusted_at_snoc _ (EvPut t'))..].
    eapply wp_persist; [exact Ch|split; reflexivity].
  Qed.

  Lemma wp_update_targets s persist consistent t h : trusted_at h = Some t ->
    (consistent = true -> rm_consistent (t_root t) = true) ->
    wp D0 (update_targets_with_repos E s persist consistent t) tracked h.
  Proof.
    intros T HC. unfold update_targets_with_repos. destruct (t_snapshot t) as [sn|] eqn:Esn; [|exact T].
    destruct (lookup (from_role Targets) (sm_meta sn)) as [d|] eqn:Ed; [|exact T].
    destruct (md_version d <=? _); [exact T|].
    destruct (hash_preference _) as [[alg w]|e] eqn:HP; [|exact T]. apply hash_preference_iff in HP.
    eapply wp_seq; [exact (wp_fetched _ _ _ _ _ _ _ t T)|].
    intros h' r [T' F]. destruct r as [raw|e]; [|exact T']. destruct (F raw eq_refl) as (ans & -> & A & L & Hh).
    cbn [wp]. intros cl _. split; [exact I|]. destruct (update_targets E t cl raw) as [t' r] eqn:U.
    assert (Ch : changes E cfg c ((h ++ [EvFetchMeta s (from_role Targets) (if consistent then VNumber (md_version d) else VNone)
                 (Some (md_length d)) (Some (alg, w)) ans]) ++ [EvNow cl]) raw t' r (kept_at t' (OpTargets cl raw))).
    { apply (changes_now h s _ _ _ _ ans cl t (OpTargets cl raw)); auto.
      - exists d. split; [now exists sn|]. split; [now apply L|]. exists alg, w. auto.
      - split; auto. exists d. split; [now exists sn|].
        destruct (asked_version consistent (md_version d)) as [-> | [H ->]]; auto. }
    cbn [wp]. intros _. split; [cbn; eauto|].
    destruct r as [[|]|e]; [|exact (trusted_at_snoc _ (EvPut t'))..].
    eapply wp_persist; [exact Ch|split; reflexivity].
  Qed.

  Lemma wp_update fuel t h : trusted_at h = Some t -> wp D0 (update E cfg fuel t) tracked h.
  Proof.
    intros T. unfold update. eapply wp_seq; [now apply wp_update_root|].
    clear T t h. intros h [t [r|e]] T; [|exact T].
    eapply wp_seq; [now apply wp_update_timestamp|].
    clear T t h. intros h [t [ts|e]] T; [|exact T].
    eapply wp_seq; [now apply wp_update_snapshot|].
    clear T t h. intros h [t [sn|e]] T; [|exact T].
    eapply wp_seq; [now apply wp_update_targets|].
    clear T t h. intros h [t [ta|e]] T; exact T.
  Qed.

  Definition tracked_new : list event -> result tuf -> Prop :=
    fun h r => forall t, r = Ok t -> trusted_at h = Some t.

  Lemma wp_new fuel t h : trusted_at h = Some t -> wp D0 (client_new E cfg fuel t) tracked_new h.
  Proof.
    assert (R : forall h (x : tuf * result bool), tracked h x -> tracked_new h (Ok (fst x))).
    { intros h' x H t' Q. inversion Q; subst. exact H. }
    intros T. unfold client_new. eapply wp_seq; [now apply wp_update_root|].
    clear T t h. intros h [t [r|e]] T; [|exact (R _ _ T)].
    eapply wp_seq; [now apply wp_update_timestamp|].
    clear T t h. intros h [t [ts|e]] T; [|exact (R _ _ T)].
    eapply wp_seq; [now apply wp_update_snapshot|].
    clear T t h. intros h [t [sn|e]] T; [|exact (R _ _ T)].
    eapply wp_seq; [now apply wp_update_targets|].
    clear T t h. intros h [t x] T. exact (R _ _ T).
  Qed.

  Lemma wp_construct fuel : wp D0 (construct E cfg fuel c) tracked_new [].
  Proof.
    assert (PutNew : forall raw t h fuel, trusted_at h = None ->
      changes E cfg c h raw t (Ok true) (fun p v => p = "root" /\ v = VNumber (rm_version (t_root t))) ->
      wp D0 (Put t (client_new E cfg fuel t)) tracked_new h).
    { intros raw t h fu Th Ch. cbn [wp]. intros _. split; [cbn; eauto|]. apply wp_new. now rewrite trusted_at_snoc. }
    destruct c as [|raw|v th keys] eqn:Ec; cbn [construct].
    - unfold with_trusted_local.
      eapply (wp_seq D0 _ _ (fun h r => forall raw, r = Ok raw -> trusted_at h = None /\
                just_fetched h "root" (VNumber 1) raw /\ fits_length (cf_max_root cfg) raw)).
      + apply wp_fetch; [discriminate|]. intros ans raw R. apply read_metadata_ok in R as (R1 & R2 & _).
        split; [reflexivity|]. split; [|exact R2]. exists [], Local, (cf_max_root cfg), None, ans, []. auto.
      + intros h [raw|e] H; [|discriminate]. destruct (H raw eq_refl) as (H1 & H2 & H3).
        destruct (from_trusted_root E raw) as [t|e] eqn:F; [|discriminate].
        apply (PutNew raw); auto. constructor; auto.
    - unfold with_trusted_root. destruct (from_trusted_root E raw) as [t|e] eqn:F; [|discriminate].
      apply (PutNew raw); auto. constructor; auto. split; auto.
    - unfold with_trusted_root_keys.
      eapply (wp_seq D0 _ _ (fun h r => forall b raw, r = Ok (b, raw) -> trusted_at h = None /\
                just_fetched h "root" v raw /\ fits_length (cf_max_root cfg) raw)).
      + unfold fetch_metadata_from_local_or_else_remote.
        eapply (wp_seq D0 _ _ (fun h r => trusted_at h = None /\ forall raw, r = Ok raw ->
                just_fetched h "root" v raw /\ fits_length (cf_max_root cfg) raw)).
        * apply wp_fetch; [split; [reflexivity|discriminate]|]. intros ans. split; [reflexivity|].
          intros raw R. apply read_metadata_ok in R as (R1 & R2 & _).
          split; [|exact R2]. exists [], Local, (cf_max_root cfg), None, ans, []. auto.
        * intros h r [H1 H2]. destruct r as [raw|[]]; try discriminate.
          -- intros b raw' Q. inversion Q; subst. destruct (H2 _ eq_refl). auto.
          -- eapply (wp_seq D0 _ _ (fun h r => trusted_at h = None /\ forall raw, r = Ok raw ->
                just_fetched h "root" v raw /\ fits_length (cf_max_root cfg) raw)).
             ++ apply wp_fetch; [split; [exact H1|discriminate]|]. intros ans. split; [now rewrite trusted_skip|].
                intros raw R. apply read_metadata_ok in R as (R1 & R2 & _).
                split; [|exact R2]. exists h, Remote, (cf_max_root cfg), None, ans, []. auto.
             ++ intros h3 [raw|e] [H3 H4]; [|discriminate].
                intros b raw' Q. inversion Q; subst. destruct (H4 _ eq_refl). auto.
      + intros h [[fetched raw]|e] H; [|discriminate]. destruct (H _ _ eq_refl) as (H1 & H2 & H3).
        destruct (from_root_with_trusted_keys E raw th keys) as [t|e] eqn:F; [|discriminate].
        assert (Ch : changes E cfg c h raw t (Ok true) (fun p v => p = "root" /\ v = VNumber (rm_version (t_root t)))).
        { rewrite Ec. constructor; auto. }
        cbn [wp]. intros _. split; [cbn; eauto|].
        assert (T : trusted_at (h ++ [EvPut t]) = Some t) by now rewrite trusted_at_snoc.
        destruct fetched; [|now apply wp_new].
        eapply (wp_seq D0 _ _ (fun h _ => trusted_at h = Some t)).
        * eapply (wp_store _ _ _ _ h t []); eauto; [split; reflexivity|]. intros a. apply trusted_put.
          constructor; [exact I|constructor].
        * intros h3 [[]|e'] H4; [now apply wp_new|discriminate].
  Qed.

  (** ** Lookup of targets *)

  Definition walked {A} (snapshot : snapshot_metadata) : list event -> tuf * A -> Prop := fun h x =>
    trusted_at h = Some (fst x) /\ t_snapshot (fst x) = Some snapshot.

  Lemma update_delegation_frame t cl p r raw t' res : update_delegation E t cl p r raw = (t', res) ->
    t_snapshot t' = t_snapshot t /\ t_root t' = t_root t /\ t_targets t' = t_targets t /\ t_timestamp t' = t_timestamp t.
  Proof.
    intros U. apply update_delegation_inv in U. destruct res as [[|]|e].
    - destruct U as (new & _ & ->). auto.
    - destruct U as (-> & _). auto.
    - destruct U as (-> & _). auto.
  Qed.

  Lemma wp_walk_loop recur dt depth target snapshot trole :
    (forall t dt dep tgs h, trusted_at h = Some t -> t_snapshot t = Some snapshot ->
       wp D0 (recur t dt dep tgs) (walked snapshot) h) ->
    forall roles t h, trusted_at h = Some t -> t_snapshot t = Some snapshot ->
      wp D0 (walk_loop E recur dt depth target snapshot trole roles t) (walked snapshot) h.
  Proof.
    intros HR roles. induction roles as [|d rest IH]; intros t h T S; [now split|]. cbn [walk_loop].
    assert (HC : forall t h, trusted_at h = Some t -> t_snapshot t = Some snapshot ->
              forall r, wp D0 (if dg_terminating d then Ret (t, (true, Err r)) else
                walk_loop E recur dt depth target snapshot trole rest t) (walked snapshot) h).
    { clear t h T S. intros t h T S r. destruct (dg_terminating d); [now split|now apply IH]. }
    destruct (negb _); [now apply HC|].
    destruct (lookup (dg_role d) (sm_meta snapshot)) as [desc|] eqn:Ed; [|now apply HC].
    destruct (hash_preference _) as [[alg w]|e] eqn:HP; [|now split]. apply hash_preference_iff in HP.
    eapply (wp_seq D0 _ _ (fun h r => trusted_at h = Some t /\ forall raw, r = Ok raw ->
       exists h0 s v ans, h = h0 ++ [EvFetchMeta s (dg_role d) v (Some (md_length desc)) (Some (alg, w)) ans] /\
         (v = VNone \/ rm_consistent (t_root t) = true /\ v = VNumber (md_version desc)) /\
         answered ans raw /\ length_ok (md_length desc) raw /\ ring_digest (e_crypto E) alg raw = w)).
    { eapply wp_mono; [|exact (wp_fetched _ _ _ _ _ _ _ t T)]. intros h1 r1 [T1 F1]. split; [exact T1|].
      intros raw R. destruct (F1 raw R) as (ans & Eh & A & L & Hh). exists h, Local, VNone, ans. split; [exact Eh|].
      split; auto. }
    intros h1 r1 [T1 F1].
    eapply (wp_seq D0 _ _ (fun h r => trusted_at h = Some t /\ forall raw, r = Ok raw ->
       exists h0 s v ans, h = h0 ++ [EvFetchMeta s (dg_role d) v (Some (md_length desc)) (Some (alg, w)) ans] /\
         (v = VNone \/ rm_consistent (t_root t) = true /\ v = VNumber (md_version desc)) /\
         answered ans raw /\ length_ok (md_length desc) raw /\ ring_digest (e_crypto E) alg raw = w)).
    { destruct r1 as [raw|e]; [now split|].
      eapply wp_mono; [|exact (wp_fetched _ _ _ _ _ _ _ t T1)]. clear F1. intros h2 r2 [T2 F2]. split; [exact T2|].
      intros raw R. destruct (F2 raw R) as (ans & Eh & A & L & Hh). eexists _, Remote, _, ans. split; [exact Eh|].
      split; [apply asked_version|]. split; auto. }
    clear r1 F1 h1 T1. intros h1 [raw|e] [T1 F1]; [|now apply HC].
    destruct (F1 raw eq_refl) as (h0 & s & v & ans & -> & V & A & L & Hh).
    cbn [wp]. intros cl _. split; [exact I|].
    destruct (update_delegation E t cl trole (dg_role d) raw) as [t' r] eqn:U.
    assert (Ch := changes_now h0 s _ _ _ _ ans cl t (OpDelegation cl trole (dg_role d) raw) t' r T1 A).
    assert (De : described t (OpDelegation cl trole (dg_role d) raw) desc) by (exists snapshot; auto).
    specialize (Ch (ex_intro _ desc (conj De (conj L (ex_intro _ alg (ex_intro _ w (conj HP Hh)))))) ).
    specialize (Ch (conj eq_refl (ex_intro _ desc (conj De V))) eq_refl U).
    apply update_delegation_frame in U as (S' & _). rewrite S in S'.
    cbn [wp]. intros _. split; [cbn; eauto|]. set (h2 := (_ ++ [EvNow cl])) in *.
    assert (T' : trusted_at (h2 ++ [EvPut t']) = Some t') by now rewrite trusted_at_snoc.
    destruct r as [b|e]; [|now apply HC].
    eapply (wp_seq D0 _ _ (fun h _ => trusted_at h = Some t')).
    { eapply (wp_store _ _ _ _ h2 t' []); eauto; [split; reflexivity|]. intros a. apply trusted_put.
      constructor; [exact I|constructor]. }
    intros h3 _ T3. destruct (lookup (dg_role d) (t_delegations t')) as [meta|]; [|exact I].
    destruct (u32_max <=? depth); [exact I|].
    eapply wp_seq; [now apply HR|].
    clear h3 T3. intros h3 [t3 [term res]] [T3 S3]. destruct (term && negb (is_ok res)); [now split|now apply IH].
  Qed.

  Lemma wp_lookup fuel target snapshot : forall t dt depth tgs h, trusted_at h = Some t -> t_snapshot t = Some snapshot ->
    wp D0 (lookup_target_description E cfg fuel t dt depth target snapshot tgs) (walked snapshot) h.
  Proof.
    induction fuel as [|fuel IH]; intros t dt depth tgs h T S; [exact I|]. cbn [lookup_target_description].
    destruct (_ <? _); [now split|].
    destruct (match tgs with Some x => Some x | None => _ end) as [[tg trole]|]; [|now split].
    destruct (lookup target (tg_targets tg)); [now split|].
    destruct (tg_delegations tg) as [ds|]; [|now split].
    apply wp_walk_loop; auto. 
  Qed.

  Lemma wp_description fuel t target h : trusted_at h = Some t ->
    wp D0 (fetch_target_description E cfg fuel t target) tracked h.
  Proof.
    intros T. unfold fetch_target_description. destruct (cf_translate cfg target) as [virt|e]; [|exact T].
    destruct (t_snapshot t) as [sn|] eqn:S; [|exact T].
    eapply wp_seq; [now apply wp_lookup|]. intros h' [t' [b r]] [T' _]. exact T'.
  Qed.

  Lemma wp_reader fuel t target h : trusted_at h = Some t ->
    wp D0 (fetch_target_reader E cfg fuel t target) tracked h.
  Proof.
    intros T. unfold fetch_target_reader. eapply wp_seq; [now apply wp_description|].
    clear t h T. intros h [t [d|e]] T; [|exact T]. cbn [fst] in T. unfold fetch_target_stream.
    destruct (rm_consistent (t_root t)).
    - destruct (rbind _ _) as [p|e]; [|exact T]. destruct (hash_preference _); [|exact T].
      cbn. intros ans _. split; [exact I|]. unfold tracked. now rewrite trusted_skip.
    - destruct (hash_preference _); [|exact T]. cbn. intros ans _. split; [exact I|].
      unfold tracked. now rewrite trusted_skip.
  Qed.

  Lemma wp_call fuel t k h : trusted_at h = Some t -> wp D0 (call_prog E cfg fuel t k) tracked h.
  Proof.
    intros T. destruct k as [|p|p|p]; cbn [call_prog].
    - eapply wp_seq; [now apply wp_update|]. intros h' [t' r] T'. exact T'.
    - eapply wp_seq; [now apply wp_description|]. intros h' [t' r] T'. exact T'.
    - unfold fetch_target. eapply wp_seq; [now apply wp_reader|]. intros h' [t' [rs|e]] T'; [|exact T'].
      cbn. intros ans _. split; [exact I|]. unfold tracked. now rewrite trusted_skip.
    - unfold fetch_target_to_writer. eapply wp_seq; [now apply wp_reader|]. intros h' [t' [rs|e]] T'; [|exact T'].
      change (trusted_at h' = Some t') in T'. eapply (wp_seq D0 _ _ (fun h _ => trusted_at h = Some t')); [|intros h2 r2 H2; exact H2].
      revert h' T'. induction rs as [|[| |data] rs IH]; intros h' T'; cbn [copy_to_writer]; [exact T'|now apply IH|exact T'|].
      destruct (_ =? _); [exact T'|]. cbn. intros [k|] _; (split; [exact I|]); cbn.
      + now rewrite trusted_skip.
      + apply IH. now rewrite trusted_skip.
  Qed.

  Theorem life_sound fuel tr t : life E cfg fuel c tr t -> along sound_event [] tr /\ trusted_at tr = Some t.
  Proof.
    assert (R : forall h tr, along (rely D0) h tr) by (intros h x pre e post _; exact I).
    induction 1 as [tr t X|tr t k tr' q L IH X].
    - destruct (wp_sound D0 _ _ _ X _ _ (wp_construct fuel) (R _ _)) as [G W]. split; [exact G|]. now apply W.
    - destruct IH as [G T].
      destruct (wp_sound D0 _ _ _ X _ _ (wp_call fuel t k tr T) (R _ _)) as [G' _].
      split; [now apply along_app|]. now apply tuf_after_trusted.
  Qed.
End Main.

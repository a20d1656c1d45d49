(** * Proofs about honest repositories: C74, C75, C76 *)
From Coq Require Import String List NArith ZArith Bool Lia.
From Verif Require Import Base BaseFacts Metadata StringFacts Verify Paths Tuf SpecVerify SpecTuf TufProofs TufHistory
     Reader SpecReader ReaderProofs Repo Client SpecClient SpecHonest ClientLogic ClientProofs ClientUpdates ClientHistory ClientTargets ClientRestart.
Import ListNotations.
Open Scope string_scope.
Open Scope list_scope.
Open Scope N_scope.

(** Reading what was answered. *)
Lemma safe_new_ok max alg v : alg = Sha512 \/ alg = Sha256 -> exists s, safe_new max (Some (alg, v)) = Ok s.
Proof. intros [-> | ->]; eexists; reflexivity. Qed.

Lemma read_answered C max ans raw : answered ans raw -> fetchable max raw -> read_metadata C max None ans = Ok raw.
Proof.
  intros (rs & -> & A) [F L]. unfold read_metadata. cbn [rbind].
  destruct (safe_new (option_get u64_max max) None) as [s|e] eqn:S; [|discriminate]. cbn [rbind].
  apply (read_to_end_ok C _ _ _ _ _ S). split; [exact A|]. split; [|now split].
  destruct max as [m|]; [now apply F|exact L].
Qed.
Lemma read_described C d ans raw : answered ans raw -> as_described C d raw -> length_ok u64_max raw ->
  exists hash, hash_preference (md_hashes d) = Ok hash /\
    read_metadata C (Some (md_length d)) (Some hash) ans = Ok raw.
Proof.
  intros (rs & -> & A) (L & alg & value & Pr & Dg) L64. exists (alg, value).
  split; [now apply hash_preference_iff|]. unfold read_metadata. cbn [rbind option_get].
  destruct (safe_new_ok (md_length d) alg value) as (s & S); [destruct Pr as [[-> _]|[-> _]]; auto|].
  rewrite S. cbn [rbind]. apply (read_to_end_ok C _ _ _ _ _ S). auto.
Qed.

(** The line of roots. *)
Lemma line_last E l r : root_line E l r -> exists raw, In (raw, r) l.
Proof. intros [raw r'|l' r' raw r2 _ _]; exists raw; [now left|]. apply in_app_iff. right. now left. Qed.
Lemma line_version E l r : root_line E l r -> forall raw x, In (raw, x) l -> rm_version x <= rm_version r.
Proof.
  induction 1 as [raw r|l r raw r' _ IH S]; intros raw1 x I.
  - destruct I as [I|[]]. inversion I; subst. lia.
  - destruct S as (_ & _ & S & _). apply in_app_iff in I as [I|[I|[]]]; [specialize (IH _ _ I); lia|]. inversion I; subst. lia.
Qed.
Lemma line_unique E l r : root_line E l r -> forall raw1 x1 raw2 x2, In (raw1, x1) l -> In (raw2, x2) l ->
  rm_version x1 = rm_version x2 -> raw1 = raw2 /\ x1 = x2.
Proof.
  induction 1 as [raw r|l r raw r' L IH (_ & _ & S & _)]; intros raw1 x1 raw2 x2 I1 I2 V.
  - destruct I1 as [I1|[]], I2 as [I2|[]]. inversion I1; inversion I2; subst. auto.
  - apply in_app_iff in I1 as [I1|[I1|[]]], I2 as [I2|[I2|[]]].
    + eauto.
    + inversion I2; subst. pose proof (line_version _ _ _ L _ _ I1). lia.
    + inversion I1; subst. pose proof (line_version _ _ _ L _ _ I2). lia.
    + inversion I1; inversion I2; subst. auto.
Qed.
Lemma line_successor E l r : root_line E l r -> forall raw x, In (raw, x) l ->
  x = r \/ exists raw' x', In (raw', x') l /\ root_step E x raw' x'.
Proof.
  induction 1 as [raw r|l r raw r' L IH S]; intros raw1 x I.
  - destruct I as [I|[]]. inversion I; subst. auto.
  - apply in_app_iff in I as [I|[I|[]]]; [|inversion I; subst; auto]. right.
    destruct (IH _ _ I) as [->|(raw' & x' & I' & S')].
    + exists raw, r'. split; [apply in_app_iff; right; now left|exact S].
    + exists raw', x'. split; [apply in_app_iff; auto|exact S'].
Qed.

Section Honest.
  Variable E : env.
  Variable cfg : config.
  Variable p : publication.
  Hypothesis OK : in_order E cfg p.
  Notation C := (e_crypto E).

  Definition DH : demands := mkDemands (fun _ e => good_event p e) (fun _ _ => True) (fun _ => False) False.

  Lemma wp_fetch_honest r path v max hash raw (Q : list event -> result bytes -> Prop) h : repo_check r path = Ok tt ->
    (forall ans, offers p path v ans -> read_metadata C max hash ans = Ok raw) ->
    (forall h, Q h (Ok raw)) ->
    wp DH (fetch_metadata E Remote r path v max hash) Q h.
  Proof.
    intros HC HA HQ. unfold fetch_metadata. rewrite HC. cbn [wp]. intros ans R. cbn in R. split; [exact I|].
    rewrite (HA ans R). apply HQ.
  Qed.
  Lemma wp_store_honest r path v raw (Q : list event -> result unit -> Prop) h : repo_check r path = Ok tt ->
    (forall h, Q h (Ok tt)) -> wp DH (store_metadata r path v raw) Q h.
  Proof.
    intros HC HQ. unfold store_metadata. rewrite HC. cbn [wp]. intros ans R. cbn in R. subst ans. split; [exact I|apply HQ].
  Qed.

  Lemma wp_roots_honest fuel : forall t u h, (exists raw, In (raw, t_root t) (pb_roots p)) ->
    rm_version (pb_root p) - rm_version (t_root t) < N.of_nat fuel ->
    wp DH (root_loop E cfg fuel Remote true t u)
       (fun _ x => (fst x = t \/ fst x = tuf_of_root (pb_root p)) /\ t_root (fst x) = pb_root p /\
                   exists b, snd x = Ok b) h.
  Proof.
    induction fuel as [|fuel IH]; intros t u h (raw0 & I0) F; [lia|]. cbn [root_loop].
    pose proof (io_roots _ _ _ OK) as L. pose proof (line_version _ _ _ L _ _ I0) as V0.
    pose proof (io_root_version _ _ _ OK) as VR.
    destruct (N.leb_spec u32_max (rm_version (t_root t))); [lia|].
    destruct (line_successor _ _ _ L _ _ I0) as [Q|(raw & x & Ix & S)].
    - (* no more *)
      apply wp_bind. unfold fetch_metadata. cbn [wp]. change (repo_check Root (from_role Root)) with (Ok tt). cbn iota beta.
      cbn [wp]. intros ans R. cbn in R. split; [exact I|]. destruct R as (R & _).
      destruct (R (rm_version (t_root t) + 1) eq_refl eq_refl) as [(raw & x & Ix & Vx & _)|(_ & ->)].
      + pose proof (line_version _ _ _ L _ _ Ix) as V. rewrite Q in Vx. lia.
      + cbn. split; [now left|]. split; [exact Q|]. now exists u.
    - pose proof S as (_ & _ & Vs & _). pose proof (line_version _ _ _ L _ _ Ix) as Vx.
      apply wp_bind. eapply (wp_fetch_honest _ _ _ _ _ raw); [reflexivity| |].
      { intros ans (R & _). destruct (R (rm_version (t_root t) + 1) eq_refl eq_refl) as [(raw' & x' & Ix' & Vx' & A)|(N & _)].
        - destruct (line_unique _ _ _ L _ _ _ _ Ix Ix') as [-> ->]; [lia|]. apply read_answered; [exact A|].
          eapply io_root_length; eauto.
        - exfalso. apply (N _ _ Ix). lia. }
      clear h. intros h.
      destruct (update_root E t raw) as [t' r] eqn:U.
      assert (t' = mkTuf x None None None [] /\ r = Ok tt) as [-> ->].
      { assert (X : update_root E t raw = (mkTuf x None None None [], Ok tt)) by (apply update_root_ok; eauto).
        rewrite U in X. inversion X; auto. }
      cbn [wp]. intros _. split; [exact I|]. set (h1 := h ++ _). clearbody h1.
      apply wp_bind. apply wp_store_honest; [reflexivity|]. intros h2.
      apply wp_bind. apply wp_store_honest; [reflexivity|]. intros h3.
      eapply wp_mono; [|apply (IH (tuf_of_root x) true h3)].
      + intros h' y ([-> | ->] & H1 & H2); split; auto. right. cbn in H1. now rewrite H1.
      + exists raw. exact Ix.
      + cbn. lia.
  Qed.

  (** One version, one document. *)
  Definition agrees (t : tuf) : Prop :=
    (forall s, t_snapshot t = Some s -> sm_version s = sm_version (pb_sn p) -> s = pb_sn p) /\
    (forall g, t_targets t = Some g -> tg_version g = tg_version (pb_tg p) -> g = pb_tg p).

  Lemma wp_timestamp_honest t h : inv E t -> t_root t = pb_root p -> agrees t ->
    (forall ts, t_timestamp t = Some ts -> tm_version ts <= tm_version (pb_ts p) /\
      (tm_version ts = tm_version (pb_ts p) -> ts = pb_ts p)) ->
    wp DH (update_timestamp_with_repos E cfg Remote true t)
       (fun _ x => inv E (fst x) /\ t_root (fst x) = pb_root p /\ agrees (fst x) /\
                   t_timestamp (fst x) = Some (pb_ts p) /\ exists b, snd x = Ok b) h.
  Proof.
    intros HI HR (A1 & A2) HT. unfold update_timestamp_with_repos. apply wp_bind.
    apply (wp_fetch_honest _ _ _ _ _ (pb_timestamp p)); [reflexivity| |].
    { intros ans (_ & R & _). apply read_answered; [now apply R|]. apply (io_timestamp_length _ _ _ OK). }
    clear h. intros h. cbn [wp]. intros c Cc. split; [exact I|]. cbn in Cc. set (h1 := h ++ _). clearbody h1.
    pose proof (io_timestamp _ _ _ OK) as T. rewrite <- HR in T.
    destruct (update_timestamp_spec E t c (pb_timestamp p)) as (S1 & S2 & _).
    pose proof (step_inv E t (OpTimestamp c (pb_timestamp p)) HI) as HI'. cbn in HI'.
    assert (Cases : timestamp_version t < tm_version (pb_ts p) \/
                    (t_timestamp t = Some (pb_ts p) /\ tm_version (pb_ts p) = timestamp_version t)).
    { unfold timestamp_version, ver. pose proof (io_timestamp_version _ _ _ OK) as V1.
      destruct (t_timestamp t) as [ts|] eqn:Q; [|left; lia]. destruct (HT _ eq_refl) as [L Eq].
      destruct (N.eq_dec (tm_version ts) (tm_version (pb_ts p))) as [V|V]; [|left; lia].
      right. rewrite (Eq V). auto. }
    destruct Cases as [Lt|[Q V]].
    - destruct (S1 (pb_ts p)) as (t' & U & HR' & HT' & HG' & _ & HS').
      { split; [exact T|]. split; [exact Lt|]. apply (Cc (at_new c)). cbn. tauto. }
      rewrite U in HI' |- *. cbn [fst] in HI'. cbn [wp]. intros _. split; [exact I|].
      apply wp_bind. apply wp_store_honest; [reflexivity|]. intros h2. cbn [wp fst snd].
      split; [exact HI'|]. split; [congruence|]. split; [|split; [exact HT'|eauto]].
      split.
      + intros s Hs. apply A1. rewrite HS' in Hs. destruct (_ =? _); congruence.
      + intros g Hg. apply A2. congruence.
    - rewrite (S2 _ T V) in HI' |- *. cbn [wp]. intros _. split; [exact I|]. cbn [fst snd].
      split; [exact HI|]. split; [exact HR|]. split; [split; assumption|]. eauto.
  Qed.

  Lemma wp_snapshot_honest t h : inv E t -> t_root t = pb_root p -> agrees t -> t_timestamp t = Some (pb_ts p) ->
    wp DH (update_snapshot_with_repos E Remote true (rm_consistent (t_root t)) t)
       (fun _ x => inv E (fst x) /\ t_root (fst x) = pb_root p /\ agrees (fst x) /\
                   t_timestamp (fst x) = Some (pb_ts p) /\ t_snapshot (fst x) = Some (pb_sn p) /\
                   exists b, snd x = Ok b) h.
  Proof.
    intros HI HR (A1 & A2) HT. unfold update_snapshot_with_repos. rewrite HT.
    destruct (io_snapshot_described _ _ _ OK) as [Vd Dd]. pose proof (io_snapshot_version _ _ _ OK) as V1.
    destruct (t_snapshot t) as [s|] eqn:Hs.
    - pose proof HI as ((VF & _) & _). destruct (VF s Hs) as (ts & Q & V). rewrite HT in Q. inversion Q; subst ts.
      rewrite V. rewrite (proj2 (N.leb_le _ _) (N.le_refl _)). cbn [wp fst snd].
      assert (s = pb_sn p) as -> by (apply A1; [reflexivity|congruence]).
      split; [exact HI|]. split; [exact HR|]. split; [split; [intros s Q'; congruence|exact A2]|]. eauto.
    - destruct (N.leb_spec (md_version (tm_snapshot (pb_ts p))) 0) as [|Gt]; [lia|].
      assert (X : forall ans, offers p "snapshot" (if rm_consistent (t_root t) then VNumber (md_version (tm_snapshot (pb_ts p))) else VNone) ans ->
        exists hash, hash_preference (md_hashes (tm_snapshot (pb_ts p))) = Ok hash /\
          read_metadata C (Some (md_length (tm_snapshot (pb_ts p)))) (Some hash) ans = Ok (pb_snapshot p)).
      { intros ans (_ & _ & R & _). apply read_described; [|exact Dd|apply (io_snapshot_length _ _ _ OK)].
        apply R; [reflexivity|]. unfold published_as. now rewrite HR, Vd. }
      destruct Dd as (_ & alg & value & Pr & _). apply hash_preference_iff in Pr. rewrite Pr.
      apply wp_bind. apply (wp_fetch_honest _ _ _ _ _ (pb_snapshot p)); [reflexivity| |].
      { intros ans O. destruct (X ans O) as (hash & Q & Rd). rewrite Pr in Q. inversion Q; subst hash. exact Rd. }
      clear h. intros h. cbn [wp]. intros c Cc. split; [exact I|]. cbn in Cc. set (h1 := h ++ _). clearbody h1.
      destruct (update_snapshot E t c (pb_snapshot p)) as [t' res] eqn:U.
      pose proof (step_inv E t (OpSnapshot c (pb_snapshot p)) HI) as HI'. cbn in HI'. rewrite U in HI'. cbn [fst] in HI'.
      assert (Acc : snapshot_acceptable E t c (pb_snapshot p) (pb_sn p)).
      { split; [rewrite HR; apply (Cc (at_root c)); cbn; tauto|]. exists (pb_ts p). split; [exact HT|].
        split; [apply (Cc (at_timestamp c)); cbn; tauto|]. unfold snapshot_version. rewrite Hs. cbn [ver].
        split; [lia|]. split; [rewrite HR; apply (io_snapshot _ _ _ OK)|congruence]. }
      apply update_snapshot_inv in U. cbn [wp]. intros _. split; [exact I|].
      destruct res as [[|]|e].
      + destruct U as (new & Acc' & HR' & HT' & HS' & HG' & _).
        assert (new = pb_sn p) as ->.
        { destruct Acc as (_ & ? & _ & _ & _ & T1 & _), Acc' as (_ & ? & _ & _ & _ & T2 & _).
          exact (authentic_fun E Snapshot (pb_snapshot p) _ _ _ _ _ _ T2 T1). }
        apply wp_bind. apply wp_store_honest; [reflexivity|]. intros h2. cbn [wp fst snd].
        split; [exact HI'|]. split; [congruence|]. split; [|split; [congruence|eauto]]. split.
        * intros s Q _. congruence.
        * intros g Q. apply A2. rewrite HG' in Q. destruct (_ =? _); congruence.
      + exfalso. destruct U as (_ & _ & ts & Q & _ & V). rewrite HT in Q. inversion Q; subst ts.
        unfold snapshot_version in V. rewrite Hs in V. cbn in V. lia.
      + exfalso. destruct U as (_ & N). exact (N _ Acc).
  Qed.

  Lemma wp_targets_honest t h : inv E t -> t_root t = pb_root p -> agrees t -> t_timestamp t = Some (pb_ts p) ->
    t_snapshot t = Some (pb_sn p) ->
    wp DH (update_targets_with_repos E Remote true (rm_consistent (t_root t)) t)
       (fun _ x => up_to_date p (fst x) /\ exists b, snd x = Ok b) h.
  Proof.
    intros HI HR (A1 & A2) HT HS. unfold update_targets_with_repos. rewrite HS.
    destruct (io_targets_described _ _ _ OK) as (d & Ld & Vd & Dd). pose proof (io_targets_version _ _ _ OK) as V1.
    change (from_role Targets) with "targets". rewrite Ld.
    destruct (t_targets t) as [g|] eqn:Hg.
    - pose proof HI as ((_ & VF & _) & _). destruct (VF _ g HS Hg) as (d' & Q & V). rewrite Ld in Q. inversion Q; subst d'.
      rewrite V. rewrite (proj2 (N.leb_le _ _) (N.le_refl _)). cbn [wp fst snd].
      assert (g = pb_tg p) as -> by (apply A2; [reflexivity|congruence]).
      split; [repeat split; assumption|eauto].
    - destruct (N.leb_spec (md_version d) 0) as [|Gt]; [lia|].
      assert (X : forall ans, offers p "targets" (if rm_consistent (t_root t) then VNumber (md_version d) else VNone) ans ->
        exists hash, hash_preference (md_hashes d) = Ok hash /\
          read_metadata C (Some (md_length d)) (Some hash) ans = Ok (pb_targets p)).
      { intros ans (_ & _ & _ & R). apply read_described; [|exact Dd|apply (io_targets_length _ _ _ OK)].
        apply R; [reflexivity|]. unfold published_as. now rewrite HR, Vd. }
      destruct Dd as (_ & alg & value & Pr & _). apply hash_preference_iff in Pr. rewrite Pr.
      apply wp_bind. apply (wp_fetch_honest _ _ _ _ _ (pb_targets p)); [reflexivity| |].
      { intros ans O. destruct (X ans O) as (hash & Q & Rd). rewrite Pr in Q. inversion Q; subst hash. exact Rd. }
      clear h. intros h. cbn [wp]. intros c Cc. split; [exact I|]. cbn in Cc. set (h1 := h ++ _). clearbody h1.
      destruct (update_targets E t c (pb_targets p)) as [t' res] eqn:U.
      assert (Acc : targets_acceptable E t c (pb_targets p) (pb_tg p)).
      { split; [rewrite HR; apply (Cc (at_root c)); cbn; tauto|]. exists (pb_sn p), d. split; [exact HS|].
        split; [apply (Cc (at_snapshot c)); cbn; tauto|]. split; [exact Ld|]. unfold targets_version. rewrite Hg. cbn [ver].
        split; [lia|]. split; [rewrite HR; apply (io_targets _ _ _ OK)|]. split; [congruence|].
        apply (Cc (at_new c)); cbn; tauto. }
      apply update_targets_inv in U. cbn [wp]. intros _. split; [exact I|].
      destruct res as [[|]|e].
      + destruct U as (new & Acc' & ->).
        assert (new = pb_tg p) as ->.
        { destruct Acc as (_ & ? & ? & _ & _ & _ & _ & T1 & _), Acc' as (_ & ? & ? & _ & _ & _ & _ & T2 & _).
          exact (authentic_fun E Targets (pb_targets p) _ _ _ _ _ _ T2 T1). }
        apply wp_bind. apply wp_store_honest; [reflexivity|]. intros h2. cbn [wp fst snd].
        split; [repeat split; cbn; assumption|eauto].
      + exfalso. destruct U as (_ & _ & s & d' & Q & _ & L & V). rewrite HS in Q. inversion Q; subst s.
        rewrite Ld in L. inversion L; subst d'. unfold targets_version in V. rewrite Hg in V. cbn in V. lia.
      + exfalso. destruct U as (_ & N). exact (N _ Acc).
  Qed.

  Lemma wp_update_honest fuel t h : inv E t -> not_ahead p t ->
    rm_version (pb_root p) - rm_version (t_root t) < N.of_nat fuel ->
    wp DH (update E cfg fuel t) (fun _ x => up_to_date p (fst x) /\ exists b, snd x = Ok b) h.
  Proof.
    intros HI (Hr & HN) F. unfold update, update_root_with_repos. apply wp_bind. apply wp_bind.
    eapply wp_mono; [|apply (wp_roots_honest fuel t false h Hr F)].
    clear h. intros h [t1 r] (Ct & HR & b & Q). cbn [fst snd] in Ct, HR, Q. subst r.
    assert (X : inv E t1 /\ agrees t1 /\
      (forall ts, t_timestamp t1 = Some ts -> tm_version ts <= tm_version (pb_ts p) /\
        (tm_version ts = tm_version (pb_ts p) -> ts = pb_ts p))).
    { destruct Ct as [-> | ->].
      - destruct (HN HR) as (N1 & N2 & N3). split; [exact HI|]. split; [split; assumption|exact N1].
      - split; [apply inv_root_only|]. split; [split|]; cbn; discriminate. }
    destruct X as (HI1 & HA & HTs). cbn [wp]. intros c Cc. split; [exact I|]. cbn in Cc.
    assert (expired (rm_expires (t_root t1)) (at_root c) = false) as ->.
    { apply expired_false. rewrite HR. apply (Cc (at_root c)). cbn. tauto. }
    cbn [wp]. set (h1 := h ++ _). clearbody h1. apply wp_bind.
    eapply wp_mono; [|apply (wp_timestamp_honest t1 h1 HI1 HR HA HTs)].
    intros h2 [t2 r2] (HI2 & HR2 & HA2 & HT2 & b2 & Q2). cbn [fst snd] in HI2, HR2, HA2, HT2, Q2. subst r2.
    apply wp_bind. eapply wp_mono; [|apply (wp_snapshot_honest t2 h2 HI2 HR2 HA2 HT2)].
    intros h3 [t3 r3] (HI3 & HR3 & HA3 & HT3 & HS3 & b3 & Q3). cbn [fst snd] in HI3, HR3, HA3, HT3, HS3, Q3. subst r3.
    apply wp_bind. eapply wp_mono; [|apply (wp_targets_honest t3 h3 HI3 HR3 HA3 HT3 HS3)].
    intros h4 [t4 r4] (U & b4 & Q4). cbn [fst snd] in U, Q4. subst r4. cbn [wp fst snd]. eauto.
  Qed.
End Honest.

(** Every program can be run to its end with answers of any kind that is always possible. *)
Definition over {A} (q : prog A) : Prop := match q with Ret _ | Panic | OutOfFuel => True | _ => False end.
Lemma exec_total (good : event -> Prop)
  (G1 : forall s path v max hash, exists ans, good (EvFetchMeta s path v max hash ans))
  (G2 : forall path v b, exists ans, good (EvStoreMeta path v b ans))
  (G3 : forall path d, exists ans, good (EvFetchTarget path d ans))
  (G4 : forall path rs, exists ans, good (EvStoreTarget path rs ans))
  (G5 : forall b, exists ans, good (EvWrite b ans))
  (G6 : exists c, good (EvNow c)) (G7 : forall t, good (EvPut t)) {A} (q : prog A) :
  exists tr q', exec q tr q' /\ Forall good tr /\ over q'.
Proof.
  induction q as [a| | |s path v max hash k IH|path v b k IH|path d k IH|path rs k IH|b k IH|k IH|t q IH].
  1-3: eexists [], _; split; [constructor|]; split; [constructor|exact I].
  - destruct (G1 s path v max hash) as (ans & G). destruct (IH ans) as (tr & q' & X & F & O).
    eexists (_ :: tr), q'. split; [apply exec_fetch_meta; exact X|]. split; [now constructor|exact O].
  - destruct (G2 path v b) as (ans & G). destruct (IH ans) as (tr & q' & X & F & O).
    eexists (_ :: tr), q'. split; [apply exec_store_meta; exact X|]. split; [now constructor|exact O].
  - destruct (G3 path d) as (ans & G). destruct (IH ans) as (tr & q' & X & F & O).
    eexists (_ :: tr), q'. split; [apply exec_fetch_target; exact X|]. split; [now constructor|exact O].
  - destruct (G4 path rs) as (ans & G). destruct (IH ans) as (tr & q' & X & F & O).
    eexists (_ :: tr), q'. split; [apply exec_store_target; exact X|]. split; [now constructor|exact O].
  - destruct (G5 b) as (ans & G). destruct (IH ans) as (tr & q' & X & F & O).
    eexists (_ :: tr), q'. split; [apply exec_write; exact X|]. split; [now constructor|exact O].
  - destruct G6 as (c & G). destruct (IH c) as (tr & q' & X & F & O).
    eexists (_ :: tr), q'. split; [apply exec_now; exact X|]. split; [now constructor|exact O].
  - destruct IH as (tr & q' & X & F & O).
    eexists (_ :: tr), q'. split; [apply exec_put; exact X|]. split; [now constructor|exact O].
Qed.

Lemma offers_possible p path v : exists ans, offers p path v ans.
Proof.
  assert (NS : forall a b : string, a = b \/ a <> b) by (intros a b; destruct (string_dec a b); auto).
  destruct (NS path "root") as [-> |N1].
  { destruct v as [|n].
    - exists (Err NotFound). split; [intros n _ X; discriminate|]. repeat split; intros X; discriminate.
    - destruct (find (fun x => rm_version (snd x) =? n) (pb_roots p)) as [[raw r]|] eqn:F.
      + apply find_some in F as [I V]. apply N.eqb_eq in V. cbn in V. exists (Ok (cursor raw)).
        split; [|repeat split; intros X; discriminate]. intros n' _ X. inversion X; subst n'. left. exists raw, r.
        split; [exact I|]. split; [exact V|]. exists (cursor raw). split; [reflexivity|apply contains_cursor].
      + exists (Err NotFound). split; [|repeat split; intros X; discriminate]. intros n' _ X. inversion X; subst n'. right.
        split; [|reflexivity]. intros raw r I V. pose proof (find_none _ _ F _ I) as Y. cbn in Y.
        rewrite V, N.eqb_refl in Y. discriminate. }
  assert (K : forall raw, answered (Ok (cursor raw)) raw).
  { intros raw. exists (cursor raw). split; [reflexivity|apply contains_cursor]. }
  destruct (NS path "timestamp") as [-> |N2].
  { exists (Ok (cursor (pb_timestamp p))). repeat split; intros; try discriminate. apply K. }
  destruct (NS path "snapshot") as [-> |N3].
  { exists (Ok (cursor (pb_snapshot p))). repeat split; intros; try discriminate. apply K. }
  destruct (NS path "targets") as [-> |N4].
  { exists (Ok (cursor (pb_targets p))). repeat split; intros; try discriminate. apply K. }
  exists (Err NotFound). repeat split; intros; contradiction.
Qed.

Lemma current_possible p : exists c, current p c.
Proof.
  set (z := (Z.min (Z.min (rm_expires (pb_root p)) (tm_expires (pb_ts p)))
                   (Z.min (sm_expires (pb_sn p)) (tg_expires (pb_tg p))) - 1)%Z).
  exists (mkClock z z z z z (fun _ => z)). intros now I. cbn in I.
  assert (now = z) as -> by (repeat destruct I as [<-|I]; auto; contradiction).
  unfold fresh, z. lia.
Qed.

Lemma good_total p {A} (q : prog A) : exists tr q', exec q tr q' /\ Forall (good_event p) tr /\ over q'.
Proof.
  apply exec_total.
  - intros [] path v max hash; [now exists (Err NotFound)|]. apply offers_possible.
  - intros. now exists (Ok tt).
  - intros. now exists (Err NotFound).
  - intros. now exists (Ok tt).
  - intros. now exists None.
  - apply current_possible.
  - exact (fun _ => I).
Qed.

Lemma along_good p tr : Forall (good_event p) tr -> forall h, along (rely (DH p)) h tr.
Proof.
  intros F h pre e post ->. apply Forall_app in F as [_ F]. inversion F; subst. assumption.
Qed.

Lemma honest_runs E cfg p fuel t tr q : in_order E cfg p -> inv E t -> not_ahead p t ->
  rm_version (pb_root p) - rm_version (t_root t) < N.of_nat fuel ->
  exec (update E cfg fuel t) tr q -> Forall (good_event p) tr ->
  q <> Panic /\ q <> OutOfFuel /\ forall t' r, q = Ret (t', r) -> up_to_date p t' /\ exists b, r = Ok b.
Proof.
  intros OK HI HN F X G.
  destruct (wp_sound (DH p) _ _ _ X _ [] (wp_update_honest E cfg p OK fuel t [] HI HN F) (along_good p tr G [])) as [_ W].
  split; [intros ->; exact W|]. split; [intros ->; exact W|]. intros t' r ->. exact W.
Qed.

(** *** C75 *)

Lemma run_published E p t0 : nobody_else_signs E p -> (exists raw, In (raw, t_root t0) (pb_roots p)) ->
  forall ops, exists raw, In (raw, t_root (run E t0 ops)) (pb_roots p).
Proof.
  intros (N & _) H ops. induction ops as [|o ops IH] using rev_ind; [exact H|]. rewrite run_snoc.
  destruct IH as (raw & I). pose proof (step_root E (run E t0 ops) o) as S. destruct o as [raw'|c raw'|c raw'|c raw'|c r r' raw'].
  2-5: rewrite S; eauto.
  destruct S as [[S _]|(new & St & S)]; rewrite S; [eauto|]. cbn [t_root]. exact (N _ _ _ _ I St).
Qed.

Lemma follows_not_ahead E c p t : nobody_else_signs E p ->
  (forall raw t0, first_trust E c raw t0 -> exists raw', In (raw', t_root t0) (pb_roots p)) ->
  follows E c t -> not_ahead p t.
Proof.
  intros N F (raw & t0 & ops & F0 & ->). split; [exact (run_published E p t0 N (F _ _ F0) ops)|].
  intros HR. destruct (reachable_inv E (run E t0 ops)) as (_ & (S1 & S2 & S3) & _).
  { exists t0, ops. split; [eapply first_initial; eauto|reflexivity]. }
  destruct N as (_ & N1 & N2 & N3). rewrite HR in S1, S2, S3. repeat split.
  - destruct (S1 _ H) as (raw' & T). now apply (N1 raw').
  - destruct (S1 _ H) as (raw' & T). now apply (N1 raw').
  - intros s Hs. destruct (S2 _ Hs) as (raw' & T). now apply (N2 raw').
  - intros g Hg. destruct (S3 _ Hg) as (raw' & T). now apply (N3 raw').
Qed.

(** *** C76 *)

Lemma preferred_fun hs a v a' v' : preferred hs a v -> preferred hs a' v' -> a = a' /\ v = v'.
Proof.
  intros [[-> H]|(-> & H1 & H2)] [[-> H']|(-> & H1' & H2')]; try congruence; split; congruence.
Qed.

Lemma reader_honest E cfg fuel t path d path' data : fuel <> O -> t_snapshot t <> None ->
  listed cfg t path d -> target_place t path d path' -> target_authentic (e_crypto E) d data -> length_ok u64_max data ->
  exists hash, fetch_target_reader E cfg fuel t path =
    FetchTarget path' d (fun ans => Ret (t, checked_target (e_crypto E) (td_length d) hash ans)) /\
    forall ans, answered ans data ->
    exists rs, checked_target (e_crypto E) (td_length d) hash ans = Ok rs /\ contains rs data None.
Proof.
  intros Fu Sn Li Pl (A1 & alg & value & Pr & Dg) L64.
  exists (alg, value). pose proof Pr as HP. apply hash_preference_iff in HP.
  split.
  - unfold fetch_target_reader.
    assert (X : fetch_target_description E cfg fuel t path = Ret (t, Ok d)).
    { unfold fetch_target_description. destruct Li as (tg & virt & G & T & L). rewrite T.
      destruct (t_snapshot t) as [s|]; [|now destruct Sn]. destruct fuel as [|fuel]; [now destruct Fu|].
      cbn [lookup_target_description]. replace (cf_max_depth cfg <? 0) with false by (symmetry; apply N.ltb_ge; lia).
      rewrite G, L. reflexivity. }
    rewrite X. cbn [bind]. unfold target_place in Pl. unfold fetch_target_stream.
    destruct (rm_consistent (t_root t)).
    + destruct Pl as (a & v & Pr' & W). destruct (preferred_fun _ _ _ _ _ Pr Pr') as [<- <-].
      rewrite HP. cbn [rbind]. rewrite W. reflexivity.
    + subst path'. rewrite HP. reflexivity.
  - intros ans (rs & -> & B). unfold checked_target. cbn [rbind].
    destruct (safe_new_ok (td_length d) alg value) as (s & S); [destruct Pr as [[-> _]|[-> _]]; auto|].
    rewrite S. cbn [rbind]. eexists. split; [reflexivity|]. apply checked_contains.
    apply (read_to_end_ok _ _ _ _ _ _ S). auto.
Qed.

Lemma copy_honest rs : forall data tr q, contains rs data None -> exec (copy_to_writer rs) tr q ->
  Forall (fun e => forall b a, e = EvWrite b a -> a = None) tr ->
  q <> Panic /\ q <> OutOfFuel /\ forall r, q = Ret r -> r = Ok tt /\ written tr = data.
Proof.
  induction rs as [|[|k|b] rs IH]; intros data tr q B X G; inversion B; subst; cbn [copy_to_writer] in X.
  - inversion X; subst. repeat split; try discriminate; congruence.
  - eauto.
  - cbn in X. inversion X; subst. repeat split; try discriminate; congruence.
  - destruct (byte_length b =? 0) eqn:Z; [apply byte_length_zero in Z; contradiction|].
    inversion X; subst; [repeat split; discriminate|]. inversion G; subst.
    match goal with H : forall b a, EvWrite _ _ = _ -> _ |- _ => specialize (H _ _ eq_refl); subst end.
    match goal with H1 : contains rs _ None, H2 : exec (copy_to_writer rs) _ _, H3 : Forall _ _ |- _ =>
      destruct (IH _ _ _ H1 H2 H3) as (Q1 & Q2 & Q3) end.
    split; [exact Q1|]. split; [exact Q2|]. intros r Q. destruct (Q3 r Q) as [-> <-]. split; reflexivity.
Qed.

(** *** C77 *)

Lemma read_not_found C max ans : read_metadata C max None ans = Err NotFound -> no_such ans \/ broken_off ans.
Proof.
  intros H. unfold read_metadata in H. destruct ans as [rs|e]; [|left; cbn in H; inversion H; reflexivity]. right. cbn [rbind] in H.
  destruct (safe_new (option_get u64_max max) None) as [s|e] eqn:S; [|discriminate]. cbn [rbind] in H.
  destruct (contains_total rs) as (b & e & B). pose proof (read_to_end_spec C _ _ _ _ _ _ S B) as R. rewrite H in R.
  destruct R as [(_ & R)|(_ & _ & R)]; [discriminate|]. destruct e as [k|].
  - destruct k; try discriminate R. exists rs, b. auto.
  - destruct R as [(_ & R)|(_ & R)]; discriminate.
Qed.

Section Success.
  Variable E : env.
  Variable cfg : config.
  Notation C := (e_crypto E).
  Notation stop := (fun ans => read_metadata C (cf_max_root cfg) None ans = Err NotFound).

  (** One request or storing. *)
  Lemma wp_fetch_seen r path v max hash h : repo_check r path = Ok tt ->
    wp DT (fetch_metadata E Remote r path v max hash)
      (fun h' res => exists ans, h' = h ++ [EvFetchMeta Remote path v max hash ans] /\
         res = read_metadata C max hash ans) h.
  Proof.
    intros HC. unfold fetch_metadata. rewrite HC. cbn [wp]. intros ans _. split; [exact I|]. exists ans. auto.
  Qed.
  Lemma wp_store_seen r path v raw h : repo_check r path = Ok tt ->
    wp DT (store_metadata r path v raw) (fun h' res => h' = h ++ [EvStoreMeta path v raw res]) h.
  Proof.
    intros HC. unfold store_metadata. rewrite HC. cbn [wp]. intros ans _. split; [exact I|reflexivity].
  Qed.
  Lemma read_ok_answered max hash ans raw : read_metadata C max hash ans = Ok raw -> answered ans raw.
  Proof.
    intros H. unfold read_metadata in H. apply rbind_Ok in H as (rs & -> & H).
    apply rbind_Ok in H as (s & S & H). apply (read_to_end_ok C _ _ _ _ _ S) in H as (B & _). exists rs. auto.
  Qed.

  (** Requests for roots, all answered. *)
  Definition fine (e : event) : Prop :=
    match e with
    | EvFetchMeta _ _ _ _ _ ans => exists raw, answered ans raw
    | EvStoreMeta _ _ _ ans => ans = Ok tt
    | _ => True
    end.
  Lemma fine_well last h : Forall fine h -> Forall (went_well stop last) h.
  Proof. apply Forall_impl. intros []; cbn; auto. Qed.

  Definition asked_in_vain (last : root_metadata) (h : list event) : Prop :=
    rm_version last < u32_max /\ exists ans, In (EvFetchMeta Remote "root" (VNumber (rm_version last + 1)) (cf_max_root cfg) None ans) h /\ stop ans.

  Lemma asked_more last h e : asked_in_vain last h -> asked_in_vain last (h ++ e).
  Proof. intros (V & ans & I & S). split; [exact V|]. exists ans. split; [apply in_app_iff; auto|exact S]. Qed.
  Lemma well_more last h e : Forall (went_well stop last) h -> Forall (went_well stop last) e -> Forall (went_well stop last) (h ++ e).
  Proof. intros. apply Forall_app. auto. Qed.

  Lemma root_loop_done fuel : forall t u h, inv E t -> Forall fine h ->
    wp DT (root_loop E cfg fuel Remote true t u)
      (fun h' x => forall b, snd x = Ok b ->
         inv E (fst x) /\ Forall (went_well stop (t_root (fst x))) h' /\ asked_in_vain (t_root (fst x)) h') h.
  Proof.
    induction fuel as [|fuel IH]; intros t u h HI HF; [exact I|]. cbn [root_loop].
    destruct (u32_max <=? _) eqn:Vu; [exact I|]. apply N.leb_gt in Vu.
    eapply wp_seq; [now apply wp_fetch_seen|]. intros h1 r1 (ans & -> & R).
    destruct r1 as [raw|e1].
    2:{ assert (K : e1 = NotFound \/ e1 <> NotFound) by (destruct e1; auto; right; discriminate).
        destruct K as [-> |K].
        2:{ destruct e1; cbn [wp]; intros b X; try discriminate X; now destruct K. }
        cbn [wp fst snd]. intros b _. split; [exact HI|]. symmetry in R.
        split.
        - apply well_more; [now apply fine_well|]. constructor; [|constructor]. right. auto.
        - split; [exact Vu|]. exists ans. split; [apply in_app_iff; right; now left|exact R]. }
    symmetry in R. apply read_ok_answered in R.
    destruct (update_root E t raw) as [t' r] eqn:U. cbn [wp]. intros _. split; [exact I|].
    destruct r as [[]|e]; [|intros b X; discriminate X].
    assert (HI' : inv E t') by (apply update_root_ok in U as (new & _ & ->); apply inv_root_only).
    eapply wp_seq; [now apply wp_store_seen|]. intros h2 [[]|e] ->; [|intros b X; discriminate X].
    eapply wp_seq; [now apply wp_store_seen|]. intros h3 [[]|e] ->; [|intros b X; discriminate X].
    apply IH; [exact HI'|]. repeat (apply Forall_app; split); auto; repeat constructor. now exists raw.
  Qed.

  Definition seen_timestamp (t : tuf) (h : list event) : Prop :=
    exists ans raw ts, In (EvFetchMeta Remote "timestamp" VNone (cf_max_timestamp cfg) None ans) h /\
      read_metadata C (cf_max_timestamp cfg) None ans = Ok raw /\
      trusted_by E (t_root t) Timestamp raw ts /\ tm_version ts = timestamp_version t.

  Definition settled (t : tuf) (h : list event) : Prop :=
    inv E t /\ Forall (went_well stop (t_root t)) h /\ asked_in_vain (t_root t) h.

  Lemma settled_more t t' h e : settled t h -> inv E t' -> t_root t' = t_root t -> Forall fine e -> settled t' (h ++ e).
  Proof.
    intros (_ & W & A) HI HR F. split; [exact HI|]. rewrite HR. split.
    - apply well_more; [exact W|now apply fine_well].
    - now apply asked_more.
  Qed.
  Lemma seen_more t t' h e : seen_timestamp t h -> t_root t' = t_root t -> timestamp_version t' = timestamp_version t ->
    seen_timestamp t' (h ++ e).
  Proof.
    intros (ans & raw & ts & I & A & T & V) HR HV. exists ans, raw, ts. rewrite HR, HV.
    split; [apply in_app_iff; auto|auto].
  Qed.

  Lemma timestamp_done t h : settled t h ->
    wp DT (update_timestamp_with_repos E cfg Remote true t)
      (fun h' x => forall b, snd x = Ok b -> settled (fst x) h' /\ seen_timestamp (fst x) h') h.
  Proof.
    intros HS. pose proof HS as (HI & _). unfold update_timestamp_with_repos.
    eapply wp_seq; [now apply wp_fetch_seen|]. intros h1 r1 (ans & -> & R).
    destruct r1 as [raw|e1]; [|intros b X; discriminate X]. symmetry in R. apply read_ok_answered in R as An.
    cbn [wp]. intros c _. split; [exact I|].
    pose proof (step_inv E t (OpTimestamp c raw) HI) as HI'. cbn in HI'.
    destruct (update_timestamp E t c raw) as [t' r] eqn:U. cbn in HI'.
    assert (HI2 : inv E t') by (destruct r as [[]|]; exact HI').
    cbn [wp]. intros _. split; [exact I|]. apply update_timestamp_inv in U as (HR & _ & _ & _ & U).
    assert (FF : Forall fine [EvFetchMeta Remote (from_role Timestamp) VNone (cf_max_timestamp cfg) None ans; EvNow c; EvPut t']).
    { repeat constructor. now exists raw. }
    destruct r as [[new|]|e]; [| |intros b X; discriminate X].
    - destruct U as ((T & V & _) & HT & _).
      eapply wp_seq; [now apply wp_store_seen|]. intros h2 [[]|e] ->; [|intros b X; discriminate X].
      cbn [wp fst snd]. intros b _. rewrite <- !app_assoc. cbn [app]. split.
      + apply (settled_more t); auto. apply (Forall_app _ [_; _; _] [_]). split; [exact FF|]. now repeat constructor.
      + exists ans, raw, new. split; [apply in_app_iff; right; now left|]. rewrite HR. split; [exact R|].
        split; [exact T|]. unfold timestamp_version. now rewrite HT.
    - destruct U as (-> & new & T & V). cbn [wp fst snd]. intros b _. rewrite <- !app_assoc. cbn [app]. split.
      + apply (settled_more t); auto.
      + exists ans, raw, new. split; [apply in_app_iff; right; now left|]. auto.
  Qed.

  Lemma snapshot_done t h cons : settled t h -> seen_timestamp t h ->
    wp DT (update_snapshot_with_repos E Remote true cons t)
      (fun h' x => forall b, snd x = Ok b -> settled (fst x) h' /\ seen_timestamp (fst x) h') h.
  Proof.
    intros HS HT. pose proof HS as (HI & _). unfold update_snapshot_with_repos.
    destruct (t_timestamp t) as [ts|] eqn:Ts; [|intros b X; discriminate X].
    destruct (_ <=? _); [cbn; auto|].
    destruct (hash_preference _) as [hash|e]; [|intros b X; discriminate X].
    eapply wp_seq; [now apply wp_fetch_seen|]. intros h1 r1 (ans & -> & R).
    destruct r1 as [raw|e1]; [|intros b X; discriminate X]. symmetry in R. apply read_ok_answered in R.
    cbn [wp]. intros c _. split; [exact I|].
    pose proof (step_inv E t (OpSnapshot c raw) HI) as HI'. cbn in HI'.
    destruct (update_snapshot E t c raw) as [t' r] eqn:U. cbn in HI'.
    assert (HI2 : inv E t') by (destruct r as [[]|]; exact HI').
    cbn [wp]. intros _. split; [exact I|]. apply update_snapshot_inv in U.
    match goal with |- context [EvFetchMeta Remote ?p ?v ?m ?hh ans] =>
      assert (FF : Forall fine [EvFetchMeta Remote p v m hh ans; EvNow c; EvPut t']) by (repeat constructor; now exists raw) end.
    destruct r as [[]|e]; [| |intros b X; discriminate X].
    - destruct U as (new & _ & (R1 & R2 & _)).
      eapply wp_seq; [now apply wp_store_seen|]. intros h2 [[]|e] ->; [|intros b X; discriminate X].
      cbn [wp fst snd]. intros b _. rewrite <- !app_assoc. cbn [app]. split.
      + apply (settled_more t); auto. apply (Forall_app _ [_; _; _] [_]). split; [exact FF|]. now repeat constructor.
      + apply (seen_more t); auto. unfold timestamp_version. now rewrite R2.
    - destruct U as (-> & _). cbn [wp fst snd]. intros b _. rewrite <- !app_assoc. cbn [app]. split.
      + apply (settled_more t); auto.
      + apply (seen_more t); auto.
  Qed.

  Hypothesis Pos : positive_versions (e_ic E).

  Lemma snapshot_positive t s d r : inv E t -> t_snapshot t = Some s -> lookup r (sm_meta s) = Some d -> 1 <= md_version d.
  Proof.
    intros (_ & (_ & S & _) & _) H L. destruct (S s H) as (raw & _ & _ & _ & msg & _ & _ & _ & D). exact (Pos _ _ _ _ D L).
  Qed.

  Lemma targets_done t h cons : settled t h -> seen_timestamp t h ->
    wp DT (update_targets_with_repos E Remote true cons t)
      (fun h' x => forall b, snd x = Ok b -> settled (fst x) h' /\ seen_timestamp (fst x) h' /\ complete (fst x)) h.
  Proof.
    intros HS HT. pose proof HS as (HI & _). unfold update_targets_with_repos.
    destruct (t_snapshot t) as [sn|] eqn:Sn; [|intros b X; discriminate X].
    change (from_role Targets) with "targets".
    destruct (lookup "targets" (sm_meta sn)) as [d|] eqn:L; [|intros b X; discriminate X].
    pose proof (snapshot_positive t sn d "targets" HI Sn L) as HP.
    assert (K : forall t', inv E t' -> t_snapshot t' = Some sn -> t_targets t' <> None -> complete t').
    { intros t' ((V1 & V2 & _) & _) H1 H2. destruct (V1 _ H1) as (ts & Ht & Hv).
      destruct (t_targets t') as [g|] eqn:G; [|now destruct H2]. destruct (V2 sn g H1 eq_refl) as (d' & L' & V').
      exists ts, sn, g, d'. repeat (split; [assumption|]). assumption. }
    destruct (_ <=? _) eqn:Le.
    { cbn [wp fst snd]. intros b _. split; [exact HS|]. split; [exact HT|]. apply K; auto.
      apply N.leb_le in Le. destruct (t_targets t); [discriminate|]. lia. }
    destruct (hash_preference _) as [hash|e]; [|intros b X; discriminate X].
    eapply wp_seq; [now apply wp_fetch_seen|]. intros h1 r1 (ans & -> & R).
    destruct r1 as [raw|e1]; [|intros b X; discriminate X]. symmetry in R. apply read_ok_answered in R.
    cbn [wp]. intros c _. split; [exact I|].
    pose proof (step_inv E t (OpTargets c raw) HI) as HI'. cbn in HI'.
    destruct (update_targets E t c raw) as [t' r] eqn:U. cbn in HI'.
    assert (HI2 : inv E t') by (destruct r as [[]|]; exact HI').
    cbn [wp]. intros _. split; [exact I|]. apply update_targets_inv in U.
    match goal with |- context [EvFetchMeta Remote ?p ?v ?m ?hh ans] =>
      assert (FF : Forall fine [EvFetchMeta Remote p v m hh ans; EvNow c; EvPut t']) by (repeat constructor; now exists raw) end.
    destruct r as [[]|e]; [| |intros b X; discriminate X].
    - destruct U as (new & _ & ->).
      eapply wp_seq; [now apply wp_store_seen|]. intros h2 [[]|e] ->; [|intros b X; discriminate X].
      cbn [wp fst snd]. intros b _. rewrite <- !app_assoc. cbn [app]. split; [|split].
      + apply (settled_more t); auto. apply (Forall_app _ [_; _; _] [_]). split; [exact FF|]. now repeat constructor.
      + apply (seen_more t); auto.
      + apply K; auto. discriminate.
    - destruct U as (-> & _ & s' & d' & S' & _ & L' & V'). cbn [wp fst snd]. intros b _.
      rewrite <- !app_assoc. cbn [app]. split; [|split].
      + apply (settled_more t); auto.
      + apply (seen_more t); auto.
      + apply K; auto. rewrite Sn in S'. inversion S'; subst s'. rewrite L in L'. inversion L'; subst d'.
        unfold targets_version in V'. destruct (t_targets t); [discriminate|]. cbn in V'. lia.
  Qed.

  Lemma update_done fuel t : inv E t ->
    wp DT (update E cfg fuel t)
      (fun h x => forall b, snd x = Ok b -> settled (fst x) h /\ seen_timestamp (fst x) h /\ complete (fst x)) [].
  Proof.
    intros HI. unfold update, update_root_with_repos. apply wp_bind.
    eapply wp_seq; [apply (root_loop_done fuel t false [] HI); constructor|].
    intros h1 [t1 [b1|e1]] H1; cbn [fst snd] in H1; [|cbn; intros b X; discriminate X].
    specialize (H1 b1 eq_refl). cbn [wp]. intros c _. split; [exact I|].
    destruct (expired _ _); [cbn; intros b X; discriminate X|]. cbn [wp].
    eapply wp_seq; [apply timestamp_done; apply (settled_more t1); auto; [apply H1|now repeat constructor]|].
    intros h2 [t2 [b2|e2]] H2; cbn [fst snd] in H2; [|cbn; intros b X; discriminate X].
    destruct (H2 b2 eq_refl) as [S2 T2].
    eapply wp_seq; [apply snapshot_done; assumption|].
    intros h3 [t3 [b3|e3]] H3; cbn [fst snd] in H3; [|cbn; intros b X; discriminate X].
    destruct (H3 b3 eq_refl) as [S3 T3].
    eapply wp_seq; [apply targets_done; assumption|].
    intros h4 [t4 [b4|e4]] H4; cbn [fst snd] in H4; [|cbn; intros b X; discriminate X].
    destruct (H4 b4 eq_refl) as (S4 & T4 & C4). cbn [wp fst snd]. auto.
  Qed.
End Success.

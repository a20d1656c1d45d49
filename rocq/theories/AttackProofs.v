(** * Lemmas for C85, C86 and C87 *)
From Coq Require Import String List NArith ZArith Bool Lia.
From Verif Require Import Base BaseFacts Metadata Verify Paths Tuf SpecVerify SpecTuf VerifyProofs TufProofs TufHistory
     Reader SpecReader Repo Client SpecClient ClientLogic ClientProofs ClientUpdates ClientHistory ClientTargets SpecHonest ClientHonest SpecAttack.
Import ListNotations.
Open Scope string_scope.
Open Scope list_scope.
Open Scope N_scope.

(** What a threshold of well-kept keys has signed is published. *)
Lemma kept_authentic E w r P th keys raw m :
  unforgeable (e_crypto E) w -> kept E w r P th keys -> authentic E r raw th keys m -> P m.
Proof.
  intros U [O S] (_ & sigs & sg & msg & _ & _ & (ids & ND & Len & G) & D).
  assert (K : (forall i, In i ids -> exists k, In k keys /\ pk_id k = i /\ stolen w (pk_scheme k) (pk_value k)) \/
              exists k, In k keys /\ signed w (pk_scheme k) (pk_value k) msg).
  { clear ND Len O. induction ids as [|i ids IH]; [left; intros i []|].
    destruct (G i (or_introl eq_refl)) as (k & s & (l1 & l2 & -> & I & _) & _ & (_ & V)).
    destruct (U _ _ _ _ V) as [St|Sg].
    - destruct IH as [H|H]; [intros j J; apply G; now right| |right; exact H].
      left. intros j [<-|J]; [|auto]. exists k. split; [apply in_or_app; right; now left|auto].
    - right. exists k. split; [apply in_or_app; right; now left|exact Sg]. }
  destruct K as [K|(k & I & Sg)].
  - specialize (O ids ND K). lia.
  - exact (S k msg m I Sg D).
Qed.

Lemma kept_chain E w (P : root_metadata -> Prop) n r r' :
  unforgeable (e_crypto E) w -> (forall root, P root -> kept_role E w root Root P) ->
  root_chain E n r r' -> P r -> P r'.
Proof.
  intros U K C H. induction C as [r|n r1 r2 r3 raw C IH (T & _)]; [exact H|].
  exact (kept_authentic _ _ _ _ _ _ _ _ U (K r2 (IH H)) T).
Qed.

(** The first trusted metadata in the events, and how the later ones come from them. *)
Lemma sound_from_first E cfg c tr : along (sound_event E cfg c) [] tr -> forall t, trusted_at tr = Some t ->
  exists pre t0 post raw ops, tr = pre ++ EvPut t0 :: post /\ trusted_at pre = None /\ first_trust E c raw t0 /\
    t = run E t0 ops.
Proof.
  induction tr as [|e tr IH] using rev_ind; intros A t T; [discriminate|].
  apply along_app in A as [A1 A2]. rewrite trusted_at_snoc in T.
  assert (K : trusted_at tr = Some t -> exists pre t0 post raw ops, tr ++ [e] = pre ++ EvPut t0 :: post /\
            trusted_at pre = None /\ first_trust E c raw t0 /\ t = run E t0 ops).
  { intros T'. destruct (IH A1 t T') as (pre & t0 & post & raw & ops & -> & N & F & R).
    exists pre, t0, (post ++ [e]), raw, ops. rewrite <- app_assoc. auto. }
  destruct e; try (now apply K). inversion T; subst. clear T.
  specialize (A2 [] (EvPut t) [] eq_refl). rewrite app_nil_r in A2. destruct A2 as (raw & res & place & Ch).
  destruct Ch as [raw t' N F _|t1 o t' res path v T1 S _ _ _].
  - exists tr, t', [], raw, []. auto.
  - destruct (IH A1 t1 T1) as (pre & t0 & post & raw & ops & -> & N & F & R).
    exists pre, t0, (post ++ [EvPut t']), raw, (ops ++ [o]). rewrite <- app_assoc. split; [reflexivity|]. split; [exact N|].
    split; [exact F|]. rewrite run_snoc, <- R, S. reflexivity.
Qed.

(** Later trusted metadata come from earlier ones. *)
Lemma sound_between E cfg c tr post t t' : along (sound_event E cfg c) [] (tr ++ post) ->
  trusted_at tr = Some t -> trusted_at (tr ++ post) = Some t' -> exists ops, t' = run E t ops.
Proof.
  revert t'. induction post as [|e post IH] using rev_ind; intros t' A T T'.
  - rewrite app_nil_r in T'. exists []. cbn. congruence.
  - rewrite app_assoc in A, T'. apply along_app in A as [A1 A2]. rewrite trusted_at_snoc in T'.
    destruct e; try (now apply IH). inversion T'; subst. clear T'.
    specialize (A2 [] (EvPut t') [] eq_refl). rewrite app_nil_r in A2. destruct A2 as (raw & res & place & Ch).
    destruct (trusted_at (tr ++ post)) as [t2|] eqn:T2.
    2:{ exfalso. clear -T T2. revert T2. induction post as [|e post IH] using rev_ind; [rewrite app_nil_r; congruence|].
        rewrite app_assoc, trusted_at_snoc. destruct e; auto. discriminate. }
    destruct Ch as [raw t3 N F _|t1 o t3 res path v T1 S _ _ _]; [cbn [app] in *; congruence|].
    cbn [app] in T1. rewrite T2 in T1. inversion T1; subst.
    destruct (IH t1 A1 T eq_refl) as (ops & ->). exists (ops ++ [o]). rewrite run_snoc, S. reflexivity.
Qed.

Section attacked.
  Variables (E : env) (w : holders).
  Hypothesis U : unforgeable (e_crypto E) w.

  Lemma roots_published cfg c tr (P : root_metadata -> Prop) : along (sound_event E cfg c) [] tr ->
    (forall root, P root -> kept_role E w root Root P) -> good_start E w P c tr ->
    forall t, trusted_at tr = Some t -> P (t_root t).
  Proof.
    intros A K G t T. destruct (sound_from_first _ _ _ _ A t T) as (pre & t0 & post & raw & ops & Eq & N & F & ->).
    destruct (run_chain E ops t0) as (n & C). apply (kept_chain _ _ _ _ _ _ U K C).
    destruct c as [|raw'|v th keys]; cbn in F, G.
    - exact (G pre t0 post Eq N).
    - destruct F as [<- F]. exact (G t0 F).
    - apply from_keys_iff in F as (root & A1 & _ & ->). exact (kept_authentic _ _ _ _ _ _ _ _ U G A1).
  Qed.

  Lemma documents_published t r (P : metadata_of r -> Prop) : reachable E t -> kept_role E w (t_root t) r P -> r <> Root ->
    forall m, trusted_document t r = Some m -> P m.
  Proof.
    intros R K NR m M. apply reachable_inv in R.
    assert (S : exists raw, trusted_by E (t_root t) r raw m).
    { destruct R as (_ & (S1 & S2 & S3) & _). destruct r; cbn in M; [congruence|now apply S2|now apply S3|now apply S1]. }
    destruct S as (raw & S). exact (kept_authentic _ _ _ _ _ _ _ _ U K S).
  Qed.

  (** Delegated roles: by induction over the updates, since a delegation is made by
      metadata that were trusted before. *)
  Lemma delegations_published t0 (P : string -> targets_metadata -> Prop) : initial E t0 ->
    kept_delegations E w P -> forall n ops, length ops = n ->
    kept_role E w (t_root (run E t0 ops)) Targets (P "targets") ->
    forall r g, lookup r (t_delegations (run E t0 ops)) = Some g -> P r g.
  Proof.
    intros I K n. induction n as [n IH] using (well_founded_induction PeanoNat.Nat.lt_wf_0). intros ops Len KR r g L.
    assert (N : t_delegations t0 = []) by (apply initial_shape in I as (root & ->); reflexivity).
    destruct (delegation_origin E t0 ops r g N L) as (before & c & parent & raw & after & Eq & A & R).
    destruct A as (desc & (_ & s & g0 & p & _ & _ & G & _ & _ & _ & Par & ds & d & D & (l1 & l2 & Ro & Nm & _) & Au) & _).
    assert (Lt : (length before < n)%nat) by (rewrite <- Len, Eq, app_length; cbn; lia).
    rewrite <- R in KR.
    assert (PP : exists q, P q p).
    { destruct Par as [[-> Tg]|[_ Dl]].
      - exists "targets". apply (documents_published (run E t0 before) Targets (P "targets")); [|exact KR|discriminate|exact Tg].
        exists t0, before. auto.
      - exists parent. exact (IH _ Lt before eq_refl KR parent p Dl). }
    destruct PP as (q & PP). rewrite <- Nm.
    refine (kept_authentic _ _ _ _ _ _ _ _ U (K q p ds d PP D _) Au). rewrite Ro. apply in_or_app. right. now left.
  Qed.
End attacked.

(** ** Rollback *)

Lemma run_root_same E ops : forall t, rm_version (t_root (run E t ops)) = rm_version (t_root t) -> t_root (run E t ops) = t_root t.
Proof.
  induction ops as [|o ops IH]; intros t V; [reflexivity|].
  change (o :: ops) with ([o] ++ ops) in *. destruct (run_split_root E t [o] ops V) as [V1 V2]. rewrite run_app.
  rewrite (IH _ V2). cbn. now destruct (step_root_same E t o V1).
Qed.

(** Version [v] of role [n] was listed by a snapshot that a timestamp listed which is not
    newer than the trusted one; both signed for the current root. *)
Definition listed_before (E : env) (t : tuf) (n : string) (v : N) : Prop :=
  exists ts s d, (exists raw, trusted_by E (t_root t) Timestamp raw ts) /\ (exists raw, trusted_by E (t_root t) Snapshot raw s) /\
    tm_version ts <= timestamp_version t /\ sm_version s = md_version (tm_snapshot ts) /\
    lookup n (sm_meta s) = Some d /\ v = md_version d.

Lemma listed_before_run E t ops n v : rm_version (t_root (run E t ops)) = rm_version (t_root t) ->
  listed_before E t n v -> listed_before E (run E t ops) n v.
Proof.
  intros V (ts & s & d & T & S & L & F & D). exists ts, s, d. rewrite (run_root_same _ _ _ V).
  pose proof (run_timestamp_version E ops t V). repeat split; try tauto. lia.
Qed.

(** What the trusted snapshot lists is listed. *)
Lemma listed_now E t s n d : inv E t -> t_snapshot t = Some s -> lookup n (sm_meta s) = Some d ->
  exists ts, t_timestamp t = Some ts /\ (exists raw, trusted_by E (t_root t) Timestamp raw ts) /\
    (exists raw, trusted_by E (t_root t) Snapshot raw s) /\ sm_version s = md_version (tm_snapshot ts).
Proof.
  intros ((V & _) & (S1 & S2 & _) & _) S D. destruct (V s S) as (ts & T & F). exists ts. auto.
Qed.

Lemma listed_now_before E t s n d : inv E t -> t_snapshot t = Some s -> lookup n (sm_meta s) = Some d ->
  listed_before E t n (md_version d).
Proof.
  intros I S D. destruct (listed_now E t s n d I S D) as (ts & T & T1 & S1 & F). exists ts, s, d.
  repeat split; auto. unfold timestamp_version. rewrite T. cbn. lia.
Qed.

Lemma step_keeps_root_if_targets E t o g : t_targets (fst (step E t o)) = Some g -> t_root (fst (step E t o)) = t_root t.
Proof.
  intros L. pose proof (step_root E t o) as H. destruct o; auto.
  destruct H as [[H _]|(new & S & H)]; auto. rewrite H in L. discriminate.
Qed.

Lemma step_targets_origin E t o g : t_targets (fst (step E t o)) = Some g ->
  t_targets t = Some g \/ exists c raw, o = OpTargets c raw /\ targets_acceptable E t c raw g.
Proof.
  destruct o as [raw|c raw|c raw|c raw|c p r raw]; cbn.
  - destruct (update_root E t raw) as [t' [[]|e]] eqn:H; cbn.
    + apply update_root_ok in H as (new & S & ->). cbn. discriminate.
    + apply update_root_err in H. subst. auto.
  - destruct (update_timestamp E t c raw) as [t' res] eqn:H; cbn.
    apply update_timestamp_inv in H as (_ & Hg & _). rewrite Hg. auto.
  - destruct (update_snapshot E t c raw) as [t' res] eqn:H; cbn.
    apply update_snapshot_inv in H. destruct res as [[]|e]; [|destruct H as [-> _]; auto..].
    destruct H as (new & _ & (_ & _ & _ & Hg & _)). rewrite Hg. destruct (_ =? _); [auto|discriminate].
  - destruct (update_targets E t c raw) as [t' res] eqn:H; cbn.
    apply update_targets_inv in H. destruct res as [[]|e]; [|destruct H as [-> _]; auto..].
    destruct H as (new & A & ->). cbn. intros Q. inversion Q; subst. right. eauto.
  - destruct (update_delegation E t c p r raw) as [t' res] eqn:H; cbn.
    apply update_delegation_inv in H. destruct res as [[]|e]; [|destruct H as [-> _]; auto..].
    destruct H as (new & A & ->). auto.
Qed.

Lemma targets_listed E t g : reachable E t -> t_targets t = Some g -> listed_before E t "targets" (tg_version g).
Proof.
  intros (t0 & ops & I & ->). revert g. induction ops as [|o ops IH] using rev_ind; intros g G.
  - apply initial_shape in I as (r & ->). discriminate.
  - assert (R : reachable E (run E t0 ops)) by (exists t0, ops; auto). apply reachable_inv in R.
    rewrite run_snoc in *. pose proof (step_keeps_root_if_targets _ _ _ _ G) as KR.
    apply (listed_before_run E (run E t0 ops) [o]); [cbn; now rewrite KR|].
    destruct (step_targets_origin _ _ _ _ G) as [G'|(c & raw & -> & (_ & s & d & S & _ & D & _ & _ & V & _))]; [auto|].
    rewrite V. exact (listed_now_before E _ s _ d R S D).
Qed.

Lemma delegation_listed E t r g : reachable E t -> lookup r (t_delegations t) = Some g -> listed_before E t r (tg_version g).
Proof.
  intros (t0 & ops & I & ->). revert g. induction ops as [|o ops IH] using rev_ind; intros g G.
  - apply initial_shape in I as (r0 & ->). discriminate.
  - assert (R : reachable E (run E t0 ops)) by (exists t0, ops; auto). apply reachable_inv in R.
    rewrite run_snoc in *. pose proof (step_keeps_root_if_delegation _ _ _ _ _ G) as KR.
    apply (listed_before_run E (run E t0 ops) [o]); [cbn; now rewrite KR|].
    destruct (step_delegation_origin _ _ _ _ _ G) as [G'|(c & p & raw & -> & (d & (_ & s & g0 & q & S & _ & _ & _ & _ & D & _) & _ & V & _))]; [auto|].
    rewrite V. exact (listed_now_before E _ s _ d R S D).
Qed.

Section rollback.
  Variables (E : env) (w : holders) (t : tuf) (PT : timestamp_metadata -> Prop) (PS : snapshot_metadata -> Prop).
  Hypothesis U : unforgeable (e_crypto E) w.
  Hypothesis R : reachable E t.
  Hypothesis KT : kept_role E w (t_root t) Timestamp PT.
  Hypothesis OT : timestamps_in_order PT.

  Lemma snapshot_forward ops s s' : rm_version (t_root (run E t ops)) = rm_version (t_root t) ->
    t_snapshot t = Some s -> t_snapshot (run E t ops) = Some s' -> sm_version s <= sm_version s'.
  Proof.
    intros V S S'. pose proof (reachable_inv _ _ R) as I. pose proof (reachable_inv _ _ (reachable_run E t ops R)) as I'.
    destruct I as ((F & _) & (S1 & _) & _). destruct I' as ((F' & _) & (S1' & _) & _).
    destruct (F s S) as (ts & T & ->). destruct (F' s' S') as (ts' & T' & ->).
    destruct (S1 ts T) as (raw & Au). destruct (S1' ts' T') as (raw' & Au'). rewrite (run_root_same _ _ _ V) in Au'.
    apply OT.
    - exact (kept_authentic _ _ _ _ _ _ _ _ U KT Au).
    - exact (kept_authentic _ _ _ _ _ _ _ _ U KT Au').
    - pose proof (run_timestamp_version E ops t V) as L. unfold timestamp_version in L. rewrite T, T' in L. exact L.
  Qed.

  Hypothesis KS : kept_role E w (t_root t) Snapshot PS.
  Hypothesis OS : snapshots_in_order PS.

  Lemma listed_forward n v ops s' d' : listed_before E t n v -> rm_version (t_root (run E t ops)) = rm_version (t_root t) ->
    t_snapshot (run E t ops) = Some s' -> lookup n (sm_meta s') = Some d' -> v <= md_version d'.
  Proof.
    intros (ts & s & d & (r1 & T) & (r2 & S) & L & F & D & ->) V S' D'.
    pose proof (reachable_inv _ _ (reachable_run E t ops R)) as I.
    destruct (listed_now E _ s' n d' I S' D') as (ts' & T' & (r3 & A1) & (r4 & A2) & F').
    rewrite (run_root_same _ _ _ V) in A1, A2.
    apply (OS s s' n); auto.
    - exact (kept_authentic _ _ _ _ _ _ _ _ U KS S).
    - exact (kept_authentic _ _ _ _ _ _ _ _ U KS A2).
    - rewrite F, F'. apply OT.
      + exact (kept_authentic _ _ _ _ _ _ _ _ U KT T).
      + exact (kept_authentic _ _ _ _ _ _ _ _ U KT A1).
      + pose proof (run_timestamp_version E ops t V) as Lt. unfold timestamp_version in Lt at 2. rewrite T' in Lt. cbn [ver] in Lt. lia.
  Qed.

  Lemma targets_forward ops g g' : rm_version (t_root (run E t ops)) = rm_version (t_root t) ->
    t_targets t = Some g -> t_targets (run E t ops) = Some g' -> tg_version g <= tg_version g'.
  Proof.
    intros V G. revert V g'. induction ops as [|o ops IH] using rev_ind; intros V g' G'.
    - cbn in G'. rewrite G in G'. inversion G'; lia.
    - destruct (run_split_root E t ops [o] V) as [V1 _]. rewrite run_snoc in G'.
      destruct (step_targets_origin _ _ _ _ G') as [G1|(c & raw & -> & (_ & s & d & S & _ & D & _ & _ & -> & _))]; [auto|].
      exact (listed_forward "targets" _ ops s d (targets_listed E t g R G) V1 S D).
  Qed.

  Lemma delegation_forward r ops g g' : rm_version (t_root (run E t ops)) = rm_version (t_root t) ->
    lookup r (t_delegations t) = Some g -> lookup r (t_delegations (run E t ops)) = Some g' -> tg_version g <= tg_version g'.
  Proof.
    intros V G. revert V g'. induction ops as [|o ops IH] using rev_ind; intros V g' G'.
    - cbn in G'. rewrite G in G'. inversion G'; lia.
    - destruct (run_split_root E t ops [o] V) as [V1 _]. rewrite run_snoc in G'.
      destruct (step_delegation_origin _ _ _ _ _ G') as [G1|(c & p & raw & -> & (d & (_ & s & g0 & q & S & _ & _ & _ & _ & D & _) & _ & -> & _))]; [auto|].
      exact (listed_forward r _ ops s d (delegation_listed E t r g R G) V1 S D).
  Qed.
End rollback.

(** ** C87 *)

Definition DR (t : tuf) (raw : bytes) : demands := mkDemands (fun _ e => replay t raw e) (fun _ _ => True) (fun _ => False) False.

Lemma wp_update_replay E cfg fuel t raw ts h : complete t -> fuel <> O -> rm_version (t_root t) < u32_max ->
  trusted_by E (t_root t) Timestamp raw ts -> tm_version ts = timestamp_version t -> fetchable (cf_max_timestamp cfg) raw ->
  wp (DR t raw) (update E cfg fuel t) (fun h' x => x = (t, Ok false)) h.
Proof.
  intros (ts0 & s & g & d & T & S & G & V1 & L & V2) Fu B Tr V F. destruct fuel as [|fuel]; [congruence|].
  unfold update, update_root_with_repos. cbn [root_loop]. destruct (N.leb_spec u32_max (rm_version (t_root t))); [lia|].
  apply wp_bind, wp_bind, wp_bind. unfold fetch_metadata. change (repo_check Root (from_role Root)) with (Ok tt). cbn iota.
  cbn [wp]. intros ans R. cbn in R. split; [exact I|]. rewrite (proj1 R eq_refl eq_refl). cbn [read_metadata rbind wp].
  intros c Fr. cbn in Fr. split; [exact I|]. unfold expired. unfold fresh in Fr.
  destruct (Z.leb_spec (rm_expires (t_root t)) (at_root c)); [lia|]. cbn [wp].
  unfold update_timestamp_with_repos. apply wp_bind, wp_bind. unfold fetch_metadata.
  change (repo_check Timestamp (from_role Timestamp)) with (Ok tt). cbn iota. cbn [wp].
  intros ans' R'. cbn in R'. split; [exact I|]. rewrite (read_answered _ _ _ _ (proj2 R' eq_refl eq_refl) F).
  cbn [wp]. intros c' _. split; [exact I|].
  destruct (update_timestamp_spec E t c' raw) as (S1 & S2 & _). rewrite (S2 ts Tr V). cbn [wp].
  intros _. split; [exact I|].
  unfold update_snapshot_with_repos. apply wp_bind. rewrite T, S.
  rewrite <- V1, N.leb_refl. cbn [wp].
  unfold update_targets_with_repos. apply wp_bind. rewrite S. change (from_role Targets) with "targets". rewrite L.
  rewrite G, V2, N.leb_refl. cbn [wp]. reflexivity.
Qed.

(** What is new after an update was fresh when it was accepted. *)
Section Freshness.
  Variables (E : env) (cfg : config) (t : tuf).

  Definition ts_fresh (h : list event) (t1 : tuf) : Prop := forall ts, t_timestamp t1 = Some ts -> t_timestamp t = Some ts \/
    exists cl, In (EvNow cl) h /\ fresh (tm_expires ts) (at_new cl).
  Definition sn_fresh (h : list event) (t1 : tuf) : Prop := forall s, t_snapshot t1 = Some s -> t_snapshot t = Some s \/
    exists cl ts, In (EvNow cl) h /\ fresh (rm_expires (t_root t1)) (at_root cl) /\
      t_timestamp t1 = Some ts /\ fresh (tm_expires ts) (at_timestamp cl).
  Definition tg_fresh (h : list event) (t1 : tuf) : Prop := forall g, t_targets t1 = Some g -> t_targets t = Some g \/
    exists cl s, In (EvNow cl) h /\ fresh (rm_expires (t_root t1)) (at_root cl) /\
      t_snapshot t1 = Some s /\ fresh (sm_expires s) (at_snapshot cl) /\ fresh (tg_expires g) (at_new cl).

  Definition old_or_none (t1 : tuf) : Prop :=
    (t_timestamp t1 = t_timestamp t \/ t_timestamp t1 = None) /\ (t_snapshot t1 = t_snapshot t \/ t_snapshot t1 = None) /\
    (t_targets t1 = t_targets t \/ t_targets t1 = None).

  Lemma root_loop_old fuel s persist : forall t1 u h, old_or_none t1 ->
    wp DT (root_loop E cfg fuel s persist t1 u) (fun _ x => old_or_none (fst x)) h.
  Proof.
    induction fuel as [|fuel IH]; intros t1 u h O; [exact I|]. cbn [root_loop].
    destruct (u32_max <=? _); [exact I|]. eapply (wp_seq DT _ _ (fun _ _ => True)).
    { unfold fetch_metadata. destruct (repo_check _ _); cbn; auto. }
    intros h1 [raw|[]] _; try exact O.
    destruct (update_root E t1 raw) as [t2 r] eqn:U.
    assert (O2 : old_or_none t2).
    { destruct r as [[]|e]; [|apply update_root_err in U as ->; exact O].
      apply update_root_ok in U as (new & _ & ->). repeat split; right; reflexivity. }
    cbn [wp]. intros _. split; [exact I|].
    destruct r as [[]|e]; [|exact O2]. destruct persist; [|now apply IH].
    eapply (wp_seq DT _ _ (fun _ _ => True)).
    { unfold store_metadata. destruct (repo_check _ _); cbn; auto. }
    intros h2 [[]|e] _; [|exact O2]. eapply (wp_seq DT _ _ (fun _ _ => True)).
    { unfold store_metadata. destruct (repo_check _ _); cbn; auto. }
    intros h3 [[]|e] _; [now apply IH|exact O2].
  Qed.
  Lemma update_root_old fuel s persist t1 h : old_or_none t1 ->
    wp DT (update_root_with_repos E cfg fuel s persist t1) (fun _ x => old_or_none (fst x)) h.
  Proof.
    intros O. unfold update_root_with_repos. eapply wp_seq; [now apply root_loop_old|].
    intros h1 [t2 [u|e]] O2; [|exact O2]. cbn [wp]. intros cl _. split; [exact I|]. destruct (expired _ _); exact O2.
  Qed.

  Lemma persist_keeps (Q : list event -> tuf -> Prop) (M : forall h e x, Q h x -> Q (h ++ [e]) x) r path raw (persist : bool) t1 h : Q h t1 ->
    wp DT (if persist then do r1 <- store_metadata r path VNone raw in
             match r1 with Err e => Ret (t1, Err e) | Ok _ => Ret (t1, Ok true) end
           else Ret (t1, Ok true)) (fun h' x => Q h' (fst x)) h.
  Proof.
    intros H. destruct persist; [|exact H]. eapply (wp_seq DT _ _ (fun h' _ => Q h' t1)).
    - unfold store_metadata. destruct (repo_check _ _); cbn; auto.
    - intros h2 [u|e] H2; exact H2.
  Qed.

  Lemma in_more (e e' : event) h : In e h -> In e (h ++ [e']).
  Proof. intros. apply in_app_iff. now left. Qed.
  Definition all_fresh (h : list event) (t1 : tuf) : Prop := ts_fresh h t1 /\ sn_fresh h t1 /\ tg_fresh h t1.
  Lemma all_fresh_more h e t1 : all_fresh h t1 -> all_fresh (h ++ [e]) t1.
  Proof.
    intros (A & B & C). split; [|split].
    - intros x X. destruct (A x X) as [|(cl & I & H)]; [auto|]. right. exists cl. auto using in_more.
    - intros x X. destruct (B x X) as [|(cl & ts & I & H)]; [auto|]. right. exists cl, ts. auto using in_more.
    - intros x X. destruct (C x X) as [|(cl & s & I & H)]; [auto|]. right. exists cl, s. auto using in_more.
  Qed.

  Lemma timestamp_keeps s persist t1 h : old_or_none t1 ->
    wp DT (update_timestamp_with_repos E cfg s persist t1)
       (fun h' x => all_fresh h' (fst x) /\ (t_targets (fst x) = t_targets t \/ t_targets (fst x) = None)) h.
  Proof.
    intros (O1 & O2 & O3).
    assert (All : forall h, all_fresh h t1).
    { intros h'. split; [|split].
      - intros x X. left. destruct O1; congruence.
      - intros x X. left. destruct O2; congruence.
      - intros x X. left. destruct O3; congruence. }
    unfold update_timestamp_with_repos. eapply (wp_seq DT _ _ (fun _ _ => True)).
    { unfold fetch_metadata. destruct (repo_check _ _); cbn; auto. }
    intros h1 [raw|e] _; [|split; [apply All|exact O3]]. cbn [wp]. intros cl _. split; [exact I|].
    destruct (update_timestamp E t1 cl raw) as [t2 r] eqn:U. cbn [wp]. intros _. split; [exact I|].
    apply update_timestamp_inv in U as (R & G & _ & S & U).
    assert (Q : forall h', In (EvNow cl) h' -> all_fresh h' t2 /\ (t_targets t2 = t_targets t \/ t_targets t2 = None)).
    { intros h' I'. rewrite G. split; [|exact O3]. split; [|split].
      - intros x X. destruct r as [[new|]|e].
        + destruct U as ((_ & _ & F) & Tn & _). rewrite Tn in X. inversion X; subst. right. exists cl. auto.
        + destruct U as [-> _]. left. destruct O1; congruence.
        + destruct U as [Te _]. left. destruct O1; congruence.
      - intros x X. left. destruct S, O2; congruence.
      - intros x X. left. destruct O3; congruence. }
    assert (In1 : In (EvNow cl) ((h1 ++ [EvNow cl]) ++ [EvPut t2])) by (apply in_more, in_app_iff; right; now left).
    destruct r as [[x|]|e]; [|exact (Q _ In1)..].
    apply (persist_keeps (fun h' x => all_fresh h' x /\ (t_targets x = t_targets t \/ t_targets x = None))); [|exact (Q _ In1)].
    intros h' e y [A B]. split; [now apply all_fresh_more|exact B].
  Qed.

  Lemma snapshot_keeps s persist consistent t1 h : all_fresh h t1 ->
    (t_targets t1 = t_targets t \/ t_targets t1 = None) ->
    wp DT (update_snapshot_with_repos E s persist consistent t1)
       (fun h' x => all_fresh h' (fst x) /\ (t_targets (fst x) = t_targets t \/ t_targets (fst x) = None)) h.
  Proof.
    intros A O. unfold update_snapshot_with_repos. destruct (t_timestamp t1) as [ts|] eqn:Ets; [|now split].
    destruct (_ <=? _); [now split|]. destruct (hash_preference _); [|now split].
    eapply (wp_seq DT _ _ (fun h' _ => all_fresh h' t1)).
    { unfold fetch_metadata. destruct (repo_check _ _); cbn; auto using all_fresh_more. }
    intros h1 [raw|e] A1; [|now split]. cbn [wp]. intros cl _. split; [exact I|].
    destruct (update_snapshot E t1 cl raw) as [t2 r] eqn:U. cbn [wp]. intros _. split; [exact I|].
    apply update_snapshot_inv in U. set (h2 := (h1 ++ _) ++ _).
    assert (A2 : all_fresh h2 t1) by (do 2 apply all_fresh_more; exact A1).
    assert (In1 : In (EvNow cl) h2) by (apply in_more, in_app_iff; right; now left).
    destruct r as [[|]|e].
    - destruct U as (new & (F1 & ts' & T' & F2 & _) & (R & Tt & Sn & G & _)).
      apply (persist_keeps (fun h' x => all_fresh h' x /\ (t_targets x = t_targets t \/ t_targets x = None))).
      { intros h' e y [B B']. split; [now apply all_fresh_more|exact B']. }
      assert (G' : t_targets t2 = t_targets t \/ t_targets t2 = None) by (rewrite G; destruct (_ =? _); auto).
      split; [|exact G']. split; [|split].
      + intros x X. rewrite Tt in X. now apply A2.
      + intros x X. right. exists cl, ts'. rewrite R, Tt. auto.
      + intros x X. left. destruct G'; congruence.
    - destruct U as [-> _]. now split.
    - destruct U as [-> _]. now split.
  Qed.

  Lemma targets_keeps s persist consistent t1 h : all_fresh h t1 ->
    (t_targets t1 = t_targets t \/ t_targets t1 = None) ->
    wp DT (update_targets_with_repos E s persist consistent t1) (fun h' x => all_fresh h' (fst x)) h.
  Proof.
    intros A O. unfold update_targets_with_repos. destruct (t_snapshot t1) as [sn|] eqn:Esn; [|exact A].
    destruct (lookup _ _); [|exact A]. destruct (_ <=? _); [exact A|]. destruct (hash_preference _); [|exact A].
    eapply (wp_seq DT _ _ (fun h' _ => all_fresh h' t1)).
    { unfold fetch_metadata. destruct (repo_check _ _); cbn; auto using all_fresh_more. }
    intros h1 [raw|e] A1; [|exact A1]. cbn [wp]. intros cl _. split; [exact I|].
    destruct (update_targets E t1 cl raw) as [t2 r] eqn:U. cbn [wp]. intros _. split; [exact I|].
    apply update_targets_inv in U. set (h2 := (h1 ++ _) ++ _).
    assert (A2 : all_fresh h2 t1) by (do 2 apply all_fresh_more; exact A1).
    assert (In1 : In (EvNow cl) h2) by (apply in_more, in_app_iff; right; now left).
    destruct r as [[|]|e].
    - destruct U as (new & (F1 & s' & d & S' & F2 & _ & _ & _ & _ & F3) & ->).
      apply (persist_keeps all_fresh); [intros h' e y; apply all_fresh_more|].
      destruct A2 as (B1 & B2 & B3). split; [exact B1|]. split; [exact B2|].
      intros x X. cbn in X. inversion X; subst. right. exists cl, s'. auto.
    - destruct U as [-> _]. exact A2.
    - destruct U as [-> _]. exact A2.
  Qed.

  Lemma update_all_fresh fuel h : wp DT (update E cfg fuel t) (fun h' x => forall b, snd x = Ok b -> all_fresh h' (fst x)) h.
  Proof.
    unfold update. eapply wp_seq; [apply update_root_old; repeat split; left; reflexivity|].
    intros h1 [t1 [r|e]] O; [|intros b Q; discriminate]. cbn [fst] in O.
    eapply wp_seq; [now apply timestamp_keeps|]. intros h2 [t2 [ts|e]] [A2 O2]; [|intros b Q; discriminate].
    eapply wp_seq; [now apply snapshot_keeps|]. intros h3 [t3 [sn|e]] [A3 O3]; [|intros b Q; discriminate].
    eapply wp_seq; [now apply targets_keeps|]. intros h4 [t4 [ta|e]] A4; [|intros b Q; discriminate].
    intros b _. exact A4.
  Qed.
End Freshness.

(** * Proofs for C95 *)
From Coq Require Import String Ascii List NArith ZArith Bool Lia.
From Verif Require Import Base BaseFacts Metadata Verify Paths SpecPaths PathProofs Tuf SpecVerify SpecTuf VerifyProofs TufProofs TufHistory
     StringFacts Reader SpecReader ReaderProofs Repo SpecRepo RepoProofs Http SpecHttp HttpProofs Files SpecFiles FilesProofs Props_Files
     Client SpecClient SpecHonest SpecRestart SpecCache ClientLogic ClientProofs ClientUpdates
     ClientHistory ClientWalk ClientTargets ClientRestart ClientHonest Props_Honest CacheProofs DeployedProofs.
Import ListNotations.
Open Scope string_scope.
Open Scope list_scope.
Open Scope N_scope.

(** ** Only finitely many roots are on a disk *)

Fixpoint before_dot (s : string) : string :=
  match s with EmptyString => "" | String c r => if Ascii.eqb c "." then "" else String c (before_dot r) end.
Lemma before_dot_app a b : ~ has_char "." a -> before_dot (a ++ String "." b)%string = a.
Proof.
  induction a as [|c a IH]; intros N; cbn; [reflexivity|]. rewrite has_char_cons in N.
  destruct (Ascii.eqb_spec c "."); [subst; tauto|]. rewrite IH; tauto.
Qed.
Definition root_number (n : file_name) : N := match n with [] => 0 | f :: _ => undec 0 (before_dot f) end.
Lemma root_number_file n dir : root_number (file_of (VNumber n) "root" :: dir) = n.
Proof.
  cbn [root_number file_of]. change (decimal n ++ "." ++ "root" ++ ".json")%string with (decimal n ++ String "." "root.json")%string.
  rewrite before_dot_app by apply decimal_no_dot. apply decimal_value.
Qed.
Lemma last_root d dir : exists top, forall n, top < n -> content d (file_of (VNumber n) "root" :: dir) = None.
Proof.
  exists (fold_right N.max 0 (map (fun x => root_number (fst x)) (dk_files d))). intros n Hn.
  destruct (content d _) as [b|] eqn:Cb; [|reflexivity]. exfalso. unfold content in Cb. apply lookup_In in Cb.
  revert Hn. apply N.le_ngt. pose proof (root_number_file n dir) as R. rewrite <- R at 1.
  induction (dk_files d) as [|y l IH]; [destruct Cb|]. cbn [map fold_right]. destruct Cb as [->|Cb]; [cbn [fst]; lia|]. specialize (IH Cb). lia.
Qed.

(** ** Starting with what is on the disk *)

(** What a start does: it reads from the local repository. *)
Definition reads (e : event) : Prop :=
  match e with EvFetchMeta Local _ _ _ _ _ | EvNow _ | EvPut _ => True | _ => False end.
Definition DR : demands := mkDemands (fun _ _ => True) (fun _ => reads) (fun _ => True) True.
Lemma fetch_reads E r path v max hash h : wp DR (fetch_metadata E Local r path v max hash) (fun _ _ => True) h.
Proof. apply wp_fetch_any; [auto|]. intros ans e _. split; exact I. Qed.
Lemma roots_read E cfg fuel : forall t u h, wp DR (root_loop E cfg fuel Local false t u) (fun _ _ => True) h.
Proof.
  induction fuel as [|fuel IH]; intros t u h; cbn [root_loop]; [exact I|]. destruct (_ <=? _); [exact I|].
  eapply (wp_seq DR _ _ (fun _ _ => True)); [apply fetch_reads|]. intros h1 [raw|e] _; [|destruct e; exact I].
  destruct (update_root E t raw) as [t' r]. cbn [wp]. intros _. split; [exact I|]. destruct r as [[]|e]; [apply IH|exact I].
Qed.
Lemma root_reads E cfg fuel t h : wp DR (update_root_with_repos E cfg fuel Local false t) (fun _ _ => True) h.
Proof.
  unfold update_root_with_repos. eapply (wp_seq DR _ _ (fun _ _ => True)); [apply roots_read|].
  intros h1 [t1 [u|e]] _; [|exact I]. cbn [wp]. intros c _. split; [exact I|]. destruct (expired _ _); exact I.
Qed.
Lemma timestamp_reads E cfg t h : wp DR (update_timestamp_with_repos E cfg Local false t) (fun _ _ => True) h.
Proof.
  unfold update_timestamp_with_repos. eapply (wp_seq DR _ _ (fun _ _ => True)); [apply fetch_reads|].
  intros h1 [raw|e] _; [|exact I]. cbn [wp]. intros c _. split; [exact I|].
  destruct (update_timestamp E t c raw) as [t' r]. cbn [wp]. intros _. split; [exact I|]. destruct r as [[m|]|e]; exact I.
Qed.
Lemma snapshot_reads E t h : wp DR (update_snapshot_with_repos E Local false false t) (fun _ _ => True) h.
Proof.
  unfold update_snapshot_with_repos. destruct (t_timestamp t) as [ts|]; [|exact I]. destruct (_ <=? _); [exact I|].
  destruct (hash_preference _) as [hash|e]; [|exact I]. eapply (wp_seq DR _ _ (fun _ _ => True)); [apply fetch_reads|].
  intros h1 [raw|e] _; [|exact I]. cbn [wp]. intros c _. split; [exact I|].
  destruct (update_snapshot E t c raw) as [t' r]. cbn [wp]. intros _. split; [exact I|]. destruct r as [[]|e]; exact I.
Qed.
Lemma targets_reads E t h : wp DR (update_targets_with_repos E Local false false t) (fun _ _ => True) h.
Proof.
  unfold update_targets_with_repos. destruct (t_snapshot t) as [sn|]; [|exact I]. destruct (lookup _ _) as [desc|]; [|exact I].
  destruct (_ <=? _); [exact I|].
  destruct (hash_preference _) as [hash|e]; [|exact I]. eapply (wp_seq DR _ _ (fun _ _ => True)); [apply fetch_reads|].
  intros h1 [raw|e] _; [|exact I]. cbn [wp]. intros c _. split; [exact I|].
  destruct (update_targets E t c raw) as [t' r]. cbn [wp]. intros _. split; [exact I|]. destruct r as [[]|e]; exact I.
Qed.
Lemma construct_reads E cfg fuel b tr q : exec (construct E cfg fuel (FromRoot b)) tr q -> Forall reads tr.
Proof.
  intros X.
  assert (W : wp DR (construct E cfg fuel (FromRoot b)) (fun _ _ => True) []).
  { cbn [construct]. unfold with_trusted_root. destruct (from_trusted_root E b) as [t|e]; [|exact I]. cbn [wp]. intros _. split; [exact I|].
    unfold client_new. eapply (wp_seq DR _ _ (fun _ _ => True)); [apply root_reads|]. intros h1 [t1 [u|e]] _; [|exact I].
    eapply (wp_seq DR _ _ (fun _ _ => True)); [apply timestamp_reads|]. intros h2 [t2 [u2|e]] _; [|exact I].
    eapply (wp_seq DR _ _ (fun _ _ => True)); [apply snapshot_reads|]. intros h3 [t3 [u3|e]] _; [|exact I].
    eapply (wp_seq DR _ _ (fun _ _ => True)); [apply targets_reads|]. intros h4 [t4 u4] _. exact I. }
  destruct (wp_sound DR _ _ _ X _ _ W) as [G _]; [intros pre e post _; exact I|]. apply Forall_forall. exact (along_in _ _ _ G).
Qed.

Section Start.
  Variable E : env.
  Variable cfg : config.
  Variable p : publication.
  Variable have : bytes -> Prop.
  Hypothesis line : root_line E (pb_roots p) (pb_root p).
  Hypothesis top_version : rm_version (pb_root p) < u32_max.
  Hypothesis next_root : forall raw r raw' r', In (raw, r) (pb_roots p) -> have raw' -> root_step E r raw' r' ->
    exists raw'', In (raw'', r') (pb_roots p).
  Hypothesis no_timestamp : forall raw ts, have raw -> trusted_by E (pb_root p) Timestamp raw ts ->
    tm_version ts <= tm_version (pb_ts p) /\ (tm_version ts = tm_version (pb_ts p) -> ts = pb_ts p).
  Hypothesis no_snapshot : forall raw s, have raw -> trusted_by E (pb_root p) Snapshot raw s ->
    sm_version s = sm_version (pb_sn p) -> s = pb_sn p.
  Hypothesis no_targets : forall raw g, have raw -> trusted_by E (pb_root p) Targets raw g ->
    tg_version g = tg_version (pb_tg p) -> g = pb_tg p.

  Definition from_disk (t : tuf) : Prop :=
    (exists raw, In (raw, t_root t) (pb_roots p)) /\
    (forall ts, t_timestamp t = Some ts -> exists raw, have raw /\ trusted_by E (t_root t) Timestamp raw ts) /\
    (forall s, t_snapshot t = Some s -> exists raw, have raw /\ trusted_by E (t_root t) Snapshot raw s) /\
    (forall g, t_targets t = Some g -> exists raw, have raw /\ trusted_by E (t_root t) Targets raw g).

  Lemma from_disk_not_ahead t : from_disk t -> not_ahead p t.
  Proof.
    intros (R & T1 & T2 & T3). split; [exact R|]. intros Q. rewrite Q in T1, T2, T3. split; [|split].
    - intros ts H. destruct (T1 ts H) as (raw & A & B). exact (no_timestamp raw ts A B).
    - intros s H. destruct (T2 s H) as (raw & A & B). exact (no_snapshot raw s A B).
    - intros g H. destruct (T3 g H) as (raw & A & B). exact (no_targets raw g A B).
  Qed.

  Definition DS : demands :=
    mkDemands (fun _ e => match e with EvFetchMeta Local p v _ _ ans => cached p v -> forall raw, answered ans raw -> have raw | _ => True end)
              (fun _ _ => True) (fun _ => False) False.

  Lemma wp_fetch_start r path v max hash h : cached path v ->
    wp DS (fetch_metadata E Local r path v max hash) (fun _ x => forall raw, x = Ok raw -> have raw) h.
  Proof.
    intros Ca. apply wp_fetch_any; [discriminate|]. intros ans e A. split; [exact I|]. intros raw R.
    apply read_ok_answered in R. exact (A Ca raw R).
  Qed.

  Lemma published_version raw r : In (raw, r) (pb_roots p) -> rm_version r <= rm_version (pb_root p).
  Proof. exact (line_version E _ _ line raw r). Qed.

  Lemma wp_roots_start fuel : forall t u h, from_disk t -> rm_version (pb_root p) - rm_version (t_root t) < N.of_nat fuel ->
    wp DS (root_loop E cfg fuel Local false t u) (fun _ x => from_disk (fst x)) h.
  Proof.
    induction fuel as [|fuel IH]; intros t u h K F; [cbn in F; lia|]. cbn [root_loop].
    destruct K as ((raw0 & I0) & K). pose proof (published_version _ _ I0) as V.
    destruct (N.leb_spec u32_max (rm_version (t_root t))) as [B|_]; [lia|].
    eapply wp_seq; [apply wp_fetch_start; left; eexists; split; reflexivity|].
    intros h1 [raw|e] Hv; [|destruct e; cbn [wp fst]; split; eauto].
    specialize (Hv raw eq_refl). destruct (update_root E t raw) as [t' r] eqn:U. cbn [wp]. intros _. split; [exact I|].
    destruct r as [[]|e].
    - apply update_root_ok in U as (new & St & ->). destruct (next_root _ _ _ _ I0 Hv St) as (raw'' & I1).
      apply IH; [split; [exists raw''; exact I1|split; [|split]; cbn; discriminate]|].
      cbn [t_root]. destruct St as (_ & _ & Vn & _). pose proof (published_version _ _ I1). lia.
    - apply update_root_err in U. subst. cbn [wp fst]. split; eauto.
  Qed.

  Lemma wp_root_start fuel t h : from_disk t -> rm_version (pb_root p) - rm_version (t_root t) < N.of_nat fuel ->
    wp DS (update_root_with_repos E cfg fuel Local false t) (fun _ x => from_disk (fst x)) h.
  Proof.
    intros K F. unfold update_root_with_repos. eapply wp_seq; [apply wp_roots_start; assumption|].
    intros h1 [t1 [u|e]] K1; cbn [fst] in K1; [|exact K1]. cbn [wp]. intros c _. split; [exact I|].
    destruct (expired _ _); exact K1.
  Qed.

  Lemma wp_timestamp_start t h : from_disk t ->
    wp DS (update_timestamp_with_repos E cfg Local false t) (fun _ x => from_disk (fst x)) h.
  Proof.
    intros K. unfold update_timestamp_with_repos. eapply wp_seq; [apply wp_fetch_start; right; cbn; tauto|].
    intros h1 [raw|e] Hv; [|exact K]. specialize (Hv raw eq_refl). cbn [wp]. intros c _. split; [exact I|].
    destruct (update_timestamp E t c raw) as [t' r] eqn:U. cbn [wp]. intros _. split; [exact I|].
    assert (K' : from_disk t').
    { apply update_timestamp_inv in U as (Q1 & Q2 & _ & Q3 & U). destruct K as (K1 & K2 & K3 & K4). unfold from_disk. rewrite Q1, Q2.
      split; [exact K1|]. split; [|split; [|exact K4]].
      - destruct r as [[new|]|e].
        + destruct U as ((U & _) & -> & _). intros ts Q. inversion Q; subst. eauto.
        + destruct U as [-> _]. exact K2.
        + destruct U as [-> _]. exact K2.
      - destruct Q3 as [-> | ->]; [exact K3|discriminate]. }
    destruct r as [[m|]|e]; exact K'.
  Qed.

  Lemma wp_snapshot_start t h : from_disk t ->
    wp DS (update_snapshot_with_repos E Local false false t) (fun _ x => from_disk (fst x)) h.
  Proof.
    intros K. unfold update_snapshot_with_repos. destruct (t_timestamp t) as [ts|]; [|exact K]. destruct (_ <=? _); [exact K|].
    destruct (hash_preference _) as [hash|e]; [|exact K]. eapply wp_seq; [apply wp_fetch_start; right; cbn; tauto|].
    intros h1 [raw|e] Hv; [|exact K]. specialize (Hv raw eq_refl). cbn [wp]. intros c _. split; [exact I|].
    destruct (update_snapshot E t c raw) as [t' r] eqn:U. cbn [wp]. intros _. split; [exact I|].
    assert (K' : from_disk t').
    { apply update_snapshot_inv in U. destruct r as [[]|e]; [|destruct U as [-> _]; exact K..].
      destruct U as (new & (_ & ts' & _ & _ & _ & U & _) & (Q1 & Q2 & Q3 & Q4 & _)). destruct K as (K1 & K2 & K3 & K4). unfold from_disk.
      rewrite Q1, Q2, Q3. split; [exact K1|]. split; [exact K2|]. split; [intros s Q; inversion Q; subst; eauto|].
      destruct (_ =? _) in Q4; rewrite Q4; [exact K4|discriminate]. }
    destruct r as [[]|e]; exact K'.
  Qed.

  Lemma wp_targets_start t h : from_disk t ->
    wp DS (update_targets_with_repos E Local false false t) (fun _ x => from_disk (fst x)) h.
  Proof.
    intros K. unfold update_targets_with_repos. destruct (t_snapshot t) as [sn|]; [|exact K]. destruct (lookup _ _) as [desc|]; [|exact K].
    destruct (_ <=? _); [exact K|].
    destruct (hash_preference _) as [hash|e]; [|exact K]. eapply wp_seq; [apply wp_fetch_start; right; cbn; tauto|].
    intros h1 [raw|e] Hv; [|exact K]. specialize (Hv raw eq_refl). cbn [wp]. intros c _. split; [exact I|].
    destruct (update_targets E t c raw) as [t' r] eqn:U. cbn [wp]. intros _. split; [exact I|].
    assert (K' : from_disk t').
    { apply update_targets_inv in U. destruct r as [[]|e]; [|destruct U as [-> _]; exact K..].
      destruct U as (new & (_ & s & d & _ & _ & _ & _ & U & _) & ->). destruct K as (K1 & K2 & K3 & K4). unfold from_disk. cbn.
      split; [exact K1|]. split; [exact K2|]. split; [exact K3|]. intros g Q; inversion Q; subst; eauto. }
    destruct r as [[]|e]; exact K'.
  Qed.

  Lemma wp_construct_start fuel b m0 h : from_trusted_root E b = Ok (tuf_of_root m0) -> In (b, m0) (pb_roots p) ->
    rm_version (pb_root p) - rm_version m0 < N.of_nat fuel ->
    wp DS (construct E cfg fuel (FromRoot b)) (fun _ x => exists t, x = Ok t /\ from_disk t) h.
  Proof.
    intros T0 I0 F. cbn [construct]. unfold with_trusted_root. rewrite T0. cbn [wp]. intros _. split; [exact I|].
    unfold client_new. eapply wp_seq; [apply wp_root_start; [|exact F]|].
    { split; [exists b; exact I0|]. split; [|split]; cbn; discriminate. }
    intros h1 [t1 [u1|e1]] K1; cbn [fst] in K1; [|exists t1; auto]. eapply wp_seq; [apply wp_timestamp_start, K1|].
    intros h2 [t2 [u2|e2]] K2; cbn [fst] in K2; [|exists t2; auto]. eapply wp_seq; [apply wp_snapshot_start, K2|].
    intros h3 [t3 [u3|e3]] K3; cbn [fst] in K3; [|exists t3; auto]. eapply wp_seq; [apply wp_targets_start, K3|].
    intros h4 [t4 u4] K4; cbn [fst] in K4. exists t4. auto.
  Qed.

  Lemma construct_starts fuel b m0 tr q : from_trusted_root E b = Ok (tuf_of_root m0) -> In (b, m0) (pb_roots p) ->
    rm_version (pb_root p) - rm_version m0 < N.of_nat fuel ->
    exec (construct E cfg fuel (FromRoot b)) tr q ->
    (forall pa v max hash ans, In (EvFetchMeta Local pa v max hash ans) tr -> cached pa v -> forall raw, answered ans raw -> have raw) ->
    q <> Panic /\ q <> OutOfFuel /\
    forall x, q = Ret x -> exists t, x = Ok t /\ not_ahead p t /\ reachable E t /\ rm_version m0 <= rm_version (t_root t).
  Proof.
    intros T0 I0 F X A. pose proof (wp_construct_start fuel b m0 [] T0 I0 F) as W.
    destruct (wp_sound DS _ _ _ X _ _ W) as [G R].
    { intros pre e post Q. cbn. destruct e as [[] pa v max hash ans| | | | | |]; try exact I.
      intros Ca. apply (A pa v max hash ans); [rewrite Q; apply in_or_app; right; now left|exact Ca]. }
    split; [intros ->; exact R|]. split; [intros ->; exact R|]. intros x ->. destruct R as (t & -> & K).
    exists t. split; [reflexivity|]. split; [now apply from_disk_not_ahead|].
    pose proof (life_new E cfg fuel (FromRoot b) tr t X) as L.
    apply life_sound in L as [L1 L2]. pose proof (sound_follows E cfg (FromRoot b) tr L1 t L2) as Fo.
    split; [exact (follows_reachable E (FromRoot b) t Fo)|]. destruct Fo as (raw & t0 & ops & [-> F0] & ->).
    rewrite T0 in F0. inversion F0; subst t0. exact (run_root_version E ops (tuf_of_root m0)).
  Qed.
End Start.

Lemma reads_quiet tr : Forall reads tr -> Forall quiet tr.
Proof. apply Forall_impl. intros [[]| | | | | |]; cbn; tauto. Qed.
Lemma reads_disk r d tr d' : Forall reads tr -> on_disk r d tr d' -> d' = d.
Proof.
  intros F M. induction M as [d|d ev d1 tr d2 St _ IH]; [reflexivity|]. inversion F; subst. rewrite IH by assumption.
  destruct ev as [[]| | | | | |]; cbn in *; try contradiction; now destruct St.
Qed.
(** What is fetched from the disk during a start was there. *)
Lemma reads_answers local d m tr d' : disk_like local d m -> Forall reads tr ->
  on_disk (mkFsRepo ("metadata" :: local) ("targets" :: local)) d tr d' ->
  forall pa v max hash ans, In (EvFetchMeta Local pa v max hash ans) tr -> cached pa v ->
  forall raw, answered ans raw -> content d (file_of v pa :: "metadata" :: local) = Some raw.
Proof.
  intros L F M. induction M as [d|d ev d1 tr d2 St _ IH]; [intros ? ? ? ? ? []|]. inversion F as [|? ? F1 F2]; subst.
  assert (d1 = d) as ->.
  { destruct ev as [[]| | | | | |]; cbn in *; try contradiction; now destruct St. }
  intros pa v max hash ans [-> |I] Ca raw A; [|exact (IH L F2 pa v max hash ans I Ca raw A)].
  destruct St as [St _]. 
  assert (Q : ans = mem_answer m pa v) by (rewrite St; exact (fetch_like local d m pa v L Ca)).
  transitivity (lookup (pa, v) m); [exact (proj2 (proj2 (proj2 L)) pa v Ca)|]. unfold mem_answer in Q. destruct (lookup (pa, v) m) as [b|].
  - f_equal. destruct A as (rs & Qa & A). rewrite Q in Qa. inversion Qa; subst.
    now destruct (contains_fun _ _ _ A _ _ (contains_cursor b)).
  - destruct A as (rs & Qa & _). congruence.
Qed.

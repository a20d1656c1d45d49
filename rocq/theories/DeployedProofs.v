(** * Proofs for C94 *)
From Coq Require Import String Ascii List NArith ZArith Bool Lia.
From Verif Require Import Base BaseFacts Metadata Verify Paths SpecPaths PathProofs Tuf SpecVerify SpecTuf VerifyProofs TufProofs TufHistory
     StringFacts Reader SpecReader ReaderProofs Repo SpecRepo RepoProofs Http SpecHttp HttpProofs Files SpecFiles FilesProofs Props_Files
     Client SpecClient SpecHonest SpecRestart SpecCache ClientLogic ClientProofs ClientUpdates
     ClientHistory ClientWalk ClientTargets ClientRestart ClientHonest Shims SpecMeta JsonLayer Builders SpecBuilders BuilderProofs
     Props_Honest Props_Mirror CacheProofs SpecEndToEnd EndToEndProofs SpecDeployed.
Import ListNotations.
Open Scope string_scope.
Open Scope list_scope.
Open Scope N_scope.

(** ** Where targets are stored *)

Lemma wp_demands {A} D D' (q : prog A) (Q : list event -> A -> Prop) :
  (forall h e, rely D' h e -> rely D h e) -> (forall h e, guar D h e -> guar D' h e) ->
  (forall h, on_panic D h -> on_panic D' h) -> (on_fuel D -> on_fuel D') ->
  forall h, wp D q Q h -> wp D' q Q h.
Proof.
  intros R G P F. induction q; cbn; intros h W; auto;
    try (intros ans K; destruct (W ans (R _ _ K)) as [G' W']; split; [now apply G|now apply H]).
  intros K. destruct (W (R _ _ K)) as [G' W']. split; [now apply G|now apply IHq].
Qed.

Definition stores_well (e : event) : Prop := match e with EvStoreTarget p _ _ => acceptable_path p | _ => True end.
Definition DA : demands := mkDemands (fun _ _ => True) (fun _ => stores_well) (fun _ => True) True.
Lemma quiet_stores_well {A} (q : prog A) Q h : wp DQ q Q h -> wp DA q Q h.
Proof. apply wp_demands; auto. intros h' e. destruct e; cbn; tauto. Qed.

Lemma root_quiet E cfg fuel s persist t h : wp DQ (update_root_with_repos E cfg fuel s persist t) (fun _ _ => True) h.
Proof.
  unfold update_root_with_repos. eapply (wp_seq DQ _ _ (fun _ _ => True)); [apply root_loop_quiet|].
  intros h1 [t1 [u|e]] _; [|exact I]. cbn [wp]. intros c _. split; [exact I|]. destruct (expired _ _); exact I.
Qed.
Lemma timestamp_quiet E cfg s persist t h : wp DQ (update_timestamp_with_repos E cfg s persist t) (fun _ _ => True) h.
Proof.
  unfold update_timestamp_with_repos. eapply (wp_seq DQ _ _ (fun _ _ => True)); [now apply quiet_fetch|].
  intros h2 [raw|e] _; [|exact I]. cbn [wp]. intros c _. split; [exact I|].
  destruct (update_timestamp E t c raw) as [t' r]. cbn [wp]. intros _. split; [exact I|].
  destruct r as [[m|]|e]; [|exact I|exact I]. destruct persist; [|exact I].
  eapply (wp_seq DQ _ _ (fun _ _ => True)); [now apply quiet_store|]. intros h3 [u3|e] _; exact I.
Qed.
Lemma snapshot_quiet E s persist consistent t h : wp DQ (update_snapshot_with_repos E s persist consistent t) (fun _ _ => True) h.
Proof.
  unfold update_snapshot_with_repos. destruct (t_timestamp t) as [ts|]; [|exact I]. destruct (_ <=? _); [exact I|].
  destruct (hash_preference _) as [hash|e]; [|exact I].
  eapply (wp_seq DQ _ _ (fun _ _ => True)); [now apply quiet_fetch|].
  intros h3 [raw|e] _; [|exact I]. cbn [wp]. intros c _. split; [exact I|].
  destruct (update_snapshot E t c raw) as [t' r]. cbn [wp]. intros _. split; [exact I|].
  destruct r as [[]|e]; [|exact I|exact I]. destruct persist; [|exact I].
  eapply (wp_seq DQ _ _ (fun _ _ => True)); [now apply quiet_store|]. intros h4 [u4|e] _; exact I.
Qed.
Lemma targets_quiet E s persist consistent t h : wp DQ (update_targets_with_repos E s persist consistent t) (fun _ _ => True) h.
Proof.
  unfold update_targets_with_repos. destruct (t_snapshot t) as [sn|]; [|exact I]. destruct (lookup _ _) as [desc|]; [|exact I].
  destruct (_ <=? _); [exact I|]. destruct (hash_preference _) as [hash|e]; [|exact I].
  eapply (wp_seq DQ _ _ (fun _ _ => True)); [now apply quiet_fetch|].
  intros h4 [raw|e] _; [|exact I]. cbn [wp]. intros c _. split; [exact I|].
  destruct (update_targets E t c raw) as [t' r]. cbn [wp]. intros _. split; [exact I|].
  destruct r as [[]|e]; [|exact I|exact I]. destruct persist; [|exact I].
  eapply (wp_seq DQ _ _ (fun _ _ => True)); [now apply quiet_store|]. intros h5 [u5|e] _; exact I.
Qed.
Lemma construct_quiet E cfg fuel b h : wp DQ (construct E cfg fuel (FromRoot b)) (fun _ _ => True) h.
Proof.
  cbn [construct]. unfold with_trusted_root. destruct (from_trusted_root E b) as [t|e]; [|exact I]. cbn [wp]. intros _. split; [exact I|].
  unfold client_new. eapply (wp_seq DQ _ _ (fun _ _ => True)); [apply root_quiet|]. intros h1 [t1 [u|e]] _; [|exact I].
  eapply (wp_seq DQ _ _ (fun _ _ => True)); [apply timestamp_quiet|]. intros h2 [t2 [u2|e]] _; [|exact I].
  eapply (wp_seq DQ _ _ (fun _ _ => True)); [apply snapshot_quiet|]. intros h3 [t3 [u3|e]] _; [|exact I].
  eapply (wp_seq DQ _ _ (fun _ _ => True)); [apply targets_quiet|]. intros h4 [t4 u4] _. exact I.
Qed.

Lemma copy_stores rs h : wp DA (copy_to_writer rs) (fun _ _ => True) h.
Proof.
  revert h. induction rs as [|[|k|b] rs IH]; intros h; cbn [copy_to_writer]; [exact I|apply IH|exact I|].
  destruct (byte_length b =? 0); [exact I|]. cbn [wp]. intros [k|] _; (split; [exact I|]); [exact I|apply IH].
Qed.
Lemma reader_stores E cfg fuel t path h : wp DA (fetch_target_reader E cfg fuel t path) (fun _ _ => True) h.
Proof.
  destruct (reader_cases E cfg fuel t path) as [(d & p' & hash & _ & _ & _ & ->)|H].
  - cbn [wp]. intros ans _. split; exact I.
  - apply quiet_stores_well. eapply wp_mono; [|apply H]. auto.
Qed.
Lemma get_target_stores E cfg fuel b path w h : acceptable_path path -> wp DA (get_target E cfg fuel b path w) (fun _ _ => True) h.
Proof.
  intros A. unfold get_target.
  eapply (wp_seq DA _ _ (fun _ _ => True)); [apply quiet_stores_well, construct_quiet|]. intros h1 [t|e] _; [|exact I].
  eapply (wp_seq DA _ _ (fun _ _ => True)); [apply quiet_stores_well, update_quiet|]. intros h2 [t2 [c|e]] _; [|exact I].
  eapply (wp_seq DA _ _ (fun _ _ => True)).
  - destruct w; unfold fetch_target_to_writer, fetch_target;
      (eapply (wp_seq DA _ _ (fun _ _ => True)); [apply reader_stores|]; intros h3 [t3 [rs|e]] _; [|exact I]).
    + eapply (wp_seq DA _ _ (fun _ _ => True)); [apply copy_stores|]. intros; exact I.
    + cbn [wp]. intros ans _. split; [exact A|exact I].
  - intros h3 [t3 [u|e]] _; exact I.
Qed.

(** ** Runs to the end *)

Lemma deployed_total {A} d (serving : (request -> option response) -> Prop) server h r (q : prog A) : serving server ->
  forall hist l, wp DA q (fun _ _ => True) hist ->
  exists tr q' l', exec q tr q' /\ Forall (deployed d serving h) tr /\ on_disk r l tr l' /\ over q'.
Proof.
  intros Sv. set (p := mkPublication [] (ed_root d) "" (ed_timestamp d) "" (ed_snapshot d) "" (ed_targets d)).
  destruct (current_possible p) as (c & Hc).
  induction q as [a| | |s path v max hash k IH|path v b k IH|path de k IH|path rs k IH|b k IH|k IH|t q IH]; intros hist l W.
  1-3: eexists [], _, l; split; [constructor|]; split; [constructor|]; split; [constructor|exact I].
  - set (ans := match s with Local => fs_fetch_metadata r l path v | Remote => snd (http_fetch_metadata server h path v) end).
    destruct (W ans I) as [_ W']. destruct (IH ans _ l W') as (tr & q' & l' & X & F & M & O). exists (EvFetchMeta s path v max hash ans :: tr), q', l'.
    split; [constructor; exact X|]. split; [constructor; [|exact F]|split; [|exact O]].
    + destruct s; [exact I|]. exists server. split; [exact Sv|reflexivity].
    + apply on_disk_cons with l; [|exact M]. destruct s; [split; reflexivity|reflexivity].
  - destruct (fs_store_metadata r l path v (cursor b)) as [l1 ans] eqn:S. destruct (W ans I) as [_ W'].
    destruct (IH ans _ l1 W') as (tr & q' & l' & X & F & M & O). exists (EvStoreMeta path v b ans :: tr), q', l'.
    split; [constructor; exact X|]. split; [constructor; [exact I|exact F]|]. split; [|exact O]. apply on_disk_cons with l1; [exact S|exact M].
  - set (ans := snd (http_fetch_target server h path)). destruct (W ans I) as [_ W'].
    destruct (IH ans _ l W') as (tr & q' & l' & X & F & M & O). exists (EvFetchTarget path de ans :: tr), q', l'.
    split; [constructor; exact X|]. split; [constructor; [|exact F]|]. { exists server. split; [exact Sv|reflexivity]. }
    split; [|exact O]. apply on_disk_cons with l; [reflexivity|exact M].
  - destruct (fs_store_target r l path rs) as [l1 ans] eqn:S. destruct (W ans I) as [G W']. cbn in G.
    destruct (IH ans _ l1 W') as (tr & q' & l' & X & F & M & O). exists (EvStoreTarget path rs ans :: tr), q', l'.
    split; [constructor; exact X|]. split; [constructor; [exact I|exact F]|]. split; [|exact O].
    apply on_disk_cons with l1; [split; [exact G|exact S]|exact M].
  - destruct (W None I) as [_ W']. destruct (IH None _ l W') as (tr & q' & l' & X & F & M & O). exists (EvWrite b None :: tr), q', l'.
    split; [constructor; exact X|]. split; [constructor; [reflexivity|exact F]|]. split; [|exact O]. apply on_disk_cons with l; [reflexivity|exact M].
  - destruct (W c I) as [_ W']. destruct (IH c _ l W') as (tr & q' & l' & X & F & M & O). exists (EvNow c :: tr), q', l'.
    split; [constructor; exact X|]. split; [constructor; [exact Hc|exact F]|]. split; [|exact O]. apply on_disk_cons with l; [reflexivity|exact M].
  - destruct (W I) as [_ W']. destruct (IH _ l W') as (tr & q' & l' & X & F & M & O). exists (EvPut t :: tr), q', l'.
    split; [constructor; exact X|]. split; [constructor; [exact I|exact F]|]. split; [|exact O]. apply on_disk_cons with l; [reflexivity|exact M].
Qed.

(** ** The client's directory *)

Lemma on_disk_app r d a b d' : on_disk r d (a ++ b) d' -> exists d1, on_disk r d a d1 /\ on_disk r d1 b d'.
Proof.
  revert d. induction a as [|e a IH]; intros d H; [exists d; split; [constructor|exact H]|].
  inversion H as [|? ? d1 ? ? S H1]; subst. destruct (IH d1 H1) as (d2 & A & B). exists d2. split; [now apply on_disk_cons with d1|exact B].
Qed.

Section Local.
  Variable local : file_name.
  Let r : fs_repo := mkFsRepo ("metadata" :: local) ("targets" :: local).

  Lemma construct_clean E cfg fuel b t d0 m : disk_like local d0 m -> (forall p v, lookup (p, v) m = None) ->
    fuel <> O -> from_trusted_root E b = Ok t -> rm_version (t_root t) < u32_max ->
    forall tr q l, exec (construct E cfg fuel (FromRoot b)) tr q -> on_disk r d0 tr l ->
    l = d0 /\ q <> Panic /\ q <> OutOfFuel /\ Forall quiet tr /\ forall x, q = Ret x -> x = Ok t.
  Proof.
    intros L Em F H V tr q l X M. destruct fuel as [|fuel]; [contradiction|]. apply N.leb_gt in V.
    assert (NF : forall p v, cached p v -> fs_fetch_metadata r d0 p v = Err NotFound).
    { intros p v Ca. transitivity (mem_answer m p v); [exact (fetch_like local d0 m p v L Ca)|]. unfold mem_answer. now rewrite Em. }
    cbn [construct] in X. unfold with_trusted_root in X. rewrite H in X.
    Ltac stop := split; [first [reflexivity|assumption]|]; split; [discriminate|]; split; [discriminate|]; split;
      [repeat constructor|]; intros ? Q; inversion Q; reflexivity.
    inversion X as [| | | | | | |t1 p1 tr1 q1 X1]; clear X; subst; [inversion M; subst; stop|].
    inversion M as [|e0 ev0 e1 tr0 e2 S1 M1]; clear M; subst. cbn [on_disk_step] in S1. subst e1.
    unfold client_new, update_root_with_repos in X1. cbn [root_loop] in X1. rewrite V in X1.
    unfold fetch_metadata at 1 in X1. change (repo_check Root (from_role Root)) with (@Ok unit tt) in X1. cbn [bind] in X1.
    inversion X1 as [|s path v max hash k ans tr2 q2 X2| | | | | |]; clear X1; subst; [inversion M1; subst; stop|].
    inversion M1 as [|e0 ev0 e1 tr0 e2 S2 M2]; clear M1; subst. cbn [on_disk_step] in S2. destruct S2 as [-> ->].
    rewrite NF in X2 by (left; eexists; split; reflexivity). cbn [read_metadata rbind bind] in X2.
    inversion X2 as [| | | | | |k c tr3 q3 X3|]; clear X2; subst; [inversion M2; subst; stop|].
    inversion M2 as [|e0 ev0 e1 tr0 e2 S3 M3]; clear M2; subst. cbn [on_disk_step] in S3. subst e1.
    destruct (expired _ _) in X3; cbn [bind] in X3; [inversion X3; subst; inversion M3; subst; stop|].
    inversion X3 as [|s path v max hash k1 ans tr4 q4 X4| | | | | |]; clear X3; subst; [inversion M3; subst; stop|].
    inversion M3 as [|e0 ev0 e1 tr0 e2 S4 M4]; clear M3; subst. cbn [on_disk_step] in S4. destruct S4 as [-> ->].
    rewrite NF in X4 by (right; cbn; tauto). cbn [read_metadata rbind bind] in X4. inversion X4; subst. inversion M4; subst. stop.
  Qed.

  (** Updates do not get in the way of targets. *)
  Lemma update_keeps_way d tr d' : on_disk r d tr d' -> sound_disk d -> (forall e, In e tr -> top_event e) -> Forall quiet tr ->
    forall sub, free_way d (sub ++ "targets" :: local) -> free_way d' (sub ++ "targets" :: local).
  Proof.
    induction 1 as [d|d ev d1 tr d2 St _ IH]; intros S T Q sub Fr; [exact Fr|].
    inversion Q as [|? ? Q1 Q2]; subst. pose proof (T ev (or_introl eq_refl)) as T1.
    assert (G : sound_disk d1 /\ free_way d1 (sub ++ "targets" :: local)).
    { destruct ev as [s p v mx hs a|p v da a|p ds a|p rs a|b a|c|t]; cbn in St, Q1, T1; try contradiction; try (subst; auto; fail).
      - destruct s; [destruct St as [_ ->]|subst]; auto.
      - unfold fs_store_metadata in St.
        destruct (store_spec d (fr_metadata r) (metadata_components "json" p v) (cursor da) S) as (S' & R & Dd);
          [rewrite (top_place _ p v T1); discriminate|].
        rewrite St in S', R, Dd. cbn [fst snd] in S', R, Dd. rewrite (top_place _ p v T1) in R, Dd. cbn [r fr_metadata] in R, Dd.
        split; [exact S'|]. destruct Fr as [F1 F2]. split.
        + intros m L. specialize (F1 m L). destruct a as [u|e].
          * destruct R as (b & _ & _ & _ & R). rewrite R. destruct (eqb _ _) eqn:Y; [|exact F1]. apply eqb_eq in Y. subst m.
            exfalso. destruct L as (x & l & L). 
            change (x :: l ++ file_of v p :: "metadata" :: local) with ((x :: l) ++ [file_of v p] ++ "metadata" :: local) in L.
            rewrite app_assoc in L. apply snoc_inj in L. discriminate.
          * destruct R as [R _]. now rewrite R.
        + intros D. apply Dd in D as [D|D]; [auto|]. destruct D as (x & l & D).
          change (x :: l ++ sub ++ "targets" :: local) with ((x :: l) ++ sub ++ "targets" :: local) in D. rewrite app_assoc in D.
          apply (snoc_inj [file_of v p]) in D. discriminate. }
    destruct G as [G1 G2]. apply IH; auto. intros e I. apply T. now right.
  Qed.

  Lemma store_arrives d path rs d' a data : sound_disk d -> acceptable_path path -> (forall x, path <> (x ++ "/")%string) ->
    free_way d (walk ("targets" :: local) (split_slash path)) -> contains rs data None ->
    fs_store_target r d path rs = (d', a) -> a = Ok tt /\ content d' (walk ("targets" :: local) (split_slash path)) = Some data.
  Proof.
    intros S A Ns Fr CT H. unfold fs_store_target in H.
    pose proof (proj1 (place_iff r (EpTarget path rs) _ A) (eq_refl : place r (EpTarget path rs) _)) as P.
    cbn [r fr_targets] in P. rewrite P in Fr |- *. cbn [op_dir op_comps] in Fr, P |- *.
    destruct (store_spec d (fr_targets r) (target_components path) rs S) as (_ & R & _).
    { apply (place_nonempty r (EpTarget path rs) A). }
    rewrite H in R. cbn [fst snd] in R. destruct a as [[]|e].
    - split; [reflexivity|]. destruct R as (b & Cb & _ & _ & R). rewrite R. cbn [r fr_targets]. rewrite eqb_refl.
      destruct (contains_fun _ _ _ Cb _ _ CT) as [-> _]. reflexivity.
    - exfalso. destruct Fr as [F1 F2]. destruct R as (_ & [(_ & m & L & K)|[(b & k & Cb & _)|(_ & [Sl|Di])]]).
      + apply K. now apply F1.
      + destruct (contains_fun _ _ _ Cb _ _ CT) as [_ Y]. discriminate.
      + apply (slash_names (EpTarget path rs) A) in Sl as (x & Q). now apply (Ns x).
      + auto.
  Qed.
End Local.

(** ** The publisher's directory *)

Lemma last_at_content r d ops : sound_disk d -> (forall o, In o ops -> acceptable_path (op_path o)) ->
  forall n b, last_at r (snd (fs_run r d ops)) n b -> content (fst (fs_run r d ops)) n = Some b.
Proof.
  intros S A n b (pre & o & post & E & P & CT & N).
  destruct (proj1 (proj2 (C79_directory_is_a_map_partial r d ops S A)) n) as [(pre' & o' & post' & b' & E' & P' & CT' & N' & ->)|[Z _]].
  - rewrite E in E'. f_equal.
    assert (K : o = o').
    { clear - E' P P' N N'. revert pre' E'. induction pre as [|x pre IH]; intros [|y pre'] E'; cbn in E'.
      - now inversion E'.
      - inversion E'; subst. exfalso. apply (N o'); [apply in_or_app; right; now left|exact P'].
      - inversion E'; subst. exfalso. apply (N' o); [apply in_or_app; right; now left|exact P].
      - inversion E'; subst. now apply (IH pre'). }
    subst o'. now destruct (contains_fun _ _ _ CT' _ _ CT).
  - exfalso. apply (Z o); [rewrite E; apply in_or_app; right; now left|exact P].
Qed.

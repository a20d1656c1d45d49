(** * C94: from the builders through a web server to the client's directory *)
From Coq Require Import String Ascii List NArith ZArith Bool Lia.
From Verif Require Import Base BaseFacts Metadata Verify Paths SpecPaths PathProofs Tuf SpecVerify SpecTuf VerifyProofs TufProofs TufHistory
     StringFacts Reader SpecReader ReaderProofs Repo SpecRepo RepoProofs Http SpecHttp HttpProofs Files SpecFiles FilesProofs Props_Files
     Client SpecClient SpecHonest SpecRestart SpecCache ClientLogic ClientProofs ClientUpdates
     ClientHistory ClientTargets ClientRestart ClientHonest Shims SpecMeta JsonLayer Builders SpecBuilders BuilderProofs
     Props_Honest Props_Mirror CacheProofs SpecEndToEnd EndToEndProofs SpecDeployed DeployedProofs
     Dates SpecDates Serde Keys SpecKeys KeyToy Toy JsonToy ClientToy Props_Builders Props_EndToEnd.
Import ListNotations.
Open Scope string_scope.
Open Scope list_scope.
Open Scope N_scope.

Lemma filed_published d p pub1 r ops :
  pb_root p = ed_root d -> pb_sn p = ed_snapshot d -> pb_tg p = ed_targets d ->
  (forall raw r, In (raw, r) (pb_roots p) -> exists s, In (r, s) (ed_roots d) /\ to_raw s = Ok raw) ->
  (forall r s, In (r, s) (ed_roots d) -> exists raw, In (raw, r) (pb_roots p) /\ to_raw s = Ok raw) ->
  to_raw (ed_timestamp_doc d) = Ok (pb_timestamp p) -> to_raw (ed_snapshot_doc d) = Ok (pb_snapshot p) ->
  to_raw (ed_targets_doc d) = Ok (pb_targets p) ->
  sound_disk pub1 -> (forall o, In o ops -> acceptable_path (op_path o)) ->
  filed_edition d pub1 r (snd (fs_run r pub1 ops)) -> published_in (fst (fs_run r pub1 ops)) (fr_metadata r) p.
Proof.
  intros Q1 Q3 Q4 In1 In2 Bt Bs Bg S A [F1 F2 F3 F4 F5]. pose proof (last_at_content r pub1 ops S A) as LC.
  assert (Ct : forall f s b, filed_as r (snd (fs_run r pub1 ops)) f s -> to_raw s = Ok b ->
             content (fst (fs_run r pub1 ops)) (f :: fr_metadata r) = Some b).
  { intros f s b (b' & B & L) B'. assert (b' = b) as -> by congruence. now apply LC. }
  split; [|split; [|split; [|split]]].
  - intros raw m I. destruct (In1 raw m I) as (s & J & K). exact (Ct _ _ _ (F1 m s J) K).
  - intros n No. destruct (F2 n) as [Z1 Z2].
    { intros m s I. destruct (In2 m s I) as (raw & J & _). exact (No raw m J). }
    destruct (proj1 (proj2 (C79_directory_is_a_map_partial r pub1 ops S A)) ((decimal n ++ ".root.json")%string :: fr_metadata r))
      as [(pre & o & post & b & E & P & _)|[_ ->]]; [|exact Z1].
    exfalso. apply (Z2 o); [rewrite E; apply in_or_app; right; now left|exact P].
  - exact (Ct _ _ _ F3 Bt).
  - unfold published_as. rewrite Q1, Q3. destruct (rm_consistent (ed_root d)); exact (Ct _ _ _ F4 Bs).
  - unfold published_as. rewrite Q1, Q4. destruct (rm_consistent (ed_root d)); exact (Ct _ _ _ F5 Bg).
Qed.

Lemma prefixed_name path hash name : acceptable_path path -> (forall a, path <> (a ++ "/")%string) ->
  with_hash_prefix path hash = Ok name -> acceptable_path name /\ ~ names_directory (EpTarget name []).
Proof.
  intros Ap Ns Pl. pose proof Pl as Pl'. unfold with_hash_prefix in Pl'. apply path_new_iff in Pl' as [_ An].
  destruct (path_new_iff (join_slash (map_last (fun f => (hex_encode hash ++ "." ++ f)%string) (target_components path))) name) as [K _].
  specialize (K Pl). destruct K as [-> An']. split; [exact An'|].
  destruct (split_snoc path) as (dir & f & Sp). unfold target_components. rewrite Sp, map_last_snoc.
  assert (Sj : split_slash (join_slash (dir ++ [(hex_encode hash ++ "." ++ f)%string])) = dir ++ [(hex_encode hash ++ "." ++ f)%string]).
  { apply split_join; [destruct dir; discriminate|]. intros x I. apply in_app_iff in I as [I|[<-|[]]].
    - apply (split_pieces path). rewrite Sp. apply in_or_app. now left.
    - rewrite !has_char_app. intros [H|[H|H]].
      + revert H. apply hex_no_char. cbn. auto.
      + apply has_char_one in H. discriminate.
      + revert H. apply (split_pieces path). rewrite Sp. apply in_or_app. right. now left. }
  intros (a & Q). unfold target_components in An'. rewrite Sp, map_last_snoc in An'.
  assert (Z : slash_at_end (split_slash (join_slash (dir ++ [(hex_encode hash ++ "." ++ f)%string]))) = true).
  { apply slash_end_iff; [now destruct An'|]. exists a. exact Q. }
  rewrite Sj in Z. unfold slash_at_end in Z. rewrite last_last in Z. apply String.eqb_eq in Z.
  destruct (hex_encode hash); discriminate.
Qed.

(** Calls for targets store at most one file. *)
Lemma fetch_stores_once E cfg fuel t path tr q : exec (fetch_target E cfg fuel t path) tr q ->
  forall pa rs ans, In (EvStoreTarget pa rs ans) tr ->
  pa = path /\ exists pa' de' ans', tr = [EvFetchTarget pa' de' ans'; EvStoreTarget path rs ans].
Proof.
  intros X pa rs ans I. apply fetch_target_runs in X.
  inversion X; subst; cbn in I.
  - rewrite Forall_forall in H. destruct (H _ I).
  - destruct I.
  - destruct I as [I|[]]. discriminate.
  - destruct I as [I|[]]. discriminate.
  - destruct I as [I|[I|[]]]; [discriminate|]. inversion I; subst. split; [reflexivity|]. eauto.
Qed.
Definition no_store (e : event) : Prop := match e with EvStoreTarget _ _ _ => False | _ => True end.
Definition DN : demands := mkDemands (fun _ _ => True) (fun _ => no_store) (fun _ => True) True.
Lemma writer_stores_nothing E cfg fuel t path tr q : exec (fetch_target_to_writer E cfg fuel t path) tr q ->
  forall e, In e tr -> no_store e.
Proof.
  intros X.
  assert (W : wp DN (fetch_target_to_writer E cfg fuel t path) (fun _ _ => True) []).
  { unfold fetch_target_to_writer. eapply (wp_seq DN _ _ (fun _ _ => True)).
    - destruct (reader_cases E cfg fuel t path) as [(d & p' & hash & _ & _ & _ & ->)|H].
      + cbn [wp]. intros ans _. split; exact I.
      + apply (wp_demands DQ DN); auto; [intros h' e; destruct e; cbn; tauto|]. eapply wp_mono; [|apply H]. auto.
    - intros h3 [t3 [rs|e]] _; [|exact I]. eapply (wp_seq DN _ _ (fun _ _ => True)); [|intros; exact I].
      revert h3. induction rs as [|[|k|b] rs IH]; intros h; cbn [copy_to_writer]; [exact I|apply IH|exact I|].
      destruct (byte_length b =? 0); [exact I|]. cbn [wp]. intros [k|] _; (split; [exact I|]); [exact I|apply IH]. }
  destruct (wp_sound DN _ _ _ X _ _ W) as [G _]; [intros pre e post _; exact I|]. exact (along_in _ _ _ G).
Qed.

Lemma new_keeps_way d local d0 r : sound_disk d -> fs_new d local = (d0, Ok r) ->
  forall sub, sub <> [] -> free_way d (sub ++ "targets" :: local) -> free_way d0 (sub ++ "targets" :: local).
Proof.
  intros S H sub N [F1 F2]. destruct (C79_new_keeps_apart _ _ _ _ S H) as (_ & Cd & _).
  split; [intros m L; rewrite Cd; now apply F1|].
  unfold fs_new, fs_build in H. cbn [fb_local fb_metadata_prefix fb_targets_prefix prefixed] in H.
  change (fs_path local ["metadata"]) with ("metadata" :: local) in H.
  change (fs_path local ["targets"]) with ("targets" :: local) in H.
  destruct (make_dirs d ("metadata" :: local)) as [d2|e] eqn:M; [|discriminate].
  destruct (make_dirs d2 ("targets" :: local)) as [d3|e] eqn:M2; [|discriminate]. inversion H; subst.
  pose proof (make_dirs_sound _ _ _ S M) as S2.
  destruct (make_dirs_ok _ _ _ S M) as [_ D]. destruct (make_dirs_ok _ _ _ S2 M2) as [_ D2].
  assert (L : forall x, SpecFiles.leads_to (sub ++ "targets" :: local) (x :: local) -> False).
  { intros x (a & l & Q). apply (f_equal (@length _)) in Q. cbn in Q. rewrite !app_length in Q. cbn in Q. lia. }
  assert (L' : forall x, sub ++ "targets" :: local = x :: local -> False).
  { intros x Q. apply (f_equal (@length _)) in Q. rewrite app_length in Q. cbn in Q. destruct sub; [congruence|cbn in Q; lia]. }
  intros K. apply D2 in K as [K|[K|K]]; [|now apply L' in K|now apply L in K].
  apply D in K as [K|[K|K]]; [auto|now apply L' in K|now apply L in K].
Qed.

(** Whatever else the publisher stores, whatever else is on the disks, and however the
    servers cut up their answers: a client that knows the first root gets everything. *)
Theorem C94_deployed :
  forall (C : crypto) (o : hash_order) (cfg : config) (fuel : nat) (d : edition)
         (pub0 pub1 : disk) (bld : fs_builder) (r : fs_repo) (ops : list ephemeral_op) (h : http_repo)
         (dl d0 : disk) (local : file_name) (rl : fs_repo)
         (m0 : root_metadata) (s0 : signed_metadata) (rest : list (root_metadata * signed_metadata)) (path : string) (data : bytes),
  let E := mkEnv C o (json_interchange C) in
  let pub := fst (fs_run r pub1 ops) in let log := snd (fs_run r pub1 ops) in
  let serving := mirrored pub bld r h in
  (* the publisher *)
  well_made C d -> sound_disk pub0 -> fs_build pub0 bld = (pub1, Ok r) -> (forall o, In o ops -> acceptable_path (op_path o)) ->
  filed_edition d pub1 r log -> filed_target C cfg d r log path data ->
  (* the client *)
  readable cfg d -> sound_disk dl -> clean dl local path -> fs_new dl local = (d0, Ok rl) ->
  ed_roots d = (m0, s0) :: rest -> rm_version (ed_root d) - rm_version m0 < N.of_nat fuel ->
  exists b0, to_raw s0 = Ok b0 /\
  (* however the run goes, it does not fail, and the right data arrive *)
  (forall w tr q d1, exec (get_target E cfg fuel b0 path w) tr q -> Forall (deployed d serving h) tr -> on_disk rl d0 tr d1 ->
     q <> Panic /\ q <> OutOfFuel /\
     forall res, q = Ret res ->
       exists t, res = Ok (true, t) /\ t_root t = ed_root d /\ t_timestamp t = Some (ed_timestamp d) /\
         t_snapshot t = Some (ed_snapshot d) /\ t_targets t = Some (ed_targets d) /\
         (if w : bool then SpecClient.written tr = data
          else content d1 (walk ("targets" :: local) (split_slash path)) = Some data)) /\
  (* and with every such server there is a run to the end *)
  (forall w server, serving server ->
     exists tr res d1, exec (get_target E cfg fuel b0 path w) tr (Ret res) /\ Forall (deployed d (eq server) h) tr /\ on_disk rl d0 tr d1).
Proof.
  intros C o cfg fuel d pub0 pub1 bld r ops h dl d0 local rl m0 s0 rest path data E pub log serving
         W S0 Bu Ao Fe Ft R Sl (Cl & Ap & Ns & Fw) New E0 Fu.
  assert (S1 : sound_disk pub1).
  { unfold fs_build in Bu. destruct (make_dirs pub0 _) as [x|] eqn:M1; [|discriminate].
    destruct (make_dirs x _) as [y|] eqn:M2; [|discriminate]. inversion Bu; subst.
    apply (make_dirs_sound _ _ _ (make_dirs_sound _ _ _ S0 M1) M2). }
  destruct (edition_in_order C o cfg d W R)
    as (p & m0' & s0' & rest' & b0 & OK & Q1 & Q2 & Q3 & Q4 & In1 & In2 & Bt & Bs & Bg & E0' & B0 & T0 & I0 & V0).
  fold E in OK, T0. rewrite E0 in E0'. inversion E0'; subst m0' s0' rest'. clear E0'.
  exists b0. split; [exact B0|].
  pose proof (filed_published d p pub1 r ops Q1 Q3 Q4 In1 In2 Bt Bs Bg S1 Ao Fe) as Pu. fold pub in Pu.
  destruct Ft as (virt & desc & algs & rs & name & Tr & Lk & CO & TD & L64 & Pl & NP & LT).
  destruct (target_described C rs algs desc data CO TD L64) as (TA & TP).
  assert (Fu0 : fuel <> O) by (intros ->; cbn in Fu; lia).
  assert (V0' : rm_version m0 < u32_max) by (destruct R as [_ _ R]; lia).
  assert (Re : reachable E (tuf_of_root m0)) by (apply toy_start with b0; exact T0).
  assert (NA : not_ahead p (tuf_of_root m0)).
  { split; [exists b0; exact I0|]. intros _. split; [|split]; cbn; discriminate. }
  assert (Fo : follows_repository E cfg p fuel (tuf_of_root m0)).
  { apply C74_honest_repository_is_followed; auto. rewrite Q1. exact Fu. }
  (* the name of the target *)
  assert (An : acceptable_path name /\ ~ names_directory (EpTarget name [])).
  { destruct (rm_consistent (ed_root d)).
    - destruct Pl as (alg & _ & Pl). exact (prefixed_name path _ name Ap Ns Pl).
    - subst name. split; [exact Ap|]. intros (a & Q). now apply (Ns a). }
  destruct An as [An Nn].
  pose proof (last_at_content r pub1 ops S1 Ao _ _ LT) as Cn. fold pub in Cn.
  (* the client's directory *)
  destruct (C79_new_keeps_apart _ _ _ _ Sl New) as (Sd0 & Cd0 & Dm & Dt & _).
  destruct (fs_new_shape _ _ _ _ Sl New) as [Qr Nd]. subst rl. cbn [fr_metadata fr_targets] in Dm, Dt.
  set (rl := mkFsRepo ("metadata" :: local) ("targets" :: local)) in *.
  assert (DL : disk_like local d0 []).
  { split; [exact Sd0|]. split; [exact Dm|]. split.
    - intros f Hf Hd. apply (proj2 (Cl f Hf)). now apply Nd.
    - intros pp v Ca. cbn [lookup]. rewrite Cd0. exact (proj1 (Cl _ (top_file_of pp v (or_introl Ca)))). }
  assert (Sub : exists sub, walk ("targets" :: local) (split_slash path) = sub ++ "targets" :: local /\ sub <> []).
  { destruct (place_below rl (EpTarget path []) Ap) as (sub & N1 & N2). exists sub. split; [|exact N1].
    exact (eq_trans (proj1 (place_iff rl (EpTarget path []) _ Ap) eq_refl) N2). }
  destruct Sub as (sub & Esub & Nsub).
  assert (Fw0 : free_way d0 (sub ++ "targets" :: local)).
  { rewrite Esub in Fw. exact (new_keeps_way _ _ _ _ Sl New sub Nsub Fw). }
  (* the servers *)
  assert (WG : forall tr l l', Forall (deployed d serving h) tr -> on_disk rl l tr l' -> forall m, disk_like local l (mem_at [] m) ->
             (forall e, In e tr -> top_event e) -> Forall (good_event p) tr).
  { intros tr l l' F M m Dk Te.
    destruct (on_disk_mem local l tr l' M [] m Dk (fun e I => top_fine harmless e (Te e I))) as [Al _].
    apply Forall_forall. intros e I. pose proof (proj1 (Forall_forall _ _) F e I) as De. specialize (Te e I).
    destruct e as [s pa v max hash ans|pa v b ans|pa de ans|pa rs' ans|b ans|c|t]; try exact I; try exact Logic.I.
    - destruct s; [exact Logic.I|]. destruct De as (server & Sv & Qa).
      exact (web_good p pub bld r h server Sv Pu (EvFetchMeta Remote pa v max hash ans) Qa).
    - apply in_split in I as (pre & post & ->). exact (Al pre _ post eq_refl Te).
    - intros now J. rewrite Q1, Q2, Q3, Q4. now apply De. }
  assert (FT : forall pa de ans, deployed d serving h (EvFetchTarget pa de ans) -> pa = name -> answered ans data).
  { intros pa de ans (server & Sv & ->) ->.
    pose proof (proj2 (C80_mirror_partial pub bld r h server Sv) name [] _ An NP eq_refl Nn) as G. rewrite Cn in G. exact G. }
  assert (Dn : forall t, up_to_date p t ->
     forall w tr q l l', exec (if w : bool then fetch_target_to_writer E cfg fuel t path else fetch_target E cfg fuel t path) tr q ->
       Forall (deployed d serving h) tr -> on_disk rl l tr l' -> sound_disk l -> free_way l (sub ++ "targets" :: local) ->
       q <> Panic /\ q <> OutOfFuel /\
       forall t' r, q = Ret (t', r) -> t' = t /\ r = Ok tt /\
         (if w then SpecClient.written tr = data else content l' (walk ("targets" :: local) (split_slash path)) = Some data)).
  { intros t (U1 & U2 & U3 & U4).
    assert (Li : listed cfg t path desc).
    { exists (ed_targets d), virt. rewrite U4, Q4. auto. }
    assert (TPl : target_place t path desc name).
    { unfold target_place. rewrite U1, Q1. destruct (rm_consistent (ed_root d)); [|exact Pl].
      destruct Pl as (alg & P1 & P2). exists alg, (ring_digest C alg data). auto. }
    assert (Sn : t_snapshot t <> None) by (rewrite U3; discriminate).
    destruct (C76_honest_downloads E cfg fuel t path name desc data Fu0 Sn Li TPl TA L64) as (D1 & _ & D3 & _).
    intros w tr q l l' X F M Sd Fr. rewrite <- Esub in Fr.
    assert (G : Forall (good_download name data) tr).
    { apply Forall_forall. intros e I. pose proof (proj1 (Forall_forall _ _) F e I) as De.
      destruct e as [s pa v max hash ans|pa v b ans|pa de ans|pa rs' ans|b ans|c|t1]; try exact Logic.I.
      - intros Q. exact (FT pa de ans De Q).
      - destruct w.
        + exfalso. exact (writer_stores_nothing _ _ _ _ _ _ _ X _ I).
        + destruct (fetch_stores_once _ _ _ _ _ _ _ X _ _ _ I) as (-> & pa' & de' & ans' & ->).
          inversion M as [|? ? l1 ? ? M1 M2]; subst. cbn in M1. subst l1. inversion M2 as [|? ? l2 ? ? M3 M4]; subst.
          destruct M3 as [_ M3]. intros (b & Cb). exact (proj1 (store_arrives local l path rs' l2 ans b Sd Ap Ns Fr Cb M3)).
      - exact De. }
    destruct w.
    - destruct (D3 tr q X G) as (G1 & G2 & G3). split; [exact G1|]. split; [exact G2|]. intros t' r' Q. exact (G3 t' r' Q).
    - destruct (D1 tr q X G) as (G1 & G2 & G3). split; [exact G1|]. split; [exact G2|]. intros t' r' Q.
      destruct (G3 t' r' Q) as (-> & -> & src & rs' & -> & CT). split; [reflexivity|]. split; [reflexivity|].
      inversion M as [|? ? l1 ? ? M1 M2]; subst. cbn in M1. subst l1. inversion M2 as [|? ? l2 ? ? M3 M4]; subst. inversion M4; subst.
      destruct M3 as [_ M3]. exact (proj2 (store_arrives local l path rs' l' (Ok tt) data Sd Ap Ns Fr CT M3)). }
  assert (Run : forall w tr q d1, exec (get_target E cfg fuel b0 path w) tr q -> Forall (deployed d serving h) tr -> on_disk rl d0 tr d1 ->
     q <> Panic /\ q <> OutOfFuel /\
     forall res, q = Ret res ->
       exists t, res = Ok (true, t) /\ t_root t = ed_root d /\ t_timestamp t = Some (ed_timestamp d) /\
         t_snapshot t = Some (ed_snapshot d) /\ t_targets t = Some (ed_targets d) /\
         (if w : bool then SpecClient.written tr = data
          else content d1 (walk ("targets" :: local) (split_slash path)) = Some data)).
  { intros w tr q l X F M. unfold get_target in X.
    assert (Ne : forall pp v, @lookup _ _ _ (pp, v) ([] : store) = None) by reflexivity.
    apply exec_bind_cases in X as [(p' & X & P1 & P2 & P3)|(a & tr1 & tr2 & -> & X1 & X2)].
    { destruct (construct_clean local E cfg fuel b0 _ d0 [] DL Ne Fu0 T0 V0' tr p' l X M) as (_ & N1 & N2 & _).
      split; [now apply P1|]. split; [now apply P2|]. intros r' Q. now apply P3 in Q. }
    apply Forall_app in F as [F1 F2]. apply on_disk_app in M as (l1 & M1 & M2).
    destruct (construct_clean local E cfg fuel b0 _ d0 [] DL Ne Fu0 T0 V0' tr1 (Ret a) l1 X1 M1) as (-> & _ & _ & Qu1 & N3).
    rewrite (N3 a eq_refl) in X2. clear N3 X1 M1 F1. rewrite written_app, (quiet_written _ Qu1). cbn [append].
    destruct Fo as [Fo _].
    apply exec_bind_cases in X2 as [(p' & X & P1 & P2 & P3)|([t r'] & tr3 & tr4 & -> & X3 & X4)].
    { destruct (Fo tr2 p' X (WG _ _ _ F2 M2 [] DL (update_stores E cfg fuel _ _ _ X))) as (N1 & N2 & _).
      split; [now apply P1|]. split; [now apply P2|]. intros r' Q. now apply P3 in Q. }
    apply Forall_app in F2 as [F3 F4]. apply on_disk_app in M2 as (l3 & M3 & M4).
    pose proof (update_stores E cfg fuel _ _ _ X3) as Te.
    destruct (Fo tr3 _ X3 (WG _ _ _ F3 M3 [] DL Te)) as (_ & _ & N3).
    destruct (N3 t r' eq_refl) as (U & b & -> & Hb). clear N3. apply update_exec_quiet in X3 as Qu3.
    rewrite written_app, (quiet_written _ Qu3). cbn [append].
    assert (b = true) as ->.
    { destruct b; [reflexivity|]. destruct (proj1 Hb eq_refl) as (_ & U2 & _). discriminate. }
    destruct (on_disk_keeps _ _ _ _ M3) as [Sl3 _]; [discriminate|discriminate|exact Sd0|].
    pose proof (update_keeps_way local _ _ _ M3 Sd0 Te Qu3 sub Fw0) as Fw3.
    apply exec_bind_cases in X4 as [(p' & X & P1 & P2 & P3)|([t' r'] & tr5 & tr6 & -> & X5 & X6)].
    { destruct (Dn t U w tr4 p' l3 l X F4 M4 Sl3 Fw3) as (N1 & N2 & _).
      split; [now apply P1|]. split; [now apply P2|]. intros r' Q. now apply P3 in Q. }
    apply Forall_app in F4 as [F5 F6]. apply on_disk_app in M4 as (l5 & M5 & M6).
    destruct (Dn t U w tr5 _ l3 l5 X5 F5 M5 Sl3 Fw3) as (_ & _ & N3). destruct (N3 t' r' eq_refl) as (-> & -> & G).
    inversion X6; subst. inversion M6; subst. split; [discriminate|]. split; [discriminate|]. intros r' Q. inversion Q; subst.
    destruct U as (U1 & U2 & U3 & U4). exists t. rewrite U1, U2, U3, U4, Q1, Q2, Q3, Q4, app_nil_r. auto 10. }
  split; [exact Run|]. intros w server Sv.
  destruct (deployed_total d (eq server) server h rl (get_target E cfg fuel b0 path w) eq_refl [] d0 (get_target_stores E cfg fuel b0 path w [] Ap))
    as (tr & q & l & X & F & M & Ov).
  assert (F' : Forall (deployed d serving h) tr).
  { eapply Forall_impl; [|exact F]. intros e De. destruct e as [[] pa v max hash ans| |pa de ans| | | | ]; try exact De.
    - destruct De as (x & <- & De). exists server. auto.
    - destruct De as (x & <- & De). exists server. auto. }
  destruct (Run w tr q l X F' M) as (N1 & N2 & N3).
  destruct q; try contradiction. eexists tr, _, l. eauto.
Qed.
Print Assumptions C94_deployed.

(** The edition of [C90_case] in a directory of the publisher's, on a disk with other files;
    one store fails, and one document is replaced.  The client has an empty disk. *)
Definition op_place (r : fs_repo) (o : ephemeral_op) : file_name := fs_path (op_dir r o) (op_comps o).
Lemma not_placed r (ops : list ephemeral_op) n : forallb (fun o => is_ok (path_new (op_path o))) ops = true ->
  forallb (fun o => negb (eqb (op_place r o) n)) ops = true -> forall o, In o ops -> ~ place r o n.
Proof.
  intros A P o I Q. rewrite forallb_forall in A, P. specialize (A o I). specialize (P o I).
  assert (Ac : acceptable_path (op_path o)).
  { destruct (path_new (op_path o)) eqn:X; [|discriminate]. now apply path_new_iff in X as [_ X]. }
  apply place_iff in Q; [|exact Ac]. unfold op_place in P. rewrite <- Q, eqb_refl in P. discriminate.
Qed.
Lemma run_ops r ops : forall d, map fst (snd (fs_run r d ops)) = ops.
Proof.
  induction ops as [|o ops IH]; intros d; [reflexivity|]. cbn [fs_run]. destruct (fs_step r d o) as [d1 res].
  specialize (IH d1). destruct (fs_run r d1 ops) as [d2 l]. cbn in *. now rewrite IH.
Qed.
Lemma success_place r (log : list (ephemeral_op * result unit)) o : In (o, Ok tt) log ->
  In (op_place r o) (map (fun x => op_place r (fst x)) (filter (fun x => is_ok (snd x)) log)).
Proof. intros I. apply in_map_iff. exists (o, Ok tt). split; [reflexivity|]. apply filter_In. split; [exact I|reflexivity]. Qed.
Lemma log_last r d ops k o n b :
  forallb (fun o => is_ok (path_new (op_path o))) ops = true ->
  nth_error ops k = Some o -> nth_error (map (fun x => is_ok (snd x)) (snd (fs_run r d ops))) k = Some true ->
  op_place r o = n -> contains (input o) b None ->
  forallb (fun o => negb (eqb (op_place r o) n)) (skipn (S k) ops) = true ->
  last_at r (snd (fs_run r d ops)) n b.
Proof.
  intros A K Y P CT Z. pose proof (run_ops r ops d) as Ro. set (log := snd (fs_run r d ops)) in *.
  rewrite nth_error_map in Y. destruct (nth_error log k) as [[o' res]|] eqn:L; [|discriminate]. cbn in Y.
  assert (o' = o) as ->.
  { rewrite <- Ro in K. rewrite nth_error_map, L in K. cbn in K. congruence. }
  destruct res as [[]|e]; [|discriminate].
  apply nth_error_split in L as (pre & post & E & Len). exists pre, o, post. split; [exact E|].
  assert (Ac : forall x, In x ops -> acceptable_path (op_path x)).
  { intros x I. rewrite forallb_forall in A. specialize (A x I). destruct (path_new (op_path x)) eqn:X; [|discriminate].
    now apply path_new_iff in X as [_ X]. }
  split; [apply place_iff; [apply Ac; eapply nth_error_In; exact K|now symmetry]|]. split; [exact CT|].
  assert (Sk : skipn (S k) ops = map fst post).
  { rewrite <- Ro, E, map_app, <- Len, <- (map_length fst). cbn [map]. rewrite skipn_app.
    rewrite skipn_all2 by lia. replace (S (length (map fst pre)) - length (map fst pre))%nat with 1%nat by lia. reflexivity. }
  rewrite Sk in Z. intros x I. apply (not_placed r (map fst post) n); [|exact Z|apply in_map_iff; exists (x, Ok tt); auto].
  rewrite forallb_forall. intros y J. rewrite forallb_forall in A. apply A. rewrite <- Ro, E, map_app. apply in_or_app. right. now right.
Qed.

Definition c94_pub0 : disk :=
  fst (fs_run (mkFsRepo ["repo"] ["repo"]) empty_disk [EpTarget "readme" [Ready "hello"]; EpTarget "3.root.json" [Ready "elsewhere"]]).
Definition c94_pub1 : disk := fst (fs_build c94_pub0 toy_root).
Definition c94_pub : disk := fst (fs_run toy_disk_repo c94_pub1 c90_ops).
Notation c94_log := (snd (fs_run toy_disk_repo c94_pub1 c90_ops)).
Definition c94_local : disk := fst (fs_new empty_disk ["home"]).
Definition c94_local_repo : fs_repo := mkFsRepo ["metadata"; "home"] ["targets"; "home"].

Lemma char_free c s : forallb (fun x => negb (Ascii.eqb c x)) (list_ascii_of_string s) = true -> ~ has_char c s.
Proof.
  induction s as [|x s IH]; cbn; intros H; [apply has_char_nil|]. apply andb_true_iff in H as [H1 H2]. rewrite has_char_cons.
  intros [->|Q]; [rewrite Ascii.eqb_refl in H1; discriminate|exact (IH H2 Q)].
Qed.
Lemma c94_dots : ~ has_char "." "timestamp" /\ ~ has_char "." "2" /\ ~ has_char "." "3".
Proof.
  repeat split; apply char_free; reflexivity.
Qed.
Lemma c94_no_percent : ~ has_char "%" "bin/0000001823241a0000000000000000000000000000000000000000022b283e56.tool".
Proof. apply char_free. reflexivity. Qed.
Lemma c94_acceptable : forallb (fun o => is_ok (path_new (op_path o))) c90_ops = true.
Proof. vm_compute. reflexivity. Qed.
Lemma c94_filed k o n s :
  nth_error c90_ops k = Some o -> input o = [Ready (bytes_of s)] -> is_ok (to_raw s) = true ->
  nth_error (map (fun x => is_ok (snd x)) c94_log) k = Some true -> op_place toy_disk_repo o = n :: fr_metadata toy_disk_repo ->
  forallb (fun o => negb (eqb (op_place toy_disk_repo o) (n :: fr_metadata toy_disk_repo))) (skipn (S k) c90_ops) = true ->
  filed_as toy_disk_repo c94_log n s.
Proof.
  intros K I R Y P Z. destruct (raw_complete s R) as (b & B & Cb). exists b. split; [exact B|].
  apply (log_last toy_disk_repo c94_pub1 c90_ops k o _ b c94_acceptable K Y P); [rewrite I; exact Cb|exact Z].
Qed.


Example C94_case :
  well_made checksums c90_edition /\ sound_disk c94_pub0 /\ fs_build c94_pub0 toy_root = (c94_pub1, Ok toy_disk_repo) /\
  (forall o, In o c90_ops -> acceptable_path (op_path o)) /\
  filed_edition c90_edition c94_pub1 toy_disk_repo c94_log /\
  filed_target checksums default_config c90_edition toy_disk_repo c94_log "bin/tool" "hello" /\
  readable default_config c90_edition /\ sound_disk empty_disk /\ clean empty_disk ["home"] "bin/tool" /\
  fs_new empty_disk ["home"] = (c94_local, Ok c94_local_repo) /\
  rm_version (ed_root c90_edition) - rm_version c73_root < N.of_nat 2 /\
  mirrored c94_pub toy_root toy_disk_repo toy_base (web_server c94_pub ["repo"]).
Proof.
  destruct C90_case as (W & _ & Rd & _ & Fu & _).
  assert (Sp : sound_disk c94_pub0).
  { apply (C79_directory_is_a_map_partial (mkFsRepo ["repo"] ["repo"]) empty_disk _ empty_sound).
    intros o [<-|[<-|[]]]; cbn [op_path]; match goal with |- acceptable_path ?p => apply (path_new_iff p p); reflexivity end. }
  assert (Bu : fs_build c94_pub0 toy_root = (c94_pub1, Ok toy_disk_repo)) by reflexivity.
  assert (S1 : sound_disk c94_pub1).
  { change c94_pub1 with (mkDisk (dk_files c94_pub0) [["targets"; "repo"]; ["meta"; "repo"]; ["repo"]]).
    assert (M : make_dirs c94_pub0 ["meta"; "repo"] = Ok (mkDisk (dk_files c94_pub0) [["meta"; "repo"]; ["repo"]])) by reflexivity.
    apply (make_dirs_sound _ _ _ Sp) in M.
    now apply (make_dirs_sound ["targets"; "repo"] (mkDisk (dk_files c94_pub0) [["meta"; "repo"]; ["repo"]])). }
  pose proof c94_acceptable as Ab.
  assert (Ao : forall o, In o c90_ops -> acceptable_path (op_path o)).
  { intros o I. rewrite forallb_forall in Ab. specialize (Ab o I). destruct (path_new (op_path o)) eqn:X; [|discriminate].
    now apply path_new_iff in X as [_ X]. }
  split; [exact W|]. split; [exact Sp|]. split; [exact Bu|]. split; [exact Ao|].
  split; [|split; [|split; [exact Rd|split; [exact empty_sound|split; [|split; [reflexivity|split; [exact Fu|]]]]]]].
  - split; cbn [ed_roots ed_root ed_timestamp ed_timestamp_doc ed_snapshot ed_snapshot_doc ed_targets ed_targets_doc c90_edition].
    + intros m s [H|[H|[]]]; apply pair_parts in H as [<- <-].
      * apply (c94_filed 0 (EpMetadata "root" (VNumber 1) [Ready (bytes_of c73_signed_root)])); [reflexivity|reflexivity|vm_compute; reflexivity..].
      * apply (c94_filed 7 (EpMetadata "root" (VNumber 2) [Ready (bytes_of c90_signed_root2)])); [reflexivity|reflexivity|vm_compute; reflexivity..].
    + intros n No. set (f := (decimal n ++ ".root.json")%string :: fr_metadata toy_disk_repo).
      assert (N1 : n <> 1).
      { intros ->. apply (No c73_root c73_signed_root); [now left|vm_compute; reflexivity]. }
      assert (N2 : n <> 2).
      { intros ->. apply (No c90_root2 c90_signed_root2); [right; now left|vm_compute; reflexivity]. }
      assert (D : forall m, (decimal n ++ ".root.json")%string = (decimal m ++ ".root.json")%string -> n = m).
      { intros m Q. apply sapp_cancel_r in Q. now apply decimal_inj. }
      split.
      * unfold content. cbn [c94_pub1 dk_files fs_build fst c94_pub0]. 
        destruct (lookup f _) as [x|] eqn:L; [|reflexivity]. apply lookup_In in L. destruct L as [L|[L|[]]]; inversion L.
      * intros o I P.
        assert (Io : In o c90_ops).
        { pose proof (in_map fst _ _ I) as J. rewrite run_ops in J. exact J. }
        pose proof (proj1 (place_iff toy_disk_repo o f (Ao o Io)) P) as P'.
        pose proof (success_place toy_disk_repo _ o I) as J. unfold op_place in J at 1. rewrite <- P' in J.
        clear I Io P P'.
        assert (Q : map (fun x => op_place toy_disk_repo (fst x)) (filter (fun x => is_ok (snd x)) c94_log) =
          [["1.root.json"; "meta"; "repo"]; ["timestamp.json"; "meta"; "repo"];
           ["0000001823241a0000000000000000000000000000000000000000022b283e56.tool"; "bin"; "targets"; "repo"]; ["3.targets.json"; "meta"; "repo"];
           ["2.snapshot.json"; "meta"; "repo"]; ["timestamp.json"; "meta"; "repo"]; ["2.root.json"; "meta"; "repo"]]) by (vm_compute; reflexivity).
        rewrite Q in J. clear Q. unfold f in J. cbn [fr_metadata toy_disk_repo] in J.
        assert (Zt : forall a b, ~ has_char "." a -> b <> "root.json" -> (a ++ String "." b)%string = (decimal n ++ ".root.json")%string -> False).
        { intros a b Ha Nb K. apply first_char_split in K as [_ K]; [congruence|exact Ha|apply decimal_no_dot]. }
        pose proof c94_dots as Nd.
        destruct Nd as (Nt & Nt2 & Nt3).
        destruct J as [J|[J|[J|[J|[J|[J|[J|[]]]]]]]]; inversion J as [K].
        -- apply N1, D. symmetry. exact K.
        -- apply (Zt "timestamp" "json"); [assumption|discriminate|exact K].
        -- apply (Zt "3" "targets.json"); [assumption|discriminate|exact K].
        -- apply (Zt "2" "snapshot.json"); [assumption|discriminate|exact K].
        -- apply (Zt "timestamp" "json"); [assumption|discriminate|exact K].
        -- apply N2, D. symmetry. exact K.
    + apply (c94_filed 5 (EpMetadata "timestamp" VNone [Ready (bytes_of (one_by Timestamp c73_timestamp sk_t))])); [reflexivity|reflexivity|vm_compute; reflexivity..].
    + replace (rm_consistent c90_root2) with true by (vm_compute; reflexivity).
      replace (sm_version c73_snapshot) with 2 by (vm_compute; reflexivity).
      apply (c94_filed 4 (EpMetadata "snapshot" (VNumber 2) [Ready (bytes_of (one_by Snapshot c73_snapshot sk_s))])); [reflexivity|reflexivity|vm_compute; reflexivity..].
    + replace (rm_consistent c90_root2) with true by (vm_compute; reflexivity).
      replace (tg_version c73_targets) with 3 by (vm_compute; reflexivity).
      apply (c94_filed 3 (EpMetadata "targets" (VNumber 3) [Ready (bytes_of (one_by Targets c73_targets sk_g))])); [reflexivity|reflexivity|vm_compute; reflexivity..].
  - exists "bin/tool", (the (mkTargetDesc 0 [] None) (target_from_reader checksums [Ready "hel"; Ready "lo"] [Sha256])), [Sha256],
      [Ready "hel"; Ready "lo"], c90_place.
    split; [vm_compute; reflexivity|]. split; [vm_compute; reflexivity|]. split.
    { apply (contains_data "hel" [Ready "lo"] "lo" None); [discriminate|]. apply (contains_data "lo" [] "" None); [discriminate|constructor]. }
    split; [vm_compute; reflexivity|]. split; [vm_compute; discriminate|]. split.
    { replace (rm_consistent (ed_root c90_edition)) with true by (vm_compute; reflexivity). exists Sha256. split.
      - right. split; [reflexivity|]. split; vm_compute; reflexivity.
      - vm_compute. reflexivity. }
    split.
    { replace c90_place with "bin/0000001823241a0000000000000000000000000000000000000000022b283e56.tool" by (vm_compute; reflexivity).
      exact c94_no_percent. }
    apply (log_last toy_disk_repo c94_pub1 c90_ops 2 (EpTarget c90_place [Ready "he"; Pending; Ready "llo"]) _ "hello" c94_acceptable).
    + reflexivity.
    + vm_compute. reflexivity.
    + vm_compute. reflexivity.
    + apply (contains_data "he" [Pending; Ready "llo"] "llo" None); [discriminate|]. constructor.
      apply (contains_data "llo" [] "" None); [discriminate|constructor].
    + vm_compute. reflexivity.
  - split; [|split; [|split]].
    + intros f _. split; [reflexivity|]. intros [H|[]]. discriminate.
    + apply (path_new_iff "bin/tool" "bin/tool"). reflexivity.
    + intros a H. assert (Z : exists a, "bin/tool" = (a ++ "/")%string) by (exists a; exact H).
      apply slash_end_iff in Z; [vm_compute in Z; discriminate|discriminate].
    + split; [reflexivity|]. intros [H|[]]. discriminate.
  - apply toy_mirrored. unfold c94_pub. apply (C79_directory_is_a_map_partial toy_disk_repo c94_pub1 c90_ops S1 Ao).
Qed.

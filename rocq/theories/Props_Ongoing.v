(** * C97: the deployed system while the publisher goes on *)
From Coq Require Import String Ascii List Arith NArith ZArith Bool Lia.
From Verif Require Import Base BaseFacts Metadata Verify Paths SpecPaths PathProofs Tuf SpecVerify SpecTuf VerifyProofs TufProofs TufHistory
     StringFacts Reader SpecReader ReaderProofs Repo SpecRepo RepoProofs Http SpecHttp HttpProofs Files SpecFiles FilesProofs Props_Files
     Client SpecClient SpecHonest SpecRestart SpecCache ClientLogic ClientProofs ClientUpdates
     ClientHistory ClientTargets ClientRestart ClientHonest Shims SpecMeta JsonLayer Builders SpecBuilders BuilderProofs
     Props_Honest Props_Mirror CacheProofs SpecEndToEnd EndToEndProofs SpecDeployed DeployedProofs SpecResumed ResumedProofs
     SpecLive LiveProofs SpecOngoing OngoingProofs CarefulProofs
     Dates SpecDates Serde Keys SpecKeys KeyToy Toy JsonToy ClientToy Props_Builders Props_EndToEnd Props_Deployed Props_Resumed Props_Live.
Import ListNotations.
Open Scope string_scope.
Open Scope list_scope.
Open Scope nat_scope.

(** While the client runs, the publisher stores further files, and with them new editions
    take the place of former ones.  The client gets one edition and the data of the target
    that belong to it, and does not fail. *)
Theorem C97_ongoing :
  forall (C : crypto) (o : hash_order) (cfg : config) (fuel : nat) (eds : nat -> edition)
         (pub0 pub1 : disk) (bld : fs_builder) (r : fs_repo) (ops : list ephemeral_op) (h : http_repo) (from upto : nat)
         (dl d0 : disk) (local : file_name) (rl : fs_repo)
         (m0 : root_metadata) (s0 : signed_metadata) (rest : list (root_metadata * signed_metadata)) (path : string) (data : nat -> bytes),
  let E := mkEnv C o (json_interchange C) in
  let serving k := mirrored (disk_at r pub1 ops k) bld r h in
  (* the publisher *)
  sound_disk pub0 -> fs_build pub0 bld = (pub1, Ok r) -> (forall x, In x ops -> acceptable_path (op_path x)) ->
  from <= upto -> kept_in_order C cfg eds pub1 r ops from upto path data ->
  (* the client *)
  sound_disk dl -> tidy dl local path ->
  (forall i j, from <= i -> i <= j -> j <= upto -> not_newer E (blended (eds i) (eds j)) dl local) -> fs_new dl local = (d0, Ok rl) ->
  ed_roots (eds from) = (m0, s0) :: rest ->
  (forall i, from <= i -> i <= upto -> (rm_version (ed_root (eds i)) - rm_version m0 < N.of_nat fuel)%N) ->
  exists b0, to_raw s0 = Ok b0 /\
  (* whenever the requests are answered, the run does not fail, and the right data arrive *)
  (forall w tr q d1, exec (get_target E cfg fuel b0 path w) tr q -> timed (served_at serving h) from tr upto ->
     (forall c, In (EvNow c) tr -> unexpired eds from upto c) -> on_disk rl d0 tr d1 ->
     q <> Panic /\ q <> OutOfFuel /\
     forall res, q = Ret res ->
       exists i j changed t, from <= i /\ i <= j /\ j <= upto /\
         res = Ok (changed, t) /\ trusts (blended (eds i) (eds j)) t /\
         (if w : bool then SpecClient.written tr = data j
          else content d1 (walk ("targets" :: local) (split_slash path)) = Some (data j)) /\
         exists tr1 tr2 t1, tr = tr1 ++ tr2 /\ exec (construct E cfg fuel (FromRoot b0)) tr1 (Ret (Ok t1)) /\
           (changed = false <-> trusts (blended (eds i) (eds j)) t1)) /\
  (* and with the servers of each time there is a run to the end *)
  (forall w k server c, from <= k -> k <= upto -> serving k server -> unexpired eds from upto c ->
     exists tr res d1, exec (get_target E cfg fuel b0 path w) tr (Ret res) /\ timed (served_at serving h) from tr upto /\
       (forall c', In (EvNow c') tr -> unexpired eds from upto c') /\ on_disk rl d0 tr d1).
Proof.
  intros C o cfg fuel eds pub0 pub1 bld r ops h from upto dl d0 local rl m0 s0 rest path data E serving
         S0 Bu Ao Ft Ko Sl (Cl & Ap & Ns & Fw) Nn New E0 Fu.
  assert (S1 : sound_disk pub1).
  { unfold fs_build in Bu. destruct (make_dirs pub0 _) as [x|] eqn:M1; [|discriminate].
    destruct (make_dirs x _) as [y|] eqn:M2; [|discriminate]. inversion Bu; subst.
    apply (make_dirs_sound _ _ _ (make_dirs_sound _ _ _ S0 M1) M2). }
  set (P := fun k => publication_of (eds k)).
  pose proof (blend_as C o cfg eds pub1 r ops from upto path data Ko) as Bl. fold E P in Bl. cbv zeta in Bl.
  destruct (Bl from from (le_n _) (le_n _) Ft) as (m0' & s0' & rest' & b0 & _ & _ & _ & _ & _ & _ & E0' & B0 & T0 & _ & V0).
  rewrite E0 in E0'. inversion E0'; subst m0' s0' rest'. clear E0'.
  exists b0. split; [exact B0|].
  assert (Fu0 : fuel <> O) by (intros ->; specialize (Fu from (le_n _) Ft); cbn in Fu; lia).
  assert (V0' : (rm_version m0 < u32_max)%N).
  { destruct (ko_made _ _ _ _ _ _ _ _ _ _ Ko from from (le_n _) (le_n _) Ft) as [_ [_ _ R]]. cbn [ed_root blended] in R. lia. }
  assert (I0 : forall i, from <= i -> i <= upto -> In (b0, m0) (pb_roots (P i)) /\ (rm_version m0 <= rm_version (ed_root (eds i)))%N).
  { intros i A B. destruct (Bl i i A (le_n _) B) as (m1 & s1 & rest1 & b1 & _ & _ & _ & _ & _ & _ & E1 & B1 & _ & I1 & V1).
    destruct (ko_roots _ _ _ _ _ _ _ _ _ _ Ko from i (le_n _) A B) as (more & Q). rewrite E0, E1 in Q. inversion Q; subst.
    rewrite B0 in B1. inversion B1; subst. auto. }
  (* the client's directory *)
  destruct (C79_new_keeps_apart _ _ _ _ Sl New) as (Sd0 & Cd0 & Dm & Dt & _).
  destruct (fs_new_shape _ _ _ _ Sl New) as [Qr Nd]. subst rl. cbn [fr_metadata fr_targets] in Dm, Dt.
  set (rl := mkFsRepo ("metadata" :: local) ("targets" :: local)) in *.
  destruct (last_root d0 ("metadata" :: local)) as (top & Top).
  destruct (memory_of local d0 top Top) as (mem & Mem & _).
  assert (DL : disk_like local d0 mem).
  { split; [exact Sd0|]. split; [exact Dm|]. split; [|exact Mem]. intros f Hf Hd. apply (Cl f Hf). now apply Nd. }
  assert (Start : forall tr q l, exec (construct E cfg fuel (FromRoot b0)) tr q -> on_disk rl d0 tr l ->
    l = d0 /\ Forall quiet tr /\ q <> Panic /\ q <> OutOfFuel /\
    forall x, q = Ret x -> exists t, x = Ok t /\ reachable E t /\ (rm_version m0 <= rm_version (t_root t))%N /\
      forall i j, from <= i -> i <= j -> j <= upto -> not_ahead (mixed (P i) (P j)) t).
  { intros tr q l X M. pose proof (construct_reads _ _ _ _ _ _ X) as Rd. pose proof (reads_disk _ _ _ _ Rd M) as ->.
    split; [reflexivity|]. split; [now apply reads_quiet|].
    assert (G : forall i j, from <= i -> i <= j -> j <= upto -> q <> Panic /\ q <> OutOfFuel /\
      forall x, q = Ret x -> exists t, x = Ok t /\ not_ahead (mixed (P i) (P j)) t /\ reachable E t /\ (rm_version m0 <= rm_version (t_root t))%N).
    2: { destruct (G from from (le_n _) (le_n _) Ft) as (G1 & G2 & G3). split; [exact G1|]. split; [exact G2|].
         intros x Q. destruct (G3 x Q) as (t & -> & _ & Re & V). exists t. split; [reflexivity|]. split; [exact Re|]. split; [exact V|].
         intros i j A B D. destruct (G i j A B D) as (_ & _ & G4). destruct (G4 _ Q) as (t' & Q' & NA & _). inversion Q'; subst. exact NA. }
    intros i j A B D. destruct (Bl i j A B D) as (_ & _ & _ & _ & OK & In1 & In2 & _).
    destruct (I0 i A (Nat.le_trans _ _ _ B D)) as [Ib Vi].
    apply (construct_starts E cfg (mixed (P i) (P j)) (fun raw => exists f, cache_file f /\ content dl (f :: "metadata" :: local) = Some raw)) with fuel b0 tr; auto.
    - apply OK.
    - apply OK.
    - intros raw r1 raw' r2 Ir (f & Cf & Co) St. destruct (In1 _ _ Ir) as (s1 & J & _).
      destruct (proj1 (Nn i j A B D f raw' Cf Co) r1 s1 r2 J St) as (s2 & J2). destruct (In2 _ _ J2) as (raw2 & K2 & _). now exists raw2.
    - intros raw ts (f & Cf & Co) Tr'. exact (proj1 (proj2 (Nn i j A B D f raw Cf Co)) ts Tr').
    - intros raw s (f & Cf & Co) Tr'. exact (proj1 (proj2 (proj2 (Nn i j A B D f raw Cf Co))) s Tr').
    - intros raw g (f & Cf & Co) Tr'. exact (proj2 (proj2 (proj2 (Nn i j A B D f raw Cf Co))) g Tr').
    - exact (Fu i A (Nat.le_trans _ _ _ B D)).
    - intros pa v max hash ans I Ca raw Aw. exists (file_of v pa). split; [apply top_file_of; now left|].
      rewrite <- Cd0. exact (reads_answers local d0 mem tr d0 DL Rd M pa v max hash ans I Ca raw Aw). }
  assert (Sub : exists sub, walk ("targets" :: local) (split_slash path) = sub ++ "targets" :: local /\ sub <> []).
  { destruct (place_below rl (EpTarget path []) Ap) as (sub & N1 & N2). exists sub. split; [|exact N1].
    exact (eq_trans (proj1 (place_iff rl (EpTarget path []) _ Ap) eq_refl) N2). }
  destruct Sub as (sub & Esub & Nsub).
  assert (Fw0 : free_way d0 (sub ++ "targets" :: local)).
  { rewrite Esub in Fw. exact (new_keeps_way _ _ _ _ Sl New sub Nsub Fw). }
  (* the servers *)
  assert (WG : forall tr i k l l', timed (served_at serving h) i tr k -> from <= i -> k <= upto -> on_disk rl l tr l' -> forall m, disk_like local l (mem_at mem m) ->
             (forall e, In e tr -> top_event e) -> during P i i tr k).
  { intros tr i k l l' F A B M m Dk Te.
    destruct (on_disk_mem local l tr l' M mem m Dk (fun e I => top_fine harmless e (Te e I))) as [Al _].
    eapply timed_mono; [|exact F]. intros j e Aj Bj I De. specialize (Te e I).
    destruct e as [s pa v max hash ans|pa v b ans|pa de ans|pa rs' ans|b ans|c|t]; try exact Logic.I.
    - destruct s; [exact Logic.I|]. destruct De as (server & Sv & ->). cbn [event_at].
      destruct (web_offers C o cfg eds pub1 r ops from upto path data bld h Ko S1 Ao j server ltac:(lia) ltac:(lia) Sv pa v) as (O1 & O2 & O3 & O4).
      split; [exact O1|]. split; [exact O2|]. split; intros j' A'; [apply O3|apply O4]; lia.
    - apply in_split in I as (pre & post & ->). exact (Al pre _ post eq_refl Te). }
  assert (Dn : forall i j k3 k5 t, from <= i -> i <= j -> j <= k3 -> k5 <= upto -> up_to_date (mixed (P i) (P j)) t ->
     forall w tr q l l', exec (if w : bool then fetch_target_to_writer E cfg fuel t path else fetch_target E cfg fuel t path) tr q ->
       timed (served_at serving h) k3 tr k5 -> on_disk rl l tr l' -> sound_disk l -> free_way l (sub ++ "targets" :: local) ->
       q <> Panic /\ q <> OutOfFuel /\
       forall t' r, q = Ret (t', r) -> t' = t /\ r = Ok tt /\
         (if w then SpecClient.written tr = data j else content l' (walk ("targets" :: local) (split_slash path)) = Some (data j))).
  { intros i j k3 k5 t A B D K (U1 & U2 & U3 & U4) w tr q l l' X F M Sd Fr. pose proof (timed_le _ _ _ _ F) as L35.
    destruct (ko_target _ _ _ _ _ _ _ _ _ _ Ko j) as (name & (virt & desc & algs & rs & Tr & Lk & CO & TD & L64 & Pl & NP) & LT); [lia..|].
    destruct (target_described C rs algs desc (data j) CO TD L64) as (TA & TP).
    assert (An : acceptable_path name /\ ~ names_directory (EpTarget name [])).
    { destruct Pl as (alg & _ & Pl). exact (prefixed_name path _ name Ap Ns Pl). }
    destruct An as [An Nnd].
    assert (Li : listed cfg t path desc).
    { exists (ed_targets (eds j)), virt. rewrite U4. auto. }
    assert (TPl : target_place t path desc name).
    { unfold target_place. rewrite U1. cbn [mixed pb_root P publication_of].
      rewrite (ko_consistent _ _ _ _ _ _ _ _ _ _ Ko i); [|lia..].
      destruct Pl as (alg & P1 & P2). exists alg, (ring_digest C alg (data j)). auto. }
    assert (Sn : t_snapshot t <> None) by (rewrite U3; discriminate).
    destruct (C76_honest_downloads E cfg fuel t path name desc (data j) Fu0 Sn Li TPl TA L64) as (D1 & _ & D3 & _).
    rewrite <- Esub in Fr.
    assert (G : Forall (good_download name (data j)) tr).
    { apply Forall_forall. intros e I. destruct (timed_in _ _ _ _ F e I) as (k & Ka & Kb & De).
      destruct e as [s pa v max hash ans|pa v b ans|pa de ans|pa rs' ans|b ans|c|t1]; try exact Logic.I.
      - destruct De as (server & Sv & ->). intros ->.
        pose proof (proj2 (C80_mirror_partial (disk_at r pub1 ops k) bld r h server Sv) name [] _ An NP eq_refl Nnd) as G.
        assert (Ao' : forall x, In x (firstn k ops) -> acceptable_path (op_path x)).
        { intros x J. apply Ao. rewrite <- (firstn_skipn k ops). apply in_or_app. now left. }
        pose proof (last_at_content r pub1 (firstn k ops) S1 Ao' _ _ (LT k ltac:(lia) ltac:(lia))) as Cn.
        change (fst (fs_run r pub1 (firstn k ops))) with (disk_at r pub1 ops k) in Cn. rewrite Cn in G. exact G.
      - destruct w.
        + exfalso. exact (writer_stores_nothing _ _ _ _ _ _ _ X _ I).
        + destruct (fetch_stores_once _ _ _ _ _ _ _ X _ _ _ I) as (-> & pa' & de' & ans' & ->).
          inversion M as [|? ? l1 ? ? M1 M2]; subst. cbn in M1. subst l1. inversion M2 as [|? ? l2 ? ? M3 M4]; subst.
          destruct M3 as [_ M3]. intros (b & Cb). exact (proj1 (store_arrives local l path rs' l2 ans b Sd Ap Ns Fr Cb M3)).
      - exact De. }
    destruct w.
    - destruct (D3 tr q X G) as (G1 & G2 & G3). split; [exact G1|]. split; [exact G2|]. intros t' r' Q. exact (G3 t' r' Q).
    - destruct (D1 tr q X G) as (G1 & G2 & G3). split; [exact G1|]. split; [exact G2|]. intros t' r' Q.
      destruct (G3 t' r' Q) as (-> & -> & src & rs' & -> & CT). split; [reflexivity|]. split; [reflexivity|].
      inversion M as [|? ? l1 ? ? M1 M2]; subst. cbn in M1. subst l1. inversion M2 as [|? ? l2 ? ? M3 M4]; subst. inversion M4; subst.
      destruct M3 as [_ M3]. exact (proj2 (store_arrives local l path rs' l' (Ok tt) (data j) Sd Ap Ns Fr CT M3)). }
  assert (Run : forall w tr q d1, exec (get_target E cfg fuel b0 path w) tr q -> timed (served_at serving h) from tr upto ->
     (forall c, In (EvNow c) tr -> unexpired eds from upto c) -> on_disk rl d0 tr d1 ->
     q <> Panic /\ q <> OutOfFuel /\
     forall res, q = Ret res ->
       exists i j changed t, from <= i /\ i <= j /\ j <= upto /\
         res = Ok (changed, t) /\ trusts (blended (eds i) (eds j)) t /\
         (if w : bool then SpecClient.written tr = data j
          else content d1 (walk ("targets" :: local) (split_slash path)) = Some (data j)) /\
         exists tr1 tr2 t1, tr = tr1 ++ tr2 /\ exec (construct E cfg fuel (FromRoot b0)) tr1 (Ret (Ok t1)) /\
           (changed = false <-> trusts (blended (eds i) (eds j)) t1)).
  { intros w tr q l X F Cu M. unfold get_target in X.
    apply exec_bind_cases in X as [(p' & X & P1 & P2 & P3)|(a & tr1 & tr2 & -> & X1 & X2)].
    { destruct (Start tr p' l X M) as (_ & _ & N1 & N2 & _).
      split; [now apply P1|]. split; [now apply P2|]. intros r' Q. now apply P3 in Q. }
    apply timed_app in F as (k1 & F1 & F2). apply on_disk_app in M as (l1 & M1 & M2).
    pose proof (timed_le _ _ _ _ F1) as L1. pose proof (timed_le _ _ _ _ F2) as L2.
    destruct (Start tr1 (Ret a) l1 X1 M1) as (-> & Qu1 & _ & _ & N3).
    destruct (N3 a eq_refl) as (t1 & -> & Re & Vt & NA). clear N3 M1. rewrite written_app, (quiet_written _ Qu1). cbn [append].
    assert (Fo : forall tr q k, exec (update E cfg fuel t1) tr q -> during P k1 k1 tr k -> k <= upto -> (forall c, In (EvNow c) tr -> unexpired eds from upto c) ->
      exists i j, k1 <= i /\ i <= j /\ j <= k /\ q <> Panic /\ q <> OutOfFuel /\ forall t' r, q = Ret (t', r) ->
        up_to_date (mixed (P i) (P j)) t' /\ exists b, r = Ok b /\ (b = false <-> up_to_date (mixed (P i) (P j)) t1)).
    { intros tr q' k X D Lk Cu'.
      destruct (as_if_still E cfg P k1 k (series_part C o cfg eds pub1 r ops from upto path data Ko k1 k L1 Lk) fuel t1 tr q' X D)
        as (i & j & A & B & Dj & G).
      { intros c i J A B now Hn. exact (Cu' c J i now ltac:(lia) ltac:(lia) Hn). }
      destruct (C74_honest_repository_is_followed E cfg (mixed (P i) (P j)) fuel t1) as [Fo _];
        [destruct (Bl i j ltac:(lia) ltac:(lia) ltac:(lia)) as (_ & _ & _ & _ & OK & _); exact OK|exact Re|apply NA; lia| |].
      { pose proof (Fu i ltac:(lia) ltac:(lia)) as Fi. cbn [mixed pb_root P publication_of]. lia. }
      exists i, j. split; [exact A|]. split; [exact B|]. split; [exact Dj|]. exact (Fo tr q' X G). }
    apply exec_bind_cases in X2 as [(p' & X & P1 & P2 & P3)|([t r'] & tr3 & tr4 & -> & X3 & X4)].
    { destruct (Fo tr2 p' upto X (WG _ _ _ _ _ F2 L1 (le_n _) M2 [] DL (update_stores E cfg fuel _ _ _ X)) (le_n _)) as (i & j & _ & _ & _ & N1 & N2 & _).
      { intros c J. apply Cu. apply in_or_app. now right. }
      split; [now apply P1|]. split; [now apply P2|]. intros r' Q. now apply P3 in Q. }
    apply timed_app in F2 as (k3 & F3 & F4). apply on_disk_app in M2 as (l3 & M3 & M4).
    pose proof (timed_le _ _ _ _ F4) as L4.
    pose proof (update_stores E cfg fuel _ _ _ X3) as Te.
    destruct (Fo tr3 _ k3 X3 (WG _ _ _ _ _ F3 L1 L4 M3 [] DL Te) L4) as (i & j & Ai & Bi & Dj & _ & _ & N3).
    { intros c J. apply Cu. apply in_or_app. right. apply in_or_app. now left. }
    destruct (N3 t r' eq_refl) as (U & b & -> & Hb). clear N3. apply update_exec_quiet in X3 as Qu3.
    rewrite written_app, (quiet_written _ Qu3). cbn [append].
    destruct (on_disk_keeps _ _ _ _ M3) as [Sl3 _]; [discriminate|discriminate|exact Sd0|].
    pose proof (update_keeps_way local _ _ _ M3 Sd0 Te Qu3 sub Fw0) as Fw3.
    apply exec_bind_cases in X4 as [(p' & X & P1 & P2 & P3)|([t' r'] & tr5 & tr6 & -> & X5 & X6)].
    { destruct (Dn i j k3 upto t ltac:(lia) Bi Dj (le_n _) U w tr4 p' l3 l X F4 M4 Sl3 Fw3) as (N1 & N2 & _).
      split; [now apply P1|]. split; [now apply P2|]. intros r' Q. now apply P3 in Q. }
    apply timed_app in F4 as (k5 & F5 & F6). apply on_disk_app in M4 as (l5 & M5 & M6). pose proof (timed_le _ _ _ _ F6) as L6.
    destruct (Dn i j k3 k5 t ltac:(lia) Bi Dj L6 U w tr5 _ l3 l5 X5 F5 M5 Sl3 Fw3) as (_ & _ & N3). destruct (N3 t' r' eq_refl) as (-> & -> & G).
    inversion X6; subst. inversion M6; subst. split; [discriminate|]. split; [discriminate|]. intros r' Q. inversion Q; subst.
    exists i, j, b, t. split; [lia|]. split; [exact Bi|]. split; [lia|]. split; [reflexivity|]. split; [exact U|].
    rewrite app_nil_r. split; [exact G|]. exists tr1, (tr3 ++ tr5), t1. split; [reflexivity|]. split; [exact X1|exact Hb]. }
  split; [exact Run|]. intros w k server c Ka Kb Sv Un.
  destruct (world_total (fun p v => snd (http_fetch_metadata server h p v)) (fun p => snd (http_fetch_target server h p)) c rl
              (get_target E cfg fuel b0 path w) [] d0 (get_target_stores E cfg fuel b0 path w [] Ap))
    as (tr & q & l & X & F & M & Ov).
  assert (F' : timed (served_at serving h) from tr upto).
  { apply timed_later with k; [exact Ka|]. apply timed_at with upto; [|exact Kb|constructor].
    eapply Forall_impl; [|exact F]. intros e De. destruct e as [[] pa v max hash ans| |pa de ans| | | | ]; cbn in De |- *; try exact Logic.I; try exact De;
      exists server; auto. }
  assert (Cu : forall c', In (EvNow c') tr -> unexpired eds from upto c').
  { intros c' J. pose proof (proj1 (Forall_forall _ _) F _ J) as De. cbn in De. subst c'. exact Un. }
  destruct (Run w tr q l X F' Cu M) as (N1 & N2 & N3).
  destruct q; try contradiction. eexists tr, _, l. eauto.
Qed.
Print Assumptions C97_ongoing.

(** How to get there: a publisher that takes care keeps the directory in order. *)
Theorem C97_careful_publisher :
  forall (C : crypto) (cfg : config) (disk0 : disk) (r : fs_repo) (from : nat) (path : string)
         (ops : list ephemeral_op) (eds : nat -> edition) (data : nat -> bytes) (names : nat -> string),
  careful C cfg disk0 r from path ops eds data names ->
  from <= length ops /\ kept_in_order C cfg eds disk0 r ops from (length ops) path data.
Proof.
  intros C cfg disk0 r from path ops eds data names K. destruct (careful_kept _ _ _ _ _ _ _ _ _ _ K) as (L & Ko & _). auto.
Qed.
Print Assumptions C97_careful_publisher.

(** The publisher of [C94_case] goes on: a new file takes the place of "hello", then come the
    targets, a store of the snapshot that fails, one that succeeds, the timestamp, and a third root. *)
Definition c97_targets : targets_metadata :=
  the (mkTargets 0 0 [] None) (rbind (gb_run checksums (gb_new 0)
    [GoVersion 4; GoExpires new_year; GoReader "bin/tool" [Ready "hello, "; Ready "world"] [Sha256]]) gb_build).
Definition c97_snapshot : snapshot_metadata :=
  the (mkSnapshot 0 0 []) (rbind (nb_run checksums (nb_new 0)
    [NoVersion 3; NoExpires new_year; NoInsert FJson Targets (one_by Targets c97_targets sk_g) [Sha256]]) nb_build).
Definition c97_timestamp : timestamp_metadata :=
  the (mkTimestamp 0 0 no_desc) (rbind (tb_from_snapshot checksums FJson 0 (one_by Snapshot c97_snapshot sk_s) [Sha512])
    (fun b => tb_build (fold_left tb_apply [ToVersion 8; ToExpires new_year] b))).
Definition c97_root3 : root_metadata :=
  the no_root (rb_build (fold_left rb_apply [RoVersion 3; RoConsistent true; RoThreshold Root 2; RoKey Root key_r; RoKey Root key_d;
    RoKey Snapshot key_s; RoKey Targets key_g; RoKey Timestamp key_t; RoExpires new_year] (rb_new 0))).
Definition c97_signed_root3 : signed_metadata := fst (add_signature (one_by Root c97_root3 sk_r) sk_d 0).
Definition c97_docs (l : list (root_metadata * signed_metadata)) (m : root_metadata) : edition :=
  mkEdition l m c97_timestamp (one_by Timestamp c97_timestamp sk_t) c97_snapshot (one_by Snapshot c97_snapshot sk_s)
    c97_targets (one_by Targets c97_targets sk_g).
Definition c97_two : list (root_metadata * signed_metadata) := [(c73_root, c73_signed_root); (c90_root2, c90_signed_root2)].
Definition c97_edition2 : edition := c97_docs c97_two c90_root2.
Definition c97_edition3 : edition := c97_docs (c97_two ++ [(c97_root3, c97_signed_root3)]) c97_root3.
Definition c97_place : string := the "" (with_hash_prefix "bin/tool" (ring_digest checksums Sha256 "hello, world")).

Definition c97_op1 := EpTarget c97_place [Ready "hello, world"].
Definition c97_op2 := EpMetadata "targets" (VNumber 4) [Ready (bytes_of (one_by Targets c97_targets sk_g))].
Definition c97_op3 := EpMetadata "snapshot" (VNumber 3) [Ready "part"; Failed IoOther].
Definition c97_op4 := EpMetadata "snapshot" (VNumber 3) [Ready (bytes_of (one_by Snapshot c97_snapshot sk_s))].
Definition c97_op5 := EpMetadata "timestamp" VNone [Ready (bytes_of (one_by Timestamp c97_timestamp sk_t))].
Definition c97_op6 := EpMetadata "root" (VNumber 3) [Ready (bytes_of c97_signed_root3)].
Definition c97_ops : list ephemeral_op := (((((c90_ops ++ [c97_op1]) ++ [c97_op2]) ++ [c97_op3]) ++ [c97_op4]) ++ [c97_op5]) ++ [c97_op6].

Lemma c97_published :
  published checksums Root c97_root3 (map toy_private [key_d; key_r]) c97_signed_root3 /\
  published checksums Timestamp c97_timestamp (map toy_private [key_t]) (one_by Timestamp c97_timestamp sk_t) /\
  published checksums Snapshot c97_snapshot (map toy_private [key_s]) (one_by Snapshot c97_snapshot sk_s) /\
  published checksums Targets c97_targets (map toy_private [key_g]) (one_by Targets c97_targets sk_g).
Proof.
  assert (K : forall l, (forall k, In k l -> In k [key_r; key_t; key_s; key_g; key_d]) -> Forall (working_key checksums) (map toy_private l)).
  { intros l I. apply Forall_forall. intros x J. apply in_map_iff in J as (k & <- & J). apply toy_works, I, J. }
  split. { apply published_one; [vm_compute; reflexivity|apply K; cbn [In]; tauto|vm_compute; reflexivity|vm_compute; reflexivity|vm_compute; reflexivity|vm_compute; reflexivity|].
    apply (ma_add checksums Root _ [sk_r] (one_by Root c97_root3 sk_r) sk_d 0%N); [|vm_compute; reflexivity].
    apply (ma_new checksums Root _ c97_root3 _ 0%N); vm_compute; reflexivity. }
  split. { apply published_one; [vm_compute; reflexivity|apply K; cbn [In]; tauto|vm_compute; reflexivity|vm_compute; reflexivity|vm_compute; reflexivity|vm_compute; reflexivity|].
    apply (ma_new checksums Timestamp _ c97_timestamp _ 0%N); vm_compute; reflexivity. }
  split. { apply published_one; [vm_compute; reflexivity|apply K; cbn [In]; tauto|vm_compute; reflexivity|vm_compute; reflexivity|vm_compute; reflexivity|vm_compute; reflexivity|].
    apply (ma_new checksums Snapshot _ c97_snapshot _ 0%N); vm_compute; reflexivity. }
  apply published_one; [vm_compute; reflexivity|apply K; cbn [In]; tauto|vm_compute; reflexivity|vm_compute; reflexivity|vm_compute; reflexivity|vm_compute; reflexivity|].
  apply (ma_new checksums Targets _ c97_targets _ 0%N); vm_compute; reflexivity.
Qed.
Lemma c97_roles : (rm_keys c90_root2 = rm_keys c73_root /\ forall r, role_def_of c90_root2 r = role_def_of c73_root r) /\
  (rm_keys c97_root3 = rm_keys c73_root /\ forall r, role_def_of c97_root3 r = role_def_of c73_root r).
Proof. split; (split; [vm_compute; reflexivity|]); intros []; vm_compute; reflexivity. Qed.
Lemma same_signers m m' r ks : rm_keys m' = rm_keys m /\ (forall r, role_def_of m' r = role_def_of m r) ->
  sufficient_for m r ks -> signers_for m' r ks.
Proof. intros [Q1 Q2] H. unfold signers_for. rewrite Q1, Q2. exact H. Qed.
Lemma c97_described :
  describe_signed checksums FJson (one_by Snapshot c97_snapshot sk_s) [Sha512] = Ok (tm_snapshot c97_timestamp) /\
  exists dg, describe_signed checksums FJson (one_by Targets c97_targets sk_g) [Sha256] = Ok dg /\ lookup "targets" (sm_meta c97_snapshot) = Some dg.
Proof.
  split; [vm_compute; reflexivity|].
  exists (the no_desc (describe_signed checksums FJson (one_by Targets c97_targets sk_g) [Sha256])). split; vm_compute; reflexivity.
Qed.
Lemma c97_line2 : signed_line checksums c97_two c90_root2.
Proof. exact (wm_roots _ _ (proj1 C90_case)). Qed.
Lemma c97_line3 : signed_line checksums (c97_two ++ [(c97_root3, c97_signed_root3)]) c97_root3.
Proof.
  destruct C73_case as (_ & _ & _ & _ & S1 & _). destruct c97_roles as [R2 R3].
  apply (signed_next checksums c97_two c90_root2 c97_root3 (map toy_private [key_d; key_r]) c97_signed_root3 c97_line2).
  - exact (proj1 c97_published).
  - exact (same_signers _ _ _ _ R2 S1).
  - exact (same_signers _ _ _ _ R3 S1).
  - vm_compute. reflexivity.
Qed.
Lemma c97_made l m : signed_line checksums l m -> rm_keys m = rm_keys c73_root /\ (forall r, role_def_of m r = role_def_of c73_root r) ->
  well_made checksums (c97_docs l m).
Proof.
  intros L R. destruct C73_case as (_ & _ & _ & _ & _ & S2 & S3 & S4 & _). destruct c97_published as (_ & P2 & P3 & P4). destruct c97_described as [D1 D2].
  split; cbn [ed_roots ed_root ed_timestamp ed_timestamp_doc ed_snapshot ed_snapshot_doc ed_targets ed_targets_doc c97_docs].
  - exact L.
  - exists (map toy_private [key_t]). split; [exact P2|exact (same_signers _ _ _ _ R S2)].
  - exists (map toy_private [key_s]). split; [exact P3|exact (same_signers _ _ _ _ R S3)].
  - exists (map toy_private [key_g]). split; [exact P4|exact (same_signers _ _ _ _ R S4)].
  - exists [Sha512]. exact D1.
  - exists [Sha256]. exact D2.
Qed.
Lemma c97_readable l m : Forall (fun x => (N.of_nat (String.length (bytes_of (snd x))) <=? 32768)%N = true) l -> (rm_version m <? u32_max)%N = true ->
  readable default_config (c97_docs l m).
Proof.
  intros F V.
  assert (G : forall s b, (N.of_nat (String.length (bytes_of s)) <=? 32768)%N = true -> to_raw s = Ok b ->
     (forall m, Some (1024 * 1024)%N = Some m \/ Some (32 * 1024)%N = Some m -> length_ok m b) /\ length_ok u64_max b).
  { intros s b L H. unfold bytes_of in L. rewrite H in L. cbn [the] in L. apply N.leb_le in L. unfold length_ok, u64_max. split; [|lia].
    intros m0 [M|M]; injection M as <-; lia. }
  split; cbn [ed_roots ed_root ed_timestamp_doc c97_docs].
  - intros m1 s b I H. pose proof (proj1 (Forall_forall _ _) F _ I) as L. destruct (G s b L H) as (G1 & G2). split; [|exact G2].
    intros x M. apply G1. left. exact M.
  - intros b H. assert (L : (N.of_nat (String.length (bytes_of (one_by Timestamp c97_timestamp sk_t))) <=? 32768)%N = true) by (vm_compute; reflexivity).
    destruct (G _ b L H) as (G1 & G2). split; [|exact G2]. intros x M. apply G1. right. exact M.
  - now apply N.ltb_lt.
Qed.
Lemma c97_readable2 : readable default_config c97_edition2.
Proof.
  apply c97_readable; [|vm_compute; reflexivity]. do 2 (apply Forall_cons; [vm_compute; reflexivity|]). apply Forall_nil.
Qed.
Lemma c97_readable3 : readable default_config c97_edition3.
Proof.
  apply c97_readable; [|vm_compute; reflexivity]. do 3 (apply Forall_cons; [vm_compute; reflexivity|]). apply Forall_nil.
Qed.

(** The steps, for the case: all editions so far are in a list. *)
Definition reached (ops : list ephemeral_op) (l : list (edition * bytes * string)) (d : edition) (dat : bytes) (nm : string) : Prop :=
  exists eds data names, careful checksums default_config c94_pub1 toy_disk_repo (length c90_ops) "bin/tool" ops eds data names /\
    (forall k, In (eds k, data k, names k) l) /\ eds (length ops) = d /\ data (length ops) = dat /\ names (length ops) = nm /\
    eds (length c90_ops) = c90_edition /\ data (length c90_ops) = "hello" /\ length c90_ops <= length ops.
Lemma then_parts {A B D} n (f : nat -> A) (g : nat -> B) (h : nat -> D) x y z (l : list (A * B * D)) :
  (forall k, In (f k, g k, h k) l) -> In (x, y, z) l -> forall k, In (and_then n f x k, and_then n g y k, and_then n h z k) l.
Proof. intros H I k. unfold and_then. destruct (Nat.leb k n); auto. Qed.
Lemma then_end {A} ops (x : ephemeral_op) f (a : A) : and_then (length ops) f a (length (ops ++ [x])) = a.
Proof. rewrite app_length. cbn. rewrite Nat.add_1_r. apply then_after. Qed.
Lemma longer (ops : list ephemeral_op) x n : n <= length ops -> n <= length (ops ++ [x]).
Proof. rewrite app_length. lia. Qed.

Lemma reached_failed ops l d dat nm x : reached ops l d dat nm ->
  is_ok (snd (fs_step toy_disk_repo (fst (fs_run toy_disk_repo c94_pub1 ops)) x)) = false -> reached (ops ++ [x]) l d dat nm.
Proof.
  intros (eds & data & names & Ca & In1 & <- & <- & <- & Q1 & Q2 & Le) F. do 3 eexists. split; [apply careful_failed; [exact Ca|]|].
  - intros Z. rewrite Z in F. discriminate F.
  - split; [apply then_parts; auto|]. rewrite !then_end, !then_before by exact Le. do 3 (split; [reflexivity|]). split; [exact Q1|]. split; [exact Q2|]. now apply longer.
Qed.
Lemma reached_other ops l d dat nm x : reached ops l d dat nm ->
  is_ok (path_new (op_path x)) = true ->
  Forall (fun y => op_place toy_disk_repo x <> (decimal (sm_version (ed_snapshot (fst (fst y)))) ++ ".snapshot.json")%string :: fr_metadata toy_disk_repo /\
    op_place toy_disk_repo x <> (decimal (tg_version (ed_targets (fst (fst y)))) ++ ".targets.json")%string :: fr_metadata toy_disk_repo /\
    op_place toy_disk_repo x <> walk (fr_targets toy_disk_repo) (split_slash (snd y))) l ->
  op_place toy_disk_repo x <> "timestamp.json" :: fr_metadata toy_disk_repo ->
  (forall v, op_place toy_disk_repo x <> (decimal v ++ ".root.json")%string :: fr_metadata toy_disk_repo) ->
  reached (ops ++ [x]) l d dat nm.
Proof.
  intros (eds & data & names & Ca & In1 & <- & <- & <- & Q1 & Q2 & Le) A F Nt Nr. do 3 eexists. split; [apply careful_other; [exact Ca|]|].
  - assert (Ac : acceptable_path (op_path x)).
    { destruct (path_new (op_path x)) eqn:X; [|discriminate A]. now apply path_new_iff in X as [_ X]. }
    intros n P. apply place_iff in P; [|exact Ac]. change (n = op_place toy_disk_repo x) in P. subst n. split; [|auto].
    intros (j & _ & _ & H). destruct (proj1 (Forall_forall _ _) F _ (In1 j)) as (F1 & F2 & F3). cbn [fst snd] in F1, F2, F3.
    destruct H as [H|[H|H]]; [exact (F1 H)|exact (F2 H)|exact (F3 H)].
  - split; [apply then_parts; auto|]. rewrite !then_end, !then_before by exact Le. do 3 (split; [reflexivity|]). split; [exact Q1|]. split; [exact Q2|]. now apply longer.
Qed.
Lemma reached_timestamp ops l d dat nm d' data' name' rs b : reached ops l d dat nm ->
  ed_roots d' = ed_roots d -> ed_root d' = ed_root d ->
  Forall (fun y => well_made checksums (blended (fst (fst y)) d') /\ readable default_config (blended (fst (fst y)) d')) l ->
  filed_as toy_disk_repo (snd (fs_run toy_disk_repo c94_pub1 ops)) (decimal (sm_version (ed_snapshot d')) ++ ".snapshot.json") (ed_snapshot_doc d') ->
  filed_as toy_disk_repo (snd (fs_run toy_disk_repo c94_pub1 ops)) (decimal (tg_version (ed_targets d')) ++ ".targets.json") (ed_targets_doc d') ->
  described_target checksums default_config d' "bin/tool" data' name' ->
  last_at toy_disk_repo (snd (fs_run toy_disk_repo c94_pub1 ops)) (walk (fr_targets toy_disk_repo) (split_slash name')) data' ->
  to_raw (ed_timestamp_doc d') = Ok b -> contains rs b None ->
  snd (fs_step toy_disk_repo (fst (fs_run toy_disk_repo c94_pub1 ops)) (EpMetadata "timestamp" VNone rs)) = Ok tt ->
  Forall (fun nm => walk (fr_targets toy_disk_repo) (split_slash nm) <> "timestamp.json" :: fr_metadata toy_disk_repo) (name' :: map snd l) ->
  reached (ops ++ [EpMetadata "timestamp" VNone rs]) (l ++ [(d', data', name')]) d' data' name'.
Proof.
  intros (eds & data & names & Ca & In1 & <- & <- & <- & Q1 & Q2 & Le) E1 E2 F Fs Fg De La Tb CT St Nn. inversion Nn as [|? ? N1 N2]; subst.
  do 3 eexists. split; [apply (careful_timestamp _ _ _ _ _ _ _ _ _ _ d' data' name' rs b Ca E1 E2); try assumption|].
  - intros i _ _. exact (proj1 (Forall_forall _ _) F _ (In1 i)).
  - intros j _ _. apply (proj1 (Forall_forall _ _) N2). apply (in_map snd) with (x := (eds j, data j, names j)). apply In1.
  - split; [apply then_parts; [intros k; apply in_or_app; left; apply In1|apply in_or_app; right; now left]|].
    rewrite !then_end, !then_before by exact Le. do 3 (split; [reflexivity|]). split; [exact Q1|]. split; [exact Q2|]. now apply longer.
Qed.
Lemma reached_root ops l d dat nm m s rs b v d' : reached ops l d dat nm -> rm_version m = v ->
  d' = mkEdition (ed_roots d ++ [(m, s)]) m (ed_timestamp d) (ed_timestamp_doc d) (ed_snapshot d) (ed_snapshot_doc d)
              (ed_targets d) (ed_targets_doc d) ->
  rm_consistent m = true -> well_made checksums d' -> readable default_config d' -> to_raw s = Ok b -> contains rs b None ->
  snd (fs_step toy_disk_repo (fst (fs_run toy_disk_repo c94_pub1 ops)) (EpMetadata "root" (VNumber v) rs)) = Ok tt ->
  Forall (fun nm => walk (fr_targets toy_disk_repo) (split_slash nm) <> (decimal v ++ ".root.json")%string :: fr_metadata toy_disk_repo) (map snd l) ->
  reached (ops ++ [EpMetadata "root" (VNumber v) rs]) (l ++ [(d', dat, nm)]) d' dat nm.
Proof.
  intros (eds & data & names & Ca & In1 & <- & <- & <- & Q1 & Q2 & Le) <- -> Co W R Sb CT St Nn.
  do 3 eexists. split; [apply (careful_root _ _ _ _ _ _ _ _ _ _ m s rs b Ca Co W R Sb CT St)|].
  - intros j _ _. apply (proj1 (Forall_forall _ _) Nn). apply (in_map snd) with (x := (eds j, data j, names j)). apply In1.
  - split; [apply then_parts; [intros k; apply in_or_app; left; apply In1|apply in_or_app; right; now left]|].
    rewrite !then_end, !then_before by exact Le. do 3 (split; [reflexivity|]). split; [exact Q1|]. split; [exact Q2|]. now apply longer.
Qed.

Lemma other_name (a b : file_name) : eqb a b = false -> a <> b.
Proof. intros H ->. rewrite eqb_refl in H. discriminate H. Qed.
Lemma filed_by ops k o n s :
  forallb (fun o => is_ok (path_new (op_path o))) ops = true ->
  nth_error ops k = Some o -> input o = [Ready (bytes_of s)] -> is_ok (to_raw s) = true ->
  nth_error (map (fun x => is_ok (snd x)) (snd (fs_run toy_disk_repo c94_pub1 ops))) k = Some true ->
  op_place toy_disk_repo o = n :: fr_metadata toy_disk_repo ->
  forallb (fun o => negb (eqb (op_place toy_disk_repo o) (n :: fr_metadata toy_disk_repo))) (skipn (S k) ops) = true ->
  filed_as toy_disk_repo (snd (fs_run toy_disk_repo c94_pub1 ops)) n s.
Proof.
  intros A K I R Y P Z. destruct (raw_complete s R) as (b & B & Cb). exists b. split; [exact B|].
  apply (log_last toy_disk_repo c94_pub1 ops k o _ b A K Y P); [rewrite I; exact Cb|exact Z].
Qed.
Lemma c97_described_old : described_target checksums default_config c90_edition "bin/tool" "hello" c90_place.
Proof.
  exists "bin/tool", (the (mkTargetDesc 0 [] None) (target_from_reader checksums [Ready "hel"; Ready "lo"] [Sha256])), [Sha256], [Ready "hel"; Ready "lo"].
  split; [vm_compute; reflexivity|]. split; [vm_compute; reflexivity|]. split.
  { apply (contains_data "hel" [Ready "lo"] "lo" None); [discriminate|]. apply (contains_data "lo" [] "" None); [discriminate|constructor]. }
  split; [vm_compute; reflexivity|]. split; [vm_compute; discriminate|]. split.
  { exists Sha256. split; [|vm_compute; reflexivity]. right. split; [reflexivity|]. split; vm_compute; reflexivity. }
  apply char_free. vm_compute. reflexivity.
Qed.
Lemma c97_described_new l m : described_target checksums default_config (c97_docs l m) "bin/tool" "hello, world" c97_place.
Proof.
  exists "bin/tool", (the (mkTargetDesc 0 [] None) (target_from_reader checksums [Ready "hello, "; Ready "world"] [Sha256])), [Sha256], [Ready "hello, "; Ready "world"].
  split; [vm_compute; reflexivity|]. split; [vm_compute; reflexivity|]. split.
  { apply (contains_data "hello, " [Ready "world"] "world" None); [discriminate|]. apply (contains_data "world" [] "" None); [discriminate|constructor]. }
  split; [vm_compute; reflexivity|]. split; [vm_compute; discriminate|]. split.
  { exists Sha256. split; [|vm_compute; reflexivity]. right. split; [reflexivity|]. split; vm_compute; reflexivity. }
  apply char_free. vm_compute. reflexivity.
Qed.

Definition c97_old : edition * bytes * string := (c90_edition, "hello", c90_place).
Definition c97_new : edition * bytes * string := (c97_edition2, "hello, world", c97_place).
Definition c97_last : edition * bytes * string := (c97_edition3, "hello, world", c97_place).
Lemma c97_start : reached c90_ops [c97_old] c90_edition "hello" c90_place.
Proof.
  destruct C94_case as (W & _ & _ & _ & F & _ & R & _).
  exists (fun _ => c90_edition), (fun _ => "hello"), (fun _ => c90_place). split.
  - apply careful_start; [reflexivity|vm_compute; reflexivity|exact W|exact R|exact F|exact c97_described_old|].
    apply (log_last toy_disk_repo c94_pub1 c90_ops 2 (EpTarget c90_place [Ready "he"; Pending; Ready "llo"]) _ "hello" c94_acceptable).
    + reflexivity.
    + vm_compute. reflexivity.
    + vm_compute. reflexivity.
    + apply (contains_data "he" [Pending; Ready "llo"] "llo" None); [discriminate|]. constructor.
      apply (contains_data "llo" [] "" None); [discriminate|constructor].
    + vm_compute. reflexivity.
  - split; [intros k; now left|]. do 5 (split; [reflexivity|]). apply le_n.
Qed.
Lemma c97_step1 : reached (c90_ops ++ [c97_op1]) [c97_old] c90_edition "hello" c90_place.
Proof.
  apply reached_other; [exact c97_start|vm_compute; reflexivity| | |].
  - apply Forall_cons; [|apply Forall_nil]. split; [|split]; apply other_name; vm_compute; reflexivity.
  - apply other_name. vm_compute. reflexivity.
  - intros v Q. assert (L : length (op_place toy_disk_repo c97_op1) = 4) by (vm_compute; reflexivity). rewrite Q in L. discriminate L.
Qed.
Lemma c97_step2 : reached ((c90_ops ++ [c97_op1]) ++ [c97_op2]) [c97_old] c90_edition "hello" c90_place.
Proof.
  apply reached_other; [exact c97_step1|vm_compute; reflexivity| | |].
  - apply Forall_cons; [|apply Forall_nil]. split; [|split]; apply other_name; vm_compute; reflexivity.
  - apply other_name. vm_compute. reflexivity.
  - intros v Q. assert (L : op_place toy_disk_repo c97_op2 = (decimal 4 ++ ".targets.json")%string :: fr_metadata toy_disk_repo) by (vm_compute; reflexivity).
    rewrite L in Q. apply (f_equal (hd "")) in Q. cbn [hd] in Q. apply numbered_apart in Q as [_ Q]. discriminate Q.
Qed.
Lemma c97_step3 : reached (((c90_ops ++ [c97_op1]) ++ [c97_op2]) ++ [c97_op3]) [c97_old] c90_edition "hello" c90_place.
Proof. apply reached_failed; [exact c97_step2|vm_compute; reflexivity]. Qed.
Lemma c97_step4 : reached ((((c90_ops ++ [c97_op1]) ++ [c97_op2]) ++ [c97_op3]) ++ [c97_op4]) [c97_old] c90_edition "hello" c90_place.
Proof.
  apply reached_other; [exact c97_step3|vm_compute; reflexivity| | |].
  - apply Forall_cons; [|apply Forall_nil]. split; [|split]; apply other_name; vm_compute; reflexivity.
  - apply other_name. vm_compute. reflexivity.
  - intros v Q. assert (L : op_place toy_disk_repo c97_op4 = (decimal 3 ++ ".snapshot.json")%string :: fr_metadata toy_disk_repo) by (vm_compute; reflexivity).
    rewrite L in Q. apply (f_equal (hd "")) in Q. cbn [hd] in Q. apply numbered_apart in Q as [_ Q]. discriminate Q.
Qed.
Lemma c97_nth a b c d : let l := (((c90_ops ++ [a]) ++ [b]) ++ [c]) ++ [d] in nth_error l 8 = Some a /\ nth_error l 9 = Some b /\ nth_error l 11 = Some d.
Proof. auto. Qed.
Lemma docs_parts l m a b c d e f : let x := mkEdition l m a b c d e f in
  (ed_snapshot x = c /\ ed_snapshot_doc x = d) /\ ed_targets x = e /\ ed_targets_doc x = f.
Proof. auto. Qed.
Lemma c97_parts : (ed_snapshot c97_edition2 = c97_snapshot /\ ed_snapshot_doc c97_edition2 = one_by Snapshot c97_snapshot sk_s) /\
  ed_targets c97_edition2 = c97_targets /\ ed_targets_doc c97_edition2 = one_by Targets c97_targets sk_g.
Proof. exact (docs_parts c97_two c90_root2 _ _ _ _ _ _). Qed.
Lemma c97_step5 : reached (((((c90_ops ++ [c97_op1]) ++ [c97_op2]) ++ [c97_op3]) ++ [c97_op4]) ++ [c97_op5]) [c97_old; c97_new] c97_edition2 "hello, world" c97_place.
Proof.
  assert (R : exists b, to_raw (one_by Timestamp c97_timestamp sk_t) = Ok b /\ contains [Ready (bytes_of (one_by Timestamp c97_timestamp sk_t))] b None).
  { apply raw_complete. vm_compute. reflexivity. }
  destruct R as (b & B & CT).
  apply (reached_timestamp _ [c97_old] c90_edition "hello" c90_place c97_edition2 "hello, world" c97_place _ b c97_step4); [reflexivity|reflexivity| | | | | |exact B|exact CT|vm_compute; reflexivity|].
  - apply Forall_cons; [|apply Forall_nil]. split; [exact (c97_made _ _ c97_line2 (proj1 c97_roles))|exact c97_readable2].
  - rewrite (proj1 (proj1 c97_parts)), (proj2 (proj1 c97_parts)). apply (filed_by _ 11 c97_op4); [vm_compute; reflexivity|apply c97_nth|reflexivity|vm_compute; reflexivity..].
  - rewrite (proj1 (proj2 c97_parts)), (proj2 (proj2 c97_parts)). apply (filed_by _ 9 c97_op2); [vm_compute; reflexivity|apply c97_nth|reflexivity|vm_compute; reflexivity..].
  - apply c97_described_new.
  - apply (log_last toy_disk_repo c94_pub1 _ 8 c97_op1); [vm_compute; reflexivity|apply c97_nth|vm_compute; reflexivity|vm_compute; reflexivity| |vm_compute; reflexivity].
    apply (contains_data "hello, world" [] "" None); [discriminate|constructor].
  - apply Forall_cons; [apply other_name; vm_compute; reflexivity|]. apply Forall_cons; [apply other_name; vm_compute; reflexivity|apply Forall_nil].
Qed.
Lemma docs_next l m m' s a b c d e f : let x := mkEdition l m a b c d e f in
  mkEdition (l ++ [(m', s)]) m' a b c d e f = mkEdition (ed_roots x ++ [(m', s)]) m' (ed_timestamp x) (ed_timestamp_doc x) (ed_snapshot x)
    (ed_snapshot_doc x) (ed_targets x) (ed_targets_doc x).
Proof. reflexivity. Qed.
Lemma c97_step6 : reached c97_ops [c97_old; c97_new; c97_last] c97_edition3 "hello, world" c97_place.
Proof.
  assert (R : exists b, to_raw c97_signed_root3 = Ok b /\ contains [Ready (bytes_of c97_signed_root3)] b None).
  { apply raw_complete. vm_compute. reflexivity. }
  destruct R as (b & B & CT).
  apply (reached_root _ [c97_old; c97_new] c97_edition2 "hello, world" c97_place c97_root3 c97_signed_root3 [Ready (bytes_of c97_signed_root3)] b 3 c97_edition3 c97_step5);
    [vm_compute; reflexivity|exact (docs_next c97_two c90_root2 c97_root3 c97_signed_root3 _ _ _ _ _ _)|vm_compute; reflexivity|exact (c97_made _ _ c97_line3 (proj2 c97_roles))
    |exact c97_readable3|exact B|exact CT|vm_compute; reflexivity|].
  apply Forall_cons; [apply other_name; vm_compute; reflexivity|]. apply Forall_cons; [apply other_name; vm_compute; reflexivity|apply Forall_nil].
Qed.

(** The files of the client's are not ahead of any of the editions. *)
Lemma file_ok_of E b l m tv sv gv (d : edition) :
  (forall m1 s1 m', In (m1, s1) l -> root_step E m1 b m' -> exists s', In (m', s') l) ->
  rm_keys m = rm_keys c90_root2 /\ (forall r, role_def_of m r = role_def_of c90_root2 r) ->
  match verified E Timestamp b with Ok x => (tm_version x <? tv)%N | Err _ => true end = true ->
  match verified E Snapshot b with Ok x => (sm_version x <? sv)%N | Err _ => true end = true ->
  match verified E Targets b with Ok x => (tg_version x <? gv)%N | Err _ => true end = true ->
  ed_roots d = l -> ed_root d = m -> (tv <= tm_version (ed_timestamp d))%N -> (sv <= sm_version (ed_snapshot d))%N -> (gv <= tg_version (ed_targets d))%N ->
  file_ok E d b.
Proof.
  intros Rs [K1 K2] T S G <- <- Lt Ls Lg.
  assert (V : forall r x, trusted_by E (ed_root d) r b x -> verified E r b = Ok x).
  { intros r x H. apply verify_trusted in H. rewrite K1, K2 in H. exact H. }
  split; [exact Rs|]. split; [|split].
  - intros ts H. rewrite (V _ _ H) in T. apply N.ltb_lt in T. split; [lia|]. intros Q. lia.
  - intros x H. rewrite (V _ _ H) in S. apply N.ltb_lt in S. intros Q. lia.
  - intros x H. rewrite (V _ _ H) in G. apply N.ltb_lt in G. intros Q. lia.
Qed.
Lemma no_step E m b : is_ok (snd (update_root E (tuf_of_root m) b)) = false -> forall m', root_step E m b m' -> False.
Proof.
  intros H m' St. rewrite (proj2 (update_root_ok E (tuf_of_root m) b (mkTuf m' None None None []))) in H; [discriminate H|].
  exists m'. split; [exact St|reflexivity].
Qed.
Definition c97_three := c97_two ++ [(c97_root3, c97_signed_root3)].
Lemma c97_steps l b : l = c97_two \/ l = c97_three ->
  is_ok (snd (update_root c95_env (tuf_of_root c73_root) b)) = false \/ trusted_by c95_env c90_root2 Root b c90_root2 ->
  is_ok (snd (update_root c95_env (tuf_of_root c90_root2) b)) = false -> is_ok (snd (update_root c95_env (tuf_of_root c97_root3) b)) = false ->
  forall m1 s1 m', In (m1, s1) l -> root_step c95_env m1 b m' -> exists s', In (m', s') l.
Proof.
  intros Hl R1 R2 R3 m1 s1 m' I St.
  assert (I2 : In (c90_root2, c90_signed_root2) l) by (destruct Hl as [-> | ->]; right; now left).
  assert (J : In (m1, s1) c97_three).
  { destruct Hl as [-> | ->]; [|exact I]. apply in_or_app. now left. }
  destruct J as [H|[H|[H|[]]]]; apply pair_parts in H as [<- _].
  - destruct R1 as [R1|R1]; [destruct (no_step _ _ _ R1 _ St)|]. exists c90_signed_root2.
    rewrite <- (authentic_fun _ _ _ _ _ _ _ _ _ R1 (proj1 St)). exact I2.
  - destruct (no_step _ _ _ R2 _ St).
  - destruct (no_step _ _ _ R3 _ St).
Qed.
Definition c97_known (d : edition) : Prop :=
  (ed_roots d = c97_two /\ ed_root d = c90_root2 \/ ed_roots d = c97_three /\ ed_root d = c97_root3) /\
  (7 <= tm_version (ed_timestamp d))%N /\ (2 <= sm_version (ed_snapshot d))%N /\ (3 <= tg_version (ed_targets d))%N.
Lemma same_roles m m' m0 : (rm_keys m = rm_keys m0 /\ forall r, role_def_of m r = role_def_of m0 r) /\
  (rm_keys m' = rm_keys m0 /\ forall r, role_def_of m' r = role_def_of m0 r) ->
  forall x, x = m \/ x = m' -> rm_keys x = rm_keys m /\ forall r, role_def_of x r = role_def_of m r.
Proof.
  intros [[A1 A2] [B1 B2]] x [-> | ->]; [auto|]. split; [now rewrite A1, B1|]. intros r. now rewrite A2, B2.
Qed.
Lemma or_left {A B C D : Prop} : A /\ B \/ C /\ D -> A \/ C.
Proof. tauto. Qed.
Lemma or_right {A B C D : Prop} : A /\ B \/ C /\ D -> B \/ D.
Proof. tauto. Qed.
Lemma c97_file d b : c97_known d ->
  is_ok (snd (update_root c95_env (tuf_of_root c73_root) b)) = false \/ trusted_by c95_env c90_root2 Root b c90_root2 ->
  is_ok (snd (update_root c95_env (tuf_of_root c90_root2) b)) = false -> is_ok (snd (update_root c95_env (tuf_of_root c97_root3) b)) = false ->
  match verified c95_env Timestamp b with Ok x => (tm_version x <? 7)%N | Err _ => true end = true ->
  match verified c95_env Snapshot b with Ok x => (sm_version x <? 2)%N | Err _ => true end = true ->
  match verified c95_env Targets b with Ok x => (tg_version x <? 3)%N | Err _ => true end = true ->
  file_ok c95_env d b.
Proof.
  intros (Hd & Lt & Ls & Lg) R1 R2 R3 T S G.
  exact (file_ok_of c95_env b (ed_roots d) (ed_root d) 7 2 3 d (c97_steps _ _ (or_left Hd) R1 R2 R3) (same_roles _ _ _ c97_roles _ (or_right Hd)) T S G eq_refl eq_refl Lt Ls Lg).
Qed.
Lemma c97_not_newer d : c97_known d -> not_newer c95_env d c95_local ["home"].
Proof.
  intros K f b _ Co. apply (find_file c95_local (c95_dir f) b (file_ok c95_env d)); [|exact Co]. rewrite c95_files.
  apply five_files; [exact (c95_elsewhere f)|..].
  - apply (c97_file _ _ K); [left|..]; vm_compute; reflexivity.
  - apply (c97_file _ _ K); [left|..]; vm_compute; reflexivity.
  - apply (c97_file _ _ K); [left|..]; vm_compute; reflexivity.
  - apply (c97_file _ _ K); [right; apply verify_trusted|..]; vm_compute; reflexivity.
Qed.
Lemma c97_all_known x y : In x [c97_old; c97_new; c97_last] -> In y [c97_old; c97_new; c97_last] -> c97_known (blended (fst (fst x)) (fst (fst y))).
Proof.
  intros Hx Hy. split.
  - destruct Hx as [<-|[<-|[<-|[]]]]; [left; split; reflexivity|left; split; reflexivity|right; split; reflexivity].
  - cbn [blended ed_timestamp ed_snapshot ed_targets]. destruct Hy as [<-|[<-|[<-|[]]]]; (split; [|split]); vm_compute; discriminate.
Qed.
Lemma c97_all_fresh x : In x [c97_old; c97_new; c97_last] -> let d := fst (fst x) in
  fresh (rm_expires (ed_root d)) (new_year - 1) /\ fresh (tm_expires (ed_timestamp d)) (new_year - 1) /\
  fresh (sm_expires (ed_snapshot d)) (new_year - 1) /\ fresh (tg_expires (ed_targets d)) (new_year - 1).
Proof.
  assert (Fr : forall z, z = new_year -> fresh z (new_year - 1)%Z) by (intros z ->; unfold fresh; lia).
  intros Hx d. assert (G : rm_expires (ed_root d) = new_year /\ tm_expires (ed_timestamp d) = new_year /\
    sm_expires (ed_snapshot d) = new_year /\ tg_expires (ed_targets d) = new_year).
  { unfold d. destruct Hx as [<-|[<-|[<-|[]]]]; (split; [|split; [|split]]); vm_compute; reflexivity. }
  destruct G as (G1 & G2 & G3 & G4). auto.
Qed.

(** The client is that of [C95_case], whose last root is the second. *)
Example C97_case :
  exists eds data names,
    careful checksums default_config c94_pub1 toy_disk_repo (length c90_ops) "bin/tool" c97_ops eds data names /\
    eds (length c90_ops) = c90_edition /\ data (length c90_ops) = "hello" /\
    eds (length c97_ops) = c97_edition3 /\ data (length c97_ops) = "hello, world" /\
    (forall x, In x c97_ops -> acceptable_path (op_path x)) /\
    (forall i j, not_newer c95_env (blended (eds i) (eds j)) c95_local ["home"]) /\
    (forall i, (rm_version (ed_root (eds i)) - rm_version c73_root < N.of_nat 3)%N) /\
    (exists c, unexpired eds (length c90_ops) (length c97_ops) c) /\
    (forall k, exists server, mirrored (disk_at toy_disk_repo c94_pub1 c97_ops k) toy_root toy_disk_repo toy_base server).
Proof.
  destruct c97_step6 as (eds & data & names & Ca & Al & Q1 & Q2 & _ & Q3 & Q4 & _). exists eds, data, names.
  assert (Ab : forallb (fun o => is_ok (path_new (op_path o))) c97_ops = true) by (vm_compute; reflexivity).
  assert (Ao : forall x, In x c97_ops -> acceptable_path (op_path x)).
  { intros o I. rewrite forallb_forall in Ab. specialize (Ab o I). destruct (path_new (op_path o)) eqn:X; [|discriminate Ab].
    now apply path_new_iff in X as [_ X]. }
  split; [exact Ca|]. split; [exact Q3|]. split; [exact Q4|]. split; [exact Q1|]. split; [exact Q2|]. split; [exact Ao|].
  split; [|split; [|split]].
  - intros i j. apply c97_not_newer. exact (c97_all_known _ _ (Al i) (Al j)).
  - intros i. pose proof (Al i) as H. cbn [In] in H.
    assert (G : forall x, In x [c97_old; c97_new; c97_last] -> (rm_version (ed_root (fst (fst x))) - rm_version c73_root < N.of_nat 3)%N).
    { intros x [<-|[<-|[<-|[]]]]; vm_compute; reflexivity. }
    exact (G _ H).
  - exists (mkClock (new_year - 1) (new_year - 1) (new_year - 1) (new_year - 1) (new_year - 1) (fun _ => new_year - 1))%Z.
    intros k now _ _ I. pose proof (c97_all_fresh _ (Al k)) as F. cbn [fst at_root at_snapshot at_targets at_timestamp at_new] in F, I.
    cbn [In] in I. assert (now = (new_year - 1)%Z) as -> by (destruct I as [<-|[<-|[<-|[<-|[<-|[]]]]]]; reflexivity). exact F.
  - intros k. exists (web_server (disk_at toy_disk_repo c94_pub1 c97_ops k) ["repo"]). apply toy_mirrored. unfold disk_at.
    apply (C79_directory_is_a_map_partial toy_disk_repo c94_pub1 (firstn k c97_ops)).
    + destruct C94_case as (_ & Sp & _).
      assert (M : make_dirs c94_pub0 ["meta"; "repo"] = Ok (mkDisk (dk_files c94_pub0) [["meta"; "repo"]; ["repo"]])) by reflexivity.
      apply (make_dirs_sound _ _ _ Sp) in M.
      exact (make_dirs_sound ["targets"; "repo"] (mkDisk (dk_files c94_pub0) [["meta"; "repo"]; ["repo"]]) _ M eq_refl).
    + intros x I. apply Ao. rewrite <- (firstn_skipn k c97_ops). apply in_or_app. now left.
Qed.

(** * C95: the same for a client whose directory holds anything *)
From Coq Require Import String Ascii List NArith ZArith Bool Lia.
From Verif Require Import Base BaseFacts Metadata Verify Paths SpecPaths PathProofs Tuf SpecVerify SpecTuf VerifyProofs TufProofs TufHistory
     StringFacts Reader SpecReader ReaderProofs Repo SpecRepo RepoProofs Http SpecHttp HttpProofs Files SpecFiles FilesProofs Props_Files
     Client SpecClient SpecHonest SpecRestart SpecCache ClientLogic ClientProofs ClientUpdates
     ClientHistory ClientTargets ClientRestart ClientHonest Shims SpecMeta JsonLayer Builders SpecBuilders BuilderProofs
     Props_Honest Props_Mirror CacheProofs SpecEndToEnd EndToEndProofs SpecDeployed DeployedProofs SpecResumed ResumedProofs
     Dates SpecDates Serde Keys SpecKeys KeyToy Toy JsonToy ClientToy Props_Builders Props_EndToEnd Props_Deployed.
Import ListNotations.
Open Scope string_scope.
Open Scope list_scope.
Open Scope N_scope.

(** Whatever is in the client's directory - an earlier edition, files that were damaged or
    exchanged, part of an update that was interrupted - the client gets everything.  It
    reports that nothing was new if and only if it started with everything. *)
Theorem C95_resumed :
  forall (C : crypto) (o : hash_order) (cfg : config) (fuel : nat) (d : edition)
         (pub0 pub1 : disk) (bld : fs_builder) (r : fs_repo) (ops : list ephemeral_op) (h : http_repo)
         (dl d0 : disk) (local : file_name) (rl : fs_repo)
         (m0 : root_metadata) (s0 : signed_metadata) (rest : list (root_metadata * signed_metadata)) (path : string) (data : bytes),
  let E := mkEnv C o (json_interchange C) in
  let pub := fst (fs_run r pub1 ops) in let log := snd (fs_run r pub1 ops) in
  let serving := mirrored pub bld r h in
  (* the publisher *)
  well_made C d -> sound_disk pub0 -> fs_build pub0 bld = (pub1, Ok r) -> (forall o, In o ops -> acceptable_path (op_path o)) ->
  filed_edition d pub1 r log -> filed_target C cfg d r log path data ->
  (* the client *)
  readable cfg d -> sound_disk dl -> tidy dl local path -> not_newer E d dl local -> fs_new dl local = (d0, Ok rl) ->
  ed_roots d = (m0, s0) :: rest -> rm_version (ed_root d) - rm_version m0 < N.of_nat fuel ->
  exists b0, to_raw s0 = Ok b0 /\
  (* however the run goes, it does not fail, and the right data arrive *)
  (forall w tr q d1, exec (get_target E cfg fuel b0 path w) tr q -> Forall (deployed d serving h) tr -> on_disk rl d0 tr d1 ->
     q <> Panic /\ q <> OutOfFuel /\
     forall res, q = Ret res ->
       exists changed t, res = Ok (changed, t) /\ trusts d t /\
         (if w : bool then SpecClient.written tr = data
          else content d1 (walk ("targets" :: local) (split_slash path)) = Some data) /\
         exists tr1 tr2 t1, tr = tr1 ++ tr2 /\ exec (construct E cfg fuel (FromRoot b0)) tr1 (Ret (Ok t1)) /\
           (changed = false <-> trusts d t1)) /\
  (* and with every such server there is a run to the end *)
  (forall w server, serving server ->
     exists tr res d1, exec (get_target E cfg fuel b0 path w) tr (Ret res) /\ Forall (deployed d (eq server) h) tr /\ on_disk rl d0 tr d1).
Proof.
  intros C o cfg fuel d pub0 pub1 bld r ops h dl d0 local rl m0 s0 rest path data E pub log serving
         W S0 Bu Ao Fe Ft R Sl (Cl & Ap & Ns & Fw) Nn New E0 Fu.
  assert (S1 : sound_disk pub1).
  { unfold fs_build in Bu. destruct (make_dirs pub0 _) as [x|] eqn:M1; [|discriminate].
    destruct (make_dirs x _) as [y|] eqn:M2; [|discriminate]. inversion Bu; subst.
    apply (make_dirs_sound _ _ _ (make_dirs_sound _ _ _ S0 M1) M2). }
  destruct (edition_in_order C o cfg d W R)
    as (p & m0' & s0' & rest' & b0 & OK & Q1 & Q2 & Q3 & Q4 & In1 & In2 & Bt & Bs & Bg & E0' & B0 & T0 & I0 & V0).
  fold E in OK, T0. rewrite E0 in E0'. inversion E0'; subst m0' s0' rest'. clear E0'.
  exists b0. split; [exact B0|].
  pose proof (filed_published d p pub1 r ops Q1 Q3 Q4 In1 In2 Bt Bs Bg S1 Ao Fe) as Pu. fold pub in Pu.
  destruct Ft as (virt & desc & algs & rs & name & Tr & Lk & CO & TD & L64 & Pl & NP & LT).
  destruct (target_described C rs algs desc data CO TD L64) as (TA & TP).
  assert (Fu0 : fuel <> O) by (intros ->; cbn in Fu; lia).
  assert (V0' : rm_version m0 < u32_max) by (destruct R as [_ _ R]; lia).
  (* the name of the target *)
  assert (An : acceptable_path name /\ ~ names_directory (EpTarget name [])).
  { destruct (rm_consistent (ed_root d)).
    - destruct Pl as (alg & _ & Pl). exact (prefixed_name path _ name Ap Ns Pl).
    - subst name. split; [exact Ap|]. intros (a & Q). now apply (Ns a). }
  destruct An as [An Nnd].
  pose proof (last_at_content r pub1 ops S1 Ao _ _ LT) as Cn. fold pub in Cn.
  (* the client's directory *)
  destruct (C79_new_keeps_apart _ _ _ _ Sl New) as (Sd0 & Cd0 & Dm & Dt & _).
  destruct (fs_new_shape _ _ _ _ Sl New) as [Qr Nd]. subst rl. cbn [fr_metadata fr_targets] in Dm, Dt.
  set (rl := mkFsRepo ("metadata" :: local) ("targets" :: local)) in *.
  destruct (last_root d0 ("metadata" :: local)) as (top & Top).
  destruct (memory_of local d0 top Top) as (mem & Mem & _).
  assert (DL : disk_like local d0 mem).
  { split; [exact Sd0|]. split; [exact Dm|]. split; [|exact Mem]. intros f Hf Hd. apply (Cl f Hf). now apply Nd. }
  assert (Start : forall tr q l, exec (construct E cfg fuel (FromRoot b0)) tr q -> on_disk rl d0 tr l ->
    l = d0 /\ Forall quiet tr /\ q <> Panic /\ q <> OutOfFuel /\
    forall x, q = Ret x -> exists t, x = Ok t /\ not_ahead p t /\ reachable E t /\ rm_version (ed_root d) - rm_version (t_root t) < N.of_nat fuel).
  { intros tr q l X M. pose proof (construct_reads _ _ _ _ _ _ X) as Rd. pose proof (reads_disk _ _ _ _ Rd M) as ->.
    split; [reflexivity|]. split; [now apply reads_quiet|].
    assert (G : q <> Panic /\ q <> OutOfFuel /\
      forall x, q = Ret x -> exists t, x = Ok t /\ not_ahead p t /\ reachable E t /\ rm_version m0 <= rm_version (t_root t)).
    2: { destruct G as (G1 & G2 & G3). split; [exact G1|]. split; [exact G2|]. intros x Q. destruct (G3 x Q) as (t & -> & A & B & V).
         exists t. split; [reflexivity|]. split; [exact A|]. split; [exact B|]. lia. }
    apply (construct_starts E cfg p (fun raw => exists f, cache_file f /\ content dl (f :: "metadata" :: local) = Some raw)) with fuel b0 tr; auto.
    - apply OK.
    - apply OK.
    - intros raw r1 raw' r2 Ir (f & Cf & Co) St. destruct (In1 _ _ Ir) as (s1 & J & _).
      destruct (proj1 (Nn f raw' Cf Co) r1 s1 r2 J St) as (s2 & J2). destruct (In2 _ _ J2) as (raw2 & K2 & _). now exists raw2.
    - intros raw ts (f & Cf & Co) Tr'. rewrite Q1 in Tr'. rewrite Q2. exact (proj1 (proj2 (Nn f raw Cf Co)) ts Tr').
    - intros raw s (f & Cf & Co) Tr'. rewrite Q1 in Tr'. rewrite Q3. exact (proj1 (proj2 (proj2 (Nn f raw Cf Co))) s Tr').
    - intros raw g (f & Cf & Co) Tr'. rewrite Q1 in Tr'. rewrite Q4. exact (proj2 (proj2 (proj2 (Nn f raw Cf Co))) g Tr').
    - rewrite Q1. exact Fu.
    - intros pa v max hash ans I Ca raw A. exists (file_of v pa). split; [apply top_file_of; now left|].
      rewrite <- Cd0. exact (reads_answers local d0 mem tr d0 DL Rd M pa v max hash ans I Ca raw A). }
  assert (Sub : exists sub, walk ("targets" :: local) (split_slash path) = sub ++ "targets" :: local /\ sub <> []).
  { destruct (place_below rl (EpTarget path []) Ap) as (sub & N1 & N2). exists sub. split; [|exact N1].
    exact (eq_trans (proj1 (place_iff rl (EpTarget path []) _ Ap) eq_refl) N2). }
  destruct Sub as (sub & Esub & Nsub).
  assert (Fw0 : free_way d0 (sub ++ "targets" :: local)).
  { rewrite Esub in Fw. exact (new_keeps_way _ _ _ _ Sl New sub Nsub Fw). }
  (* the servers *)
  assert (WG : forall tr l l', Forall (deployed d serving h) tr -> on_disk rl l tr l' -> forall m, disk_like local l (mem_at mem m) ->
             (forall e, In e tr -> top_event e) -> Forall (good_event p) tr).
  { intros tr l l' F M m Dk Te.
    destruct (on_disk_mem local l tr l' M mem m Dk (fun e I => top_fine harmless e (Te e I))) as [Al _].
    apply Forall_forall. intros e I. pose proof (proj1 (Forall_forall _ _) F e I) as De. specialize (Te e I).
    destruct e as [s pa v max hash ans|pa v b ans|pa de ans|pa rs' ans|b ans|c|t]; try exact I; try exact Logic.I.
    - destruct s; [exact Logic.I|]. destruct De as (server & Sv & Qa).
      exact (web_good p pub bld r h server Sv Pu (EvFetchMeta Remote pa v max hash ans) Qa).
    - apply in_split in I as (pre & post & ->). exact (Al pre _ post eq_refl Te).
    - intros now J. rewrite Q1, Q2, Q3, Q4. now apply De. }
  assert (FT : forall pa de ans, deployed d serving h (EvFetchTarget pa de ans) -> pa = name -> answered ans data).
  { intros pa de ans (server & Sv & ->) ->.
    pose proof (proj2 (C80_mirror_partial pub bld r h server Sv) name [] _ An NP eq_refl Nnd) as G. rewrite Cn in G. exact G. }
  assert (Dn : forall t, up_to_date p t ->
     forall w tr q l l', exec (if w : bool then fetch_target_to_writer E cfg fuel t path else fetch_target E cfg fuel t path) tr q ->
       Forall (deployed d serving h) tr -> on_disk rl l tr l' -> sound_disk l -> free_way l (sub ++ "targets" :: local) ->
       q <> Panic /\ q <> OutOfFuel /\
       forall t' r, q = Ret (t', r) -> t' = t /\ r = Ok tt /\
         (if w then SpecClient.written tr = data else content l' (walk ("targets" :: local) (split_slash path)) = Some data)).
  { intros t (U1 & U2 & U3 & U4).
    assert (Li : listed cfg t path desc).
    { exists (ed_targets d), virt. rewrite U4, Q4. auto. }
    assert (TPl : target_place t path desc name).
    { unfold target_place. rewrite U1, Q1. destruct (rm_consistent (ed_root d)); [|exact Pl].
      destruct Pl as (alg & P1 & P2). exists alg, (ring_digest C alg data). auto. }
    assert (Sn : t_snapshot t <> None) by (rewrite U3; discriminate).
    destruct (C76_honest_downloads E cfg fuel t path name desc data Fu0 Sn Li TPl TA L64) as (D1 & _ & D3 & _).
    intros w tr q l l' X F M Sd Fr. rewrite <- Esub in Fr.
    assert (G : Forall (good_download name data) tr).
    { apply Forall_forall. intros e I. pose proof (proj1 (Forall_forall _ _) F e I) as De.
      destruct e as [s pa v max hash ans|pa v b ans|pa de ans|pa rs' ans|b ans|c|t1]; try exact Logic.I.
      - intros Q. exact (FT pa de ans De Q).
      - destruct w.
        + exfalso. exact (writer_stores_nothing _ _ _ _ _ _ _ X _ I).
        + destruct (fetch_stores_once _ _ _ _ _ _ _ X _ _ _ I) as (-> & pa' & de' & ans' & ->).
          inversion M as [|? ? l1 ? ? M1 M2]; subst. cbn in M1. subst l1. inversion M2 as [|? ? l2 ? ? M3 M4]; subst.
          destruct M3 as [_ M3]. intros (b & Cb). exact (proj1 (store_arrives local l path rs' l2 ans b Sd Ap Ns Fr Cb M3)).
      - exact De. }
    destruct w.
    - destruct (D3 tr q X G) as (G1 & G2 & G3). split; [exact G1|]. split; [exact G2|]. intros t' r' Q. exact (G3 t' r' Q).
    - destruct (D1 tr q X G) as (G1 & G2 & G3). split; [exact G1|]. split; [exact G2|]. intros t' r' Q.
      destruct (G3 t' r' Q) as (-> & -> & src & rs' & -> & CT). split; [reflexivity|]. split; [reflexivity|].
      inversion M as [|? ? l1 ? ? M1 M2]; subst. cbn in M1. subst l1. inversion M2 as [|? ? l2 ? ? M3 M4]; subst. inversion M4; subst.
      destruct M3 as [_ M3]. exact (proj2 (store_arrives local l path rs' l' (Ok tt) data Sd Ap Ns Fr CT M3)). }
  assert (Run : forall w tr q d1, exec (get_target E cfg fuel b0 path w) tr q -> Forall (deployed d serving h) tr -> on_disk rl d0 tr d1 ->
     q <> Panic /\ q <> OutOfFuel /\
     forall res, q = Ret res ->
       exists changed t, res = Ok (changed, t) /\ trusts d t /\
         (if w : bool then SpecClient.written tr = data
          else content d1 (walk ("targets" :: local) (split_slash path)) = Some data) /\
         exists tr1 tr2 t1, tr = tr1 ++ tr2 /\ exec (construct E cfg fuel (FromRoot b0)) tr1 (Ret (Ok t1)) /\
           (changed = false <-> trusts d t1)).
  { intros w tr q l X F M. unfold get_target in X.
    apply exec_bind_cases in X as [(p' & X & P1 & P2 & P3)|(a & tr1 & tr2 & -> & X1 & X2)].
    { destruct (Start tr p' l X M) as (_ & _ & N1 & N2 & _).
      split; [now apply P1|]. split; [now apply P2|]. intros r' Q. now apply P3 in Q. }
    apply Forall_app in F as [F1 F2]. apply on_disk_app in M as (l1 & M1 & M2).
    destruct (Start tr1 (Ret a) l1 X1 M1) as (-> & Qu1 & _ & _ & N3).
    destruct (N3 a eq_refl) as (t1 & -> & NA & Re & Fu1). clear N3 M1 F1. rewrite written_app, (quiet_written _ Qu1). cbn [append].
    assert (Fo : follows_repository E cfg p fuel t1).
    { apply C74_honest_repository_is_followed; auto. rewrite Q1. exact Fu1. }
    destruct Fo as [Fo _].
    apply exec_bind_cases in X2 as [(p' & X & P1 & P2 & P3)|([t r'] & tr3 & tr4 & -> & X3 & X4)].
    { destruct (Fo tr2 p' X (WG _ _ _ F2 M2 [] DL (update_stores E cfg fuel _ _ _ X))) as (N1 & N2 & _).
      split; [now apply P1|]. split; [now apply P2|]. intros r' Q. now apply P3 in Q. }
    apply Forall_app in F2 as [F3 F4]. apply on_disk_app in M2 as (l3 & M3 & M4).
    pose proof (update_stores E cfg fuel _ _ _ X3) as Te.
    destruct (Fo tr3 _ X3 (WG _ _ _ F3 M3 [] DL Te)) as (_ & _ & N3).
    destruct (N3 t r' eq_refl) as (U & b & -> & Hb). clear N3. apply update_exec_quiet in X3 as Qu3.
    rewrite written_app, (quiet_written _ Qu3). cbn [append].
    destruct (on_disk_keeps _ _ _ _ M3) as [Sl3 _]; [discriminate|discriminate|exact Sd0|].
    pose proof (update_keeps_way local _ _ _ M3 Sd0 Te Qu3 sub Fw0) as Fw3.
    apply exec_bind_cases in X4 as [(p' & X & P1 & P2 & P3)|([t' r'] & tr5 & tr6 & -> & X5 & X6)].
    { destruct (Dn t U w tr4 p' l3 l X F4 M4 Sl3 Fw3) as (N1 & N2 & _).
      split; [now apply P1|]. split; [now apply P2|]. intros r' Q. now apply P3 in Q. }
    apply Forall_app in F4 as [F5 F6]. apply on_disk_app in M4 as (l5 & M5 & M6).
    destruct (Dn t U w tr5 _ l3 l5 X5 F5 M5 Sl3 Fw3) as (_ & _ & N3). destruct (N3 t' r' eq_refl) as (-> & -> & G).
    inversion X6; subst. inversion M6; subst. split; [discriminate|]. split; [discriminate|]. intros r' Q. inversion Q; subst.
    exists b, t. split; [reflexivity|]. unfold up_to_date in U, Hb. rewrite Q1, Q2, Q3, Q4 in U, Hb. split; [exact U|].
    rewrite app_nil_r. split; [exact G|]. exists tr1, (tr3 ++ tr5), t1. auto. }
  split; [exact Run|]. intros w server Sv.
  destruct (deployed_total d (eq server) server h rl (get_target E cfg fuel b0 path w) eq_refl [] d0 (get_target_stores E cfg fuel b0 path w [] Ap))
    as (tr & q & l & X & F & M & Ov).
  assert (F' : Forall (deployed d serving h) tr).
  { eapply Forall_impl; [|exact F]. intros e De. destruct e as [[] pa v max hash ans| |pa de ans| | | | ]; try exact De.
    - destruct De as (x & <- & De). exists server. auto.
    - destruct De as (x & <- & De). exists server. auto. }
  destruct (Run w tr q l X F' M) as (N1 & N2 & N3).
  destruct q; try contradiction. eexists tr, _, l. eauto.
Qed.
Print Assumptions C95_resumed.

(** The publisher of [C94_case], and a client that has the second root, a former timestamp, a
    file that was damaged, a snapshot with the signature of somebody else, and a target. *)
Definition c95_timestamp : timestamp_metadata :=
  the (mkTimestamp 0 0 no_desc) (rbind (tb_from_snapshot checksums FJson 0 (one_by Snapshot c73_snapshot sk_s) [Sha256])
    (fun b => tb_build (fold_left tb_apply [ToVersion 6; ToExpires new_year] b))).
Definition c95_ops : list ephemeral_op :=
  [ EpMetadata "root" (VNumber 2) [Ready (bytes_of c90_signed_root2)];
    EpMetadata "root" (VNumber 3) [Ready "damaged"];
    EpMetadata "timestamp" VNone [Ready (bytes_of (one_by Timestamp c95_timestamp sk_t))];
    EpMetadata "snapshot" VNone [Ready (bytes_of (one_by Snapshot c73_snapshot sk_d))];
    EpTarget "bin/other" [Ready "old"] ].
Definition c95_local : disk := fst (fs_run c94_local_repo c94_local c95_ops).
Notation c95_env := (mkEnv checksums rev_order (json_interchange checksums)).
Definition c95_dir (f : string) : file_name := [f; "metadata"; "home"].

Definition verified (E : env) (r : role) (b : bytes) : result (metadata_of r) :=
  verify_signatures E r b (rd_threshold (role_def_of c90_root2 r)) (select_keys (rm_keys c90_root2) (rd_key_ids (role_def_of c90_root2 r))).
Lemma file_ok_by E b :
  (is_ok (snd (update_root E (tuf_of_root c73_root) b)) = false \/ trusted_by E c90_root2 Root b c90_root2) ->
  is_ok (snd (update_root E (tuf_of_root c90_root2) b)) = false ->
  match verified E Timestamp b with Ok x => tm_version x <? tm_version c73_timestamp | Err _ => true end = true ->
  is_ok (verified E Snapshot b) = false -> is_ok (verified E Targets b) = false -> file_ok E c90_edition b.
Proof.
  intros R1 R2 T S G.
  assert (No : forall m, is_ok (snd (update_root E (tuf_of_root m) b)) = false -> forall m', root_step E m b m' -> False).
  { intros m H m' St. rewrite (proj2 (update_root_ok E (tuf_of_root m) b (mkTuf m' None None None []))) in H; [discriminate|].
    exists m'. split; [exact St|reflexivity]. }
  split; [|split; [|split]]; cbn [ed_roots ed_root ed_timestamp ed_snapshot ed_targets c90_edition].
  - intros m s m' [H|[H|[]]] St; apply pair_parts in H as [<- _].
    + destruct R1 as [R1|R1]; [destruct (No _ R1 _ St)|]. exists c90_signed_root2. right. left. f_equal.
      exact (authentic_fun _ _ _ _ _ _ _ _ _ R1 (proj1 St)).
    + destruct (No _ R2 _ St).
  - intros ts H. apply verify_trusted in H. unfold verified in T. rewrite H in T. apply N.ltb_lt in T. split; [now apply N.lt_le_incl|].
    intros Q. rewrite Q in T. destruct (N.lt_irrefl _ T).
  - intros s H. apply verify_trusted in H. unfold verified in S. rewrite H in S. cbn [is_ok] in S. discriminate S.
  - intros g H. apply verify_trusted in H. unfold verified in G. rewrite H in G. cbn [is_ok] in G. discriminate G.
Qed.
Lemma c95_root_ok : file_ok c95_env c90_edition (bytes_of c90_signed_root2).
Proof. apply file_ok_by; [right; apply verify_trusted|..]; vm_compute; reflexivity. Qed.
Lemma c95_damaged_ok : file_ok c95_env c90_edition "damaged".
Proof. apply file_ok_by; [left|..]; vm_compute; reflexivity. Qed.
Lemma c95_timestamp_ok : file_ok c95_env c90_edition (bytes_of (one_by Timestamp c95_timestamp sk_t)).
Proof. apply file_ok_by; [left|..]; vm_compute; reflexivity. Qed.
Lemma c95_snapshot_ok : file_ok c95_env c90_edition (bytes_of (one_by Snapshot c73_snapshot sk_d)).
Proof. apply file_ok_by; [left|..]; vm_compute; reflexivity. Qed.
Lemma c95_files : dk_files c95_local =
  [(["other"; "bin"; "targets"; "home"], "old"); (c95_dir "snapshot.json", bytes_of (one_by Snapshot c73_snapshot sk_d));
   (c95_dir "timestamp.json", bytes_of (one_by Timestamp c95_timestamp sk_t)); (c95_dir "3.root.json", "damaged");
   (c95_dir "2.root.json", bytes_of c90_signed_root2)].
Proof. vm_compute. reflexivity. Qed.
Lemma c95_dirs : dk_dirs c95_local = [["bin"; "targets"; "home"]; ["targets"; "home"]; ["metadata"; "home"]; ["home"]].
Proof. vm_compute. reflexivity. Qed.
Lemma find_file (d : disk) n b (P : bytes -> Prop) :
  (forall x, In x (dk_files d) -> fst x = n -> P (snd x)) -> content d n = Some b -> P b.
Proof. intros H L. apply lookup_In in L. exact (H (n, b) L eq_refl). Qed.
Lemma five_files (P : bytes -> Prop) n a1 a2 a3 a4 a5 (b1 b2 b3 b4 b5 : bytes) :
  a1 <> n -> P b2 -> P b3 -> P b4 -> P b5 ->
  forall x : file_name * bytes, In x [(a1, b1); (a2, b2); (a3, b3); (a4, b4); (a5, b5)] -> fst x = n -> P (snd x).
Proof. intros N P2 P3 P4 P5 x [<-|[<-|[<-|[<-|[<-|[]]]]]] Q; cbn in Q |- *; [contradiction|exact P2|exact P3|exact P4|exact P5]. Qed.

Lemma c95_sound : sound_disk c95_local.
Proof.
  assert (S0 : sound_disk c94_local).
  { assert (M : fs_new empty_disk ["home"] = (c94_local, Ok c94_local_repo)) by reflexivity.
    exact (proj1 (C79_new_keeps_apart _ _ _ _ empty_sound M)). }
  apply (C79_directory_is_a_map_partial c94_local_repo c94_local c95_ops S0).
  intros o I. cbn [c95_ops In] in I.
  repeat (destruct I as [<-|I]; [cbn [op_path]; match goal with |- acceptable_path ?p => apply (path_new_iff p p); reflexivity end|]).
  destruct I.
Qed.
Lemma c95_names : map fst (dk_files c95_local) =
  [["other"; "bin"; "targets"; "home"]; c95_dir "snapshot.json"; c95_dir "timestamp.json"; c95_dir "3.root.json"; c95_dir "2.root.json"].
Proof. vm_compute. reflexivity. Qed.
Lemma absent (files : list (file_name * bytes)) n : ~ In n (map fst files) -> lookup n files = None.
Proof. intros H. destruct (lookup n files) as [b|] eqn:L; [|reflexivity]. apply lookup_In in L. destruct H. exact (in_map fst _ _ L). Qed.
Lemma c95_absent n : ~ In n [["other"; "bin"; "targets"; "home"]; c95_dir "snapshot.json"; c95_dir "timestamp.json"; c95_dir "3.root.json"; c95_dir "2.root.json"] ->
  content c95_local n = None.
Proof. rewrite <- c95_names. apply absent. Qed.
Lemma c95_tidy : tidy c95_local ["home"] "bin/tool".
Proof.
  split; [|split; [|split]].
  + intros f Cf D. unfold directory in D. rewrite c95_dirs in D. cbn [In] in D.
    destruct D as [D|[D|[D|[D|[D|[]]]]]]; inversion D.
  + apply (path_new_iff "bin/tool" "bin/tool"). reflexivity.
  + intros a H. assert (Z : exists a, "bin/tool" = (a ++ "/")%string) by (exists a; exact H).
    apply slash_end_iff in Z; [vm_compute in Z; discriminate|discriminate].
  + split.
    * intros m L. apply c95_absent. intros Q.
      destruct L as (x & l & L). vm_compute in L. 
      assert (Q2 : In m [["bin"; "targets"; "home"]; ["targets"; "home"]; ["home"]; []]).
      { destruct l as [|y1 [|y2 [|y3 [|y4 l]]]]; cbn in L; inversion L; subst; cbn; auto 6. }
      unfold c95_dir in Q. cbn [In] in Q, Q2. destruct Q2 as [<-|[<-|[<-|[<-|[]]]]]; repeat (destruct Q as [Q|Q]; [discriminate Q|]); exact Q.
    * intros D. unfold directory in D. rewrite c95_dirs in D. cbn [In] in D. destruct D as [D|[D|[D|[D|[D|[]]]]]]; discriminate D.
Qed.
Lemma c95_elsewhere f : ["other"; "bin"; "targets"; "home"] <> c95_dir f.
Proof. discriminate. Qed.
Lemma c95_all_ok f : forall x, In x (dk_files c95_local) -> fst x = c95_dir f -> file_ok c95_env c90_edition (snd x).
Proof.
  rewrite c95_files.
  exact (five_files (file_ok c95_env c90_edition) (c95_dir f) _ _ _ _ _ _ _ _ _ _ (c95_elsewhere f)
           c95_snapshot_ok c95_timestamp_ok c95_damaged_ok c95_root_ok).
Qed.
Lemma c95_not_newer : not_newer c95_env c90_edition c95_local ["home"].
Proof. intros f b _ Co. exact (find_file c95_local (c95_dir f) b (file_ok c95_env c90_edition) (c95_all_ok f) Co). Qed.
Lemma c95_opened : fs_new c95_local ["home"] = (c95_local, Ok c94_local_repo).
Proof. vm_compute. reflexivity. Qed.

(** The rest is in [C94_case]. *)
Example C95_case :
  sound_disk c95_local /\ tidy c95_local ["home"] "bin/tool" /\ not_newer c95_env c90_edition c95_local ["home"] /\
  fs_new c95_local ["home"] = (c95_local, Ok c94_local_repo).
Proof. exact (conj c95_sound (conj c95_tidy (conj c95_not_newer c95_opened))). Qed.

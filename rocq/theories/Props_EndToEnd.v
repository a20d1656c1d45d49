(** * C90: from the builders to the client's files *)
From Coq Require Import String Ascii List NArith ZArith Bool Lia.
From Verif Require Import Base BaseFacts JsonValue JsonText SpecJson Metadata Verify Paths Tuf SpecVerify SpecTuf VerifyProofs TufProofs TufHistory
     Reader SpecReader ReaderProofs Repo SpecRepo RepoProofs Client SpecClient SpecHonest ClientLogic ClientProofs ClientUpdates
     ClientHistory ClientTargets ClientRestart ClientHonest Dates SpecDates Serde Keys Shims SpecKeys SpecMeta JsonLayer Builders SpecBuilders BuilderProofs
     Props_Reader Props_Builders Props_Client Props_Honest SpecEndToEnd EndToEndProofs KeyToy Toy JsonToy ClientToy.
Import ListNotations.
Open Scope string_scope.
Open Scope list_scope.
Open Scope N_scope.

(** A client that knows the first root gets everything, whatever else is stored in the
    repository. *)
Theorem C90_from_builders_to_files :
  forall (C : crypto) (o : hash_order) (cfg : config) (fuel : nat) (d : edition) (ops : list ephemeral_op)
         (m0 : root_metadata) (s0 : signed_metadata) (rest : list (root_metadata * signed_metadata)) (path : string) (data : bytes),
  let E := mkEnv C o (json_interchange C) in
  well_made C d -> stored_edition d ops -> readable cfg d -> offered_target C cfg d ops path data ->
  ed_roots d = (m0, s0) :: rest -> rm_version (ed_root d) - rm_version m0 < N.of_nat fuel ->
  exists b0, to_raw s0 = Ok b0 /\
  (* however the run goes, it does not fail, and the right data arrive *)
  (forall w tr q l, exec (get_target E cfg fuel b0 path w) tr q -> Forall (in_world d ops) tr -> in_memory ephemeral_new tr l ->
     q <> Panic /\ q <> OutOfFuel /\
     forall r, q = Ret r ->
       exists t, r = Ok (true, t) /\ t_root t = ed_root d /\ t_timestamp t = Some (ed_timestamp d) /\
         t_snapshot t = Some (ed_snapshot d) /\ t_targets t = Some (ed_targets d) /\
         (if w : bool then SpecClient.written tr = data else lookup path (ep_targets l) = Some data)) /\
  (* and there is such a run to the end *)
  (forall w, exists tr r l, exec (get_target E cfg fuel b0 path w) tr (Ret r) /\ Forall (in_world d ops) tr /\
     in_memory ephemeral_new tr l).
Proof.
  intros C o cfg fuel d ops m0 s0 rest path data E W Se R T E0 Fu.
  destruct (edition_published C o cfg d ops W Se R) as (p & m0' & s0' & rest' & b0 & OK & Q1 & Q2 & Q3 & Q4 & Of & E0' & B0 & T0 & I0 & V0).
  fold E in OK, T0. rewrite E0 in E0'. inversion E0'; subst m0' s0' rest'. clear E0'.
  exists b0. split; [exact B0|].
  destruct T as (virt & desc & algs & rs & place & Tr & Lk & CO & TD & L64 & Pl & LT).
  destruct (target_described C rs algs desc data CO TD L64) as (TA & TP).
  assert (Fu0 : fuel <> O) by (intros ->; cbn in Fu; lia).
  assert (V0' : rm_version m0 < u32_max) by (destruct R as [_ _ R]; lia).
  assert (Re : reachable E (tuf_of_root m0)) by (apply toy_start with b0; exact T0).
  assert (NA : not_ahead p (tuf_of_root m0)).
  { split; [exists b0; exact I0|]. intros _. split; [|split]; cbn; discriminate. }
  assert (Fo : follows_repository E cfg p fuel (tuf_of_root m0)).
  { apply C74_honest_repository_is_followed; auto. rewrite Q1. exact Fu. }
  assert (Dn : forall t, up_to_date p t ->
     forall w tr q l l', exec (if w : bool then fetch_target_to_writer E cfg fuel t path else fetch_target E cfg fuel t path) tr q ->
       Forall (in_world d ops) tr -> in_memory l tr l' ->
       q <> Panic /\ q <> OutOfFuel /\
       forall t' r, q = Ret (t', r) -> t' = t /\ r = Ok tt /\
         (if w then SpecClient.written tr = data else lookup path (ep_targets l') = Some data)).
  { intros t (U1 & U2 & U3 & U4).
    assert (Li : listed cfg t path desc).
    { exists (ed_targets d), virt. rewrite U4, Q4. auto. }
    assert (TPl : target_place t path desc place).
    { unfold target_place. rewrite U1, Q1. destruct (rm_consistent (ed_root d)); [|exact Pl].
      destruct Pl as (alg & P1 & P2). exists alg, (ring_digest C alg data). auto. }
    assert (Sn : t_snapshot t <> None) by (rewrite U3; discriminate).
    destruct (C76_honest_downloads E cfg fuel t path place desc data Fu0 Sn Li TPl TA L64) as (D1 & _ & D3 & _).
    intros [] tr q l l' X F M; pose proof (world_download d ops place data l tr l' LT F M) as G.
    - destruct (D3 tr q X G) as (G1 & G2 & G3). split; [exact G1|]. split; [exact G2|]. intros t' r Q. exact (G3 t' r Q).
    - destruct (D1 tr q X G) as (G1 & G2 & G3). split; [exact G1|]. split; [exact G2|]. intros t' r Q.
      destruct (G3 t' r Q) as (-> & -> & src & rs' & -> & CT). split; [reflexivity|]. split; [reflexivity|].
      inversion M as [|? ? l1 ? ? S1 M1]; subst. cbn in S1. subst l1. inversion M1 as [|? ? l2 ? ? S2 M2]; subst. inversion M2; subst.
      cbn in S2. unfold ephemeral_store_target in S2. apply read_plain_iff in CT. rewrite CT in S2. inversion S2; subst. cbn [ep_targets].
      apply lookup_insert_eq. }
  assert (Run : forall w tr q l, exec (get_target E cfg fuel b0 path w) tr q -> Forall (in_world d ops) tr -> in_memory ephemeral_new tr l ->
     q <> Panic /\ q <> OutOfFuel /\
     forall r, q = Ret r ->
       exists t, r = Ok (true, t) /\ t_root t = ed_root d /\ t_timestamp t = Some (ed_timestamp d) /\
         t_snapshot t = Some (ed_snapshot d) /\ t_targets t = Some (ed_targets d) /\
         (if w : bool then SpecClient.written tr = data else lookup path (ep_targets l) = Some data)).
  { intros w tr q l X F M. unfold get_target in X.
    apply exec_bind_cases in X as [(p' & X & P1 & P2 & P3)|(a & tr1 & tr2 & -> & X1 & X2)].
    { destruct (construct_empty E cfg fuel b0 _ Fu0 T0 V0' tr p' l X M) as (_ & N1 & N2 & _).
      split; [now apply P1|]. split; [now apply P2|]. intros r Q. now apply P3 in Q. }
    apply Forall_app in F as [F1 F2]. apply in_memory_app in M as (l1 & M1 & M2).
    destruct (construct_empty E cfg fuel b0 _ Fu0 T0 V0' tr1 (Ret a) l1 X1 M1) as (-> & _ & _ & Qu1 & N3).
    rewrite (N3 a eq_refl) in X2. clear N3 X1 M1 F1. rewrite written_app, (quiet_written _ Qu1). cbn [append].
    destruct Fo as [Fo _].
    apply exec_bind_cases in X2 as [(p' & X & P1 & P2 & P3)|([t r] & tr3 & tr4 & -> & X3 & X4)].
    { destruct (Fo tr2 p' X (world_good d ops p _ _ _ Q1 Q2 Q3 Q4 Of F2 M2)) as (N1 & N2 & _).
      split; [now apply P1|]. split; [now apply P2|]. intros r Q. now apply P3 in Q. }
    apply Forall_app in F2 as [F3 F4]. apply in_memory_app in M2 as (l3 & M3 & M4).
    destruct (Fo tr3 _ X3 (world_good d ops p _ _ _ Q1 Q2 Q3 Q4 Of F3 M3)) as (_ & _ & N3).
    destruct (N3 t r eq_refl) as (U & b & -> & Hb). clear N3. apply update_exec_quiet in X3 as Qu3.
    rewrite written_app, (quiet_written _ Qu3). cbn [append].
    assert (b = true) as ->.
    { destruct b; [reflexivity|]. destruct (proj1 Hb eq_refl) as (_ & U2 & _). discriminate. }
    apply exec_bind_cases in X4 as [(p' & X & P1 & P2 & P3)|([t' r] & tr5 & tr6 & -> & X5 & X6)].
    { destruct (Dn t U w tr4 p' l3 l X F4 M4) as (N1 & N2 & _).
      split; [now apply P1|]. split; [now apply P2|]. intros r Q. now apply P3 in Q. }
    apply Forall_app in F4 as [F5 F6]. apply in_memory_app in M4 as (l5 & M5 & M6).
    destruct (Dn t U w tr5 _ l3 l5 X5 F5 M5) as (_ & _ & N3). destruct (N3 t' r eq_refl) as (-> & -> & G).
    inversion X6; subst. inversion M6; subst. split; [discriminate|]. split; [discriminate|]. intros r Q. inversion Q; subst.
    destruct U as (U1 & U2 & U3 & U4). exists t. rewrite U1, U2, U3, U4, Q1, Q2, Q3, Q4, app_nil_r. auto 10. }
  split; [exact Run|]. intros w. destruct (world_total d ops (get_target E cfg fuel b0 path w) ephemeral_new) as (tr & q & l & X & F & M & Ov).
  destruct (Run w tr q l X F M) as (N1 & N2 & N3).
  destruct q; try contradiction. eexists tr, _, l. eauto.
Qed.
Print Assumptions C90_from_builders_to_files.

(** The repository of [C73_case] with a second root, which asks for consistent snapshots,
    and a file whose name gets a prefix.  A former timestamp is overwritten, and a store that
    fails changes nothing. *)
Definition c90_root2 : root_metadata :=
  the no_root (rb_build (fold_left rb_apply [RoVersion 2; RoConsistent true; RoThreshold Root 2; RoKey Root key_r; RoKey Root key_d;
    RoKey Snapshot key_s; RoKey Targets key_g; RoKey Timestamp key_t; RoExpires new_year] (rb_new 0))).
Definition c90_signed_root2 : signed_metadata := fst (add_signature (one_by Root c90_root2 sk_r) sk_d 0).
Definition c90_edition : edition :=
  mkEdition [(c73_root, c73_signed_root); (c90_root2, c90_signed_root2)] c90_root2
    c73_timestamp (one_by Timestamp c73_timestamp sk_t) c73_snapshot (one_by Snapshot c73_snapshot sk_s)
    c73_targets (one_by Targets c73_targets sk_g).
Definition bytes_of (s : signed_metadata) : bytes := the "" (to_raw s).
Definition c90_place : string := the "" (with_hash_prefix "bin/tool" (ring_digest checksums Sha256 "hello")).
Definition c90_ops : list ephemeral_op :=
  [ EpMetadata "root" (VNumber 1) [Ready (bytes_of c73_signed_root)];
    EpMetadata "timestamp" VNone [Ready "old"];
    EpTarget c90_place [Ready "he"; Pending; Ready "llo"];
    EpMetadata "targets" (VNumber 3) [Ready (bytes_of (one_by Targets c73_targets sk_g))];
    EpMetadata "snapshot" (VNumber 2) [Ready (bytes_of (one_by Snapshot c73_snapshot sk_s))];
    EpMetadata "timestamp" VNone [Ready (bytes_of (one_by Timestamp c73_timestamp sk_t))];
    EpMetadata "root" (VNumber 3) [Ready "part"; Failed IoOther];
    EpMetadata "root" (VNumber 2) [Ready (bytes_of c90_signed_root2)] ].

Lemma stored_last ops pre path v rs post s :
  ops = pre ++ EpMetadata path v rs :: post -> (exists b, to_raw s = Ok b /\ SpecRepo.complete rs b) ->
  (forall rs', In (EpMetadata path v rs') post -> False) -> stored_as ops path v s.
Proof.
  intros -> (b & B & K) N. exists b. split; [exact B|]. exists pre, rs, post. split; [reflexivity|]. split; [exact K|].
  intros rs' I. destruct (N rs' I).
Qed.
Lemma raw_complete s : is_ok (to_raw s) = true -> exists b, to_raw s = Ok b /\ SpecRepo.complete [Ready (bytes_of s)] b.
Proof.
  unfold bytes_of. destruct (to_raw s) as [b|e]; [|discriminate]. intros _. exists b. split; [reflexivity|]. apply contains_cursor.
Qed.

Lemma pair_parts {A B} (a a' : A) (b b' : B) : (a, b) = (a', b') -> a = a' /\ b = b'.
Proof. intros H. split; [exact (f_equal fst H)|exact (f_equal snd H)]. Qed.

Example C90_case :
  well_made checksums c90_edition /\ stored_edition c90_edition c90_ops /\ readable default_config c90_edition /\
  offered_target checksums default_config c90_edition c90_ops "bin/tool" "hello" /\
  rm_version (ed_root c90_edition) - rm_version c73_root < N.of_nat 2 /\ c90_place <> "bin/tool".
Proof.
  destruct C73_case as (P1 & P2 & P3 & P4 & S1 & S2 & S3 & S4 & D1 & D2 & _).
  assert (K : forall l, (forall k, In k l -> In k [key_r; key_t; key_s; key_g; key_d]) -> Forall (working_key checksums) (map toy_private l)).
  { intros l I. apply Forall_forall. intros x J. apply in_map_iff in J as (k & <- & J). apply toy_works, I, J. }
  assert (P5 : published checksums Root c90_root2 (map toy_private [key_d; key_r]) c90_signed_root2).
  { apply published_one; [vm_compute; reflexivity|apply K; cbn [In]; tauto|vm_compute; reflexivity|vm_compute; reflexivity|vm_compute; reflexivity|vm_compute; reflexivity|].
    apply (ma_add checksums Root _ [sk_r] (one_by Root c90_root2 sk_r) sk_d 0%N); [|vm_compute; reflexivity].
    apply (ma_new checksums Root _ c90_root2 _ 0%N); vm_compute; reflexivity. }
  (* the roles are the same *)
  assert (Rl : rm_keys c90_root2 = rm_keys c73_root /\ forall r, role_def_of c90_root2 r = role_def_of c73_root r).
  { split; [vm_compute; reflexivity|]. intros []; vm_compute; reflexivity. }
  assert (S : forall r ks, sufficient_for c73_root r ks -> signers_for c90_root2 r ks).
  { intros r ks H. unfold signers_for. destruct Rl as [-> Rl]. rewrite Rl. exact H. }
  split; [|split; [|split; [|split; [|split]]]].
  - split; cbn [ed_roots ed_root ed_timestamp ed_timestamp_doc ed_snapshot ed_snapshot_doc ed_targets ed_targets_doc c90_edition].
    + apply (signed_next checksums [(c73_root, c73_signed_root)] c73_root c90_root2 (map toy_private [key_d; key_r]) c90_signed_root2).
      * exact (signed_first checksums c73_root _ _ P1 S1).
      * exact P5.
      * exact S1.
      * exact (S Root _ S1).
      * vm_compute. reflexivity.
    + exists (map toy_private [key_t]). split; [exact P2|exact (S _ _ S2)].
    + exists (map toy_private [key_s]). split; [exact P3|exact (S _ _ S3)].
    + exists (map toy_private [key_g]). split; [exact P4|exact (S _ _ S4)].
    + exists [Sha256]. exact D1.
    + exists [Sha256; Sha512]. exact D2.
  - split; cbn [ed_roots ed_root ed_timestamp ed_timestamp_doc ed_snapshot ed_snapshot_doc ed_targets ed_targets_doc c90_edition].
    + intros m s [H|[H|[]]]; apply pair_parts in H as [<- <-].
      * replace (rm_version c73_root) with 1 by (vm_compute; reflexivity).
        apply (stored_last c90_ops [] "root" (VNumber 1) [Ready (bytes_of c73_signed_root)] (tl c90_ops)); [reflexivity| |].
        -- apply raw_complete. vm_compute. reflexivity.
        -- intros rs' I. cbn [tl c90_ops In] in I. repeat (destruct I as [I|I]; [discriminate I|]). destruct I.
      * replace (rm_version c90_root2) with 2 by (vm_compute; reflexivity).
        apply (stored_last c90_ops (firstn 7 c90_ops) "root" (VNumber 2) [Ready (bytes_of c90_signed_root2)] []); [reflexivity| |].
        -- apply raw_complete. vm_compute. reflexivity.
        -- intros rs' [].
    + intros n No rs I. cbn [c90_ops In] in I.
      assert (N1 : n <> 1).
      { intros ->. apply (No c73_root c73_signed_root); [now left|vm_compute; reflexivity]. }
      assert (N2 : n <> 2).
      { intros ->. apply (No c90_root2 c90_signed_root2); [right; now left|vm_compute; reflexivity]. }
      repeat (destruct I as [I|I]; [first [discriminate I|injection I; congruence|idtac]|]); [|destruct I].
      injection I as <- <-. intros b Cb. inversion Cb; subst. inversion H4.
    + apply (stored_last c90_ops (firstn 5 c90_ops) "timestamp" VNone [Ready (bytes_of (one_by Timestamp c73_timestamp sk_t))] (skipn 6 c90_ops)); [reflexivity| |].
      * apply raw_complete. vm_compute. reflexivity.
      * intros rs' I. cbn [skipn c90_ops In] in I. repeat (destruct I as [I|I]; [discriminate I|]). destruct I.
    + replace (rm_consistent c90_root2) with true by (vm_compute; reflexivity).
      replace (sm_version c73_snapshot) with 2 by (vm_compute; reflexivity).
      apply (stored_last c90_ops (firstn 4 c90_ops) "snapshot" (VNumber 2) [Ready (bytes_of (one_by Snapshot c73_snapshot sk_s))] (skipn 5 c90_ops)); [reflexivity| |].
      * apply raw_complete. vm_compute. reflexivity.
      * intros rs' I. cbn [skipn c90_ops In] in I. repeat (destruct I as [I|I]; [discriminate I|]). destruct I.
    + replace (rm_consistent c90_root2) with true by (vm_compute; reflexivity).
      replace (tg_version c73_targets) with 3 by (vm_compute; reflexivity).
      apply (stored_last c90_ops (firstn 3 c90_ops) "targets" (VNumber 3) [Ready (bytes_of (one_by Targets c73_targets sk_g))] (skipn 4 c90_ops)); [reflexivity| |].
      * apply raw_complete. vm_compute. reflexivity.
      * intros rs' I. cbn [skipn c90_ops In] in I. repeat (destruct I as [I|I]; [discriminate I|]). destruct I.
  - assert (G : forall s b, (N.of_nat (String.length (bytes_of s)) <=? 32768) = true -> to_raw s = Ok b ->
       (forall m, Some (1024 * 1024) = Some m \/ Some (32 * 1024) = Some m -> length_ok m b) /\ length_ok u64_max b).
    { intros s b L H. unfold bytes_of in L. rewrite H in L. cbn [the] in L. apply N.leb_le in L. unfold length_ok, u64_max. split; [|lia].
      intros m [M|M]; injection M as <-; lia. }
    split; cbn [ed_roots ed_root ed_timestamp_doc c90_edition].
    + intros m s b I H. assert (L : (N.of_nat (String.length (bytes_of s)) <=? 32768) = true).
      { destruct I as [I|[I|[]]]; apply pair_parts in I as [<- <-]; vm_compute; reflexivity. }
      destruct (G s b L H) as (G1 & G2). split; [|exact G2]. intros x M. apply G1. left. exact M.
    + intros b H. assert (L : (N.of_nat (String.length (bytes_of (one_by Timestamp c73_timestamp sk_t))) <=? 32768) = true) by (vm_compute; reflexivity).
      destruct (G (one_by Timestamp c73_timestamp sk_t) b L H) as (G1 & G2). split; [|exact G2]. intros x M. apply G1. right. exact M.
    + vm_compute. reflexivity.
  - exists "bin/tool", (the (mkTargetDesc 0 [] None) (target_from_reader checksums [Ready "hel"; Ready "lo"] [Sha256])), [Sha256],
      [Ready "hel"; Ready "lo"], c90_place.
    split; [vm_compute; reflexivity|]. split; [vm_compute; reflexivity|]. split.
    { apply (contains_data "hel" [Ready "lo"] "lo" None); [discriminate|]. apply (contains_data "lo" [] "" None); [discriminate|constructor]. }
    split; [vm_compute; reflexivity|]. split; [vm_compute; discriminate|]. split.
    { replace (rm_consistent (ed_root c90_edition)) with true by (vm_compute; reflexivity). exists Sha256. split.
      - right. split; [reflexivity|]. split; vm_compute; reflexivity.
      - vm_compute. reflexivity. }
    exists (firstn 2 c90_ops), [Ready "he"; Pending; Ready "llo"], (skipn 3 c90_ops). split; [reflexivity|]. split.
    + apply (contains_data "he" [Pending; Ready "llo"] "llo" None); [discriminate|]. constructor.
      apply (contains_data "llo" [] "" None); [discriminate|constructor].
    + intros rs' I. cbn [skipn c90_ops In] in I. repeat (destruct I as [I|I]; [discriminate I|]). destruct I.
  - vm_compute. reflexivity.
  - vm_compute. discriminate.
Qed.

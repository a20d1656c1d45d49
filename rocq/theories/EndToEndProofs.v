(** * Proofs for C90 *)
From Coq Require Import String List NArith ZArith Bool Lia.
From Verif Require Import Base BaseFacts Metadata Verify Paths Tuf SpecVerify SpecTuf VerifyProofs TufProofs TufHistory
     Reader SpecReader ReaderProofs Repo SpecRepo RepoProofs Client SpecClient SpecHonest ClientLogic ClientProofs ClientUpdates
     ClientHistory ClientWalk ClientTargets ClientRestart ClientHonest Shims SpecMeta JsonLayer Builders SpecBuilders BuilderProofs
     Props_Reader Props_Repo Props_Builders Props_Client Props_Honest SpecEndToEnd.
Import ListNotations.
Open Scope string_scope.
Open Scope list_scope.
Open Scope N_scope.

(** ** Updates do not touch targets *)

Lemma root_loop_quiet E cfg s persist fuel : forall t updated h,
  wp DQ (root_loop E cfg fuel s persist t updated) (fun _ _ => True) h.
Proof.
  induction fuel as [|fuel IH]; intros t updated h; [exact I|]. cbn [root_loop].
  destruct (_ <=? _); [exact I|].
  eapply (wp_seq DQ _ _ (fun _ _ => True)); [now apply quiet_fetch|]. intros h1 [raw|e] _; [|now destruct e].
  destruct (update_root E t raw) as [t' r]. cbn [wp]. intros _. split; [exact I|]. destruct r as [u|e]; [|exact I].
  destruct persist; [|apply IH].
  eapply (wp_seq DQ _ _ (fun _ _ => True)); [now apply quiet_store|]. intros h2 [u2|e] _; [|exact I].
  eapply (wp_seq DQ _ _ (fun _ _ => True)); [now apply quiet_store|]. intros h3 [u3|e] _; [|exact I]. apply IH.
Qed.

Lemma update_quiet E cfg fuel t h : wp DQ (update E cfg fuel t) (fun _ _ => True) h.
Proof.
  unfold update. eapply (wp_seq DQ _ _ (fun _ _ => True)).
  { unfold update_root_with_repos. eapply (wp_seq DQ _ _ (fun _ _ => True)); [apply root_loop_quiet|].
    intros h1 [t1 [u|e]] _; [|exact I]. cbn [wp]. intros c _. split; [exact I|]. destruct (expired _ _); exact I. }
  intros h1 [t1 [u1|e]] _; [|exact I]. eapply (wp_seq DQ _ _ (fun _ _ => True)).
  { unfold update_timestamp_with_repos. eapply (wp_seq DQ _ _ (fun _ _ => True)); [now apply quiet_fetch|].
    intros h2 [raw|e] _; [|exact I]. cbn [wp]. intros c _. split; [exact I|].
    destruct (update_timestamp E t1 c raw) as [t' r]. cbn [wp]. intros _. split; [exact I|].
    destruct r as [[m|]|e]; [|exact I|exact I].
    eapply (wp_seq DQ _ _ (fun _ _ => True)); [now apply quiet_store|]. intros h3 [u3|e] _; exact I. }
  intros h2 [t2 [u2|e]] _; [|exact I]. eapply (wp_seq DQ _ _ (fun _ _ => True)).
  { unfold update_snapshot_with_repos. destruct (t_timestamp t2) as [ts|]; [|exact I]. destruct (_ <=? _); [exact I|].
    destruct (hash_preference _) as [hash|e]; [|exact I].
    eapply (wp_seq DQ _ _ (fun _ _ => True)); [now apply quiet_fetch|].
    intros h3 [raw|e] _; [|exact I]. cbn [wp]. intros c _. split; [exact I|].
    destruct (update_snapshot E t2 c raw) as [t' r]. cbn [wp]. intros _. split; [exact I|].
    destruct r as [[]|e]; [|exact I|exact I].
    eapply (wp_seq DQ _ _ (fun _ _ => True)); [now apply quiet_store|]. intros h4 [u4|e] _; exact I. }
  intros h3 [t3 [u3|e]] _; [|exact I]. eapply (wp_seq DQ _ _ (fun _ _ => True)).
  { unfold update_targets_with_repos. destruct (t_snapshot t3) as [sn|]; [|exact I]. destruct (lookup _ _) as [desc|]; [|exact I].
    destruct (_ <=? _); [exact I|]. destruct (hash_preference _) as [hash|e]; [|exact I].
    eapply (wp_seq DQ _ _ (fun _ _ => True)); [now apply quiet_fetch|].
    intros h4 [raw|e] _; [|exact I]. cbn [wp]. intros c _. split; [exact I|].
    destruct (update_targets E t3 c raw) as [t' r]. cbn [wp]. intros _. split; [exact I|].
    destruct r as [[]|e]; [|exact I|exact I].
    eapply (wp_seq DQ _ _ (fun _ _ => True)); [now apply quiet_store|]. intros h5 [u5|e] _; exact I. }
  intros h4 [t4 [u4|e]] _; exact I.
Qed.

Lemma update_exec_quiet E cfg fuel t tr q : exec (update E cfg fuel t) tr q -> Forall quiet tr.
Proof.
  intros X. destruct (wp_sound DQ _ _ _ X _ [] (update_quiet E cfg fuel t []) (along_DQ _ _)) as [G _]. now apply along_quiet in G.
Qed.
Lemma quiet_written tr : Forall quiet tr -> SpecClient.written tr = "".
Proof. induction 1 as [|e tr Q F IH]; [reflexivity|]. destruct e; cbn in *; try contradiction; exact IH. Qed.

(** A run of the first part that has not come to its end, or one of both parts. *)
Lemma exec_bind_cases {A B} (p : prog A) (f : A -> prog B) tr q : exec (bind p f) tr q ->
  (exists p', exec p tr p' /\ (p' <> Panic -> q <> Panic) /\ (p' <> OutOfFuel -> q <> OutOfFuel) /\ forall b, q <> Ret b) \/
  (exists a tr1 tr2, tr = tr1 ++ tr2 /\ exec p tr1 (Ret a) /\ exec (f a) tr2 q).
Proof.
  intros X. apply exec_bind_inv in X as [(p' & X & ->)|X]; [|now right].
  destruct p' as [a| | | | | | | | | ];
    try (left; eexists; split; [exact X|]; cbn; split; [congruence|]; split; [congruence|]; discriminate).
  right. exists a, tr, []. rewrite app_nil_r. split; [reflexivity|]. split; [exact X|]. constructor.
Qed.

(** ** Clients with an empty local repository *)

Lemma empty_fetch path v max hash C : read_metadata C max hash (ephemeral_fetch_metadata ephemeral_new path v) = Err NotFound.
Proof. reflexivity. Qed.

Lemma construct_empty E cfg fuel b t : fuel <> O -> from_trusted_root E b = Ok t -> rm_version (t_root t) < u32_max ->
  forall tr q l, exec (construct E cfg fuel (FromRoot b)) tr q -> in_memory ephemeral_new tr l ->
  l = ephemeral_new /\ q <> Panic /\ q <> OutOfFuel /\ Forall quiet tr /\ forall r, q = Ret r -> r = Ok t.
Proof.
  intros F H V tr q l X M. destruct fuel as [|fuel]; [contradiction|]. apply N.leb_gt in V.
  cbn [construct] in X. unfold with_trusted_root in X. rewrite H in X.
  Ltac stop := split; [first [reflexivity|assumption]|]; split; [discriminate|]; split; [discriminate|]; split;
    [repeat constructor|]; intros ? Q; inversion Q; reflexivity.
  inversion X as [| | | | | | |t1 p1 tr1 q1 X1]; clear X; subst; [inversion M; subst; stop|].
  inversion M as [|e0 ev0 e1 tr0 e2 S1 M1]; clear M; subst. cbn [in_memory_step] in S1. subst e1.
  unfold client_new, update_root_with_repos in X1. cbn [root_loop] in X1. rewrite V in X1.
  unfold fetch_metadata at 1 in X1. change (repo_check Root (from_role Root)) with (@Ok unit tt) in X1. cbn [bind] in X1.
  inversion X1 as [|s path v max hash k ans tr2 q2 X2| | | | | |]; clear X1; subst; [inversion M1; subst; stop|].
  inversion M1 as [|e0 ev0 e1 tr0 e2 S2 M2]; clear M1; subst. cbn [in_memory_step] in S2. destruct S2 as [-> ->].
  rewrite empty_fetch in X2. cbn [bind] in X2.
  inversion X2 as [| | | | | |k c tr3 q3 X3|]; clear X2; subst; [inversion M2; subst; stop|].
  inversion M2 as [|e0 ev0 e1 tr0 e2 S3 M3]; clear M2; subst. cbn [in_memory_step] in S3. subst e1.
  destruct (expired _ _) in X3; cbn [bind] in X3; [inversion X3; subst; inversion M3; subst; stop|].
  inversion X3 as [|s path v max hash k1 ans tr4 q4 X4| | | | | |]; clear X3; subst; [inversion M3; subst; stop|].
  inversion M3 as [|e0 ev0 e1 tr0 e2 S4 M4]; clear M3; subst. cbn [in_memory_step] in S4. destruct S4 as [-> ->].
  rewrite empty_fetch in X4. cbn [bind] in X4. inversion X4; subst. inversion M4; subst. stop.
Qed.

(** ** The edition as a publication *)

(** An edition as a publication. *)
Definition bytes_in (s : signed_metadata) : bytes := match to_raw s with Ok b => b | Err _ => "" end.
Definition publication_of (d : edition) : publication :=
  mkPublication (map (fun x => (bytes_in (snd x), fst x)) (ed_roots d)) (ed_root d) (bytes_in (ed_timestamp_doc d)) (ed_timestamp d)
    (bytes_in (ed_snapshot_doc d)) (ed_snapshot d) (bytes_in (ed_targets_doc d)) (ed_targets d).

Section Edition.
  Variable C : crypto.
  Variable o : hash_order.
  Notation E := (mkEnv C o (json_interchange C)).

  Lemma published_from_trusted m ks s : published C Root m ks s -> signers_for m Root ks ->
    exists b, to_raw s = Ok b /\ from_trusted_root E b = Ok (tuf_of_root m).
  Proof.
    intros P S. destruct (published_trusted C o m Root m ks s P S) as (b & B & T). exists b. split; [exact B|].
    apply from_trusted_iff. destruct P as (m0 & raw & A & W & Es & F & K & M). cbn [e_ic ic_envelope ic_deserialize json_interchange].
    destruct (made_envelope C Root raw ks s M F K) as (b' & B' & Ev). assert (b' = b) as -> by congruence.
    destruct (BuilderProofs.written C Root m0 m A W) as (v & V' & D'). assert (v = raw) as -> by congruence.
    exists (sg_sigs s), raw, m, m. auto.
  Qed.

  Lemma published_version m ks s : published C Root m ks s -> 1 <= rm_version m <= u32_max.
  Proof. intros (_ & _ & _ & W & _). destruct W as ((W1 & W2) & _). unfold u32_max. lia. Qed.

  Definition same_root (x : root_metadata * signed_metadata) (y : bytes * root_metadata) : Prop :=
    snd y = fst x /\ to_raw (snd x) = Ok (fst y).

  Lemma line_of_signed l m : signed_line C l m ->
    exists bl, root_line E bl m /\ Forall2 same_root l bl /\
      (forall x, In x l -> rm_version (fst x) <= rm_version m) /\
      exists m0 s0 rest b0, l = (m0, s0) :: rest /\ to_raw s0 = Ok b0 /\ from_trusted_root E b0 = Ok (tuf_of_root m0).
  Proof.
    induction 1 as [m ks s P S|l m m' ks s L IH P S1 S2 V].
    - destruct (published_from_trusted m ks s P S) as (b & B & T). exists [(b, m)].
      split; [constructor|]. split; [repeat constructor; auto|]. split; [intros x [<-|[]]; cbn; lia|]. exists m, s, [], b. auto.
    - destruct IH as (bl & R & F & Vs & m0 & s0 & rest & b0 & -> & B0 & T0).
      destruct (published_trusted C o m Root m' ks s P S1) as (b & B & T1).
      destruct (published_trusted C o m' Root m' ks s P S2) as (b' & B' & T2). assert (b' = b) as -> by congruence.
      pose proof (published_version _ _ _ P) as V'.
      exists (bl ++ [(b, m')]). split; [|split; [|split]].
      + apply (line_next _ bl m b m' R). split; [exact T1|]. split; [exact T2|]. split; [exact V|lia].
      + apply Forall2_app; [exact F|]. repeat constructor. exact B.
      + intros x I. apply in_app_or in I as [I|[<-|[]]]; [specialize (Vs x I); lia|cbn; lia].
      + exists m0, s0, (rest ++ [(m', s)]), b0. auto.
  Qed.

  Lemma published_described r (m : metadata_of r) ks s algs d : published C r m ks s -> describe_signed C FJson s algs = Ok d ->
    md_version d = version_of r m /\ 1 <= version_of r m /\
    exists b, to_raw s = Ok b /\ as_described C d b /\ length_ok u64_max b.
  Proof.
    intros (m0 & raw & A & W & Es & _ & _ & M) D. pose proof D as D0.
    apply describe_signed_Ok in D0 as (_ & _ & _ & _ & ((V1 & _) & Sz & _)).
    apply C69_descriptions_match_the_bytes_partial in D as (b & B & D & V & R).
    destruct (BuilderProofs.written C r m0 m A W) as (v & V' & D'). assert (v = raw) as -> by congruence.
    apply made_inv in M as (<- & _). specialize (V r m D'). split; [exact V|]. split; [lia|]. exists b. split; [exact B|].
    destruct D as (DL & DH). destruct (R _ (contains_cursor b)) as (alg & w & c & P & _). apply hash_preference_iff in P.
    assert (LB : length_ok u64_max b). { unfold length_ok, u64_max. unfold size_ok in Sz. lia. }
    split; [|exact LB]. split; [unfold length_ok; lia|]. exists alg, w. split; [exact P|].
    assert (L : lookup alg (md_hashes d) = Some w) by (destruct P as [(-> & P)|(-> & _ & P)]; exact P).
    rewrite DH in L. destruct (mem alg algs); congruence.
  Qed.

  Lemma target_described rs algs desc data : contains rs data None -> target_from_reader C rs algs = Ok desc -> length_ok u64_max data ->
    target_authentic C desc data /\
    forall alg v, preferred (td_hashes desc) alg v -> v = ring_digest C alg data.
  Proof.
    intros CO T L. destruct (C68_descriptions_describe C rs algs data CO) as (_ & D & _ & R).
    destruct (D desc T) as (DL & _ & DH). destruct (R desc rs T L CO) as (alg & v & s & P & _). apply hash_preference_iff in P.
    assert (G : forall alg v, preferred (td_hashes desc) alg v -> v = ring_digest C alg data).
    { intros a w Q. assert (Lk : lookup a (td_hashes desc) = Some w) by (destruct Q as [(-> & Q)|(-> & _ & Q)]; exact Q).
      rewrite DH in Lk. destruct (mem a algs); congruence. }
    split; [|exact G]. split; [unfold length_ok; lia|]. exists alg, v. split; [exact P|]. symmetry. now apply G.
  Qed.

  Lemma edition_as cfg d : well_made C d -> readable cfg d ->
    let p := publication_of d in
    exists m0 s0 rest b0,
      in_order E cfg p /\ pb_root p = ed_root d /\ pb_ts p = ed_timestamp d /\ pb_sn p = ed_snapshot d /\ pb_tg p = ed_targets d /\
      (forall raw r, In (raw, r) (pb_roots p) -> exists s, In (r, s) (ed_roots d) /\ to_raw s = Ok raw) /\
      (forall r s, In (r, s) (ed_roots d) -> exists raw, In (raw, r) (pb_roots p) /\ to_raw s = Ok raw) /\
      to_raw (ed_timestamp_doc d) = Ok (pb_timestamp p) /\ to_raw (ed_snapshot_doc d) = Ok (pb_snapshot p) /\
      to_raw (ed_targets_doc d) = Ok (pb_targets p) /\
      ed_roots d = (m0, s0) :: rest /\ to_raw s0 = Ok b0 /\ from_trusted_root E b0 = Ok (tuf_of_root m0) /\
      In (b0, m0) (pb_roots p) /\ rm_version m0 <= rm_version (ed_root d).
  Proof.
    intros [W1 (kt & Pt & St) (ks & Ps & Ss) (kg & Pg & Sg) (as_ & Ds) (ag & dg & Dg & Lg)] [R1 R2 R3].
    destruct (line_of_signed _ _ W1) as (bl & RL & F2 & Vs & m0 & s0 & rest & b0 & E0 & B0 & T0).
    destruct (published_trusted C o _ Timestamp _ _ _ Pt St) as (bt & Bt & Tt).
    destruct (published_trusted C o _ Snapshot _ _ _ Ps Ss) as (bs & Bs & Ts).
    destruct (published_trusted C o _ Targets _ _ _ Pg Sg) as (bg & Bg & Tg).
    destruct (published_described _ _ _ _ _ _ Ps Ds) as (Vs1 & Vs2 & bs' & Bs' & As & Ls).
    destruct (published_described _ _ _ _ _ _ Pg Dg) as (Vg1 & Vg2 & bg' & Bg' & Ag & Lgb).
    assert (bs' = bs) as -> by congruence. assert (bg' = bg) as -> by congruence.
    assert (In1 : forall raw r, In (raw, r) bl -> exists s, In (r, s) (ed_roots d) /\ to_raw s = Ok raw).
    { revert F2. generalize (ed_roots d). clear. intros l F2 raw r I. induction F2 as [|[m s] [b x] l bl (Q1 & Q2) F IH]; [destruct I|].
      cbn in Q1, Q2. subst x. destruct I as [I|I]; [inversion I; subst; exists s; split; [now left|exact Q2]|].
      destruct (IH I) as (s' & J & K). exists s'. split; [now right|exact K]. }
    assert (In2 : forall r s, In (r, s) (ed_roots d) -> exists raw, In (raw, r) bl /\ to_raw s = Ok raw).
    { revert F2. generalize (ed_roots d). clear. intros l F2 r s I. induction F2 as [|[m x] [b y] l bl (Q1 & Q2) F IH]; [destruct I|].
      cbn in Q1, Q2. subst y. destruct I as [I|I]; [inversion I; subst; exists b; split; [now left|exact Q2]|].
      destruct (IH I) as (raw & J & K). exists raw. split; [now right|exact K]. }
    assert (Vt : 1 <= tm_version (ed_timestamp d)). { destruct Pt as (_ & _ & _ & W & _). apply W. }
    assert (Qp : publication_of d = mkPublication bl (ed_root d) bt (ed_timestamp d) bs (ed_snapshot d) bg (ed_targets d)).
    { unfold publication_of, bytes_in. rewrite Bt, Bs, Bg. f_equal. clear - F2. generalize dependent (ed_roots d). intros l F2.
      induction F2 as [|[m s] [b x] l bl (Q1 & Q2) F IH]; [reflexivity|]. cbn [fst snd] in Q1, Q2. subst x. cbn [map fst snd]. rewrite Q2. f_equal. exact IH. }
    cbn zeta. rewrite Qp. exists m0, s0, rest, b0.
    split.
    { split; cbn [pb_roots pb_root pb_timestamp pb_ts pb_snapshot pb_sn pb_targets pb_tg e_crypto]; auto.
      - intros raw r I. destruct (In1 raw r I) as (s & J & K). exact (R1 r s raw J K).
      - exact (R2 bt Bt).
      - exists dg. auto. }
    do 4 (split; [reflexivity|]). split; [exact In1|]. split; [exact In2|]. split; [exact Bt|]. split; [exact Bs|]. split; [exact Bg|].
    split; [exact E0|]. split; [exact B0|]. split; [exact T0|]. 
    assert (I0 : In (m0, s0) (ed_roots d)) by (rewrite E0; now left). split.
    - cbn. destruct (In2 m0 s0 I0) as (raw & J & K). assert (raw = b0) as <- by congruence. exact J.
    - exact (Vs _ I0).
  Qed.
  Lemma edition_in_order cfg d : well_made C d -> readable cfg d ->
    exists p m0 s0 rest b0,
      in_order E cfg p /\ pb_root p = ed_root d /\ pb_ts p = ed_timestamp d /\ pb_sn p = ed_snapshot d /\ pb_tg p = ed_targets d /\
      (forall raw r, In (raw, r) (pb_roots p) -> exists s, In (r, s) (ed_roots d) /\ to_raw s = Ok raw) /\
      (forall r s, In (r, s) (ed_roots d) -> exists raw, In (raw, r) (pb_roots p) /\ to_raw s = Ok raw) /\
      to_raw (ed_timestamp_doc d) = Ok (pb_timestamp p) /\ to_raw (ed_snapshot_doc d) = Ok (pb_snapshot p) /\
      to_raw (ed_targets_doc d) = Ok (pb_targets p) /\
      ed_roots d = (m0, s0) :: rest /\ to_raw s0 = Ok b0 /\ from_trusted_root E b0 = Ok (tuf_of_root m0) /\
      In (b0, m0) (pb_roots p) /\ rm_version m0 <= rm_version (ed_root d).
  Proof. intros W R. exists (publication_of d). exact (edition_as cfg d W R). Qed.

  Lemma edition_published cfg d ops : well_made C d -> stored_edition d ops -> readable cfg d ->
    exists p m0 s0 rest b0,
      in_order E cfg p /\ pb_root p = ed_root d /\ pb_ts p = ed_timestamp d /\ pb_sn p = ed_snapshot d /\ pb_tg p = ed_targets d /\
      (forall path v, offers p path v (ephemeral_fetch_metadata (ephemeral_run ephemeral_new ops) path v)) /\
      ed_roots d = (m0, s0) :: rest /\ to_raw s0 = Ok b0 /\ from_trusted_root E b0 = Ok (tuf_of_root m0) /\
      In (b0, m0) (pb_roots p) /\ rm_version m0 <= rm_version (ed_root d).
  Proof.
    intros W [S1 S2 S3 S4 S5] R.
    destruct (edition_in_order cfg d W R) as (p & m0 & s0 & rest & b0 & OK & Q1 & Q2 & Q3 & Q4 & In1 & In2 & Bt & Bs & Bg & E0 & B0 & T0 & I0 & V0).
    exists p, m0, s0, rest, b0. split; [exact OK|]. do 4 (split; [assumption|]). split; [|auto].
    assert (Ans : forall path v s b, stored_as ops path v s -> to_raw s = Ok b ->
       answered (ephemeral_fetch_metadata (ephemeral_run ephemeral_new ops) path v) b).
    { intros path v s b (b' & B & L) B'. assert (b' = b) as -> by congruence.
      now apply (proj1 (C41_ephemeral_is_a_map ops)). }
    intros path v. split; [|split; [|split]].
    - intros n -> ->. destruct (find (fun x => rm_version (snd x) =? n) (pb_roots p)) as [[raw r]|] eqn:Fi.
      + apply find_some in Fi as [I V]. apply N.eqb_eq in V. cbn in V. left. exists raw, r. split; [exact I|]. split; [exact V|].
        destruct (In1 raw r I) as (s & J & K). subst n. exact (Ans _ _ s raw (S1 r s J) K).
      + right. assert (No : forall raw r, In (raw, r) (pb_roots p) -> rm_version r <> n).
        { intros raw r I V. pose proof (find_none _ _ Fi _ I) as Y. cbn in Y. rewrite V, N.eqb_refl in Y. discriminate. }
        split; [exact No|]. apply (proj1 (proj2 (C41_ephemeral_is_a_map ops))). apply S2. intros m s I.
        destruct (In2 m s I) as (raw & J & _). exact (No raw m J).
    - intros -> ->. exact (Ans _ _ _ _ S3 Bt).
    - intros -> ->. unfold published_as. rewrite Q1, Q3. exact (Ans _ _ _ _ S4 Bs).
    - intros -> ->. unfold published_as. rewrite Q1, Q4. exact (Ans _ _ _ _ S5 Bg).
  Qed.
End Edition.

(** ** The world *)

Lemma world_good d ops p l tr l' : pb_root p = ed_root d -> pb_ts p = ed_timestamp d -> pb_sn p = ed_snapshot d -> pb_tg p = ed_targets d ->
  (forall path v, offers p path v (ephemeral_fetch_metadata (ephemeral_run ephemeral_new ops) path v)) ->
  Forall (in_world d ops) tr -> in_memory l tr l' -> Forall (good_event p) tr.
Proof.
  intros E1 E2 E3 E4 O F M. induction M as [l|l ev l1 tr l2 S M IH]; [constructor|].
  inversion F as [|? ? F1 F2]; subst. constructor; [|exact (IH F2)].
  destruct ev as [s path v max hash ans|path v data ans|path de ans|path rs ans|b ans|c|t]; cbn in *; auto.
  - destruct s; [exact I|]. subst ans. apply O.
  - rewrite store_cursor in S. now inversion S.
  - intros now J. rewrite E1, E2, E3, E4. now apply F1.
Qed.

Lemma world_download d ops place data l tr l' : last_target ops place data ->
  Forall (in_world d ops) tr -> in_memory l tr l' -> Forall (good_download place data) tr.
Proof.
  intros L F M. induction M as [l|l ev l1 tr l2 S M IH]; [constructor|].
  inversion F as [|? ? F1 F2]; subst. constructor; [|exact (IH F2)].
  destruct ev as [s path v max hash ans|path v b ans|path de ans|path rs ans|b ans|c|t]; cbn in *; auto.
  - intros ->. subst ans. now apply (proj1 (proj2 (proj2 (C41_ephemeral_is_a_map ops)))).
  - intros (b & B). unfold ephemeral_store_target in S. apply read_plain_iff in B. rewrite B in S. now inversion S.
Qed.

Lemma world_total {A} d ops (q : prog A) : forall l,
  exists tr q' l', exec q tr q' /\ Forall (in_world d ops) tr /\ in_memory l tr l' /\ over q'.
Proof.
  set (p := mkPublication [] (ed_root d) "" (ed_timestamp d) "" (ed_snapshot d) "" (ed_targets d)).
  destruct (current_possible p) as (c & Hc).
  induction q as [a| | |s path v max hash k IH|path v b k IH|path de k IH|path rs k IH|b k IH|k IH|t q IH]; intros l.
  1-3: eexists [], _, l; split; [constructor|]; split; [constructor|]; split; [constructor|exact I].
  - set (ans := ephemeral_fetch_metadata (match s with Local => l | Remote => ephemeral_run ephemeral_new ops end) path v).
    destruct (IH ans l) as (tr & q' & l' & X & F & M & O). exists (EvFetchMeta s path v max hash ans :: tr), q', l'.
    split; [constructor; exact X|]. split; [constructor; [|exact F]|split; [|exact O]].
    + destruct s; [exact I|reflexivity].
    + apply in_memory_cons with l; [|exact M]. destruct s; [split; reflexivity|reflexivity].
  - destruct (ephemeral_store_metadata l path v (cursor b)) as [l1 ans] eqn:S.
    destruct (IH ans l1) as (tr & q' & l' & X & F & M & O). exists (EvStoreMeta path v b ans :: tr), q', l'.
    split; [constructor; exact X|]. split; [constructor; [exact I|exact F]|]. split; [|exact O]. apply in_memory_cons with l1; [exact S|exact M].
  - set (ans := ephemeral_fetch_target (ephemeral_run ephemeral_new ops) path).
    destruct (IH ans l) as (tr & q' & l' & X & F & M & O). exists (EvFetchTarget path de ans :: tr), q', l'.
    split; [constructor; exact X|]. split; [constructor; [reflexivity|exact F]|]. split; [|exact O]. apply in_memory_cons with l; [reflexivity|exact M].
  - destruct (ephemeral_store_target l path rs) as [l1 ans] eqn:S.
    destruct (IH ans l1) as (tr & q' & l' & X & F & M & O). exists (EvStoreTarget path rs ans :: tr), q', l'.
    split; [constructor; exact X|]. split; [constructor; [exact I|exact F]|]. split; [|exact O]. apply in_memory_cons with l1; [exact S|exact M].
  - destruct (IH None l) as (tr & q' & l' & X & F & M & O). exists (EvWrite b None :: tr), q', l'.
    split; [constructor; exact X|]. split; [constructor; [reflexivity|exact F]|]. split; [|exact O]. apply in_memory_cons with l; [reflexivity|exact M].
  - destruct (IH c l) as (tr & q' & l' & X & F & M & O). exists (EvNow c :: tr), q', l'.
    split; [constructor; exact X|]. split; [constructor; [exact Hc|exact F]|]. split; [|exact O]. apply in_memory_cons with l; [reflexivity|exact M].
  - destruct (IH l) as (tr & q' & l' & X & F & M & O). exists (EvPut t :: tr), q', l'.
    split; [constructor; exact X|]. split; [constructor; [exact I|exact F]|]. split; [|exact O]. apply in_memory_cons with l; [reflexivity|exact M].
Qed.

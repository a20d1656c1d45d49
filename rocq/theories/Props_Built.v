(** * C92: builders build what they were told *)
From Coq Require Import String Ascii List NArith ZArith Bool Lia.
From Verif Require Import Base BaseFacts JsonValue JsonText SpecJson JsonProofs Metadata SpecVerify
     SpecPaths Reader SpecReader ReaderProofs Codec Dates SpecDates Serde Keys Shims SpecKeys SpecMeta ShimsProofs
     Paths PathProofs Builders SpecBuilders BuilderProofs SpecBuilt Props_Builders KeyToy Toy JsonToy.
Import ListNotations.
Open Scope nat_scope.
Open Scope string_scope.

Lemma last_word_nil {O A} (f : O -> option A) : last_word f [] None.
Proof. intros o []. Qed.
Lemma last_word_cons {O A} (f : O -> option A) o ops w : last_word f ops w ->
  last_word f (o :: ops) (match w with Some a => Some a | None => f o end).
Proof.
  destruct w as [a|]; cbn.
  - intros (before & o' & after & -> & H & K). exists (o :: before), o', after. auto.
  - intros H. destruct (f o) as [a|] eqn:E.
    + exists [], o, ops. auto.
    + intros o' [<-|I]; auto.
Qed.
Lemma said_nil {O A} (f : O -> option A) d : said f [] d d.
Proof. exists None. split; [apply last_word_nil|reflexivity]. Qed.
Lemma said_cons {O A} (f : O -> option A) o ops d a : said f ops (match f o with Some x => x | None => d end) a ->
  said f (o :: ops) d a.
Proof.
  intros (w & L & ->). exists (match w with Some a => Some a | None => f o end). split; [now apply last_word_cons|].
  destruct w; [reflexivity|]. now destruct (f o).
Qed.
Lemma said_fold {O A B} (f : O -> option A) (step : B -> O -> B) (get : B -> A)
  (H : forall b o, get (step b o) = match f o with Some a => a | None => get b end) ops :
  forall b, said f ops (get b) (get (fold_left step ops b)).
Proof.
  induction ops as [|o ops IH]; intros b; cbn; [apply said_nil|]. apply said_cons. rewrite <- H. apply IH.
Qed.

Lemma root_run ops b :
  let b' := fold_left rb_apply ops b in
  said about_version ops (rb_version b) (rb_version b') /\ said about_expires ops (rb_expires b) (rb_expires b') /\
  said about_consistent ops (rb_consistent b) (rb_consistent b') /\
  (forall r, said (about_threshold r) ops (ro_threshold (rb_roles b r)) (ro_threshold (rb_roles b' r))).
Proof.
  cbn zeta. split; [|split; [|split]].
  - apply (said_fold about_version rb_apply rb_version). now intros c [].
  - apply (said_fold about_expires rb_apply rb_expires). now intros c [].
  - apply (said_fold about_consistent rb_apply rb_consistent). now intros c [].
  - intros r. apply (said_fold (about_threshold r) rb_apply (fun b => ro_threshold (rb_roles b r))).
    intros c [v|z|x|r' t|r' k]; try now destruct r. all: now destruct r, r'.
Qed.
Lemma root_run_ids ops r : forall b,
  ro_ids (rb_roles (fold_left rb_apply ops b) r) = (ro_ids (rb_roles b r) ++ map pk_id (given_keys r ops))%list.
Proof.
  induction ops as [|o ops IH]; intros b; cbn [fold_left given_keys flat_map map]; [now rewrite app_nil_r|].
  rewrite IH, map_app, app_assoc. f_equal.
  destruct o as [v|z|x|r' t|r' k]; cbn; try (destruct r; cbn; now rewrite app_nil_r).
  all: destruct r, r'; cbn; now rewrite ?app_nil_r.
Qed.
Lemma root_run_keys ops i : forall b, sorted (rb_keys b) ->
  exists w, last_word (about_key i) ops w /\
    lookup i (rb_keys (fold_left rb_apply ops b)) = match w with Some k => Some k | None => lookup i (rb_keys b) end.
Proof.
  induction ops as [|o ops IH]; intros b S; cbn [fold_left]; [exists None; split; [apply last_word_nil|reflexivity]|].
  destruct (IH (rb_apply b o)) as (w & L & E).
  { destruct o; cbn; auto. now apply bt_insert_sorted. }
  exists (match w with Some k => Some k | None => about_key i o end). split; [now apply last_word_cons|].
  rewrite E. destruct w; [reflexivity|]. destruct o as [v|z|x|r' t|r' k]; cbn; auto.
  rewrite lookup_bt_insert by exact S. rewrite String.eqb_sym. now destruct (String.eqb (pk_id k) i).
Qed.
Lemma role_def_new_Err t l e : role_def_new t l = Err e ->
  e = IllegalArgument /\ (t = 0%N \/ (N.of_nat (length l) < t)%N).
Proof.
  unfold role_def_new. destruct (N.ltb_spec t 1); [intros E; inversion E; split; [reflexivity|left; lia]|].
  destruct l as [|a l]; [intros E; inversion E; split; [reflexivity|right; cbn; lia]|].
  destruct (N.ltb_spec (N.of_nat (length (a :: l))) t); intros E; inversion E. auto.
Qed.
Lemma rbind_Err {A B} (r : result A) (k : A -> result B) e : rbind r k = Err e ->
  r = Err e \/ exists a, r = Ok a /\ k a = Err e.
Proof. destruct r as [a|e']; cbn; intros H; [right; eauto|left; congruence]. Qed.
Lemma rb_build_Err b e : rb_build b = Err e ->
  e = IllegalArgument /\
  (rb_version b = 0%N \/ exists r, ro_threshold (rb_roles b r) = 0%N \/
     (N.of_nat (length (ro_ids (rb_roles b r))) < ro_threshold (rb_roles b r))%N).
Proof.
  unfold rb_build. intros H.
  apply rbind_Err in H as [H|(d1 & _ & H)]; [apply role_def_new_Err in H as (-> & H); eauto|].
  apply rbind_Err in H as [H|(d2 & _ & H)]; [apply role_def_new_Err in H as (-> & H); eauto|].
  apply rbind_Err in H as [H|(d3 & _ & H)]; [apply role_def_new_Err in H as (-> & H); eauto|].
  apply rbind_Err in H as [H|(d4 & _ & H)]; [apply role_def_new_Err in H as (-> & H); eauto|].
  unfold root_new in H. destruct (N.ltb_spec (rb_version b) 1); inversion H. split; [reflexivity|left; lia].
Qed.

(** Whatever a root builder is told, in whatever order. *)
Theorem C92_roots_as_told :
  forall (start : root_builder) (base : root_base) (ops : list root_op),
  root_start start base -> root_as_told base ops (rb_build (fold_left rb_apply ops start)).
Proof.
  intros start base ops S.
  assert (B : rb_version start = ba_version base /\ rb_expires start = ba_expires base /\ rb_consistent start = ba_consistent base /\
    (forall r, ro_threshold (rb_roles start r) = ba_threshold base r) /\ (forall r, ro_ids (rb_roles start r) = ba_ids base r) /\
    (forall i, lookup i (rb_keys start) = ba_key base i) /\ sorted (rb_keys start)).
  { destruct S as [now|m I].
    - repeat split; auto. constructor.
    - repeat split; try (now intros [| | |]); auto. now apply sorted_increasing. }
  destruct B as (B1 & B2 & B3 & B4 & B5 & B6 & B7).
  destruct (root_run ops start) as (R1 & R2 & R3 & R4). set (b := fold_left rb_apply ops start) in *.
  exists (rb_version b), (rb_expires b), (rb_consistent b), (fun r => ro_threshold (rb_roles b r)).
  split; [now rewrite <- B1|]. split; [now rewrite <- B2|]. split; [now rewrite <- B3|].
  split; [intros r; rewrite <- B4; apply R4|].
  assert (I : forall r, ro_ids (rb_roles b r) = (ba_ids base r ++ map pk_id (given_keys r ops))%list).
  { intros r. rewrite <- B5. apply root_run_ids. }
  cbn zeta. destruct (rb_build b) as [m|e] eqn:E.
  - apply rb_build_Ok in E as (-> & V & T). split; [exact V|]. split; [intros r; rewrite <- I; apply T|].
    split; [reflexivity|]. split; [reflexivity|]. split; [reflexivity|].
    split; [intros r; rewrite <- I; now destruct r|].
    intros i. destruct (root_run_keys ops i start B7) as (w & L & K). exists w. split; [exact L|]. cbn [rm_keys].
    rewrite <- B6. exact K.
  - apply rb_build_Err in E as (-> & [V|(r & T)]); split; auto. right. exists r. now rewrite <- I.
Qed.
Print Assumptions C92_roots_as_told.

Theorem C92_timestamps_as_told :
  forall (now : Z) (d : meta_desc) (ops : list timestamp_op) (b : timestamp_builder),
  b = fold_left tb_apply ops (tb_from_description now d) ->
  exists v z, said about_version_t ops 1%N v /\ said about_expires_t ops (in_days now 1) z /\
    tb_build b = if (v =? 0)%N then Err IllegalArgument else Ok (mkTimestamp v z d).
Proof.
  intros now d ops b ->. set (b := fold_left tb_apply ops (tb_from_description now d)).
  exists (tb_version b), (tb_expires b).
  split; [apply (said_fold about_version_t tb_apply tb_version ltac:(now intros c []) ops)|].
  split; [apply (said_fold about_expires_t tb_apply tb_expires ltac:(now intros c []) ops)|].
  assert (D : forall b0, tb_snapshot (fold_left tb_apply ops b0) = tb_snapshot b0).
  { induction ops as [|o ops IH]; intros b0; cbn; [reflexivity|]. cbn in IH. rewrite IH. now destruct o. }
  assert (D' : tb_snapshot b = d) by apply D. unfold tb_build, timestamp_new. rewrite D'.
  destruct (N.ltb_spec (tb_version b) 1), (N.eqb_spec (tb_version b) 0); auto; lia.
Qed.
Print Assumptions C92_timestamps_as_told.

Lemma role_name_text r : role_name r = text_of r.
Proof. now destruct r. Qed.
Definition names (b : snapshot_builder) : Prop := increasing (map (fun pd => fst pd ++ ".json") (nb_meta b)).
Lemma names_insert b p d : names b -> names (nb_insert_description b p d).
Proof.
  unfold names, nb_insert_description, meta_insert. cbn [nb_meta]. intros I.
  assert (S : sorted (map (fun pd : string * meta_desc => (fst pd ++ ".json", pd)) (nb_meta b))).
  { apply sorted_increasing. rewrite start_names. exact I. }
  rewrite named_names; [apply sorted_increasing, bt_insert_sorted, S|]. apply bt_insert_Forall; [reflexivity|apply named_start].
Qed.
Lemma nb_step C b o b' : nb_apply C b o = Ok b' -> names b ->
  nb_version b' = match about_version_n o with Some v => v | None => nb_version b end /\
  nb_expires b' = match about_expires_n o with Some z => z | None => nb_expires b end /\
  names b' /\
  forall p, match about_meta p o with
            | Some o => exists d, lookup p (nb_meta b') = Some d /\ describes_meta C o d
            | None => lookup p (nb_meta b') = lookup p (nb_meta b)
            end.
Proof.
  intros H N.
  assert (G : forall q d, b' = nb_insert_description b q d ->
     nb_version b' = nb_version b /\ nb_expires b' = nb_expires b /\ names b' /\
     forall p, lookup p (nb_meta b') = if String.eqb q p then Some d else lookup p (nb_meta b)).
  { intros q d ->. split; [reflexivity|]. split; [reflexivity|]. split; [now apply names_insert|]. intros p.
    cbn [nb_insert_description nb_meta]. rewrite lookup_meta_insert by exact N. now rewrite String.eqb_sym. }
  destruct o as [v|z|f r s algs|f q s algs|q d]; cbn in H.
  - inversion H; subst. split; [reflexivity|]. split; [reflexivity|]. split; [exact N|]. reflexivity.
  - inversion H; subst. split; [reflexivity|]. split; [reflexivity|]. split; [exact N|]. reflexivity.
  - apply with_path_Ok in H as (d & D & _ & ->). destruct (G _ d eq_refl) as (G1 & G2 & G3 & G4).
    split; [exact G1|]. split; [exact G2|]. split; [exact G3|]. intros p. cbn [about_meta]. rewrite G4, <- role_name_text.
    apply describe_signed_Ok in D as (bs & D1 & D2 & D3 & _).
    destruct (String.eqb _ p); [|reflexivity]. exists d. split; [reflexivity|]. exists bs. auto.
  - apply with_path_Ok in H as (d & D & _ & ->). destruct (G _ d eq_refl) as (G1 & G2 & G3 & G4).
    split; [exact G1|]. split; [exact G2|]. split; [exact G3|]. intros p. cbn [about_meta]. rewrite G4.
    apply describe_signed_Ok in D as (bs & D1 & D2 & D3 & _).
    destruct (String.eqb _ p); [|reflexivity]. exists d. split; [reflexivity|]. exists bs. auto.
  - inversion H. destruct (G q d ltac:(auto)) as (G1 & G2 & G3 & G4).
    rewrite H1. split; [exact G1|]. split; [exact G2|]. split; [exact G3|]. intros p. cbn [about_meta]. rewrite G4.
    destruct (String.eqb _ p); [|reflexivity]. exists d. split; reflexivity.
Qed.
Lemma nb_told C ops : forall b b', nb_run C b ops = Ok b' -> names b ->
  said about_version_n ops (nb_version b) (nb_version b') /\ said about_expires_n ops (nb_expires b) (nb_expires b') /\
  forall p, exists w, last_word (about_meta p) ops w /\
    match w with
    | Some o => exists d, lookup p (nb_meta b') = Some d /\ describes_meta C o d
    | None => lookup p (nb_meta b') = lookup p (nb_meta b)
    end.
Proof.
  induction ops as [|o ops IH]; cbn [nb_run]; intros b b' H N.
  - inversion H; subst. split; [apply said_nil|]. split; [apply said_nil|]. intros p. exists None. split; [apply last_word_nil|reflexivity].
  - apply rbind_Ok in H as (b1 & H1 & H). apply nb_step in H1 as (V & Z & N1 & M); [|exact N].
    destruct (IH _ _ H N1) as (I1 & I2 & I3).
    split; [apply said_cons; now rewrite <- V|]. split; [apply said_cons; now rewrite <- Z|].
    intros p. destruct (I3 p) as (w & L & E). specialize (M p).
    exists (match w with Some a => Some a | None => about_meta p o end). split; [now apply last_word_cons|].
    destruct w; [exact E|]. destruct (about_meta p o); rewrite E; exact M.
Qed.

(** Whatever a snapshot builder is told: each description stands under the name of the
    document's role, or the name that was given, and the last one counts. *)
Theorem C92_snapshots_as_told :
  forall (C : crypto) (start b : snapshot_builder) (v0 : N) (z0 : Z) (meta0 : string -> option meta_desc) (ops : list snapshot_op),
  snapshot_start start v0 z0 meta0 -> nb_run C start ops = Ok b ->
  exists v z, said about_version_n ops v0 v /\ said about_expires_n ops z0 z /\
  match nb_build b with
  | Ok m => (1 <= v)%N /\ sm_version m = v /\ sm_expires m = z /\
      forall p, exists w, last_word (about_meta p) ops w /\
        match w with
        | Some o => exists d, lookup p (sm_meta m) = Some d /\ describes_meta C o d
        | None => lookup p (sm_meta m) = meta0 p
        end
  | Err e => e = IllegalArgument /\ v = 0%N
  end.
Proof.
  intros C start b v0 z0 meta0 ops S R.
  assert (B : nb_version start = v0 /\ nb_expires start = z0 /\ names start /\ forall p, lookup p (nb_meta start) = meta0 p).
  { destruct S as [now|m I]; (split; [reflexivity|]; split; [reflexivity|]; split; [|reflexivity]).
    - constructor.
    - exact I. }
  destruct B as (B1 & B2 & B3 & B4). destruct (nb_told C ops _ _ R B3) as (I1 & I2 & I3).
  exists (nb_version b), (nb_expires b). split; [now rewrite <- B1|]. split; [now rewrite <- B2|].
  unfold nb_build, snapshot_new. destruct (N.ltb_spec (nb_version b) 1).
  - split; [reflexivity|lia].
  - split; [assumption|]. split; [reflexivity|]. split; [reflexivity|]. intros p. cbn [sm_meta].
    destruct (I3 p) as (w & L & E). exists w. split; [exact L|]. destruct w; [exact E|]. now rewrite <- B4.
Qed.
Print Assumptions C92_snapshots_as_told.

Lemma stream_contains rs : exists b e, contains rs b e.
Proof.
  induction rs as [|x rs (b & e & H)]; [exists "", None; constructor|].
  destruct x as [|k|d].
  - exists b, e. now constructor.
  - exists "", (Some k). constructor.
  - destruct d as [|c d]; [exists "", None; constructor|]. exists (String c d ++ b), e. constructor; [discriminate|exact H].
Qed.
Lemma contains_only rs b e : contains rs b e -> forall b' e', contains rs b' e' -> b' = b /\ e = e'.
Proof.
  induction 1 as [|rs|k rs|rs b e _ IH|d rs b e N _ IH]; intros b' e' X; inversion X; subst; auto; try congruence.
  match goal with Y : contains rs _ _ |- _ => apply IH in Y as (-> & ->) end. auto.
Qed.
Lemma gb_step C b o b' : gb_apply C b o = Ok b' -> sorted (gb_targets b) ->
  gb_version b' = match about_version_g o with Some v => v | None => gb_version b end /\
  gb_expires b' = match about_expires_g o with Some z => z | None => gb_expires b end /\
  gb_delegations b' = match about_delegations o with Some d => d | None => gb_delegations b end /\
  sorted (gb_targets b') /\
  forall p, match about_target p o with
            | Some o => exists d, lookup p (gb_targets b') = Some d /\ describes_target C o d
            | None => lookup p (gb_targets b') = lookup p (gb_targets b)
            end.
Proof.
  intros H S.
  assert (G : forall q d, b' = gb_insert_description b q d ->
     gb_version b' = gb_version b /\ gb_expires b' = gb_expires b /\ gb_delegations b' = gb_delegations b /\ sorted (gb_targets b') /\
     forall p, lookup p (gb_targets b') = if String.eqb q p then Some d else lookup p (gb_targets b)).
  { intros q d ->. split; [reflexivity|]. split; [reflexivity|]. split; [reflexivity|]. split; [now apply bt_insert_sorted|]. intros p.
    cbn [gb_insert_description gb_targets]. rewrite lookup_bt_insert by exact S. now rewrite String.eqb_sym. }
  destruct o as [v|z|q rs algs|q d|d]; cbn in H.
  - inversion H; subst. split; [reflexivity|]. split; [reflexivity|]. split; [reflexivity|]. split; [exact S|]. reflexivity.
  - inversion H; subst. split; [reflexivity|]. split; [reflexivity|]. split; [reflexivity|]. split; [exact S|]. reflexivity.
  - unfold gb_insert_from_reader, target_from_reader in H. apply rbind_Ok in H as (d0 & H & E).
    apply rbind_Ok in H as ([size hashes] & H & E'). inversion E'; subst d0. inversion E as [E1]. cbn [td_length td_hashes td_custom] in E1.
    destruct (stream_contains rs) as (x & e & X).
    assert (e = None) as ->. { pose proof (calculate_spec C rs algs x e X) as Y. rewrite H in Y. apply Y. }
    destruct (calculated _ _ _ _ _ _ X H) as [D _].
    destruct (G q _ (eq_sym E1)) as (G1 & G2 & G3 & G4 & G5). rewrite E1.
    split; [exact G1|]. split; [exact G2|]. split; [exact G3|]. split; [exact G4|]. intros p. cbn [about_target]. rewrite G5.
    destruct (String.eqb _ p); [|reflexivity]. eexists. split; [reflexivity|]. split; [reflexivity|]. exists x. split; [exact X|exact D].
  - inversion H as [E1]. destruct (G q d ltac:(auto)) as (G1 & G2 & G3 & G4 & G5). rewrite E1.
    split; [exact G1|]. split; [exact G2|]. split; [exact G3|]. split; [exact G4|]. intros p. cbn [about_target]. rewrite G5.
    destruct (String.eqb _ p); [|reflexivity]. exists d. split; reflexivity.
  - inversion H; subst. split; [reflexivity|]. split; [reflexivity|]. split; [reflexivity|]. split; [exact S|]. reflexivity.
Qed.

Theorem C92_targets_as_told :
  forall (C : crypto) (now : Z) (b : targets_builder) (ops : list targets_op),
  gb_run C (gb_new now) ops = Ok b ->
  exists v z dgs, said about_version_g ops 1%N v /\ said about_expires_g ops (in_days now 90) z /\
  said about_delegations ops None dgs /\
  match gb_build b with
  | Ok m => (1 <= v)%N /\ tg_version m = v /\ tg_expires m = z /\ tg_delegations m = dgs /\
      forall p, exists w, last_word (about_target p) ops w /\
        match w with
        | Some o => exists d, lookup p (tg_targets m) = Some d /\ describes_target C o d
        | None => lookup p (tg_targets m) = None
        end
  | Err e => e = IllegalArgument /\ v = 0%N
  end.
Proof.
  intros C now b ops R.
  assert (G : forall ops b b', gb_run C b ops = Ok b' -> sorted (gb_targets b) ->
    said about_version_g ops (gb_version b) (gb_version b') /\ said about_expires_g ops (gb_expires b) (gb_expires b') /\
    said about_delegations ops (gb_delegations b) (gb_delegations b') /\
    forall p, exists w, last_word (about_target p) ops w /\
      match w with
      | Some o => exists d, lookup p (gb_targets b') = Some d /\ describes_target C o d
      | None => lookup p (gb_targets b') = lookup p (gb_targets b)
      end).
  { clear. induction ops as [|o ops IH]; cbn [gb_run]; intros b b' H N.
    - inversion H; subst. split; [apply said_nil|]. split; [apply said_nil|]. split; [apply said_nil|].
      intros p. exists None. split; [apply last_word_nil|reflexivity].
    - apply rbind_Ok in H as (b1 & H1 & H). apply gb_step in H1 as (V & Z & D & N1 & M); [|exact N].
      destruct (IH _ _ H N1) as (I1 & I2 & I3 & I4).
      split; [apply said_cons; now rewrite <- V|]. split; [apply said_cons; now rewrite <- Z|].
      split; [apply said_cons; now rewrite <- D|].
      intros p. destruct (I4 p) as (w & L & E). specialize (M p).
      exists (match w with Some a => Some a | None => about_target p o end). split; [now apply last_word_cons|].
      destruct w; [exact E|]. destruct (about_target p o); rewrite E; exact M. }
  destruct (G _ _ _ R) as (I1 & I2 & I3 & I4); [constructor|].
  exists (gb_version b), (gb_expires b), (gb_delegations b). split; [exact I1|]. split; [exact I2|]. split; [exact I3|].
  unfold gb_build, targets_new. destruct (N.ltb_spec (gb_version b) 1).
  - split; [reflexivity|lia].
  - split; [assumption|]. split; [reflexivity|]. split; [reflexivity|]. split; [reflexivity|]. exact I4.
Qed.
Print Assumptions C92_targets_as_told.

(** The calls fail only for a reason. *)
Lemma calculate_iff C rs algs b e : contains rs b e ->
  (usable algs /\ e = None <-> is_ok (calculate_hashes C rs algs) = true).
Proof.
  intros X. pose proof (calculate_spec C rs algs b e X) as S. destruct (calculate_hashes C rs algs) as [[size hs]|er]; cbn.
  - destruct S as (-> & A & B & _). split; [reflexivity|]. intros _. split; [|reflexivity]. split; [exact A|].
    intros x I. exact (B _ I x eq_refl).
  - split; [|discriminate]. intros ((A & B) & ->). destruct S as [(_ & [?|(x & I)])|(k & F & _)]; [contradiction|destruct (B x I)|discriminate].
Qed.
Lemma describe_signed_iff C f s algs : describable f s algs <-> is_ok (describe_signed C f s algs) = true.
Proof.
  unfold describable, describe_signed. destruct (write_signed f s) as [b|er]; cbn [rbind];
    [|split; [intros (_ & b & v & F & _); discriminate|discriminate]].
  destruct (parse_version_untrusted s) as [v|er]; cbn [rbind]; [|split; [intros (_ & b' & v & _ & _ & F & _); discriminate|discriminate]].
  unfold describe, meta_from_reader. pose proof (calculate_iff C (slice_stream b) algs b None (slice_contains b)) as I.
  pose proof (calculate_spec C (slice_stream b) algs b None (slice_contains b)) as S.
  destruct (N.ltb_spec v 1) as [L|L].
  { split; [|discriminate]. intros (_ & b' & v' & _ & _ & E & L'). inversion E; subst. lia. }
  destruct (calculate_hashes C (slice_stream b) algs) as [[size hs]|er]; cbn [rbind is_ok] in *.
  - destruct S as (_ & _ & _ & -> & _). unfold byte_length. destruct (N.ltb_spec u64_max (N.of_nat (String.length b))) as [U|U]; cbn.
    + split; [|discriminate]. intros (_ & b' & v' & E & Z & _). inversion E; subst. unfold size_ok in Z. unfold u64_max in U. lia.
    + split; [reflexivity|]. intros _. split; [now apply I|]. exists b, v. split; [reflexivity|]. split; [exact U|]. auto.
  - split; [|discriminate]. intros (A & _). destruct I as [I _]. discriminate I. auto.
Qed.
Lemma path_ok_iff p : acceptable_path p <-> is_ok (path_new p) = true.
Proof.
  split.
  - intros A. destruct (path_new_iff p p) as [_ H]. now rewrite H.
  - destruct (path_new p) eqn:E; [|discriminate]. intros _. apply path_new_Ok in E as (-> & E). exact E.
Qed.
Lemma insert_iff C f b p s algs : acceptable_path p /\ describable f s algs <-> is_ok (nb_insert_with_path C f b p s algs) = true.
Proof.
  rewrite path_ok_iff, (describe_signed_iff C). unfold nb_insert_with_path.
  destruct (describe_signed C f s algs); cbn; [|split; [tauto|discriminate]]. destruct (path_new p); cbn; tauto.
Qed.
Theorem C92_calls_fail_for_a_reason :
  forall (C : crypto),
  (forall ops start, is_ok (nb_run C start ops) = true <-> Forall possible_n ops) /\
  (forall ops start, is_ok (gb_run C start ops) = true <-> Forall possible_g ops).
Proof.
  intros C. split.
  - assert (A : forall b o, is_ok (nb_apply C b o) = true <-> possible_n o).
    { intros b [v|z|f r s algs|f p s algs|p d]; cbn [nb_apply possible_n]; try (split; reflexivity).
      - unfold nb_insert. rewrite <- insert_iff. rewrite path_ok_iff. split; [tauto|]. split; [now destruct r|assumption].
      - now rewrite <- insert_iff. }
    induction ops as [|o ops IH]; intros b; cbn [nb_run]; [split; [constructor|reflexivity]|].
    specialize (A b o). destruct (nb_apply C b o) as [b1|er]; cbn [rbind is_ok] in *.
    + rewrite IH. split; intros F; [constructor; [now apply A|exact F]|now inversion F].
    + split; [discriminate|]. intros F. inversion F; subst. now apply A.
  - assert (A : forall b o, is_ok (gb_apply C b o) = true <-> possible_g o).
    { intros b [v|z|p rs algs|p d|d]; cbn [gb_apply possible_g]; try (split; reflexivity).
      unfold gb_insert_from_reader, target_from_reader. destruct (stream_contains rs) as (x & e & X).
      pose proof (calculate_iff C rs algs x e X) as I. destruct (calculate_hashes C rs algs) as [[size hs]|er]; cbn [rbind is_ok] in *.
      - split; [|reflexivity]. intros _. destruct I as [_ I]. destruct (I eq_refl) as (A & ->). eauto.
      - split; [discriminate|]. intros (A & b' & B). apply I. split; [exact A|]. exact (proj2 (contains_only _ _ _ X _ _ B)). }
    induction ops as [|o ops IH]; intros b; cbn [gb_run]; [split; [constructor|reflexivity]|].
    specialize (A b o). destruct (gb_apply C b o) as [b1|er]; cbn [rbind is_ok] in *.
    + rewrite IH. split; intros F; [constructor; [now apply A|exact F]|now inversion F].
    + split; [discriminate|]. intros F. inversion F; subst. now apply A.
Qed.
Print Assumptions C92_calls_fail_for_a_reason.

(** A timestamp made from a snapshot describes the text of the snapshot in the chosen format,
    and the call succeeds exactly if there is something to describe. *)
Theorem C92_timestamps_describe_the_snapshot :
  forall (C : crypto) (f : format) (now : Z) (s : signed_metadata) (algs : list hash_alg),
  (is_ok (tb_from_snapshot C f now s algs) = true <-> describable f s algs) /\
  forall start ops, tb_from_snapshot C f now s algs = Ok start ->
  exists d v z, describes_meta C (NoInsert f Snapshot s algs) d /\
    said about_version_t ops 1%N v /\ said about_expires_t ops (in_days now 1) z /\
    tb_build (fold_left tb_apply ops start) = if (v =? 0)%N then Err IllegalArgument else Ok (mkTimestamp v z d).
Proof.
  intros C f now s algs. split.
  - rewrite (describe_signed_iff C). unfold tb_from_snapshot. destruct (describe_signed C f s algs); cbn; tauto.
  - intros start ops T. unfold tb_from_snapshot in T. apply rbind_Ok in T as (d & D & T). injection T as <-.
    destruct (C92_timestamps_as_told now d ops _ eq_refl) as (v & z & V & Z & B). exists d, v, z.
    split; [|auto]. apply describe_signed_Ok in D as (b & W & P & H & _). exists b. auto.
Qed.
Print Assumptions C92_timestamps_describe_the_snapshot.
Example C92_case_pretty :
  exists start m, tb_from_snapshot checksums FPretty 0 (one_by Snapshot jsnapshot sk_s) [Sha256] = Ok start /\
    tb_build (fold_left tb_apply [ToVersion 7] start) = Ok m /\ md_version (tm_snapshot m) = 2%N /\
    rbind (tb_from_snapshot checksums FJson 0 (one_by Snapshot jsnapshot sk_s) [Sha256]) tb_build <> Ok m.
Proof.
  do 2 eexists. split; [vm_compute; reflexivity|]. split; [vm_compute; reflexivity|]. split; [reflexivity|]. vm_compute. discriminate.
Qed.

(** A root builder that changes its mind, and one that asks for too many signatures. *)
Example C92_case_roots :
  let ops := [RoVersion 2; RoThreshold Root 9; RoKey Root key_r; RoKey Root key_d; RoKey Snapshot key_s; RoKey Targets key_g;
              RoKey Timestamp key_s; RoConsistent true; RoThreshold Root 2; RoVersion 5] in
  (exists m, rb_build (fold_left rb_apply ops (rb_new 0)) = Ok m /\ rm_version m = 5%N /\ rm_expires m = in_days 0 365 /\
     rm_root m = mkRoleDef 2 (ids [key_r; key_d]) /\ lookup (pk_id key_s) (rm_keys m) = Some key_s /\
     (* and once more, from that document *)
     exists m', rb_build (fold_left rb_apply [RoKey Root key_t; RoVersion 6] (rb_from m)) = Ok m' /\ rm_version m' = 6%N /\
       rm_root m' = mkRoleDef 2 (ids [key_r; key_d; key_t]) /\ rm_consistent m' = true) /\
  rb_build (fold_left rb_apply (ops ++ [RoThreshold Targets 2])%list (rb_new 0)) = Err IllegalArgument.
Proof.
  cbn zeta. split; [|vm_compute; reflexivity]. eexists. split; [vm_compute; reflexivity|]. split; [vm_compute; reflexivity|].
  split; [vm_compute; reflexivity|]. split; [vm_compute; reflexivity|]. split; [vm_compute; reflexivity|].
  eexists. split; [vm_compute; reflexivity|]. split; [vm_compute; reflexivity|]. split; vm_compute; reflexivity.
Qed.
(** A snapshot that lists a root and a targets document, the latter twice. *)
Example C92_case_others :
  let s := one_by Targets jtargets sk_g in
  let d := desc_of 9 "some file" in
  (exists b m, nb_run checksums (nb_new 0) [NoDescription "targets" d; NoInsert FJson Root (one_by Root jroot sk_r) [Sha256];
        NoInsert FJson Targets s [Sha512]; NoVersion 4; NoDescription "alice" d] = Ok b /\ nb_build b = Ok m /\
     sm_version m = 4%N /\ sm_expires m = in_days 0 7 /\ map fst (sm_meta m) = ["alice"; "root"; "targets"] /\
     option_map md_version (lookup "root" (sm_meta m)) = Some 1%N /\ option_map md_version (lookup "targets" (sm_meta m)) = Some 3%N /\
     lookup "alice" (sm_meta m) = Some d) /\
  (exists b m, gb_run checksums (gb_new 0) [GoReader "z" [Ready "he"; Ready "llo"] [Sha256]; GoReader "z" [Ready "bye"] [Sha512]] = Ok b /\
     gb_build b = Ok m /\ tg_expires m = in_days 0 90 /\ option_map td_length (lookup "z" (tg_targets m)) = Some 3%N) /\
  (exists m, tb_build (fold_left tb_apply [ToVersion 0; ToVersion 7] (tb_from_description 0 d)) = Ok m /\
     m = mkTimestamp 7 (in_days 0 1) d).
Proof.
  cbn zeta. split; [|split].
  - do 2 eexists. repeat (split; [vm_compute; reflexivity|]). vm_compute; reflexivity.
  - do 2 eexists. repeat (split; [vm_compute; reflexivity|]). vm_compute; reflexivity.
  - eexists. repeat (split; [vm_compute; reflexivity|]). vm_compute; reflexivity.
Qed.

(** * Proofs about local repositories in a directory: C88 *)
From Coq Require Import String Ascii List Arith NArith Bool Lia.
From Verif Require Import Base BaseFacts Metadata Paths SpecPaths PathProofs StringFacts Reader SpecReader ReaderProofs
     Repo SpecRepo RepoProofs Http SpecHttp HttpProofs Files SpecFiles FilesProofs Props_Files
     Client SpecClient SpecRestart SpecCache ClientLogic ClientProofs ClientUpdates ClientRestart.
Import ListNotations.
Open Scope string_scope.
Open Scope list_scope.
Open Scope N_scope.
Local Arguments insert : simpl never.
Local Arguments lookup : simpl never.

(** ** The files of the top-level metadata *)

Lemma top_cases p v : top_store p v ->
  (exists n, p = "root" /\ v = VNumber n) \/ v = VNone /\ In p ["root"; "timestamp"; "snapshot"; "targets"].
Proof. intros [[H|[-> H]]|[-> ->]]; [auto|right; split; [reflexivity|now right]|right; split; [reflexivity|now left]]. Qed.

Lemma decimal_first n : exists c s, decimal n = String c s /\ is_digit c.
Proof.
  pose proof (decimal_nonempty n) as N. pose proof (decimal_digits n) as D. destruct (decimal n) as [|c s]; [congruence|].
  exists c, s. split; [reflexivity|]. apply D. apply has_char_cons. now left.
Qed.

Lemma top_file_of p v : top_store p v -> cache_file (file_of v p).
Proof.
  intros T. apply top_cases in T as [(n & -> & ->)|[-> T]]; [right; eauto|]. left.
  cbn in T. destruct T as [<-|[<-|[<-|[<-|[]]]]]; cbn; auto 6.
Qed.

Lemma top_file_inj p v p' v' : top_store p v -> top_store p' v' -> file_of v p = file_of v' p' -> p = p' /\ v = v'.
Proof.
  intros T T' Q. apply top_cases in T, T'.
  assert (X : forall n r, In r ["root"; "timestamp"; "snapshot"; "targets"] -> file_of (VNumber n) "root" <> file_of VNone r).
  { intros n r Hr C. cbn [file_of] in C. destruct (decimal_first n) as (c & s & E & Dg). rewrite E in C.
    unfold is_digit in Dg. cbn in Hr. destruct Hr as [<-|[<-|[<-|[<-|[]]]]]; cbn in C; injection C as -> _; vm_compute in Dg; destruct Dg as [_ Dg]; now apply Dg. }
  destruct T as [(n & -> & ->)|[-> T]], T' as [(n' & -> & ->)|[-> T']].
  - cbn [file_of] in Q. apply sapp_cancel_r in Q. apply decimal_inj in Q. subst. auto.
  - now apply X in Q.
  - symmetry in Q. now apply X in Q.
  - split; [|reflexivity]. cbn [file_of] in Q. now apply sapp_cancel_r in Q.
Qed.

Lemma top_components p v : top_store p v -> metadata_components "json" p v = [file_of v p].
Proof.
  intros T. symmetry. apply names_components. exists [], p. split; [|reflexivity].
  apply top_cases in T as [(n & -> & ->)|[-> T]]; [reflexivity|].
  cbn in T. destruct T as [<-|[<-|[<-|[<-|[]]]]]; reflexivity.
Qed.
Lemma file_nonempty v p : file_of v p <> "".
Proof.
  destruct v as [|n]; cbn; intros H; apply sapp_eq_nil in H as [_ H]; discriminate.
Qed.
Lemma top_place dir p v : top_store p v -> fs_path dir (metadata_components "json" p v) = file_of v p :: dir.
Proof.
  intros T. rewrite (top_components p v T). unfold fs_path. cbn [filter].
  destruct (String.eqb_spec (file_of v p) "") as [E|_]; [now apply file_nonempty in E|reflexivity].
Qed.

(** A file below a directory, by its first component. *)
Lemma path_first dir c rest : c <> "" -> exists sub, fs_path dir (c :: rest) = sub ++ c :: dir.
Proof.
  intros N. unfold fs_path. cbn [filter]. destruct (String.eqb_spec c "") as [E|_]; [congruence|]. cbn [negb rev].
  rewrite <- app_assoc. eauto.
Qed.
Lemma snoc_inj {A} (a b : list A) x y dir : a ++ x :: dir = b ++ y :: dir -> x = y.
Proof.
  intros H. replace (a ++ x :: dir) with ((a ++ [x]) ++ dir) in H by now rewrite <- app_assoc.
  replace (b ++ y :: dir) with ((b ++ [y]) ++ dir) in H by now rewrite <- app_assoc.
  apply app_inv_tail in H. now apply app_inj_tail in H.
Qed.

Lemma first_component p v : acceptable_path p -> exists c rest, metadata_components "json" p v = c :: rest /\ c <> "".
Proof.
  intros A. destruct (split_snoc p) as (a & x & S).
  assert (E : metadata_components "json" p v = a ++ [file_of v x]).
  { symmetry. apply names_components. exists a, x. auto. }
  rewrite E. destruct a as [|y a]; cbn [app]; [exists (file_of v x), []; split; [reflexivity|apply file_nonempty]|].
  exists y, (a ++ [file_of v x]). split; [reflexivity|]. intros ->.
  destruct A as (_ & A2 & _). assert (Q : p = join_slash ("" :: a ++ [x])) by (rewrite <- (join_split p), S; reflexivity).
  destruct (a ++ [x]) as [|z l] eqn:Z; [destruct a; discriminate|].
  rewrite join_cons in Q. now apply (A2 (join_slash (z :: l))).
Qed.

(** ** The disk and the memory *)

Section Disk.
  Variable local : file_name.
  Let r : fs_repo := mkFsRepo ("metadata" :: local) ("targets" :: local).
  Notation dir := (fr_metadata r).

  Definition disk_like (d : disk) (m : store) : Prop :=
    sound_disk d /\ directory d dir /\
    (forall f, cache_file f -> ~ directory d (f :: dir)) /\
    (forall p v, cached p v -> content d (file_of v p :: dir) = lookup (p, v) m).

  Lemma free_top d m f : disk_like d m -> cache_file f -> free_way d (f :: dir).
  Proof.
    intros ((S1 & S2) & D & N & _) T. split; [|now apply N]. intros k L. apply leads_cons in L as L'.
    destruct (content d k) eqn:E; [|reflexivity]. exfalso. apply (S1 k); [congruence|].
    destruct L' as [->|L']; [exact D|]. apply (S2 k dir); auto.
  Qed.

  (** Fetches. *)
  Lemma fetch_like d m p v : disk_like d m -> cached p v -> fs_fetch_metadata r d p v = mem_answer m p v.
  Proof.
    intros L Ca. pose proof (or_introl Ca : top_store p v) as T. pose proof (free_top d m _ L (top_file_of p v T)) as F.
    destruct L as (S & D & N & Ct). unfold fs_fetch_metadata, mem_answer. rewrite <- (Ct p v Ca).
    pose proof (find_spec d dir (metadata_components "json" p v) S) as H. cbv zeta in H.
    rewrite (top_place dir p v T) in H.
    destruct (find d dir (metadata_components "json" p v)) as [b| | |]; cbn [open_file].
    - destruct H as [-> _]. reflexivity.
    - destruct H as [_ H]. now destruct F as [_ F].
    - destruct H as [-> _]. reflexivity.
    - exfalso. destruct H as [_ [[_ H]|[_ H]]]; [auto|].
      rewrite (top_components p v T) in H. unfold slash_at_end in H. cbn [last] in H.
      apply String.eqb_eq in H. now apply file_nonempty in H.
  Qed.

  (** Stores of top-level metadata succeed. *)
  Lemma store_like d m p v data d' ans : disk_like d m -> top_store p v ->
    fs_store_metadata r d p v (cursor data) = (d', ans) -> ans = Ok tt /\ disk_like d' (insert (p, v) data m).
  Proof.
    intros L T H. pose proof (free_top d m _ L (top_file_of p v T)) as F. destruct L as (S & D & N & Ct).
    unfold fs_store_metadata in H.
    destruct (store_spec d dir (metadata_components "json" p v) (cursor data) S) as (S' & R & Dd);
      [rewrite (top_place dir p v T); discriminate|].
    rewrite H in S', R, Dd. cbn [fst snd] in S', R, Dd. rewrite (top_place dir p v T) in R, Dd.
    destruct ans as [[]|e].
    - split; [reflexivity|]. destruct R as (b & Cb & _ & _ & R). apply contains_cursor_iff in Cb. subst b.
      assert (Dir : directory d' dir).
      { apply (proj2 S' dir (file_of v p :: dir)); [left; rewrite R, eqb_refl; discriminate|]. exists (file_of v p), []. reflexivity. }
      split; [exact S'|]. split; [exact Dir|]. split.
      + intros f Hf Hd. apply Dd in Hd as [Hd|Hd]; [now apply N in Hd|].
        apply leads_cons in Hd as [Hd|(x & rest & Hd)]; apply (f_equal (@length _)) in Hd; cbn in Hd; rewrite ?app_length in Hd; cbn in Hd; lia.
      + intros q w Cq. rewrite R. rewrite lookup_insert. destruct (eqb (file_of v p :: dir) (file_of w q :: dir)) eqn:X.
        * apply eqb_eq in X. inversion X as [Y]. apply top_file_inj in Y as [-> ->]; auto; [|now left]. now rewrite eqb_refl.
        * destruct (eqb (q, w) (p, v)) eqn:Z; [|now apply Ct].
          apply eqb_eq in Z. inversion Z; subst. apply eqb_neq in X. congruence.
    - exfalso. destruct F as [F1 F2]. destruct R as (_ & [(_ & k & Lk & K)|[(b & k & Cb & _)|(_ & [Sl|Di])]]); auto.
      + apply (contains_fun _ _ _ Cb) in contains_cursor as X || idtac.
        destruct (contains_fun _ _ _ Cb _ _ (contains_cursor data)) as [_ X]. discriminate.
      + rewrite (top_components p v T) in Sl. unfold slash_at_end in Sl. cbn [last] in Sl.
        apply String.eqb_eq in Sl. now apply file_nonempty in Sl.
  Qed.

  (** Stores elsewhere leave it alone. *)
  Lemma store_elsewhere d m base comps rs d' ans : disk_like d m -> fs_path base comps <> [] ->
    (forall f, cache_file f -> fs_path base comps <> f :: dir /\ ~ SpecFiles.leads_to (f :: dir) (fs_path base comps)) ->
    fs_store d base comps rs = (d', ans) -> disk_like d' m.
  Proof.
    intros (S & D & N & Ct) Ne A H.
    destruct (store_spec d base comps rs S Ne) as (S' & R & Dd). rewrite H in S', R, Dd. cbn [fst snd] in S', R, Dd.
    assert (Dir : directory d' dir).
    { assert (Q : forall n, directory d n -> directory d' n); [|now apply Q].
      intros n. unfold fs_store in H. destruct (make_dirs d (tl (fs_path base comps))) as [d1|e] eqn:M; [|inversion H; now subst].
      destruct (make_dirs_ok _ _ _ S M) as [_ D1]. intros Hn. assert (Hn1 : directory d1 n) by (apply D1; auto).
      destruct (read_plain rs ""); [|inversion H; now subst]. destruct (slash_at_end comps || is_dir d1 (fs_path base comps)); inversion H; now subst. }
    split; [exact S'|]. split; [exact Dir|]. split.
    - intros f Hf Hd. apply Dd in Hd as [Hd|Hd]; [now apply N in Hd|]. exact (proj2 (A f Hf) Hd).
    - intros q w Cq. rewrite <- (Ct q w Cq). destruct ans as [u|e].
      + destruct R as (b & _ & _ & _ & R). rewrite R. destruct (eqb _ _) eqn:X; [|reflexivity].
        apply eqb_eq in X. exfalso. exact (proj1 (A (file_of w q) (top_file_of q w (or_introl Cq))) X).
      + destruct R as [R _]. apply R.
  Qed.

  Lemma store_role d m p data d' ans : disk_like d m -> harmless p ->
    fs_store_metadata r d p VNone (cursor data) = (d', ans) -> disk_like d' (insert (p, VNone) data m).
  Proof.
    intros L [Ap Hm] H. destruct (first_component p VNone Ap) as (c & rest & E & Nc).
    assert (Hc : ~ cache_file c).
    { assert (X := proj2 (names_components p VNone _) eq_refl). rewrite E in X. apply Hm in X. exact X. }
    destruct (path_first dir c rest Nc) as (sub & Ep). rewrite <- E in Ep. unfold fs_store_metadata in H.
    assert (L' : disk_like d' m).
    { apply (store_elsewhere _ _ _ _ _ _ _ L) in H; [exact H| |].
      - rewrite Ep. destruct sub; discriminate.
      - intros f Hf. rewrite Ep. split.
        + intros Q. apply (snoc_inj sub [] c f dir) in Q. congruence.
        + intros (x & l & Q). apply (snoc_inj sub (x :: l) c f dir) in Q. congruence. }
    destruct L' as (S & D & N & Ct). split; [exact S|]. split; [exact D|]. split; [exact N|].
    intros q w Cq. rewrite (Ct q w Cq), lookup_insert. destruct (eqb (q, w) (p, VNone)) eqn:Z; [|reflexivity].
    exfalso. apply eqb_eq in Z. inversion Z; subst. pose proof (or_introl Cq : top_store p VNone) as T.
    rewrite (top_components p VNone T) in E. inversion E; subst c. apply Hc. exact (top_file_of p VNone T).
  Qed.

  Lemma store_target_like d m p rs d' ans : disk_like d m -> acceptable_path p ->
    fs_store_target r d p rs = (d', ans) -> disk_like d' m.
  Proof.
    intros L Ap H. unfold fs_store_target in H.
    destruct (place_below r (EpTarget p rs) Ap) as (sub & Ns & Ep). cbn [op_dir op_comps] in Ep.
    apply (store_elsewhere _ _ _ _ _ _ _ L) in H; [exact H| |].
    - rewrite Ep. destruct sub; [congruence|discriminate].
    - intros f Hf. rewrite Ep. cbn [r fr_targets fr_metadata]. split.
      + intros Q. apply (snoc_inj sub [f] "targets" "metadata" local) in Q. discriminate.
      + intros (x & l & Q). change (x :: l ++ f :: "metadata" :: local) with ((x :: l) ++ [f] ++ "metadata" :: local) in Q.
        rewrite app_assoc in Q. apply snoc_inj in Q. discriminate.
  Qed.

  Lemma on_disk_mem d tr d' : on_disk r d tr d' -> forall m0 h, disk_like d (mem_at m0 h) ->
    (forall e, In e tr -> fine_event harmless e) ->
    along (mem_rely m0) h tr /\ disk_like d' (mem_at m0 (h ++ tr)).
  Proof.
    induction 1 as [d|d ev d1 tr d2 St _ IH]; intros m0 h M F; [rewrite app_nil_r; split; [apply along_nil|exact M]|].
    assert (M1 : disk_like d1 (mem_at m0 (h ++ [ev])) /\ mem_rely m0 h ev).
    { rewrite mem_at_snoc. specialize (F ev (or_introl eq_refl)).
      destruct ev as [s p v mx hs a|p v da a|p ds a|p rs a|b a|c|t]; cbn in St, F |- *; try (subst; auto; fail).
      - destruct s; [destruct St as [-> ->]|subst]; auto. split; [exact M|]. intros Ca. now apply fetch_like.
      - destruct F as [F|[-> F]].
        + destruct (store_like _ _ _ _ _ _ _ M F St) as [-> M']. auto.
        + split; [exact (store_role _ _ _ _ _ _ M F St)|]. intros T. destruct (store_like _ _ _ _ _ _ _ M T St) as [-> _]. reflexivity.
      - destruct St as [Ap St]. split; [exact (store_target_like _ _ _ _ _ _ M Ap St)|exact I]. }
    destruct M1 as [M1 R]. destruct (IH m0 _ M1 (fun e H => F e (or_intror H))) as [A B].
    rewrite <- app_assoc in B. rewrite along_cons. auto.
  Qed.

  (** The memory for what is on the disk in the beginning, if there are no roots above
      some version. *)
  Lemma memory_of d top : (forall n, top < n -> content d (file_of (VNumber n) "root" :: dir) = None) ->
    exists m : store, (forall p v, cached p v -> content d (file_of v p :: dir) = lookup (p, v) m) /\
                      (forall n, top < n -> lookup ("root", VNumber n) m = None).
  Proof.
    intros Top.
    assert (G : forall keys : list (string * meta_version), exists m : store,
              forall k, lookup k m = if mem k keys then content d (file_of (snd k) (fst k) :: dir) else None).
    { induction keys as [|k keys (m & IH)]; [exists []; reflexivity|].
      destruct (content d (file_of (snd k) (fst k) :: dir)) as [b|] eqn:Cb.
      - exists (insert k b m). intros k'. rewrite lookup_insert, IH. cbn [mem existsb].
        destruct (eqb k' k) eqn:X; cbn [orb]; [apply eqb_eq in X; subst; now rewrite Cb|reflexivity].
      - exists m. intros k'. rewrite IH. cbn [mem existsb]. destruct (eqb k' k) eqn:X; cbn [orb]; [|reflexivity].
        apply eqb_eq in X. subst. rewrite Cb. now destruct (mem k keys). }
    destruct (G (map (fun n => ("root", VNumber (N.of_nat n))) (seq 0 (S (N.to_nat top))) ++
                 [("timestamp", VNone); ("snapshot", VNone); ("targets", VNone)])) as (m & H).
    exists m. split.
    - intros p v Ca. rewrite H. cbn [fst snd]. destruct (mem (p, v) _) eqn:X; [reflexivity|].
      destruct Ca as [(n & -> & ->)|[-> Ca]].
      + destruct (N.ltb_spec top n) as [Hn|Hn]; [now apply Top|]. exfalso.
        apply not_true_iff_false in X. apply X. apply mem_In. apply in_app_iff. left. apply in_map_iff.
        exists (N.to_nat n). split; [now rewrite N2Nat.id|]. apply in_seq. lia.
      + exfalso. apply not_true_iff_false in X. apply X. apply mem_In. apply in_app_iff. right.
        cbn in Ca. cbn. destruct Ca as [<-|[<-|[<-|[]]]]; auto.
    - intros n Hn. rewrite H. cbn [fst snd]. rewrite (Top n Hn). now destruct (mem _ _).
  Qed.
End Disk.

(** ** Opening the repository again *)

Lemma make_dirs_mono n : forall d d', make_dirs d n = Ok d' -> forall m, directory d m -> directory d' m.
Proof.
  induction n as [|x n IH]; intros d d' H m D; cbn [make_dirs] in H; [inversion H; now subst|].
  destruct (is_file d (x :: n)); [discriminate|]. destruct (is_dir d (x :: n)); [inversion H; now subst|].
  apply rbind_Ok in H as (d1 & H & Q). inversion Q; subst. specialize (IH _ _ H m D). unfold directory in *. cbn [dk_dirs].
  destruct IH as [->|IH]; [now left|right; now right].
Qed.
Lemma fs_store_mono d base comps rs d' a : fs_store d base comps rs = (d', a) -> forall m, directory d m -> directory d' m.
Proof.
  intros H m D. unfold fs_store in H. destruct (make_dirs d (tl (fs_path base comps))) as [d1|e] eqn:M; [|inversion H; now subst].
  apply (make_dirs_mono _ _ _ M) in D.
  destruct (read_plain rs ""); [|inversion H; now subst]. destruct (slash_at_end comps || is_dir d1 (fs_path base comps)); inversion H; now subst.
Qed.
Lemma fs_path_base base comps : base <> [] -> fs_path base comps <> [].
Proof. intros N H. unfold fs_path in H. apply app_eq_nil in H as [_ H]. auto. Qed.

Lemma on_disk_keeps r d tr d' : on_disk r d tr d' -> fr_metadata r <> [] -> fr_targets r <> [] -> sound_disk d ->
  sound_disk d' /\ (forall m, directory d m -> directory d' m).
Proof.
  induction 1 as [d|d ev d1 tr d2 St _ IH]; intros N1 N2 S; [auto|].
  assert (X : sound_disk d1 /\ (forall m, directory d m -> directory d1 m)).
  { destruct ev as [s p v mx hs a|p v da a|p ds a|p rs a|b a|c|t]; cbn in St; try (subst; auto; fail).
    - destruct s; [destruct St as [_ ->]|subst]; auto.
    - unfold fs_store_metadata in St. split; [|exact (fs_store_mono _ _ _ _ _ _ St)].
      destruct (store_spec d (fr_metadata r) (metadata_components "json" p v) (cursor da) S (fs_path_base _ _ N1)) as (S' & _). now rewrite St in S'.
    - destruct St as [_ St]. unfold fs_store_target in St. split; [|exact (fs_store_mono _ _ _ _ _ _ St)].
      destruct (store_spec d (fr_targets r) (target_components p) rs S (fs_path_base _ _ N2)) as (S' & _). now rewrite St in S'. }
  destruct X as [X1 X2]. destruct (IH N1 N2 X1) as [Y1 Y2]. auto.
Qed.

Lemma on_disk_trans r d1 tr1 d2 : on_disk r d1 tr1 d2 -> forall tr2 d3, on_disk r d2 tr2 d3 -> on_disk r d1 (tr1 ++ tr2) d3.
Proof. induction 1; cbn; auto. intros. econstructor; eauto. Qed.
Lemma sessions_runs r E cfg fuel raw d0 tr t d : sessions (on_disk r) E cfg fuel raw d0 tr t d -> on_disk r d0 tr d.
Proof. induction 1; auto; eapply on_disk_trans; eauto. Qed.
Lemma other_calls_runs r E cfg fuel t d tr t' d' : other_calls (on_disk r) E cfg fuel t d tr t' d' -> on_disk r d tr d'.
Proof. induction 1; [constructor|]. eapply on_disk_trans; eauto. Qed.

Lemma make_dirs_there d n : sound_disk d -> directory d n -> make_dirs d n = Ok d.
Proof.
  intros S D. destruct n as [|x n]; [reflexivity|]. cbn [make_dirs].
  assert (F : is_file d (x :: n) = false).
  { unfold is_file. destruct (lookup (x :: n) (dk_files d)) eqn:E; [|reflexivity]. exfalso.
    apply (proj1 S (x :: n)); [unfold content; congruence|exact D]. }
  rewrite F. apply is_dir_iff in D. now rewrite D.
Qed.
Lemma fs_new_again d local : sound_disk d -> directory d ("metadata" :: local) -> directory d ("targets" :: local) ->
  fs_new d local = (d, Ok (mkFsRepo ("metadata" :: local) ("targets" :: local))).
Proof.
  intros S D1 D2. unfold fs_new, fs_build. cbn [fb_local fb_metadata_prefix fb_targets_prefix prefixed].
  change (fs_path local ["metadata"]) with ("metadata" :: local).
  change (fs_path local ["targets"]) with ("targets" :: local).
  rewrite (make_dirs_there _ _ S D1), (make_dirs_there _ _ S D2). reflexivity.
Qed.
Lemma fs_new_shape d local d0 r : sound_disk d -> fs_new d local = (d0, Ok r) ->
  r = mkFsRepo ("metadata" :: local) ("targets" :: local) /\
  forall f, directory d0 (f :: "metadata" :: local) -> directory d (f :: "metadata" :: local).
Proof.
  intros S H. unfold fs_new, fs_build in H. cbn [fb_local fb_metadata_prefix fb_targets_prefix prefixed] in H.
  change (fs_path local ["metadata"]) with ("metadata" :: local) in H.
  change (fs_path local ["targets"]) with ("targets" :: local) in H.
  destruct (make_dirs d ("metadata" :: local)) as [d2|e] eqn:M; [|discriminate].
  destruct (make_dirs d2 ("targets" :: local)) as [d3|e] eqn:M2; [|discriminate]. inversion H; subst. split; [reflexivity|].
  pose proof (make_dirs_sound _ _ _ S M) as S2.
  destruct (make_dirs_ok _ _ _ S M) as [_ D]. destruct (make_dirs_ok _ _ _ S2 M2) as [_ D2].
  assert (L : forall f x, SpecFiles.leads_to (f :: "metadata" :: local) (x :: local) -> False).
  { intros f x (a & l & Q). apply (f_equal (@length _)) in Q. cbn in Q. rewrite app_length in Q. cbn in Q. lia. }
  assert (L' : forall f x, f :: "metadata" :: local = x :: local -> False).
  { intros f x Q. apply (f_equal (@length _)) in Q. cbn in Q. lia. }
  intros f K. apply D2 in K as [K|[K|K]]; [|now apply L' in K|now apply L in K].
  apply D in K as [K|[K|K]]; [exact K|now apply L' in K|now apply L in K].
Qed.

Lemma harmless_names n : harmless n -> n <> "timestamp" /\ n <> "targets".
Proof.
  intros [_ H]. split; intros ->.
  - apply (H ["timestamp.json"]); [exists [], "timestamp"; split; reflexivity|]. left. cbn. auto.
  - apply (H ["targets.json"]); [exists [], "targets"; split; reflexivity|]. left. cbn. auto 6.
Qed.
Lemma not_cache c s : ~ is_digit c -> ~ In (String c s) ["root.json"; "timestamp.json"; "snapshot.json"; "targets.json"] ->
  ~ cache_file (String c s).
Proof.
  intros D N [H|(n & H)]; [auto|]. destruct (decimal_first n) as (c' & s' & E & D'). cbn [file_of] in H. rewrite E in H.
  cbn in H. injection H as -> _. auto.
Qed.

(** * Proofs about the repository in a directory *)
From Coq Require Import String Ascii List Arith NArith Bool Lia.
From Verif Require Import Base BaseFacts Metadata Paths SpecPaths PathProofs StringFacts Reader SpecReader ReaderProofs
     Repo SpecRepo RepoProofs Http SpecHttp HttpProofs Files SpecFiles.
Import ListNotations.
Open Scope string_scope.
Open Scope list_scope.
Open Scope N_scope.

Lemma is_dir_iff d n : is_dir d n = true <-> directory d n.
Proof.
  unfold directory. destruct n as [|x n]; cbn [is_dir]; [split; auto|]. rewrite mem_In. split; [auto|]. intros [H|H]; [discriminate|auto].
Qed.
Lemma is_file_iff d n : is_file d n = true <-> content d n <> None.
Proof. unfold is_file, content. destruct (lookup n (dk_files d)); split; congruence. Qed.

Lemma leads_cons m x n : leads_to m (x :: n) <-> m = n \/ leads_to m n.
Proof.
  split.
  - intros (y & rest & E). inversion E; subst. destruct rest as [|z rest]; [now left|right]. now exists z, rest.
  - intros [-> |(y & rest & ->)]; [now exists x, []|]. now exists x, (y :: rest).
Qed.
Lemma leads_nil m : ~ leads_to m [].
Proof. intros (x & rest & E). discriminate. Qed.

Lemma blocked_iff d n : blocked d n = true <-> exists m, leads_to m n /\ content d m <> None.
Proof.
  induction n as [|x n IH]; cbn [blocked].
  - split; [discriminate|]. intros (m & L & _). now apply leads_nil in L.
  - rewrite orb_true_iff, is_file_iff, IH. split.
    + intros [H|(m & L & H)]; [exists n|exists m]; (split; [apply leads_cons; auto|auto]).
    + intros (m & L & H). apply leads_cons in L as [-> |L]; [now left|right]. eauto.
Qed.

(** Making directories. *)
Lemma make_dirs_ok n : forall d d', sound_disk d -> make_dirs d n = Ok d' ->
  dk_files d' = dk_files d /\ (forall m, directory d' m <-> directory d m \/ m = n \/ leads_to m n).
Proof.
  induction n as [|x n IH]; intros d d' S H; cbn [make_dirs] in H.
  - inversion H; subst. split; auto. intros m. split; [auto|]. intros [K|[-> |K]]; [auto|now left|now apply leads_nil in K].
  - destruct (is_file d (x :: n)); [discriminate|]. destruct (is_dir d (x :: n)) eqn:D.
    + inversion H; subst. apply is_dir_iff in D. split; auto. intros m. split; [auto|]. intros [K|[-> |K]]; auto.
      destruct S as [_ S]. apply (S m (x :: n)); auto.
    + apply rbind_Ok in H as (d1 & M & H). inversion H; subst. cbn [dk_files]. destruct (IH _ _ S M) as [F G].
      split; [exact F|]. intros m. specialize (G m). rewrite leads_cons. unfold directory at 1. cbn [dk_dirs In].
      unfold directory at 1 in G. intuition auto.
Qed.

Lemma make_dirs_err n : forall d, sound_disk d ->
  match make_dirs d n with
  | Ok _ => forall m, m = n \/ leads_to m n -> content d m = None
  | Err e => e = Opaque /\ exists m, (m = n \/ leads_to m n) /\ content d m <> None
  end.
Proof.
  induction n as [|x n IH]; intros d S; cbn [make_dirs].
  - intros m [-> |K]; [|now apply leads_nil in K]. destruct S as [S _]. destruct (content d []) eqn:E; auto.
    exfalso. apply (S []); [congruence|now left].
  - destruct (is_file d (x :: n)) eqn:F.
    + split; auto. exists (x :: n). split; [now left|now apply is_file_iff].
    + assert (F' : content d (x :: n) = None).
      { destruct (content d (x :: n)) eqn:E; auto. assert (is_file d (x :: n) = true) by (apply is_file_iff; congruence). congruence. }
      destruct (is_dir d (x :: n)) eqn:D.
      * apply is_dir_iff in D. intros m [-> |K]; auto. destruct S as [S1 S2]. destruct (content d m) eqn:E; auto.
        exfalso. apply (S1 m); [congruence|]. apply (S2 m (x :: n)); auto.
      * specialize (IH d S). destruct (make_dirs d n) as [d1|e]; cbn [rbind].
        -- intros m [-> |K]; auto. apply leads_cons in K. now apply IH.
        -- destruct IH as (-> & m & K & C). split; auto. exists m. split; auto. right. now apply leads_cons.
Qed.

Lemma leads_trans m n k : leads_to m n -> leads_to n k -> leads_to m k.
Proof.
  intros (x & r & ->) (y & s & ->). exists y, (s ++ x :: r). f_equal. now rewrite <- app_assoc.
Qed.

Lemma make_dirs_sound n d d' : sound_disk d -> make_dirs d n = Ok d' -> sound_disk d'.
Proof.
  intros S H. pose proof (make_dirs_err n d S) as E. rewrite H in E. destruct (make_dirs_ok _ _ _ S H) as [F D].
  assert (C : forall m, content d' m = content d m) by (intros m; unfold content; now rewrite F).
  destruct S as [S1 S2]. split.
  - intros m K L. rewrite C in K. apply D in L as [L|L]; [now apply (S1 m)|]. apply K. now apply E.
  - intros m k K L. apply D. rewrite C, D in K. destruct K as [K|[K|[-> |K]]].
    + left. apply (S2 m k); auto.
    + left. apply (S2 m k); auto.
    + auto.
    + right. right. exact (leads_trans _ _ _ L K).
Qed.

(** Stores. *)
Lemma leads_self n : ~ leads_to n n.
Proof.
  intros (x & rest & E). apply (f_equal (@length _)) in E. cbn [length] in E. rewrite app_length in E. lia.
Qed.
Lemma leads_tl m n : n <> [] -> leads_to m n <-> m = tl n \/ leads_to m (tl n).
Proof. destruct n as [|x n]; [congruence|]. intros _. apply leads_cons. Qed.

Lemma store_spec d dir comps rs : sound_disk d -> let n := fs_path dir comps in n <> [] ->
  let d' := fst (fs_store d dir comps rs) in
  sound_disk d' /\
  match snd (fs_store d dir comps rs) with
  | Ok _ => exists b, contains rs b None /\ slash_at_end comps = false /\ free_way d n /\
      (forall m, content d' m = if eqb n m then Some b else content d m)
  | Err e => (forall m, content d' m = content d m) /\
      ((e = Opaque /\ exists m, leads_to m n /\ content d m <> None) \/
       (exists b k, contains rs b (Some k) /\ e = of_io k) \/
       (e = Opaque /\ (slash_at_end comps = true \/ directory d n)))
  end /\
  (forall m, directory d' m -> directory d m \/ leads_to m n).
Proof.
  intros S n N. cbv zeta. unfold fs_store. fold n. pose proof (make_dirs_err (tl n) d S) as E.
  destruct (make_dirs d (tl n)) as [d1|e] eqn:M.
  - destruct (make_dirs_ok _ _ _ S M) as [F D]. pose proof (make_dirs_sound _ _ _ S M) as S1.
    assert (C : forall m, content d1 m = content d m) by (intros m; unfold content; now rewrite F).
    assert (DN : forall m, directory d1 m <-> directory d m \/ leads_to m n).
    { intros m. rewrite D. now rewrite (leads_tl m n N). }
    destruct (plain_cases rs) as [(b & -> & Hb)|(k & b & -> & Hb & _)]; cbn [fst snd].
    + destruct (slash_at_end comps || is_dir d1 n) eqn:Q; cbn [fst snd].
      * split; [exact S1|]. split; [|apply DN]. split; [exact C|]. right. right. split; [reflexivity|].
        apply orb_true_iff in Q as [Q|Q]; [now left|right]. apply is_dir_iff, DN in Q as [Q|Q]; auto. now apply leads_self in Q.
      * apply orb_false_iff in Q as [Q1 Q2].
        assert (ND : ~ directory d1 n) by (rewrite <- is_dir_iff; congruence).
        assert (CC : forall m, content (mkDisk (insert n b (dk_files d1)) (dk_dirs d1)) m = if eqb n m then Some b else content d m).
        { intros m. unfold content. cbn [dk_files]. rewrite lookup_insert. rewrite F. rewrite eqb_sym. reflexivity. }
        split; [|split; [|apply DN]].
        -- destruct S1 as [S1 S2]. split.
           ++ intros m K L. rewrite CC in K. change (directory d1 m) in L. destruct (eqb n m) eqn:X.
              ** apply eqb_eq in X. subst m. auto.
              ** apply (S1 m); auto. now rewrite C.
           ++ intros m k K L. change (directory d1 m). rewrite CC in K. destruct (eqb n k) eqn:X.
              ** apply eqb_eq in X. subst k. apply DN. now right.
              ** destruct K as [K|K]; [apply (S2 m k); auto; left; now rewrite C|]. apply (S2 m k); auto.
        -- exists b. split; [exact Hb|]. split; [exact Q1|]. split; [|exact CC]. split.
           ++ intros m L. apply E. now apply leads_tl in L.
           ++ intros K. apply ND, DN. now left.
    + split; [exact S1|]. split; [|apply DN]. split; [exact C|]. right. left. eauto.
  - cbn [fst snd]. split; [exact S|]. split; [|auto]. split; [auto|]. left. destruct E as (-> & m & L & K). split; auto.
    exists m. split; auto. now apply leads_tl.
Qed.

(** Operations and their places. *)
Lemma names_components p v names : metadata_names p v names <-> names = metadata_components "json" p v.
Proof.
  assert (E : forall a x, split_slash p = a ++ [x] -> metadata_components "json" p v = a ++ [file_of v x]).
  { intros a x S. unfold metadata_components. rewrite S, map_last_snoc. unfold version_prefix, file_of. destruct v as [|n]; [reflexivity|].
    now rewrite !sapp_assoc. }
  split.
  - intros (a & x & S & ->). symmetry. now apply E.
  - intros ->. destruct (split_snoc p) as (a & x & S). exists a, x. split; [exact S|now apply E].
Qed.

Lemma slash_end_iff p : p <> "" -> slash_at_end (split_slash p) = true <-> exists a, p = (a ++ "/")%string.
Proof.
  intros N. unfold slash_at_end. rewrite String.eqb_eq. split.
  - destruct (split_snoc p) as (a & x & S). rewrite S, last_last. intros ->.
    destruct a as [|y a]; [exfalso; apply N; rewrite <- (join_split p), S; reflexivity|].
    exists (join_slash (y :: a)). rewrite <- (join_split p), S. rewrite join_app by discriminate. reflexivity.
  - intros (a & ->). rewrite (split_app a ""). change (split_slash "") with [""]. now rewrite last_last.
Qed.

Definition op_dir (r : fs_repo) (o : ephemeral_op) : file_name :=
  match o with EpMetadata _ _ _ => fr_metadata r | EpTarget _ _ => fr_targets r end.
Definition op_comps (o : ephemeral_op) : list string :=
  match o with EpMetadata p v _ => metadata_components "json" p v | EpTarget p _ => target_components p end.

Lemma step_store r d o : fs_step r d o = fs_store d (op_dir r o) (op_comps o) (input o).
Proof. destruct o; reflexivity. Qed.

Lemma comps_plain o x : acceptable_path (op_path o) -> In x (op_comps o) -> x <> "." /\ x <> "..".
Proof.
  intros A I. destruct o as [p v rs|p rs]; cbn in *.
  - destruct (metadata_components_safe "json" p v x A) as (H1 & H2 & _); auto; try discriminate.
    rewrite !has_char_cons. intros H. repeat destruct H as [H|H]; try discriminate. now apply has_char_nil in H.
  - exact (acceptable_components p x A I).
Qed.

Lemma place_iff r o n : acceptable_path (op_path o) -> place r o n <-> n = fs_path (op_dir r o) (op_comps o).
Proof.
  intros A. unfold fs_path. rewrite <- (walk_plain (op_comps o) (fun x => comps_plain o x A)).
  destruct o as [p v rs|p rs]; cbn [place op_dir op_comps]; [|reflexivity]. split.
  - intros (names & M & ->). now apply names_components in M as ->.
  - intros ->. eexists. split; [now apply names_components|reflexivity].
Qed.

Lemma place_below r o : acceptable_path (op_path o) -> exists sub, sub <> [] /\ fs_path (op_dir r o) (op_comps o) = sub ++ op_dir r o.
Proof.
  intros A. unfold fs_path. eexists. split; [|reflexivity]. intros C.
  assert (X : forall x, In x (op_comps o) -> x = "").
  { intros x I. destruct (String.eqb x "") eqn:E; [now apply String.eqb_eq in E|]. exfalso.
    assert (J : In x (rev (filter (fun c => negb (String.eqb c "")) (op_comps o)))) by (rewrite <- in_rev; apply filter_In; now rewrite E).
    rewrite C in J. destruct J. }
  destruct o as [p v rs|p rs]; cbn [op_comps op_path] in *.
  - destruct (metadata_components_eq "json" p v) as (a & x & _ & E). rewrite E in X.
    assert (Y : (version_prefix v ++ x ++ "." ++ "json")%string = "") by (apply X, in_or_app; right; now left). clear X. rename Y into X.
    apply sapp_eq_nil in X as [_ X]. apply sapp_eq_nil in X as [_ X]. discriminate.
  - unfold target_components in X. destruct (split_slash p) as [|y l] eqn:S; [now apply split_nonempty in S|].
    pose proof (X y (or_introl eq_refl)). subst y. destruct A as (A1 & A2 & _).
    assert (E : p = join_slash ("" :: l)) by (rewrite <- S; symmetry; apply join_split).
    destruct l as [|z l]; [now apply A1|]. rewrite join_cons in E. now apply (A2 (join_slash (z :: l))).
Qed.

Lemma slash_names o : acceptable_path (op_path o) -> slash_at_end (op_comps o) = true <-> names_directory o.
Proof.
  intros A. destruct o as [p v rs|p rs]; cbn [op_comps names_directory op_path] in *.
  - split; [|contradiction]. unfold slash_at_end. destruct (metadata_components_eq "json" p v) as (a & x & _ & ->).
    rewrite last_last. intros H. apply String.eqb_eq in H. apply sapp_eq_nil in H as [_ H]. apply sapp_eq_nil in H as [_ H]. discriminate.
  - apply slash_end_iff. apply A.
Qed.

Lemma place_nonempty r o : acceptable_path (op_path o) -> fs_path (op_dir r o) (op_comps o) <> [].
Proof.
  intros A. destruct (place_below r o A) as (sub & N & ->). destruct sub; [congruence|discriminate].
Qed.

(** What a sequence of stores leaves behind. *)
Lemma run_spec r ops : forall d, sound_disk d -> (forall o, In o ops -> acceptable_path (op_path o)) ->
  let d' := fst (fs_run r d ops) in let log := snd (fs_run r d ops) in
  sound_disk d' /\
  (forall n,
     (exists pre o post b, log = pre ++ (o, Ok tt) :: post /\ place r o n /\ contains (input o) b None /\
        (forall o', In (o', Ok tt) post -> ~ place r o' n) /\ content d' n = Some b) \/
     ((forall o, In (o, Ok tt) log -> ~ place r o n) /\ content d' n = content d n)).
Proof.
  induction ops as [|o ops IH]; intros d S A; cbv zeta; cbn [fs_run].
  - cbn [fst snd]. split; [exact S|]. intros n. right. split; auto.
  - pose proof (A o (or_introl eq_refl)) as Ao.
    destruct (store_spec d (op_dir r o) (op_comps o) (input o) S (place_nonempty r o Ao)) as (S1 & R & _).
    rewrite <- step_store in S1, R. destruct (fs_step r d o) as [d1 res]. cbn [fst snd] in S1, R.
    specialize (IH d1 S1 (fun o' I => A o' (or_intror I))). cbv zeta in IH.
    destruct (fs_run r d1 ops) as [d2 l]. cbn [fst snd] in *. destruct IH as [S2 H]. split; [exact S2|].
    intros n. destruct (H n) as [(pre & o' & post & b & -> & H')|(H1 & H2)].
    + left. exists ((o, res) :: pre), o', post, b. split; [reflexivity|exact H'].
    + destruct res as [[]|e].
      * destruct R as (b & C & _ & _ & R). rewrite R in H2. destruct (eqb _ n) eqn:Q.
        -- apply eqb_eq in Q. left. exists [], o, l, b. split; [reflexivity|]. split; [now apply place_iff|]. auto.
        -- apply eqb_neq in Q. right. split; [|exact H2]. intros o' [I|I]; [|now apply H1]. inversion I; subst.
           rewrite place_iff by assumption. congruence.
      * destruct R as (R & _). right. split; [|now rewrite H2]. intros o' [I|I]; [inversion I|now apply H1].
Qed.

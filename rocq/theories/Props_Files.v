(** * C79: the repository in a directory *)
From Coq Require Import String Ascii List Arith NArith Bool Lia.
From Verif Require Import Base BaseFacts Metadata Paths SpecPaths PathProofs StringFacts Reader SpecReader ReaderProofs
     Repo SpecRepo RepoProofs Http SpecHttp HttpProofs Files SpecFiles FilesProofs.
Import ListNotations.
Open Scope string_scope.
Open Scope list_scope.
Open Scope N_scope.

Lemma contains_cursor_iff b b' : contains (cursor b) b' None <-> b' = b.
Proof.
  split.
  - intros H. unfold cursor in H. inversion H; subst; auto. inversion H5; subst. apply sapp_nil_r.
  - intros ->. unfold cursor. destruct b as [|c b]; [constructor|]. rewrite <- (sapp_nil_r (String c b)) at 2.
    constructor; [discriminate|constructor].
Qed.

(** What is found under a place. *)
Lemma find_spec d dir comps : sound_disk d -> let n := fs_path dir comps in
  match find d dir comps with
  | FoundFile b => content d n = Some b /\ slash_at_end comps = false
  | FoundDir => content d n = None /\ directory d n
  | FoundNothing => content d n = None /\ free_way d n
  | FoundBlocked => ~ directory d n /\
      ((content d n = None /\ ~ free_way d n) \/ (content d n <> None /\ slash_at_end comps = true))
  end.
Proof.
  intros [S1 S2] n. unfold find. fold n. destruct (blocked d n) eqn:B.
  - apply blocked_iff in B as (m & L & C).
    assert (X : forall k, leads_to m k -> content d k <> None \/ directory d k -> False).
    { intros k Lk H. apply (S1 m C). now apply (S2 m k). }
    split; [intros D; apply (X n); auto|]. left. split.
    + destruct (content d n) eqn:E; auto. exfalso. apply (X n); auto. left. congruence.
    + intros [W _]. apply C. now apply W.
  - assert (B' : forall m, leads_to m n -> content d m = None).
    { intros m L. destruct (content d m) eqn:E; auto. exfalso.
      assert (K : blocked d n = true) by (apply blocked_iff; exists m; split; auto; congruence). congruence. }
    fold (content d n). destruct (content d n) as [b|] eqn:E.
    + destruct (slash_at_end comps); [|auto]. split; [apply S1; congruence|]. right. split; [congruence|auto].
    + destruct (is_dir d n) eqn:D; [split; auto; now apply is_dir_iff|]. split; auto. split; auto. rewrite <- is_dir_iff. congruence.
Qed.

(** Any sequence of stores.  For each file the last store that succeeded counts, and
    nothing but its own file is changed by a store; a store succeeds exactly if its input
    can be read, nothing is in the way, and the path does not end in a slash; fetches
    return what is there.  What is missing for a map: directories that are in the way
    (see below), and different paths with the same place (C31). *)
Theorem C79_directory_is_a_map_partial :
  forall (r : fs_repo) (d : disk) (ops : list ephemeral_op),
  sound_disk d -> (forall o, In o ops -> acceptable_path (op_path o)) ->
  let d' := fst (fs_run r d ops) in let log := snd (fs_run r d ops) in
  sound_disk d' /\
  (forall n,
     (exists pre o post b, log = pre ++ (o, Ok tt) :: post /\ place r o n /\ contains (input o) b None /\
        (forall o', In (o', Ok tt) post -> ~ place r o' n) /\ content d' n = Some b) \/
     ((forall o, In (o, Ok tt) log -> ~ place r o n) /\ content d' n = content d n)) /\
  (forall o n, acceptable_path (op_path o) -> place r o n ->
     (snd (fs_step r d' o) = Ok tt <->
      (exists b, contains (input o) b None) /\ free_way d' n /\ ~ names_directory o)) /\
  (forall p v rs n, acceptable_path p -> place r (EpMetadata p v rs) n ->
     (forall b, (exists s, fs_fetch_metadata r d' p v = Ok s /\ contains s b None) <-> content d' n = Some b) /\
     (fs_fetch_metadata r d' p v = Err NotFound <-> content d' n = None /\ free_way d' n)) /\
  (forall p rs n, acceptable_path p -> place r (EpTarget p rs) n ->
     (forall b, (exists s, fs_fetch_target r d' p = Ok s /\ contains s b None) <->
        content d' n = Some b /\ ~ names_directory (EpTarget p rs)) /\
     (fs_fetch_target r d' p = Err NotFound <->
        ~ directory d' n /\ (content d' n = None \/ names_directory (EpTarget p rs)))).
Proof.
  intros r d ops S A d' log. destruct (run_spec r ops d S A) as [S' H]. fold d' log in S', H.
  split; [exact S'|]. split; [exact H|]. split; [|split].
  - intros o n Ao P. apply place_iff in P; auto. subst n. pose proof (slash_names o Ao) as Sl.
    destruct (store_spec d' (op_dir r o) (op_comps o) (input o) S' (place_nonempty r o Ao)) as (_ & R & _).
    rewrite <- step_store in R. destruct (snd (fs_step r d' o)) as [[]|e].
    + split; [|reflexivity]. intros _. destruct R as (b & C & T & W & _). split; [eauto|]. split; [exact W|].
      rewrite <- Sl. congruence.
    + split; [discriminate|]. intros ((b & C) & (W1 & W2) & T). exfalso. destruct R as (_ & R).
      destruct R as [(_ & m & L & K)|[(b' & k & C' & _)|(_ & [K|K])]].
      * apply K. now apply W1.
      * destruct (contains_fun _ _ _ C _ _ C'). discriminate.
      * apply T. now apply Sl.
      * now apply W2.
  - intros p v rs n Ao P. apply place_iff in P; auto. cbn [op_dir op_comps] in P.
    assert (Sl : slash_at_end (metadata_components "json" p v) = false).
    { destruct (slash_at_end _) eqn:Q; auto. now apply (slash_names (EpMetadata p v rs) Ao) in Q. }
    unfold fs_fetch_metadata. pose proof (find_spec d' (fr_metadata r) (metadata_components "json" p v) S') as F. cbv zeta in F. rewrite <- P in F.
    destruct (find d' _ _) as [b0| | | ]; cbn [open_file]; split.
    + intros b. destruct F as [F _]. rewrite F. split.
      * intros (s & E & C). inversion E; subst. apply contains_cursor_iff in C. congruence.
      * intros E. inversion E; subst. eexists. split; [reflexivity|now apply contains_cursor_iff].
    + destruct F as [F _]. split; [discriminate|]. intros [K _]. congruence.
    + intros b. destruct F as [F _]. rewrite F. split; [|discriminate]. intros (s & E & C). inversion E; subst. inversion C.
    + split; [discriminate|]. intros [_ [_ K]]. now destruct F.
    + intros b. destruct F as [F _]. rewrite F. split; [|discriminate]. intros (s & E & _). discriminate.
    + tauto.
    + intros b. destruct F as [_ [[F _]|[_ F]]]; [|congruence]. rewrite F. split; [|discriminate]. intros (s & E & _). discriminate.
    + split; [discriminate|]. intros [K1 K2]. destruct F as [_ [[_ F]|[F _]]]; contradiction.
  - intros p rs n Ao P. apply place_iff in P; auto. cbn [op_dir op_comps] in P.
    pose proof (slash_names (EpTarget p rs) Ao) as Sl. cbn [op_comps] in Sl.
    unfold fs_fetch_target. pose proof (find_spec d' (fr_targets r) (target_components p) S') as F. cbv zeta in F. rewrite <- P in F.
    destruct (find d' _ _) as [b0| | | ]; cbn [open_file]; split.
    + intros b. destruct F as [F T]. rewrite F. split.
      * intros (s & E & C). inversion E; subst. apply contains_cursor_iff in C. split; [congruence|]. rewrite <- Sl. congruence.
      * intros [E _]. inversion E; subst. eexists. split; [reflexivity|now apply contains_cursor_iff].
    + destruct F as [F T]. split; [discriminate|]. intros [_ [K|K]]; [congruence|]. apply Sl in K. congruence.
    + intros b. destruct F as [F _]. rewrite F. split; [|intros [? _]; discriminate]. intros (s & E & C). inversion E; subst. inversion C.
    + split; [discriminate|]. intros [K _]. now destruct F.
    + intros b. destruct F as [F _]. rewrite F. split; [|intros [? _]; discriminate]. intros (s & E & _). discriminate.
    + split; [|reflexivity]. intros _. destruct F as [F [_ W]]. auto.
    + intros b. split; [intros (s & E & _); discriminate|]. intros [E T]. exfalso. destruct F as [_ [[F _]|[_ F]]]; [congruence|].
      apply T. now apply Sl.
    + split; [|reflexivity]. intros _. destruct F as [F1 [[F _]|[_ F]]]; split; auto. right. now apply Sl.
Qed.
Print Assumptions C79_directory_is_a_map_partial.

(** [FileSystemRepository::new] on a disk: no file is changed, and afterwards metadata and
    targets have their own directories, so that no store of one can disturb the other. *)
Theorem C79_new_keeps_apart :
  forall (d d1 : disk) (local : file_name) (r : fs_repo),
  sound_disk d -> fs_new d local = (d1, Ok r) ->
  sound_disk d1 /\ (forall n, content d1 n = content d n) /\
  directory d1 (fr_metadata r) /\ directory d1 (fr_targets r) /\
  forall p v rs n q rs' m, acceptable_path p -> acceptable_path q ->
    place r (EpMetadata p v rs) n -> place r (EpTarget q rs') m ->
    (exists sub, sub <> [] /\ n = sub ++ "metadata" :: local) /\
    (exists sub, sub <> [] /\ m = sub ++ "targets" :: local) /\
    n <> m /\ ~ leads_to n m /\ ~ leads_to m n.
Proof.
  intros d d1 local r S H. unfold fs_new, fs_build in H. cbn [fb_local fb_metadata_prefix fb_targets_prefix prefixed] in H.
  change (fs_path local ["metadata"]) with ("metadata" :: local) in H.
  change (fs_path local ["targets"]) with ("targets" :: local) in H.
  destruct (make_dirs d ("metadata" :: local)) as [d2|e] eqn:M; [|discriminate].
  destruct (make_dirs d2 ("targets" :: local)) as [d3|e] eqn:M2; [|discriminate]. inversion H; subst. clear H.
  pose proof (make_dirs_sound _ _ _ S M) as S2. pose proof (make_dirs_sound _ _ _ S2 M2) as S3.
  destruct (make_dirs_ok _ _ _ S M) as [F D]. destruct (make_dirs_ok _ _ _ S2 M2) as [F2 D2].
  split; [exact S3|]. split; [intros n; unfold content; now rewrite F2, F|]. cbn [fr_metadata fr_targets].
  split; [apply D2; left; apply D; auto|]. split; [apply D2; auto|].
  intros p v rs n q rs' m A1 A2 P1 P2.
  apply place_iff in P1; auto. apply place_iff in P2; auto.
  destruct (place_below (mkFsRepo ("metadata" :: local) ("targets" :: local)) (EpMetadata p v rs) A1) as (sub & N1 & E1).
  destruct (place_below (mkFsRepo ("metadata" :: local) ("targets" :: local)) (EpTarget q rs') A2) as (sub' & N2 & E2).
  rewrite E1 in P1. rewrite E2 in P2. cbn [op_dir fr_metadata fr_targets] in P1, P2. subst n m.
  split; [eauto|]. split; [eauto|].
  assert (X : forall a b, a ++ "metadata" :: local <> b ++ "targets" :: local).
  { intros a b E. change (a ++ ["metadata"] ++ local = b ++ ["targets"] ++ local) in E. rewrite !app_assoc in E.
    apply app_inv_tail in E. apply app_inj_tail in E as [_ E]. discriminate. }
  split; [apply X|]. split.
  - intros (x & rest & E). symmetry in E. rewrite app_assoc in E. change (x :: (rest ++ sub) ++ "metadata" :: local) with ((x :: rest ++ sub) ++ "metadata" :: local) in E.
    now apply X in E.
  - intros (x & rest & E). rewrite app_assoc in E. change (x :: (rest ++ sub') ++ "targets" :: local) with ((x :: rest ++ sub') ++ "targets" :: local) in E.
    now apply X in E.
Qed.
Print Assumptions C79_new_keeps_apart.

Definition empty_disk : disk := mkDisk [] [].
Lemma empty_sound : sound_disk empty_disk.
Proof.
  split.
  - intros n H. now destruct H.
  - intros m n [H|[-> |[]]] L; [now destruct H|now apply leads_nil in L].
Qed.
Definition toy_fs : fs_repo := mkFsRepo ["metadata"; "repo"] ["targets"; "repo"].

(** A store that fails can make another one fail later on: it leaves its directories
    behind.  Here the target "x" could be stored before a download of "x/y" broke off. *)
Theorem C79_failed_store_refuted :
  exists (d : disk) (o o' : ephemeral_op),
  sound_disk d /\ acceptable_path (op_path o) /\ acceptable_path (op_path o') /\
  (forall n n', place toy_fs o n -> place toy_fs o' n' -> n <> n') /\
  snd (fs_step toy_fs d o') = Ok tt /\ snd (fs_step toy_fs d o) <> Ok tt /\
  snd (fs_step toy_fs (fst (fs_step toy_fs d o)) o') = Err Opaque.
Proof.
  exists empty_disk, (EpTarget "x/y" [Ready "da"; Failed IoOther]), (EpTarget "x" [Ready "data"]).
  assert (A1 : acceptable_path "x/y") by (apply (path_new_iff "x/y" "x/y"); reflexivity).
  assert (A2 : acceptable_path "x") by (apply (path_new_iff "x" "x"); reflexivity).
  split; [exact empty_sound|]. split; [exact A1|]. split; [exact A2|]. split.
  - intros n n' P P'. cbn in P, P'. subst. discriminate.
  - split; [vm_compute; reflexivity|]. split; [vm_compute; discriminate|vm_compute; reflexivity].
Qed.
Print Assumptions C79_failed_store_refuted.

(** Two targets of one repository, one of which is in the way of the other. *)
Theorem C79_nested_targets_refuted :
  exists (o o' : ephemeral_op), acceptable_path (op_path o) /\ acceptable_path (op_path o') /\
  forall first second, In (first, second) [(o, o'); (o', o)] ->
    map snd (snd (fs_run toy_fs empty_disk [first; second])) = [Ok tt; Err Opaque].
Proof.
  exists (EpTarget "a" [Ready "1"]), (EpTarget "a/b" [Ready "2"]).
  split; [apply (path_new_iff "a" "a"); reflexivity|]. split; [apply (path_new_iff "a/b" "a/b"); reflexivity|].
  intros f s [E|[E|[]]]; inversion E; subst; vm_compute; reflexivity.
Qed.
Print Assumptions C79_nested_targets_refuted.

(** Without prefixes, which is the default of the builder, metadata and targets share one
    directory: the target "root.json" replaces the root metadata. *)
Theorem C79_shared_directory_refuted :
  exists (d : disk) (r : fs_repo) (o o' : ephemeral_op),
  fs_build empty_disk (mkFsBuilder ["repo"] None None) = (d, Ok r) /\
  acceptable_path (op_path o) /\ acceptable_path (op_path o') /\
  o = EpMetadata "root" VNone [Ready "signed"] /\ (exists p rs, o' = EpTarget p rs) /\
  fs_fetch_metadata r (fst (fs_run r d [o; o'])) "root" VNone = Ok [Ready "anything"].
Proof.
  exists (mkDisk [] [["repo"]]), (mkFsRepo ["repo"] ["repo"]), (EpMetadata "root" VNone [Ready "signed"]), (EpTarget "root.json" [Ready "anything"]).
  split; [reflexivity|]. split; [apply (path_new_iff "root" "root"); reflexivity|].
  split; [apply (path_new_iff "root.json" "root.json"); reflexivity|]. split; [reflexivity|]. split; [eauto|]. vm_compute. reflexivity.
Qed.
Print Assumptions C79_shared_directory_refuted.

Example C79_case :
  let d := fst (fs_new empty_disk ["repo"]) in
  let ops := [EpMetadata "root" VNone [Ready "one"]; EpTarget "d/t" [Ready "da"; Pending; Ready "ta"];
              EpMetadata "root" (VNumber 2) [Ready "two"]; EpMetadata "root" VNone [Ready "th"; Ready "ree"];
              EpTarget "d/t" [Ready "x"; Failed IoNotFound]; EpTarget "d/t/u" [Ready "y"]; EpTarget "e/" [Ready "y"]] in
  let d' := fst (fs_run toy_fs d ops) in
  snd (fs_new empty_disk ["repo"]) = Ok toy_fs /\ sound_disk d /\ (forall o, In o ops -> acceptable_path (op_path o)) /\
  map snd (snd (fs_run toy_fs d ops)) = [Ok tt; Ok tt; Ok tt; Ok tt; Err NotFound; Err Opaque; Err Opaque] /\
  fs_fetch_metadata toy_fs d' "root" VNone = Ok [Ready "three"] /\
  fs_fetch_metadata toy_fs d' "root" (VNumber 2) = Ok [Ready "two"] /\
  fs_fetch_metadata toy_fs d' "root" (VNumber 3) = Err NotFound /\
  fs_fetch_metadata toy_fs d' "root.json/x" VNone = Err Opaque /\
  fs_fetch_target toy_fs d' "d/t" = Ok [Ready "data"] /\ fs_fetch_target toy_fs d' "d/t/" = Err NotFound /\
  fs_fetch_target toy_fs d' "d" = Ok [Failed IoOther].
Proof.
  cbv zeta. split; [reflexivity|]. split.
  - assert (E : fs_new empty_disk ["repo"] = (fst (fs_new empty_disk ["repo"]), Ok toy_fs)) by reflexivity.
    now apply (C79_new_keeps_apart _ _ _ _ empty_sound E).
  - split.
    + intros o I. repeat destruct I as [<-|I]; try destruct I; cbn [op_path];
        match goal with |- acceptable_path ?p => apply (path_new_iff p p); reflexivity end.
    + repeat (split; [vm_compute; reflexivity|]). vm_compute. reflexivity.
Qed.

(** * C80: a directory behind a web server

    What has been stored in a repository in a directory is what a client gets over HTTP
    if a web server serves that directory. *)
From Coq Require Import String Ascii List Arith NArith Bool Lia.
From Verif Require Import Base BaseFacts Metadata Verify Paths SpecPaths PathProofs StringFacts Tuf SpecTuf TufHistory
     Reader SpecReader ReaderProofs Repo SpecRepo RepoProofs Http SpecHttp HttpProofs Files SpecFiles FilesProofs
     Client SpecClient SpecHonest ClientLogic ClientProofs ClientHonest Toy ClientToy Props_Honest Props_Http Props_Files.
Import ListNotations.
Open Scope string_scope.
Open Scope list_scope.
Open Scope N_scope.

(** A prefix that can be used in URLs and in file names. *)
Definition plain_prefix (prefix : option (list string)) : Prop :=
  forall p x, prefix = Some p -> In x p -> ~ has_char "/" x /\ ~ has_char "%" x /\ x <> "." /\ x <> "..".

(** The repository in the directory [local] and the one behind the server, with the same
    prefixes; the server serves the directory [local]. *)
Record mirrored (d : disk) (b : fs_builder) (r : fs_repo) (h : http_repo) (server : request -> option response) : Prop := {
  mi_disk : sound_disk d;
  mi_built : exists d0, snd (fs_build d0 b) = Ok r;
  mi_uri : uri_ok (hr_path h) (hr_query h);
  mi_agent : sendable (hr_user_agent h);
  mi_metadata : hr_metadata_prefix h = fb_metadata_prefix b /\ plain_prefix (hr_metadata_prefix h);
  mi_targets : hr_targets_prefix h = fb_targets_prefix b /\ plain_prefix (hr_targets_prefix h);
  mi_serves : serves d (fb_local b) (hr_path h) server
}.

(** The answer is this file, or that there is none. *)
Definition gives (c : option bytes) (ans : result stream) : Prop :=
  match c with Some data => exists rs, ans = Ok rs /\ contains rs data None | None => ans = Err NotFound end.

Lemma walk_app cwd a b : walk cwd (a ++ b) = walk (walk cwd a) b.
Proof. revert cwd. induction a as [|x a IH]; intros cwd; cbn; auto. Qed.

Lemma one_get_gives d local prefix h server names outcome :
  sendable (hr_user_agent h) -> serves d local (hr_path h) server -> plain_prefix prefix ->
  (forall x, In x names -> ~ has_char "%" x) ->
  one_get server h prefix names outcome ->
  gives (content d (walk (prefixed local prefix) names)) (snd outcome).
Proof.
  intros A Sv P NP [G _]. destruct (G A) as (rq & _ & _ & _ & U & M). clear G.
  set (pre := match prefix with Some p => p | None => [] end) in *.
  assert (Pre : forall x, In x pre -> ~ has_char "/" x /\ ~ has_char "%" x /\ x <> "." /\ x <> "..").
  { unfold pre. destruct prefix as [p|]; [|intros x []]. intros x. now apply P. }
  destruct (U (fun x I => proj1 (Pre x I))) as (b & segs & B & Sp & _ & D).
  assert (D' : map url_decode segs = pre ++ names).
  { apply D. intros x I. apply in_app_or in I as [I|I]; auto. now apply Pre. }
  specialize (Sv rq b segs B Sp). rewrite D', walk_app in Sv.
  assert (W : walk local pre = prefixed local prefix).
  { unfold prefixed, pre in *. destruct prefix as [p|]; [|reflexivity]. apply walk_plain. intros x I. now apply Pre. }
  rewrite W in Sv. destruct (content d _) as [data|].
  - destruct Sv as (body & start & V & C & T). rewrite V in M. cbn [means rp_status rp_body] in M.
    destruct M as [(_ & rs & -> & _ & _ & K)|[(K & _)|(K & _)]]; try discriminate; [|congruence]. cbn. exists rs. split; [reflexivity|].
    exact (K data None start T C).
  - destruct Sv as (body & V). rewrite V in M. cbn [means rp_status] in M.
    destruct M as [(K & _)|[(_ & ->)|(_ & K & _)]]; [discriminate|reflexivity|congruence].
Qed.

Theorem C80_mirror_partial :
  forall (d : disk) (b : fs_builder) (r : fs_repo) (h : http_repo) (server : request -> option response),
  mirrored d b r h server ->
  (forall p v rs n, acceptable_path p -> ~ has_char "%" p -> place r (EpMetadata p v rs) n ->
     gives (content d n) (snd (http_fetch_metadata server h p v))) /\
  (forall p rs n, acceptable_path p -> ~ has_char "%" p -> place r (EpTarget p rs) n -> ~ names_directory (EpTarget p rs) ->
     gives (content d n) (snd (http_fetch_target server h p))).
Proof.
  intros d b r h server [S (d0 & Bu) U A [M1 M2] [T1 T2] Sv].
  assert (R : r = mkFsRepo (prefixed (fb_local b) (fb_metadata_prefix b)) (prefixed (fb_local b) (fb_targets_prefix b))).
  { unfold fs_build in Bu. destruct (make_dirs d0 _) as [d1|]; [|discriminate]. destruct (make_dirs d1 _); [|discriminate].
    cbn in Bu. now inversion Bu. }
  destruct (C78_http_fetches server h U) as [HM HT].
  assert (NP : forall p, ~ has_char "%" p -> forall x, In x (split_slash p) -> ~ has_char "%" x).
  { intros p N x I C. apply split_component in I as (_ & pre & post & E & _). apply N. rewrite E, !has_char_app. auto. }
  split.
  - intros p v rs n Ap N (names & (dir & f & Sp & ->) & ->). rewrite R. cbn [fr_metadata]. rewrite <- M1.
    apply (one_get_gives d (fb_local b) (hr_metadata_prefix h) h server); [exact A|exact Sv|exact M2| |exact (HM p v dir f Sp)].
    intros x I. apply in_app_or in I as [I|[<-|[]]].
    + apply (NP p N). rewrite Sp. apply in_or_app. now left.
    + assert (F : ~ has_char "%" f) by (apply (NP p N); rewrite Sp; apply in_or_app; right; now left).
      assert (J : ~ has_char "%" ".json").
      { rewrite !has_char_cons. intros H. repeat destruct H as [H|H]; try discriminate. now apply has_char_nil in H. }
      unfold file_of. destruct v as [|k]; rewrite !has_char_app; intros H.
      * tauto.
      * destruct H as [H|[H|[H|H]]]; auto.
        -- apply decimal_digits in H. unfold is_digit in H. cbn in H. lia.
        -- apply has_char_one in H. discriminate.
  - intros p rs n Ap N -> _. rewrite R. cbn [fr_targets]. rewrite <- T1.
    apply (one_get_gives d (fb_local b) (hr_targets_prefix h) h server); [exact A|exact Sv|exact T2|exact (NP p N)|exact (HT p)].
Qed.
Print Assumptions C80_mirror_partial.

(** With a percent sign it fails: the server reads the name differently. *)
Definition toy_root : fs_builder := mkFsBuilder ["repo"] (Some ["meta"]) (Some ["targets"]).
Definition toy_disk_repo : fs_repo := mkFsRepo ["meta"; "repo"] ["targets"; "repo"].
Definition toy_base : http_repo :=
  http_build (fold_left http_set [SetMetadataPrefix ["meta"]; SetTargetsPrefix ["targets"]] (http_builder_new "/x/" None)).

(** A web server for a directory. *)
Definition web_server (d : disk) (root : file_name) (rq : request) : option response :=
  match split_slash (rq_path rq) with
  | _ :: _ :: segs =>
      Some (match lookup (walk root (map url_decode segs)) (dk_files d) with
            | Some data => mkResponse 200 [(1, 1, Ready data)]
            | None => mkResponse 404 [(1, 1, Ready "no such file")]
            end)
  | _ => None
  end.
Lemma web_server_serves d root : serves d root "/x/" (web_server d root).
Proof.
  intros rq b segs B S. unfold web_server.
  assert (E : exists x y segs', split_slash (rq_path rq) = x :: y :: segs' /\ walk root (map url_decode segs') = walk root (map url_decode segs)).
  { destruct B as [<-|B].
    - rewrite S. change (split_slash "/x/") with [""; "x"; ""]. exists "", "x", ("" :: segs). split; reflexivity.
    - assert (b = "/x") as ->.
      { change "/x/" with ("/x" ++ "/")%string in B. apply sapp_cancel_r in B. auto. }
      rewrite S. change (split_slash "/x") with [""; "x"]. exists "", "x", segs. split; reflexivity. }
  destruct E as (x & y & segs' & -> & W). rewrite W. fold (content d (walk root (map url_decode segs))).
  destruct (content d _) as [data|].
  - exists [(1, 1, Ready data)], 1. split; [reflexivity|]. split.
    + unfold body_contains. cbn. now apply contains_cursor_iff.
    + intros t0 t1 r [I|[]]. inversion I; subst. lia.
  - eexists. reflexivity.
Qed.

Lemma toy_mirrored d : sound_disk d -> mirrored d toy_root toy_disk_repo toy_base (web_server d ["repo"]).
Proof.
  intros S. split.
  - exact S.
  - exists empty_disk. reflexivity.
  - split; [reflexivity|intros q Q; discriminate].
  - apply sendable_iff. reflexivity.
  - split; [reflexivity|]. intros p x E I. inversion E; subst. destruct I as [<-|[]].
    split; [|split; [|split; discriminate]]; rewrite !has_char_cons; intros H; repeat destruct H as [H|H]; try discriminate; now apply has_char_nil in H.
  - split; [reflexivity|]. intros p x E I. inversion E; subst. destruct I as [<-|[]].
    split; [|split; [|split; discriminate]]; rewrite !has_char_cons; intros H; repeat destruct H as [H|H]; try discriminate; now apply has_char_nil in H.
  - apply web_server_serves.
Qed.

Theorem C80_mirror_refuted :
  exists (d : disk) (b : fs_builder) (r : fs_repo) (h : http_repo) (server : request -> option response) (p : string) (n : file_name),
  mirrored d b r h server /\ acceptable_path p /\ place r (EpTarget p []) n /\ content d n = Some "data" /\
  snd (http_fetch_target server h p) = Err NotFound.
Proof.
  set (d := fst (fs_run toy_disk_repo empty_disk [EpTarget "100%25" [Ready "data"]])).
  exists d, toy_root, toy_disk_repo, toy_base, (web_server d ["repo"]), "100%25", ["100%25"; "targets"; "repo"].
  assert (A : acceptable_path "100%25") by (apply (path_new_iff "100%25" "100%25"); reflexivity).
  split; [|split; [exact A|]].
  - apply toy_mirrored. apply (C79_directory_is_a_map_partial toy_disk_repo empty_disk _ empty_sound).
    intros o [<-|[]]. exact A.
  - split; [reflexivity|]. split; vm_compute; reflexivity.
Qed.
Print Assumptions C80_mirror_refuted.

(** ** From the directory of the publisher to the trusted metadata of the client *)

(** The documents of a publication are on the disk, and no other numbered roots. *)
Definition published_in (d : disk) (dir : file_name) (p : publication) : Prop :=
  (forall raw r, In (raw, r) (pb_roots p) -> content d ((decimal (rm_version r) ++ ".root.json")%string :: dir) = Some raw) /\
  (forall n, (forall raw r, In (raw, r) (pb_roots p) -> rm_version r <> n) ->
     content d ((decimal n ++ ".root.json")%string :: dir) = None) /\
  content d ("timestamp.json" :: dir) = Some (pb_timestamp p) /\
  content d (file_of (published_as p (sm_version (pb_sn p))) "snapshot" :: dir) = Some (pb_snapshot p) /\
  content d (file_of (published_as p (tg_version (pb_tg p))) "targets" :: dir) = Some (pb_targets p).

(** One event, if the remote repository is this server, the local one stores what it is
    given, and the clock is right. *)
Definition web_event (p : publication) (h : http_repo) (server : request -> option response) (e : event) : Prop :=
  match e with
  | EvFetchMeta Remote path v _ _ ans => ans = snd (http_fetch_metadata server h path v)
  | EvStoreMeta _ _ _ ans => ans = Ok tt
  | EvNow c => current p c
  | _ => True
  end.

Lemma web_good p d b r h server : mirrored d b r h server -> published_in d (fr_metadata r) p ->
  forall e, web_event p h server e -> good_event p e.
Proof.
  intros M (P1 & P2 & P3 & P4 & P5) e H. destruct e as [s path v max hash ans|path v data ans| | | |c| ]; try exact I.
  2: exact H. 2: exact H. destruct s; [exact I|]. cbn [web_event good_event] in *. subst ans.
  destruct (C80_mirror_partial d b r h server M) as [G _].
  assert (W : forall name v, acceptable_path name -> ~ has_char "%" name -> split_slash name = [name] -> file_of v name <> "" ->
    file_of v name <> "." -> file_of v name <> ".." -> gives (content d (file_of v name :: fr_metadata r)) (snd (http_fetch_metadata server h name v))).
  { intros name w A N S N1 N2 N3. apply (G name w [] (file_of w name :: fr_metadata r) A N).
    exists [file_of w name]. split.
    - exists [], name. split; [exact S|reflexivity].
    - cbn [walk]. apply String.eqb_neq in N1, N2, N3. now rewrite N1, N2, N3. }
  assert (L : forall w name, name <> "" -> file_of w name <> "" /\ file_of w name <> "." /\ file_of w name <> "..").
  { intros w name N.
    assert (K : (4 <= String.length (file_of w name))%nat).
    { unfold file_of. destruct w; rewrite !slength_app; cbn; lia. }
    repeat split; intros C; rewrite C in K; cbn in K; lia. }
  assert (W' : forall w name, In name ["root"; "timestamp"; "snapshot"; "targets"] ->
    gives (content d (file_of w name :: fr_metadata r)) (snd (http_fetch_metadata server h name w))).
  { intros w name I. assert (N : name <> "") by (intros ->; repeat destruct I as [I|I]; try discriminate; destruct I).
    destruct (L w name N) as (L1 & L2 & L3). apply W; auto.
    - repeat destruct I as [<-|I]; try destruct I; match goal with |- acceptable_path ?p => apply (path_new_iff p p); reflexivity end.
    - repeat destruct I as [<-|I]; try destruct I; rewrite !has_char_cons; intros H; repeat destruct H as [H|H]; try discriminate; now apply has_char_nil in H.
    - repeat destruct I as [<-|I]; try destruct I; reflexivity. }
  assert (An : forall w name raw, In name ["root"; "timestamp"; "snapshot"; "targets"] ->
    content d (file_of w name :: fr_metadata r) = Some raw -> answered (snd (http_fetch_metadata server h name w)) raw).
  { intros w name raw I C. specialize (W' w name I). rewrite C in W'. exact W'. }
  split; [|split; [|split]].
  - intros n -> ->.
    destruct (List.find (fun x => rm_version (snd x) =? n) (pb_roots p)) as [[raw r0]|] eqn:F.
    + apply find_some in F as [I V]. apply N.eqb_eq in V. cbn [snd] in V. left. exists raw, r0. split; [exact I|]. split; [exact V|].
      apply An; [now left|]. cbn [file_of]. specialize (P1 raw r0 I). rewrite V in P1. exact P1.
    + assert (X : forall raw r0, In (raw, r0) (pb_roots p) -> rm_version r0 <> n).
      { intros raw r0 I V. pose proof (find_none _ _ F _ I) as Y. cbn [snd] in Y. rewrite V, N.eqb_refl in Y. discriminate. }
      right. split; [exact X|]. specialize (W' (VNumber n) "root" (or_introl eq_refl)). cbn [file_of] in W'.
      specialize (P2 n X). change (decimal n ++ "." ++ "root" ++ ".json")%string with (decimal n ++ ".root.json")%string in W'.
      rewrite P2 in W'. exact W'.
  - intros -> ->. apply An; [right; now left|exact P3].
  - intros -> ->. apply An; [right; right; now left|exact P4].
  - intros -> ->. apply An; [right; right; right; now left|exact P5].
Qed.

(** If the documents of a publication that is in order are in the directory, then an update
    over HTTP brings the client up to date. *)
Theorem C80_update_from_directory :
  forall (E : env) (cfg : config) (p : publication) (d : disk) (b : fs_builder) (r : fs_repo)
         (h : http_repo) (server : request -> option response) (fuel : nat) (t : tuf),
  in_order E cfg p -> mirrored d b r h server -> published_in d (fr_metadata r) p ->
  reachable E t -> not_ahead p t -> rm_version (pb_root p) - rm_version (t_root t) < N.of_nat fuel ->
  (forall tr q, exec (update E cfg fuel t) tr q -> Forall (web_event p h server) tr ->
     q <> Panic /\ q <> OutOfFuel /\ forall t' res, q = Ret (t', res) -> up_to_date p t' /\ is_ok res = true) /\
  (exists tr t' c, exec (update E cfg fuel t) tr (Ret (t', Ok c)) /\ Forall (web_event p h server) tr).
Proof.
  intros E cfg p d b r h server fuel t IO M Pu R NA F.
  pose proof (web_good p d b r h server M Pu) as WG.
  destruct (C74_honest_repository_is_followed E cfg p fuel t IO R NA F) as [H _].
  assert (A : forall tr q, exec (update E cfg fuel t) tr q -> Forall (web_event p h server) tr ->
     q <> Panic /\ q <> OutOfFuel /\ forall t' res, q = Ret (t', res) -> up_to_date p t' /\ is_ok res = true).
  { intros tr q X Fo. destruct (H tr q X (Forall_impl _ WG Fo)) as (Q1 & Q2 & Q3). split; [exact Q1|]. split; [exact Q2|].
    intros t' res Q. destruct (Q3 t' res Q) as (U & c & -> & _). auto. }
  split; [exact A|].
  destruct (exec_total (web_event p h server)) with (q := update E cfg fuel t) as (tr & q & X & Fo & O).
  - intros [] path v max hash; [now exists (Err NotFound)|]. cbn. eauto.
  - intros. now exists (Ok tt).
  - intros. now exists (Err NotFound).
  - intros. now exists (Ok tt).
  - intros. now exists None.
  - apply current_possible.
  - exact (fun _ => I).
  - destruct (A tr q X Fo) as (Q1 & Q2 & Q3).
    destruct q as [[t' res]| | | | | | | | | ]; try contradiction; try (exfalso; now (apply Q1 || apply Q2)).
    destruct (Q3 t' res eq_refl) as (_ & K). destruct res as [c|e]; [|discriminate]. exists tr, t', c. auto.
Qed.
Print Assumptions C80_update_from_directory.

(** The publisher of the running example stores its documents, and a new client fetches
    them. *)
Definition toy_stores : list ephemeral_op :=
  [EpMetadata "root" (VNumber 1) [Ready "root1"]; EpMetadata "root" (VNumber 2) [Ready "root2"];
   EpMetadata "targets" VNone [Ready "targets1"]; EpMetadata "snapshot" VNone [Ready "snap1"];
   EpMetadata "timestamp" VNone [Ready "ts1"]; EpTarget "top" [Ready "hello"]].
Definition toy_published : disk := fst (fs_run toy_disk_repo (fst (fs_build empty_disk toy_root)) toy_stores).

Example C80_case :
  in_order Ec default_config (pub1 "root2" root2) /\
  mirrored toy_published toy_root toy_disk_repo toy_base (web_server toy_published ["repo"]) /\
  published_in toy_published (fr_metadata toy_disk_repo) (pub1 "root2" root2) /\
  reachable Ec (tuf_of_root root1) /\ not_ahead (pub1 "root2" root2) (tuf_of_root root1) /\
  snd (http_fetch_target (web_server toy_published ["repo"]) toy_base "top") = Ok [Ready "hello"].
Proof.
  destruct (C74_case_new "root2" root2 (or_introl eq_refl)) as (A & B & C).
  split; [exact A|]. split; [|split; [|split; [exact B|split; [exact C|vm_compute; reflexivity]]]].
  - apply toy_mirrored. unfold toy_published.
    assert (S : sound_disk (fst (fs_build empty_disk toy_root))).
    { change (fst (fs_build empty_disk toy_root)) with (mkDisk [] [["targets"; "repo"]; ["meta"; "repo"]; ["repo"]]).
      assert (M : make_dirs empty_disk ["meta"; "repo"] = Ok (mkDisk [] [["meta"; "repo"]; ["repo"]])) by reflexivity.
      apply (make_dirs_sound _ _ _ empty_sound) in M.
      now apply (make_dirs_sound ["targets"; "repo"] (mkDisk [] [["meta"; "repo"]; ["repo"]])). }
    apply (C79_directory_is_a_map_partial toy_disk_repo _ toy_stores S).
    intros o I. repeat destruct I as [<-|I]; try destruct I; cbn [op_path];
      match goal with |- acceptable_path ?p => apply (path_new_iff p p); reflexivity end.
  - change (fr_metadata toy_disk_repo) with ["meta"; "repo"].
    assert (E : toy_published = mkDisk
      [(["top"; "targets"; "repo"], "hello"); (["timestamp.json"; "meta"; "repo"], "ts1"); (["snapshot.json"; "meta"; "repo"], "snap1");
       (["targets.json"; "meta"; "repo"], "targets1"); (["2.root.json"; "meta"; "repo"], "root2"); (["1.root.json"; "meta"; "repo"], "root1")]
      [["targets"; "repo"]; ["meta"; "repo"]; ["repo"]]) by (vm_compute; reflexivity).
    rewrite E. clear E. split; [|split; [|split; [reflexivity|split; reflexivity]]].
    + intros raw r [I|[I|[]]]; inversion I; subst; vm_compute; reflexivity.
    + intros n N. assert (N1 : n <> 1) by (intros ->; apply (N "root1" root1); [now left|reflexivity]).
      assert (N2 : n <> 2) by (intros ->; apply (N "root2" root2); [right; now left|reflexivity]).
      unfold content. cbn [dk_files].
      match goal with |- lookup ?k ?l = None => destruct (lookup k l) as [v|] eqn:L; [|reflexivity] end. exfalso.
      apply lookup_In in L. 
      assert (D : forall m, (decimal n ++ ".root.json")%string = (decimal m ++ ".root.json")%string -> n = m).
      { intros m Q. apply sapp_cancel_r in Q. now apply decimal_inj. }
      assert (Z : forall s, ~ has_char "." s -> (decimal n ++ ".root.json")%string <> (s ++ ".json")%string).
      { intros s Hs Q. change ".root.json" with (".root" ++ ".json")%string in Q. rewrite <- sapp_assoc in Q. apply sapp_cancel_r in Q.
        apply Hs. rewrite <- Q, has_char_app. right. apply has_char_cons. now left. }
      destruct L as [L|[L|[L|[L|[L|[L|[]]]]]]]; inversion L.
      * apply (Z "timestamp"); [|symmetry; assumption]. rewrite !has_char_cons. intros H. repeat destruct H as [H|H]; try discriminate. now apply has_char_nil in H.
      * apply (Z "snapshot"); [|symmetry; assumption]. rewrite !has_char_cons. intros H. repeat destruct H as [H|H]; try discriminate. now apply has_char_nil in H.
      * apply (Z "targets"); [|symmetry; assumption]. rewrite !has_char_cons. intros H. repeat destruct H as [H|H]; try discriminate. now apply has_char_nil in H.
      * apply N2, D. symmetry. assumption.
      * apply N1, D. symmetry. assumption.
Qed.

(** * C78: the repository behind a web server *)
From Coq Require Import String Ascii List NArith Bool Lia.
From Verif Require Import Base BaseFacts Metadata Verify Paths SpecPaths PathProofs StringFacts Tuf SpecTuf TufHistory
     Reader SpecReader Repo SpecRepo RepoProofs Http SpecHttp HttpProofs Client SpecClient SpecHonest ClientLogic
     ClientHonest Toy ClientToy Props_Client Props_Honest.
Import ListNotations.
Open Scope string_scope.
Open Scope list_scope.
Open Scope N_scope.

Lemma get_is_one_get server h prefix names : uri_ok (hr_path h) (hr_query h) ->
  (forall x, In x names -> ~ has_char "/" x) ->
  one_get server h prefix names (http_get server h prefix names).
Proof.
  intros U NS. unfold one_get, http_get, http_request. set (pre := match prefix with Some p => p | None => [] end).
  pose proof (extend_uri_ok _ _ prefix names U) as X. fold pre in X. rewrite X. cbn [rbind fst snd].
  pose proof (sendable_iff (hr_user_agent h)) as S. split; intros A.
  - rewrite (proj2 S A). eexists. cbn [fst snd]. split; [reflexivity|]. split; [reflexivity|]. split; [reflexivity|].
    split.
    + intros P. cbn [rq_path].
      assert (P' : forall x, In x (pre ++ names) -> ~ has_char "/" x) by (intros x I; apply in_app_or in I as [I|I]; auto).
      destruct (extend_addresses _ _ prefix names U P') as (url & Q & R). fold pre in R. rewrite X in Q. inversion Q; subst. exact R.
    + destruct (server _) as [rp|]; [apply http_answer_means|reflexivity].
  - destruct (all_chars header_char (hr_user_agent h)) eqn:Y; [|reflexivity]. exfalso. apply A. now apply S.
Qed.

Theorem C78_http_fetches :
  forall (server : request -> option response) (h : http_repo),
  uri_ok (hr_path h) (hr_query h) ->
  (forall path v dir f, split_slash path = dir ++ [f] ->
     one_get server h (hr_metadata_prefix h) (dir ++ [file_of v f]) (http_fetch_metadata server h path v)) /\
  (forall path, one_get server h (hr_targets_prefix h) (split_slash path) (http_fetch_target server h path)).
Proof.
  intros server h U. split.
  - intros path v dir f S. unfold http_fetch_metadata.
    assert (E : metadata_components "json" path v = dir ++ [file_of v f]).
    { unfold metadata_components. rewrite S, map_last_snoc. unfold version_prefix, file_of. destruct v as [|n]; [reflexivity|].
      now rewrite !sapp_assoc. }
    rewrite E. apply get_is_one_get; auto. intros x I.
    assert (D : forall y, In y (dir ++ [f]) -> ~ has_char "/" y) by (rewrite <- S; apply split_pieces).
    apply in_app_or in I as [I|[<-|[]]]; [apply D, in_or_app; now left|].
    assert (F : ~ has_char "/" f) by (apply D, in_or_app; right; now left).
    unfold file_of. destruct v as [|n]; rewrite !has_char_app; intros H.
    + destruct H as [H|H]; auto. rewrite !has_char_cons in H. repeat destruct H as [H|H]; try discriminate. now apply has_char_nil in H.
    + destruct H as [H|[H|[H|H]]]; auto.
      * now apply decimal_no_slash in H.
      * apply has_char_one in H. discriminate.
      * rewrite !has_char_cons in H. repeat destruct H as [H|H]; try discriminate. now apply has_char_nil in H.
  - intros path. apply get_is_one_get; auto. intros x. apply split_pieces.
Qed.
Print Assumptions C78_http_fetches.

(** Settings: the last one counts; without one, the agent is "rust-tuf", there are no
    prefixes, and the minimum is 4096 bytes per second. *)
Theorem C78_http_settings :
  forall (path : string) (query : option string) (l : list http_setting),
  let h := http_build (fold_left http_set l (http_builder_new path query)) in
  hr_path h = path /\ hr_query h = query /\
  last_set (fun s => match s with SetUserAgent a => Some a | _ => None end) "rust-tuf" l (hr_user_agent h) /\
  last_set (fun s => match s with SetMetadataPrefix p => Some (Some p) | _ => None end) None l (hr_metadata_prefix h) /\
  last_set (fun s => match s with SetTargetsPrefix p => Some (Some p) | _ => None end) None l (hr_targets_prefix h) /\
  last_set (fun s => match s with SetMinimum m => Some m | _ => None end) 4096 l (hr_min_bytes_per_second h).
Proof.
  intros path query l. cbv zeta.
  assert (L : forall A (pick : http_setting -> option A) d l s a,
    match pick s with Some a' => a = a' | None => last_set pick d l a end -> last_set pick d (l ++ [s]) a).
  { clear. intros A pick d l s a H. destruct (pick s) as [a'|] eqn:P.
    - subst a'. left. exists l, s, []. split; [reflexivity|]. split; [exact P|]. intros x [].
    - destruct H as [(pre & s' & post & -> & Q & N)|(N & ->)].
      + left. exists pre, s', (post ++ [s]). split; [now rewrite <- app_assoc|]. split; [exact Q|].
        intros x I. apply in_app_or in I as [I|[<-|[]]]; auto.
      + right. split; [|reflexivity]. intros x I. apply in_app_or in I as [I|[<-|[]]]; auto. }
  induction l as [|s l IH] using rev_ind.
  - cbn. split; [reflexivity|]. split; [reflexivity|]. repeat split; right; (split; [intros x []|reflexivity]).
  - rewrite fold_left_app. cbn [fold_left]. set (b := fold_left http_set l _) in *.
    destruct IH as (H1 & H2 & H3 & H4 & H5 & H6).
    split; [destruct s; exact H1|]. split; [destruct s; exact H2|].
    split; [apply L; destruct s; [reflexivity|exact H3|exact H3|exact H3]|].
    split; [apply L; destruct s; [exact H4|reflexivity|exact H4|exact H4]|].
    split; [apply L; destruct s; [exact H5|exact H5|reflexivity|exact H5]|].
    apply L; destruct s; [exact H6|exact H6|exact H6|reflexivity].
Qed.
Print Assumptions C78_http_settings.

(** The remote repository is behind a web server, which may do anything at any time. *)
Definition over_http (h : http_repo) (e : event) : Prop :=
  match e with
  | EvFetchMeta Remote path v _ _ ans => exists server, ans = snd (http_fetch_metadata server h path v)
  | _ => True
  end.

(** An update over HTTP that succeeds has been told by the server, with status 404, that
    there is no newer root: an interrupted connection or another status is never taken for
    that.  (For other repositories this fails, C77.) *)
Theorem C78_update_over_http :
  forall (E : env) (cfg : config) (fuel : nat) (h : http_repo) (t t' : tuf) (tr : list event) (b : bool),
  positive_versions (e_ic E) -> reachable E t ->
  exec (update E cfg fuel t) tr (Ret (t', Ok b)) -> Forall (over_http h) tr ->
  exists ans, In (EvFetchMeta Remote "root" (VNumber (rm_version (t_root t') + 1)) (cf_max_root cfg) None ans) tr /\
    said_404 h "root" (VNumber (rm_version (t_root t') + 1)) ans.
Proof.
  intros E cfg fuel h t t' tr b Pos R X F.
  destruct (C77_success_is_thorough_partial E cfg fuel t t' tr b Pos R X) as (_ & (ans & I & S) & _).
  exists ans. split; [exact I|]. rewrite Forall_forall in F. destruct (F _ I) as (server & A).
  unfold http_fetch_metadata in A. destruct S as [S|(rs & c & S & C)].
  - unfold no_such in S. rewrite S in A |- *. clear S. rename A into S. symmetry in S. exists server. unfold http_fetch_metadata, http_get in *.
    destruct (http_request h _ _) as [rq|e] eqn:Q; cbn [snd] in S.
    + destruct (server rq) as [rp|] eqn:V; [|discriminate]. exists rq, rp. split; [cbn; now rewrite S|]. split; [exact V|].
      pose proof (http_answer_means (hr_min_bytes_per_second h) rp) as M. rewrite S in M.
      destruct M as [(_ & rs & Z & _)|[(Z & _)|(_ & _ & Z)]]; [discriminate|exact Z|discriminate].
    + exfalso. unfold http_request in Q. destruct (extend_uri _ _ _ _) as [u|e'] eqn:U; cbn [rbind] in Q.
      * destruct (all_chars _ _); inversion Q; subst. discriminate.
      * inversion Q; subst. unfold extend_uri in U. destruct (parse_path_and_query _) eqn:V; [discriminate|].
        inversion U; subst. unfold parse_path_and_query in V. destruct (cut_at "#" _) as [u' u'']. destruct (cut_at "?" u') as [a q].
        destruct (_ && _); inversion V; subst. discriminate.
  - exfalso. rewrite S in A. symmetry in A. exact (http_never_broken _ _ _ _ _ c A C).
Qed.
Print Assumptions C78_update_over_http.

(** A server with the documents of the running example, and an update from it. *)
Definition toy_http : http_repo := http_build (http_set (http_builder_new "/repo/" (Some "k=v")) (SetMetadataPrefix ["meta data"])).
Definition toy_server (rq : request) : option response :=
  let file v p := (rq_path rq =? "/repo/meta%20data/" ++ join_slash (metadata_components "json" p v))%string in
  let found v p := match ephemeral_fetch_metadata remote1 p v with
                   | Ok rs => mkResponse 200 (map (fun r => (1, 2, r)) rs)
                   | Err _ => mkResponse 404 [(1, 2, Ready "nothing here")]
                   end in
  Some (if file VNone "timestamp" then found VNone "timestamp"
        else if file (VNumber 2) "root" then found (VNumber 2) "root"
        else if file VNone "snapshot" then found VNone "snapshot"
        else if file VNone "targets" then found VNone "targets"
        else mkResponse 404 []).

Definition toy_over_http := drive_with 50 (fun p v => snd (http_fetch_metadata toy_server toy_http p v)) c50
                              (update Ec default_config 9 t_started).

Lemma drive_with_over_http {A} n server h c : forall (p : prog A),
  Forall (over_http h) (fst (drive_with n (fun p v => snd (http_fetch_metadata server h p v)) c p)).
Proof.
  induction n as [|n IH]; intros p; [destruct p; constructor|].
  destruct p as [a| | |s path v max hash k|path v data k|path d k|path rs k|data k|k|t q]; cbn; try constructor;
    match goal with |- context [drive_with n ?f c ?x] => specialize (IH x); destruct (drive_with n f c x) as [tr q'] end;
    cbn in *; constructor; auto; [destruct s; cbn; eauto|exact I|exact I|exact I].
Qed.

Example C78_case :
  uri_ok (hr_path toy_http) (hr_query toy_http) /\ sendable (hr_user_agent toy_http) /\
  fst (http_fetch_metadata toy_server toy_http "root" (VNumber 2)) =
    [mkRequest "/repo/meta%20data/2.root.json" (Some "k=v") "rust-tuf"] /\
  snd (http_fetch_metadata toy_server toy_http "other" VNone) = Err NotFound /\
  snd (http_fetch_metadata (fun _ => Some (mkResponse 500 [])) toy_http "other" VNone) = Err (BadHttpStatus 500) /\
  snd (http_fetch_metadata (fun _ => Some (mkResponse 200 [(1, 2, Ready "ab"); (1, 3, Failed IoNotFound)])) toy_http "other" VNone)
    = Ok [Ready "ab"; Failed IoOther] /\
  snd (http_fetch_target (fun _ => None) toy_http "other") = Err HyperError /\
  http_fetch_target (fun _ => None) (http_build (http_set (http_builder_new "/" None) (SetUserAgent (String "010" "")))) "other"
    = ([], Err HttpError) /\
  (* the update *)
  positive_versions (e_ic Ec) /\ reachable Ec t_started /\ Forall (over_http toy_http) (fst toy_over_http) /\
  exec (update Ec default_config 9 t_started) (fst toy_over_http) (Ret (t_updated, Ok true)).
Proof.
  split; [split; [reflexivity|intros q Q; inversion Q; reflexivity]|].
  split; [apply sendable_iff; reflexivity|].
  split; [vm_compute; reflexivity|]. split; [vm_compute; reflexivity|]. split; [vm_compute; reflexivity|].
  split; [vm_compute; reflexivity|]. split; [vm_compute; reflexivity|]. split; [vm_compute; reflexivity|].
  destruct C77_case as (A & B & _). split; [exact A|]. split; [exact B|]. split.
  - apply drive_with_over_http.
  - assert (Q : snd toy_over_http = Ret (t_updated, Ok true)) by (vm_compute; reflexivity). rewrite <- Q. apply drive_with_exec.
Qed.

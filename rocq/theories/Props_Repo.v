(** * C34, C40-C42: repositories *)
From Coq Require Import String Ascii List Arith NArith Bool Lia.
From Verif Require Import Base BaseFacts Metadata Paths Reader SpecReader ReaderProofs Repo SpecRepo RepoProofs
  StringFacts SpecPaths PathProofs Toy.
Import ListNotations.
Open Scope string_scope.
Open Scope list_scope.
Open Scope N_scope.

(** ** C34 *)

(** False in two ways: "a " and "a%20" are different safe paths with one URL, and a
    safe path can contain an encoded "..". *)
Theorem C34_request_urls_refuted :
  (exists s s', path_new s = Ok s /\ path_new s' = Ok s' /\ s <> s' /\
     forall path query prefix,
       extend_uri path query prefix (target_components s) = extend_uri path query prefix (target_components s')) /\
  (exists s, path_new s = Ok s /\ ~ component s ".." /\
     exists p q, extend_uri "/repo/" None None (target_components s) = Ok (p, q) /\
       map url_decode (split_slash p) = [""; "repo"; ".."; "secret"]).
Proof.
  split.
  - exists "a ", "a%20". split; [reflexivity|]. split; [reflexivity|]. split; [discriminate|].
    intros path query prefix. unfold extend_uri. rewrite !map_app. reflexivity.
  - exists "%2e%2e/secret". split; [reflexivity|]. split.
    + rewrite <- split_component. cbn. intros [H|[H|[]]]; discriminate.
    + exists "/repo/%2e%2e/secret", None. split; reflexivity.
Qed.
Print Assumptions C34_request_urls_refuted.

(** What holds, for every base URI: the request always can be built, its query is that
    of the base, its path consists of the segments of the base path followed by one
    segment per component (or, for components with slashes, one per piece); and without
    percent signs the segments decode to the components, so different components give
    different URLs. *)
Theorem C34_request_urls_partial :
  forall (path : string) (query : option string) (prefix : option (list string)),
  uri_ok path query ->
  exists base, (path = base \/ path = (base ++ "/")%string) /\
  let pre := match prefix with Some p => p | None => [] end in
  (forall comps, exists url, extend_uri path query prefix comps = Ok (url, query) /\
     ~ has_char "?" url /\ ~ has_char "#" url /\
     ((forall x, In x (pre ++ comps) -> ~ has_char "/" x) ->
      exists segs, split_slash url = split_slash base ++ segs /\ length segs = length (pre ++ comps) /\
        ((forall x, In x (pre ++ comps) -> ~ has_char "%" x) -> map url_decode segs = pre ++ comps))) /\
  (forall comps comps',
     (forall x, In x (pre ++ comps) -> ~ has_char "/" x /\ ~ has_char "%" x) ->
     (forall x, In x (pre ++ comps') -> ~ has_char "/" x /\ ~ has_char "%" x) ->
     extend_uri path query prefix comps = extend_uri path query prefix comps' -> comps = comps').
Proof.
  intros path query prefix U. exists (pop_slash path).
  destruct (pop_slash_eq path) as (t & T & E). split.
  { destruct T as [-> | ->]; [left; rewrite sapp_nil_r in E|right]; auto. }
  intros pre.
  assert (Dec : forall l, (forall x, In x l -> ~ has_char "%" x) -> map url_decode (map url_encode l) = l).
  { intros l H. rewrite map_map. rewrite <- (map_id l) at 2. apply map_ext_in. intros x I. now apply encode_decode, H. }
  assert (Spl : forall l, (forall x, In x l -> ~ has_char "/" x) ->
    split_slash (join_slash (split_slash (pop_slash path) ++ map url_encode l)) = split_slash (pop_slash path) ++ map url_encode l).
  { intros l H. apply split_join.
    - intros C. apply app_eq_nil in C as [C _]. now apply split_nonempty in C.
    - intros x I. apply in_app_or in I as [I|I]; [now apply split_pieces in I|].
      apply in_map_iff in I as (y & <- & I). apply encode_no_slash. auto. }
  split.
  - intros comps. eexists. split; [apply extend_uri_ok; auto|]. fold pre.
    assert (V : all_chars uri_path_char (join_slash (split_slash (pop_slash path) ++ map url_encode (pre ++ comps))) = true).
    { apply join_chars; auto. intros x I. apply in_app_or in I as [I|I].
      - apply (split_chars uri_path_char (pop_slash path) x); auto. destruct U as [U _].
        rewrite E, all_chars_app in U. now apply andb_true_iff in U as [U _].
      - apply in_map_iff in I as (y & <- & _). apply encode_path_chars. }
    split; [now apply path_char_no|]. split; [now apply path_char_no|]. intros NS.
    exists (map url_encode (pre ++ comps)). split; [now apply Spl|]. split; [apply map_length|]. apply Dec.
  - intros comps comps' H H' X. rewrite !extend_uri_ok in X by auto. fold pre in X. inversion X as [X1].
    apply (f_equal split_slash) in X1. rewrite (Spl (pre ++ comps)), (Spl (pre ++ comps')) in X1 by (intros x I; first [exact (proj1 (H x I)) | exact (proj1 (H' x I))]).
    apply app_inv_head in X1. apply (f_equal (map url_decode)) in X1.
    rewrite (Dec (pre ++ comps)), (Dec (pre ++ comps')) in X1 by (intros x I; first [exact (proj2 (H x I)) | exact (proj2 (H' x I))]). now apply app_inv_head in X1.
Qed.
Print Assumptions C34_request_urls_partial.

Example C34_case :
  uri_ok "/one/two/" (Some "a=b") /\
  extend_uri "/one/two/" (Some "a=b") (Some ["my meta"]) (metadata_components "json" "dir/#1?{x}" (VNumber 3))
  = Ok ("/one/two/my%20meta/dir/3.%231%3F%7Bx%7D.json", Some "a=b") /\
  extend_uri "" None None ["x"] = Ok ("/x", None).
Proof.
  split; [|split; reflexivity]. split; [reflexivity|]. intros q E. inversion E; subst. reflexivity.
Qed.

(** ** C40 *)

Theorem C40_fetched_metadata_obeys_limits :
  forall (C : crypto) (P : provider) (r : role) (path : string) (v : meta_version) (max : option N)
         (hash : option (hash_alg * bytes)) (b : bytes),
  repo_fetch_metadata C P r path v max hash = Ok b <->
  (* the role matches the path (up to the exception of C33) *)
  ((match r with Root => path = "root" | Snapshot => path = "snapshot" | Timestamp => path = "timestamp"
    | Targets => path <> "root" /\ path <> "snapshot" end) /\
   (* the algorithm is known *)
   (forall x w, hash <> Some (HashUnknown x, w)) /\
   (* the provider answered with exactly these bytes *)
   exists rs, pv_metadata P path v max hash = Ok rs /\ contains rs b None /\
     (forall m, max = Some m -> N.of_nat (String.length b) <= m) /\ N.of_nat (String.length b) <= u64_max /\
     (forall alg w, hash = Some (alg, w) -> ring_digest C alg b = w)).
Proof.
  intros C P r path v max hash b. unfold repo_fetch_metadata, repo_check.
  assert (F : fuzzy_matches_path r path = true <->
    match r with Root => path = "root" | Snapshot => path = "snapshot" | Timestamp => path = "timestamp"
    | Targets => path <> "root" /\ path <> "snapshot" end).
  { destruct r; cbn [fuzzy_matches_path]; try apply String.eqb_eq.
    rewrite orb_true_iff, String.eqb_eq, negb_true_iff, mem_not_In. cbn [In].
    split; [intros [->|H]; [split; discriminate|]; split; intros ->; tauto|].
    intros [H1 H2]. destruct (string_dec path "targets"); [now left|]. right. intros [Q|[Q|[Q|[]]]]; congruence. }
  destruct (fuzzy_matches_path r path) eqn:Ef; cbn [negb rbind].
  2: { split; [discriminate|]. intros [H _]. apply F in H. discriminate. }
  assert (HF := proj1 F eq_refl). unfold read_metadata.
  destruct (pv_metadata P path v max hash) as [rs|e] eqn:Ep; cbn [rbind].
  2: { split; [discriminate|]. intros (_ & _ & rs & Q & _). discriminate. }
  pose proof (safe_new_ok (option_get u64_max max) hash) as SN.
  destruct (safe_new (option_get u64_max max) hash) as [s|e] eqn:Es; cbn [rbind].
  - rewrite (read_to_end_ok C _ _ _ _ _ Es). unfold length_ok, hash_ok.
    assert (K : forall x w, hash <> Some (HashUnknown x, w)) by (apply SN; eauto).
    split.
    + intros (H1 & H2 & H3 & H4). split; auto. split; auto. exists rs. split; auto. split; auto. split; [|split; auto].
      * intros m ->. exact H2.
      * intros alg w ->. exact H4.
    + intros (_ & _ & rs' & Q & H1 & H2 & H3 & H4). inversion Q; subst rs'. split; auto. split; [|split; auto].
      * destruct max as [m|]; cbn; auto.
      * destruct hash as [[alg w]|]; auto.
  - split; [discriminate|]. intros (_ & K & _). destruct SN as [_ SN]. destruct (SN K) as [s Q]. discriminate.
Qed.
Print Assumptions C40_fetched_metadata_obeys_limits.

Example C40_case :
  let P := mkProvider (fun _ _ _ _ => Ok [Ready "he"; Pending; Ready "llo"]) (fun _ _ => Err NotFound) in
  repo_fetch_metadata toy_crypto P Root "root" (VNumber 2) (Some 5) (Some (Sha512, "5hello")) = Ok "hello" /\
  repo_fetch_metadata toy_crypto P Root "root" (VNumber 2) (Some 4) None = Err Opaque /\
  repo_fetch_metadata toy_crypto P Root "snapshot" (VNumber 2) (Some 5) None = Err IllegalArgument.
Proof. vm_compute. repeat split; reflexivity. Qed.

(** The same for targets: the reader handed out gives exactly the bytes described, or an
    error. *)
Theorem C40_fetched_target_obeys_limits :
  forall (C : crypto) (P : provider) (path : string) (d : target_desc) (rs : stream) (b : bytes),
  repo_fetch_target C P path d = Ok rs -> contains rs b None ->
  exists alg w src, hash_preference (td_hashes d) = Ok (alg, w) /\ ring_digest C alg b = w /\
    N.of_nat (String.length b) <= td_length d /\ pv_target P path d = Ok src /\ contains src b None.
Proof.
  intros C P path d rs b H Hb. unfold repo_fetch_target, checked_target in H.
  apply rbind_Ok in H as ([alg w] & H1 & H). apply rbind_Ok in H as (src & H2 & H).
  apply rbind_Ok in H as (s & H3 & H). inversion H; subst rs. apply checked_contains in Hb.
  apply (read_to_end_ok C _ _ _ _ _ H3) in Hb as (B1 & B2 & _ & B3). eauto 10.
Qed.
Print Assumptions C40_fetched_target_obeys_limits.

Example C40_case_target :
  let P d := mkProvider (fun _ _ _ _ => Err NotFound) (fun _ _ => Ok [Ready "he"; Pending; Ready d]) in
  let d := mkTargetDesc 5 [(Sha256, "2hello")] None in
  repo_fetch_target toy_crypto (P "llo") "t" d = Ok [Ready "he"; Pending; Ready "llo"; Ready ""] /\
  repo_fetch_target toy_crypto (P "lle") "t" d = Ok [Ready "he"; Pending; Ready "lle"; Failed IoInvalidData].
Proof. vm_compute. repeat split; reflexivity. Qed.

(** ** C41 *)

Lemma two_places {A} (pre : list A) x post pre' x' post' :
  pre ++ x :: post = pre' ++ x' :: post' -> x = x' \/ In x' post \/ In x post'.
Proof.
  revert pre'. induction pre as [|y pre IH]; intros [|y' pre'] E; inversion E; subst; auto.
  - right. left. apply in_or_app. right. now left.
  - right. right. apply in_or_app. right. now left.
  - eapply IH; eauto.
Qed.

Theorem C41_ephemeral_is_a_map :
  forall (ops : list ephemeral_op),
  let e := ephemeral_run ephemeral_new ops in
  (forall path v b,
     (exists rs, ephemeral_fetch_metadata e path v = Ok rs /\ contains rs b None) <-> last_metadata ops path v b) /\
  (forall path v, ephemeral_fetch_metadata e path v = Err NotFound <-> no_metadata ops path v) /\
  (forall path b,
     (exists rs, ephemeral_fetch_target e path = Ok rs /\ contains rs b None) <-> last_target ops path b) /\
  (forall path, ephemeral_fetch_target e path = Err NotFound <-> no_target ops path) /\
  (* a store succeeds exactly if its input can be read, and otherwise changes nothing *)
  (forall o, let rs := match o with EpMetadata _ _ rs => rs | EpTarget _ rs => rs end in
     match snd (ephemeral_step e o) with
     | Ok _ => exists b, contains rs b None
     | Err err => fst (ephemeral_step e o) = e /\ exists b k, contains rs b (Some k) /\ err = of_io k
     end).
Proof.
  intros ops e.
  assert (Cur : forall b b', contains (cursor b) b' None <-> b = b').
  { intros b b'. unfold cursor. split.
    - intros H. inversion H; subst; auto. inversion H5; subst. now rewrite sapp_nil_r.
    - intros <-. destruct b as [|c b]; [constructor|]. rewrite <- (sapp_nil_r (String c b)) at 2.
      constructor; [discriminate|constructor]. }
  split; [|split; [|split; [|split]]].
  - intros p v b. unfold ephemeral_fetch_metadata. pose proof (ephemeral_metadata_spec ops p v) as S. fold e in S.
    destruct (lookup (p, v) (ep_metadata e)) as [b0|].
    + split.
      * intros (rs & E & H). inversion E; subst. apply Cur in H as <-. auto.
      * intros L. exists (cursor b0). split; auto. apply Cur.
        destruct S as (pre & rs & post & E & H1 & H2), L as (pre' & rs' & post' & E' & H1' & H2').
        rewrite E in E'. destruct (two_places _ _ _ _ _ _ E') as [Q|[Q|Q]].
        -- inversion Q; subst. destruct (contains_fun _ _ _ H1 _ _ H1'); auto.
        -- exfalso. apply (H2 rs') with b; auto.
        -- exfalso. apply (H2' rs) with b0; auto.
    + split; [intros (rs & E & _); discriminate|]. intros (pre & rs & post & E & H1 & _). exfalso.
      apply (S rs) with b; auto. rewrite E. apply in_or_app. right. now left.
  - intros p v. unfold ephemeral_fetch_metadata. pose proof (ephemeral_metadata_spec ops p v) as S. fold e in S.
    destruct (lookup (p, v) (ep_metadata e)) as [b0|].
    + split; [discriminate|]. intros K. destruct S as (pre & rs & post & E & H1 & _). exfalso.
      apply (K rs) with b0; auto. rewrite E. apply in_or_app. right. now left.
    + split; auto.
  - intros p b. unfold ephemeral_fetch_target. pose proof (ephemeral_target_spec ops p) as S. fold e in S.
    destruct (lookup p (ep_targets e)) as [b0|].
    + split.
      * intros (rs & E & H). inversion E; subst. apply Cur in H as <-. auto.
      * intros L. exists (cursor b0). split; auto. apply Cur.
        destruct S as (pre & rs & post & E & H1 & H2), L as (pre' & rs' & post' & E' & H1' & H2').
        rewrite E in E'. destruct (two_places _ _ _ _ _ _ E') as [Q|[Q|Q]].
        -- inversion Q; subst. destruct (contains_fun _ _ _ H1 _ _ H1'); auto.
        -- exfalso. apply (H2 rs') with b; auto.
        -- exfalso. apply (H2' rs) with b0; auto.
    + split; [intros (rs & E & _); discriminate|]. intros (pre & rs & post & E & H1 & _). exfalso.
      apply (S rs) with b; auto. rewrite E. apply in_or_app. right. now left.
  - intros p. unfold ephemeral_fetch_target. pose proof (ephemeral_target_spec ops p) as S. fold e in S.
    destruct (lookup p (ep_targets e)) as [b0|].
    + split; [discriminate|]. intros K. destruct S as (pre & rs & post & E & H1 & _). exfalso.
      apply (K rs) with b0; auto. rewrite E. apply in_or_app. right. now left.
    + split; auto.
  - intros o. destruct o as [p v rs|p rs]; cbn [ephemeral_step];
      unfold ephemeral_store_metadata, ephemeral_store_target;
      destruct (plain_cases rs) as [(b & -> & Hb)|(k & b & -> & Hb & _)]; cbn [fst snd]; eauto.
Qed.
Print Assumptions C41_ephemeral_is_a_map.

Example C41_case :
  let ops := [EpMetadata "root" VNone [Ready "one"]; EpMetadata "root" (VNumber 2) [Ready "two"];
              EpMetadata "root" VNone [Ready "th"; Pending; Ready "ree"]; EpTarget "root" [Ready "x"];
              EpMetadata "root" VNone [Ready "fo"; Failed IoOther]] in
  let e := ephemeral_run ephemeral_new ops in
  ephemeral_fetch_metadata e "root" VNone = Ok [Ready "three"] /\
  ephemeral_fetch_metadata e "root" (VNumber 2) = Ok [Ready "two"] /\
  ephemeral_fetch_metadata e "root" (VNumber 3) = Err NotFound /\
  ephemeral_fetch_target e "root" = Ok [Ready "x"] /\ last_metadata ops "root" VNone "three".
Proof.
  cbv zeta. split; [reflexivity|]. split; [reflexivity|]. split; [reflexivity|]. split; [reflexivity|].
  exists [EpMetadata "root" VNone [Ready "one"]; EpMetadata "root" (VNumber 2) [Ready "two"]],
    [Ready "th"; Pending; Ready "ree"], [EpTarget "root" [Ready "x"]; EpMetadata "root" VNone [Ready "fo"; Failed IoOther]].
  split; [reflexivity|]. split; [now apply read_plain_iff|].
  intros rs' [E|[E|[]]]; inversion E; subst. intros b H. apply read_plain_iff in H. discriminate.
Qed.

(** ** C42 *)

(** Any number of stores, interleaved in any way and interrupted anywhere ([w] is any
    world that can be reached).  Temporary names and destinations must be distinct kinds
    of names; see [C42_temporary_destination_refuted]. *)
Theorem C42_stores_are_atomic :
  forall (f0 : fs) (jobs : list (file_name * stream)) (f : fs) (sts : list (file_name * store_state)),
  fs_wf f0 -> (forall dest input, In (dest, input) jobs -> ordinary dest) ->
  stores_steps (f0, begin_stores jobs) (f, sts) ->
  (* every file other than temporary ones is untouched or complete *)
  (forall p, ordinary p ->
     ((forall st, In (p, st) sts -> st <> StDone) /\ fs_content f p = fs_content f0 p) \/
     (exists k input b, nth_error jobs k = Some (p, input) /\ nth_error sts k = Some (p, StDone) /\
        contains input b None /\ fs_content f p = Some b)) /\
  (* only stores with intact input finish *)
  (forall k dest input, nth_error jobs k = Some (dest, input) -> nth_error sts k = Some (dest, StDone) ->
     exists b, contains input b None) /\
  (* when all have finished or failed no temporary file is left *)
  ((forall d st, In (d, st) sts -> st = StDone \/ st = StFailed) ->
   forall n d, temp_name n -> lookup (n :: d) (fs_names f) = lookup (n :: d) (fs_names f0)) /\
  (* who has opened a file keeps reading the same complete contents *)
  (forall p i f' sts', ordinary p -> lookup p (fs_names f) = Some i ->
     stores_steps (f, sts) (f', sts') -> lookup i (fs_inodes f') = lookup i (fs_inodes f)).
Proof.
  intros f0 jobs f sts W O S.
  assert (O' : forall d, In d (map fst (begin_stores jobs)) -> ordinary d).
  { intros d I. apply begin_dests in I as (rs & I). eauto. }
  pose proof (inv_steps f0 jobs (f0, begin_stores jobs) (f, sts) (inv_begin f0 jobs W) O' S) as I. cbn [fst snd] in I.
  assert (Done : forall st, {st = StDone} + {st <> StDone}) by (intros []; (now left) || (right; discriminate)).
  split; [|split; [|split]].
  - intros p Op.
    destruct (existsb (fun d => eqb (fst d) p && if Done (snd d) then true else false) sts) eqn:X.
    + right. apply existsb_exists in X as ([d st] & X1 & X2). cbn [fst snd] in X2. apply andb_true_iff in X2 as [X2 X3].
      apply eqb_eq in X2 as ->. destruct (Done st) as [->|]; [|discriminate].
      now apply (inv_done _ _ _ _ I).
    + left. assert (ND : forall st, In (p, st) sts -> st <> StDone).
      { intros st J ->. apply not_true_iff_false in X. apply X. apply existsb_exists. exists (p, StDone).
        split; auto. cbn [fst snd]. rewrite eqb_refl. now destruct (Done StDone). }
      split; auto. unfold fs_content. rewrite (inv_untouched _ _ _ _ I p Op ND).
      destruct (lookup p (fs_names f0)) as [i|] eqn:L; auto. destruct (W _ _ L) as (b & B). rewrite B.
      now apply (inv_old_inodes _ _ _ _ I).
  - intros k dest input J D. pose proof (inv_jobs _ _ _ _ I) as F. clear - F J D.
    revert k J D. induction F as [|x y l m H F IH]; intros [|k] J D; cbn in J, D; try discriminate; eauto.
    inversion J; inversion D; subst. destruct H as (_ & H). exact H.
  - intros A n d T. apply (inv_temp _ _ _ _ I); auto. intros J. apply in_flat_map in J as ([d' st] & J1 & J2).
    destruct (A d' st J1); subst; destruct J2.
  - intros p i f' sts' Op L S'.
    assert (O2 : forall d, In d (map fst sts) -> ordinary d).
    { intros d J. apply O'. pose proof (steps_dests _ _ S) as D. cbn [snd] in D. now rewrite <- D. }
    destruct (inv_wf _ _ _ _ I _ _ L) as (b & B). rewrite B.
    refine (proj1 (settled_steps f0 jobs (f, sts) (f', sts') i b I O2 S' _)). split; auto.
    cbn [fst snd]. intros tmp J Lt. assert (p = tmp) by (eapply (inv_private _ _ _ _ I); eauto). subst.
    destruct (active_temp _ _ _ _ (inv_jobs _ _ _ _ I) J) as ((n & d & T & ->) & _). now apply not_ordinary in Op.
Qed.
Print Assumptions C42_stores_are_atomic.

(** Two stores to the same file, the first one overtaken by the second one, which is
    interrupted before its rename. *)
Example C42_case :
  let dest := ["root.json"; "repo"] in
  let f0 := mkFs [(dest, 0%nat)] [(0%nat, "old")] in
  let jobs := [(dest, [Ready "he"; Pending; Ready "llo"]); (dest, [Ready "bye"])] in
  fs_wf f0 /\ (forall d input, In (d, input) jobs -> ordinary d) /\
  exists f sts, stores_steps (f0, begin_stores jobs) (f, sts) /\
    sts = [(dest, StDone); (dest, StPersist [".tmp000002"; "repo"] 2)] /\ fs_content f dest = Some "hello" /\
    fs_content f [".tmp000002"; "repo"] = Some "bye".
Proof.
  cbv zeta. split; [|split].
  - intros name i H. cbn [fs_names lookup] in H. destruct (eqb _ _); inversion H; subst. exists "old". reflexivity.
  - intros d input [E|[E|[]]]; inversion E; subst; intros n x En (r & T & _); inversion En; subst; discriminate.
  - assert (T1 : temp_name ".tmp000001") by (exists "000001"; auto).
    assert (T2 : temp_name ".tmp000002") by (exists "000002"; auto).
    eexists. eexists. split.
    + set (dest := ["root.json"; "repo"]).
      eapply stores_more; [eapply stores_more; [eapply stores_more; [eapply stores_more; [eapply stores_more;
        [eapply stores_more; [eapply stores_more; [eapply stores_more; [eapply stores_more; [apply stores_none|]|]|]|]|]|]|]|]|].
      * eapply (stores_one _ _ dest _ _ [] [(dest, StStart [Ready "bye"])]).
        apply (step_create dest _ _ ".tmp000001" 1%nat); auto.
      * eapply (stores_one _ _ dest _ _ [(dest, _)] []). apply (step_create dest _ _ ".tmp000002" 2%nat); auto.
      * eapply (stores_one _ _ dest _ _ [] [(dest, _)]). eapply step_copy; [discriminate|reflexivity].
      * eapply (stores_one _ _ dest _ _ [(dest, _)] []). eapply step_copy; [discriminate|reflexivity].
      * eapply (stores_one _ _ dest _ _ [] [(dest, _)]). apply step_wait.
      * eapply (stores_one _ _ dest _ _ [(dest, _)] []). apply step_eof.
      * eapply (stores_one _ _ dest _ _ [] [(dest, _)]). eapply step_copy; [discriminate|reflexivity].
      * eapply (stores_one _ _ dest _ _ [] [(dest, _)]). apply step_eof.
      * eapply (stores_one _ _ dest _ _ [] [(dest, _)]). eapply step_persist. reflexivity.
    + split; [reflexivity|]. split; reflexivity.
Qed.

(** Without the hypothesis on names it fails: a store to a path that looks like a
    temporary file can replace the temporary file of another store, whose destination
    then gets the wrong contents. *)
Theorem C42_temporary_destination_refuted :
  exists (jobs : list (file_name * stream)) (f : fs) (sts : list (file_name * store_state)) (input : stream),
  stores_steps (mkFs [] [], begin_stores jobs) (f, sts) /\
  (forall d i, In (d, i) jobs -> d = ["a"; "repo"] -> i = input) /\ contains input "AA" None /\
  fs_content f ["a"; "repo"] = Some "BB".
Proof.
  assert (T1 : temp_name ".tmp000001") by (exists "000001"; auto).
  assert (T2 : temp_name ".tmp000002") by (exists "000002"; auto).
  set (a := ["a"; "repo"]). set (b := [".tmp000001"; "repo"]).
  exists [(a, [Ready "AA"]); (b, [Ready "BB"])]. eexists. eexists. exists [Ready "AA"]. split.
  - eapply stores_more; [eapply stores_more; [eapply stores_more; [eapply stores_more; [eapply stores_more;
      [eapply stores_more; [eapply stores_more; [eapply stores_more; [apply stores_none|]|]|]|]|]|]|]|].
    + eapply (stores_one _ _ a _ _ [] [(b, StStart [Ready "BB"])]). apply (step_create a _ _ ".tmp000001" 1%nat); auto.
    + eapply (stores_one _ _ b _ _ [(a, _)] []). apply (step_create b _ _ ".tmp000002" 2%nat); auto.
    + eapply (stores_one _ _ a _ _ [] [(b, _)]). eapply step_copy; [discriminate|reflexivity].
    + eapply (stores_one _ _ b _ _ [(a, _)] []). eapply step_copy; [discriminate|reflexivity].
    + eapply (stores_one _ _ a _ _ [] [(b, _)]). apply step_eof.
    + eapply (stores_one _ _ b _ _ [(a, _)] []). apply step_eof.
    + eapply (stores_one _ _ b _ _ [(a, _)] []). eapply step_persist. reflexivity.
    + eapply (stores_one _ _ a _ _ [] [(b, _)]). eapply step_persist. reflexivity.
  - split; [|split].
    + intros d i [E|[E|[]]] Ed; inversion E; subst; [auto|discriminate].
    + now apply read_plain_iff.
    + reflexivity.
Qed.
Print Assumptions C42_temporary_destination_refuted.

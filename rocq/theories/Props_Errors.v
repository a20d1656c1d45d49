(** * C109: what the error of an update means *)
From Coq Require Import String List NArith ZArith Bool Lia.
From Verif Require Import Base BaseFacts JsonValue JsonText Metadata Verify Paths Tuf SpecTuf TufProofs TufHistory Reader SpecReader ReaderProofs Repo Client SpecClient
     ClientLogic ClientProofs Serde Keys Shims KeyToy Toy JsonToy Props_Json Props_Honest SpecErrors ErrorsProofs.
Import ListNotations.
Open Scope string_scope.
Open Scope list_scope.

Section claims.
  Context (C : crypto) (o : hash_order).
  Let E : env := mkEnv C o (json_interchange C).

  Lemma outcomes cfg fuel t tr q : reachable E t -> exec (update E cfg fuel t) tr q ->
    (forall pre e post, tr = pre ++ e :: post -> well C o t pre) /\
    wp (DE C o t) q (outcome C o t (fun _ => True)) tr.
  Proof.
    intros R X. assert (A : along (rely (DE C o t)) [] tr) by (intros pre e post _; exact I).
    destruct (wp_sound (DE C o t) _ _ _ X _ [] (wp_errors_update C o cfg t fuel t [] (well_nil C o t) eq_refl R) A) as [G W].
    split; [|exact W]. intros pre e post Q. exact (G pre e post Q).
  Qed.
End claims.

(** An update ends with an error only because of the last thing that happened, and the error
    tells which: a call of a repository that did not work out, with its error; metadata that
    have expired; a document that is refused; a snapshot without targets. *)
Theorem C109_errors_have_their_cause :
  forall (C : crypto) (o : hash_order) (cfg : config) (fuel : nat) (t t' : tuf) (tr : list event) (er : error),
  let E := mkEnv C o (json_interchange C) in
  reachable E t -> exec (update E cfg fuel t) tr (Ret (t', Err er)) -> cause E t tr er.
Proof.
  intros C o cfg fuel t t' tr er E R X. destruct (outcomes C o cfg fuel t tr _ R X) as [_ (_ & _ & W)]. cbn [snd app] in W.
  destruct W as [[_ W]|(h0 & ev & -> & F & N)]; [exact W|]. eapply call_failed; [reflexivity|exact F|exact N].
Qed.
Print Assumptions C109_errors_have_their_cause.

(** No error of a repository is passed over: what did not work out is the last thing an update
    does, and its error the result.  (That there is no next root is no error.) *)
Theorem C109_no_error_is_passed_over :
  forall (C : crypto) (o : hash_order) (cfg : config) (fuel : nat) (t : tuf) (tr : list event) (q : prog (tuf * result bool)),
  let E := mkEnv C o (json_interchange C) in
  reachable E t -> exec (update E cfg fuel t) tr q ->
  forall pre e post er, tr = pre ++ e :: post -> fails_with C e er -> ~ no_next_root e er ->
  post = [] /\ forall t' r, q = Ret (t', r) -> r = Err er.
Proof.
  intros C o cfg fuel t tr q E R X pre e post er Q F N. destruct (outcomes C o cfg fuel t tr q R X) as [G W].
  assert (B : ~ went_well C e) by (intros K; apply N; now apply K).
  destruct post as [|x post].
  - split; [reflexivity|]. intros t' r ->. destruct W as (_ & _ & W). cbn [snd app] in W.
    assert (NW : ~ Forall (went_well C) tr).
    { intros K. apply B. rewrite Forall_forall in K. apply K. rewrite Q. apply in_or_app. right. now left. }
    destruct r as [b|er']; [now destruct W as [[W _] _]|]. destruct W as [[W _]|(h0 & ev & H & F' & _)]; [contradiction|].
    rewrite Q in H. apply app_inj_tail in H as [_ <-]. now rewrite (fails_fun C e er er' F F').
  - exfalso. apply B. specialize (G (pre ++ [e]) x post). rewrite <- app_assoc in G. specialize (G Q).
    destruct G as [G _]. rewrite Forall_forall in G. apply G. apply in_or_app. right. now left.
Qed.
Print Assumptions C109_no_error_is_passed_over.

(** No document that is refused is passed over either: nothing happens after it, and the
    result is an error. *)
Theorem C109_no_refused_document_is_passed_over :
  forall (C : crypto) (o : hash_order) (cfg : config) (fuel : nat) (t : tuf) (tr : list event) (q : prog (tuf * result bool)),
  let E := mkEnv C o (json_interchange C) in
  reachable E t -> exec (update E cfg fuel t) tr q ->
  forall pre t1 post er, tr = pre ++ EvPut t1 :: post -> refusal E t pre er ->
  post = [] /\ forall t' r, q = Ret (t', r) -> exists er', r = Err er'.
Proof.
  intros C o cfg fuel t tr q E R X pre t1 post er Q Rf. destruct (outcomes C o cfg fuel t tr q R X) as [G W].
  destruct post as [|x post].
  - split; [reflexivity|]. intros t' r ->. destruct W as (_ & _ & W). cbn [snd app] in W.
    destruct r as [b|er']; [|eauto]. destruct W as [[_ W] _]. now destruct (W pre t1 [] er Q).
  - exfalso. specialize (G (pre ++ [EvPut t1]) x post). rewrite <- app_assoc in G. destruct (G Q) as [_ K].
    now apply (K pre t1 [] er eq_refl).
Qed.
Print Assumptions C109_no_refused_document_is_passed_over.

(** The other errors, such as missing metadata, an illegal argument or an unsupported hash
    algorithm, are never the library's own here. *)
Theorem C109_own_errors :
  forall (C : crypto) (o : hash_order) (cfg : config) (fuel : nat) (t t' : tuf) (tr : list event) (er : error),
  let E := mkEnv C o (json_interchange C) in
  reachable E t -> exec (update E cfg fuel t) tr (Ret (t', Err er)) ->
  (exists pre e, tr = pre ++ [e] /\ fails_with C e er) \/
  er = Encoding \/ er = Opaque \/ er = VerificationFailure \/
  er = ExpiredMetadata Root \/ er = ExpiredMetadata Timestamp \/ er = ExpiredMetadata Snapshot.
Proof.
  intros C o cfg fuel t t' tr er E R X. apply C109_errors_have_their_cause in X; [|exact R].
  destruct X as [h0 e Q F _|h0 c _ -> _|h0 t1 _ (h1 & r & v & max & hash & ans & raw & c & _ & _ & Rf)|s -> _ _]; auto 10.
  - left. eauto.
  - right. inversion Rf; subst; try (match goal with H : about_document _ |- _ => destruct H as [-> | [-> | ->]] end); auto 10.
Qed.
Print Assumptions C109_own_errors.

(** A client that trusts the first root, with remote repositories of different kinds: one in
    order; one without a timestamp; one whose timestamp is signed with another key; one with
    something else; one that breaks off; one that has a snapshot other than listed; and a late
    clock. *)
Section Case.
  Let good_ts := publish_metadata Timestamp [key_t] jtimestamp.
  Let good_sn := publish_metadata Snapshot [key_s] jsnapshot.
  Let good_ta := publish_metadata Targets [key_g] jtargets.
  Let serve (ts sn ta : result stream) (path : string) (v : meta_version) : result stream :=
    if String.eqb path "timestamp" then ts else if String.eqb path "snapshot" then sn
    else if String.eqb path "targets" then ta else Err NotFound.
  Let ends remote c : option (result bool) :=
    match snd (drive_with 40 remote c (update json_env default_config 3 (tuf_of_root jroot))) with Ret (_, r) => Some r | _ => None end.
  Let whole (b : bytes) : result stream := Ok [Ready b].
  Let late := mkClock new_year new_year new_year new_year new_year (fun _ => new_year).
  Example C109_case :
    reachable json_env (tuf_of_root jroot) /\
    ends (serve (whole good_ts) (whole good_sn) (whole good_ta)) c50 = Some (Ok true) /\
    ends (serve (Err NotFound) (whole good_sn) (whole good_ta)) c50 = Some (Err NotFound) /\
    ends (serve (Err HttpError) (whole good_sn) (whole good_ta)) c50 = Some (Err HttpError) /\
    ends (serve (whole (publish_metadata Timestamp [key_s] jtimestamp)) (whole good_sn) (whole good_ta)) c50 = Some (Err VerificationFailure) /\
    ends (serve (whole "<html>") (whole good_sn) (whole good_ta)) c50 = Some (Err Encoding) /\
    ends (serve (whole good_ts) (Ok [Ready "{"; Failed IoOther]) (whole good_ta)) c50 = Some (Err Opaque) /\
    ends (serve (whole good_ts) (whole good_ta) (whole good_ta)) c50 = Some (Err Opaque) /\
    ends (serve (whole good_ts) (whole good_sn) (whole good_ta)) late = Some (Err (ExpiredMetadata Root)).
  Proof.
    split.
    - exists (tuf_of_root jroot), []. split; [|reflexivity]. right. exists (publish_metadata Root [key_r] jroot). vm_compute. reflexivity.
    - repeat (split; [vm_compute; reflexivity|]). vm_compute. reflexivity.
  Qed.
  Example C109_case_runs : forall remote c,
    exec (update json_env default_config 3 (tuf_of_root jroot))
         (fst (drive_with 40 remote c (update json_env default_config 3 (tuf_of_root jroot))))
         (snd (drive_with 40 remote c (update json_env default_config 3 (tuf_of_root jroot)))).
  Proof. intros remote c. apply drive_with_exec. Qed.
End Case.

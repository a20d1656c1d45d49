(** * C113: only what a document says matters *)
From Coq Require Import String Ascii List NArith ZArith Bool Lia.
From Verif Require Import Base BaseFacts JsonValue JsonText SpecJson JsonSound JsonProofs Metadata Verify Tuf Reader Repo Client Codec Serde SerdeProofs Keys Shims
     SpecOrder SpecSpelling SpellingProofs KeyToy Toy JsonToy ClientToy.
Import ListNotations.
Open Scope nat_scope.
Open Scope string_scope.
Open Scope list_scope.

(** Verification, both starting points and all sequences of calls of the methods of [Tuf]:
    the same results and the same trusted metadata for every spelling of the documents. *)
Theorem C113_methods :
  forall (C : crypto) (o : hash_order), let E := mkEnv C o (json_interchange C) in
  (forall b b', respelled b b' ->
    (forall r th keys, verify_signatures E r b th keys = verify_signatures E r b' th keys) /\
    from_trusted_root E b = from_trusted_root E b' /\
    (forall th keys, from_root_with_trusted_keys E b th keys = from_root_with_trusted_keys E b' th keys)) /\
  (forall ops ops', Forall2 respelled_call ops ops' -> forall t, calls t (map (pair E) ops) = calls t (map (pair E) ops')).
Proof.
  intros C o E. split.
  - intros b b' S. split; [intros; now apply verify_respelled|]. split; [now apply from_root_respelled|intros; now apply from_keys_respelled].
  - induction 1 as [|p p' ops ops' S _ IH]; intros t; cbn [map calls]; [reflexivity|]. fold E. pose proof (step_respelled C o t p p' S) as Q. fold E in Q. rewrite <- Q. clear Q.
    destruct (step E t p) as [x r]. now rewrite IH.
Qed.
Print Assumptions C113_methods.

(** Clients: what they ask for, trust and return depends on what the documents they read say,
    not on how it is spelled nor on the pieces in which it arrived. *)
Theorem C113_clients :
  forall (C : crypto) (o : hash_order) (cfg : config) (fuel : nat), let E := mkEnv C o (json_interchange C) in
  (forall c c', respelled_start c c' -> act_alike C (construct E cfg fuel c) (construct E cfg fuel c')) /\
  (forall t k, act_alike C (call_prog E cfg fuel t k) (call_prog E cfg fuel t k)) /\
  (forall t, act_alike C (update E cfg fuel t) (update E cfg fuel t)) /\
  (forall t target, act_alike C (fetch_target_description E cfg fuel t target) (fetch_target_description E cfg fuel t target)).
Proof.
  intros C o cfg fuel E. split; [intros c c' S; apply s_alike; now apply construct_similar|].
  split; [intros; apply s_alike, call_similar|]. split; [intros; apply s_alike, update_similar|intros; apply s_alike, describe_similar].
Qed.
Print Assumptions C113_clients.

(** The two forms the library writes, with members as they stand or sorted, are spellings of
    what has been read; so files may be written again in any of them. *)
Theorem C113_forms :
  forall (t : bytes) (j : json), parse t = Ok j -> unique_names j ->
  respelled t (write j) /\ respelled t (pretty 0 j) /\ respelled t (write (to_value j)) /\ respelled t (pretty 0 (to_value j)).
Proof.
  intros t j P U. pose proof (parse_holds t j P) as H. apply parse_iff in P as [D _]. pose proof (to_value_holds j H) as H'.
  assert (S := same_value_to_value_refl j U). assert (S0 := same_value_refl j).
  repeat match goal with |- _ /\ _ => split end; right.
  - exists j, j. repeat split; auto. apply document_of_value. now apply write_text.
  - exists j, j. repeat split; auto. apply document_of_value. now apply pretty_text.
  - exists j, (to_value j). repeat split; auto. apply document_of_value. now apply write_text.
  - exists j, (to_value j). repeat split; auto. apply document_of_value. now apply pretty_text.
Qed.
Print Assumptions C113_forms.

(** ** Examples *)
Fixpoint uniqueb (j : json) : bool :=
  match j with
  | JArr l => forallb uniqueb l
  | JObj m => no_repeats (map fst m) && forallb (fun kv => let '(_, x) := kv in uniqueb x) m
  | _ => true
  end.
Lemma uniqueb_sound j : uniqueb j = true -> unique_names j.
Proof.
  induction j as [| | | | |l IH|m IH] using json_nested_ind; intros Q; constructor; cbn in Q.
  - rewrite forallb_forall in Q. rewrite Forall_forall in *. auto.
  - apply andb_true_iff in Q as [_ Q]. rewrite forallb_forall in Q. rewrite Forall_forall in *. intros [k x] I. apply (IH _ I). exact (Q _ I).
  - apply andb_true_iff in Q as [Q _]. now apply no_repeats_NoDup.
Qed.
Definition value (b : bytes) : json := match parse b with Ok j => j | Err _ => JNull end.
Lemma forms_of b : is_ok (parse b) = true -> uniqueb (value b) = true -> respelled b (pretty 0 (value b)) /\ respelled b (write (to_value (value b))).
Proof.
  unfold value. destruct (parse b) as [j|e] eqn:P; [|discriminate]. intros _ U. apply uniqueb_sound in U.
  destruct (C113_forms b j P U) as (_ & A & B & _). now split.
Qed.

Definition root_file : bytes := publish_metadata Root [key_r] jroot.
Definition timestamp_file : bytes := publish_metadata Timestamp [key_t] jtimestamp.
Definition spelled_out (b : bytes) : bytes := pretty 0 (value b).
Definition sorted_out (b : bytes) : bytes := write (to_value (value b)).
Definition noon : clock := mkClock 0 0 0 0 0 (fun _ => 0%Z).
Example C113_case :
  respelled root_file (spelled_out root_file) /\ respelled timestamp_file (spelled_out timestamp_file) /\
  respelled root_file (sorted_out root_file) /\
  String.eqb root_file (spelled_out root_file) = false /\ String.eqb timestamp_file (spelled_out timestamp_file) = false /\
  from_trusted_root json_env (spelled_out root_file) = Ok (tuf_of_root jroot) /\
  snd (calls (tuf_of_root jroot) [(json_env, OpTimestamp noon (spelled_out timestamp_file))]) = [Ok true].
Proof.
  assert (R : respelled root_file (spelled_out root_file) /\ respelled root_file (sorted_out root_file)).
  { apply (forms_of root_file); vm_compute; reflexivity. }
  assert (T : respelled timestamp_file (spelled_out timestamp_file) /\ respelled timestamp_file (sorted_out timestamp_file)).
  { apply (forms_of timestamp_file); vm_compute; reflexivity. }
  split; [exact (proj1 R)|]. split; [exact (proj1 T)|]. split; [exact (proj2 R)|]. clear R T.
  repeat match goal with |- _ /\ _ => split end; vm_compute; reflexivity.
Qed.

(** A client started from either file, with nothing in its local repository. *)
Definition nothing : result stream := Err NotFound.
Definition start_trace : list event :=
  [EvPut (tuf_of_root jroot); EvFetchMeta Local "root" (VNumber 2) (Some 1048576%N) None nothing; EvNow noon;
   EvFetchMeta Local "timestamp" VNone (Some 32768%N) None nothing].
Lemma starts b : from_trusted_root json_env b = Ok (tuf_of_root jroot) ->
  exec (construct json_env default_config 2 (FromRoot b)) start_trace (Ret (Ok (tuf_of_root jroot))).
Proof.
  intros Q. cbn [construct]. unfold with_trusted_root. rewrite Q. clear Q. apply exec_put.
  apply exec_fetch_meta. apply exec_now. apply exec_fetch_meta. apply exec_here.
Qed.
Example C113_clients_case :
  respelled_start (FromRoot root_file) (FromRoot (spelled_out root_file)) /\
  exec (construct json_env default_config 2 (FromRoot root_file)) start_trace (Ret (Ok (tuf_of_root jroot))) /\
  exec (construct json_env default_config 2 (FromRoot (spelled_out root_file))) start_trace (Ret (Ok (tuf_of_root jroot))) /\
  Forall2 same_news (learned checksums start_trace) (learned checksums start_trace).
Proof.
  split; [exact (rs_root _ _ (proj1 C113_case))|].
  split; [refine (starts root_file _); vm_compute; reflexivity|].
  split; [refine (starts (spelled_out root_file) _); vm_compute; reflexivity|].
  cbn [learned start_trace]. unfold read_metadata, nothing, rbind. repeat constructor.
Qed.

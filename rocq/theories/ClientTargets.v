(** * Proofs about downloading targets: C51, C52 *)
From Coq Require Import String List NArith ZArith Bool Lia.
From Verif Require Import Base BaseFacts Metadata Verify Paths Tuf SpecVerify SpecTuf TufProofs TufHistory
     StringFacts Reader SpecReader ReaderProofs Repo SpecRepo RepoProofs Client SpecClient ClientLogic ClientProofs ClientUpdates
     ClientWalk.
Import ListNotations.
Open Scope string_scope.
Open Scope list_scope.
Open Scope N_scope.

(** The search for a description downloads and writes no targets. *)
Definition quiet (e : event) : Prop :=
  match e with EvFetchTarget _ _ _ | EvStoreTarget _ _ _ | EvWrite _ _ => False | _ => True end.
Definition DQ : demands := mkDemands (fun _ _ => True) (fun _ e => quiet e) (fun _ => True) True.

Lemma quiet_fetch E s r path v max hash (Q : list event -> result bytes -> Prop) h : (forall h x, Q h x) ->
  wp DQ (fetch_metadata E s r path v max hash) Q h.
Proof. intros H. apply wp_fetch_any; [auto|]. intros ans e _. now split. Qed.
Lemma quiet_store r path v raw (Q : list event -> result unit -> Prop) h : (forall h x, Q h x) ->
  wp DQ (store_metadata r path v raw) Q h.
Proof. intros H. apply wp_store_any; [auto|]. intros ans e _. now split. Qed.

Lemma along_quiet h tr : along (guar DQ) h tr -> Forall quiet tr.
Proof.
  intros A. apply Forall_forall. intros e I. apply in_split in I as (pre & post & ->). exact (A pre e post eq_refl).
Qed.
Lemma along_DQ h tr : along (rely DQ) h tr.
Proof. intros pre e post _. exact I. Qed.

Lemma walk_loop_quiet E recur dt depth target snapshot trole :
  (forall t dt dep tgs h, wp DQ (recur t dt dep tgs) (fun _ _ => True) h) ->
  forall roles t h, wp DQ (walk_loop E recur dt depth target snapshot trole roles t) not_found h.
Proof.
  intros HR. induction roles as [|d rest IH]; intros t h; [reflexivity|]. cbn [walk_loop].
  assert (HC : forall t e h, wp DQ (if dg_terminating d then Ret (t, (true, Err e)) else
            walk_loop E recur dt depth target snapshot trole rest t) not_found h).
  { intros t1 e h1. destruct (dg_terminating d); [reflexivity|apply IH]. }
  destruct (negb _); [apply HC|]. destruct (lookup _ _) as [desc|]; [|apply HC].
  destruct (hash_preference _) as [hash|e]; [|reflexivity].
  eapply (wp_seq DQ _ _ (fun _ _ => True)); [now apply quiet_fetch|]. intros h1 r1 _.
  eapply (wp_seq DQ _ _ (fun _ _ => True)).
  { destruct r1; [exact I|now apply quiet_fetch]. }
  intros h2 [raw|e] _; [|apply HC].
  cbn [wp]. intros cl _. split; [exact I|].
  destruct (update_delegation E t cl trole (dg_role d) raw) as [t' r]. cbn [wp]. intros _. split; [exact I|].
  destruct r as [b|e]; [|apply HC].
  eapply (wp_seq DQ _ _ (fun _ _ => True)); [now apply quiet_store|]. intros h3 _ _.
  destruct (lookup _ _) as [meta|]; [|exact I]. destruct (u32_max <=? depth); [exact I|].
  eapply (wp_seq DQ _ _ (fun _ _ => True)); [apply HR|]. intros h4 [t'' [term res]] _.
  destruct (term && negb (is_ok res)) eqn:B; [|apply IH]. apply andb_true_iff in B as [_ B]. now destruct res.
Qed.

Lemma lookup_quiet E cfg fuel target snapshot : forall t dt depth tgs h,
  wp DQ (lookup_target_description E cfg fuel t dt depth target snapshot tgs) (fun _ _ => True) h.
Proof.
  induction fuel as [|fuel IH]; intros t dt depth tgs h; [exact I|]. cbn [lookup_target_description].
  destruct (_ <? _); [exact I|]. destruct (match tgs with Some x => Some x | None => _ end) as [[tg r]|]; [|exact I].
  destruct (lookup target _); [exact I|]. destruct (tg_delegations tg); [|exact I].
  eapply wp_mono; [|now apply walk_loop_quiet]. auto.
Qed.

(** The result, if any, is a failure. *)
Definition failure {A} : list event -> tuf * result A -> Prop := fun _ x => is_ok (snd x) = false.

Lemma description_cases E cfg fuel t p :
  (exists d, fetch_target_description E cfg fuel t p = Ret (t, Ok d) /\ listed cfg t p d) \/
  (forall h, wp DQ (fetch_target_description E cfg fuel t p) failure h).
Proof.
  unfold fetch_target_description. destruct (cf_translate cfg p) as [virt|e] eqn:TR; [|now right].
  destruct (t_snapshot t) as [s|]; [|now right]. destruct fuel as [|fuel]; [now right|].
  cbn [lookup_target_description]. destruct (_ <? _); [now right|].
  destruct (t_targets t) as [tg|] eqn:G; [|now right].
  destruct (lookup virt (tg_targets tg)) as [d|] eqn:L.
  - left. exists d. split; [reflexivity|]. exists tg, virt. auto.
  - right. intros h. destruct (tg_delegations tg) as [ds|]; [|reflexivity].
    eapply wp_seq; [apply walk_loop_quiet; intros; apply lookup_quiet|].
    intros h' [t' [b r]] H. exact H.
Qed.

(** The calls for targets either ask for the described target at once or only fail. *)
Lemma reader_cases E cfg fuel t p :
  (exists d p' hash, listed cfg t p d /\ target_place t p d p' /\ hash_preference (td_hashes d) = Ok hash /\
     fetch_target_reader E cfg fuel t p =
     FetchTarget p' d (fun ans => Ret (t, checked_target (e_crypto E) (td_length d) hash ans))) \/
  (forall h, wp DQ (fetch_target_reader E cfg fuel t p) failure h).
Proof.
  unfold fetch_target_reader. destruct (description_cases E cfg fuel t p) as [(d & -> & L)|H].
  - cbn [bind]. destruct (rm_consistent (t_root t)) eqn:RC.
    + destruct (hash_preference (td_hashes d)) as [[alg value]|e] eqn:HP; cbn [rbind]; [|now right].
      destruct (with_hash_prefix p value) as [p'|e] eqn:PP; [|now right].
      left. exists d, p', (alg, value). unfold target_place. rewrite RC. apply hash_preference_iff in HP as HP'.
      split; [auto|]. split; [exists alg, value; auto|]. split; [exact HP|]. unfold fetch_target_stream. now rewrite HP.
    + unfold fetch_target_stream. destruct (hash_preference (td_hashes d)) as [hash|e] eqn:HP; [|now right].
      left. exists d, p, hash. unfold target_place. rewrite RC. auto.
  - right. intros h. eapply wp_seq; [apply H|]. intros h' [t' [d|e]] F; [discriminate F|reflexivity].
Qed.

Lemma checked_target_authentic C d hash ans rs : hash_preference (td_hashes d) = Ok hash ->
  checked_target C (td_length d) hash ans = Ok rs ->
  exists src, ans = Ok src /\ forall b, contains rs b None -> contains src b None /\ target_authentic C d b.
Proof.
  intros HP H. destruct hash as [alg value]. apply hash_preference_iff in HP. unfold checked_target in H.
  apply rbind_Ok in H as (src & -> & H). apply rbind_Ok in H as (s & S & H). inversion H; subst. exists src.
  split; [reflexivity|]. intros b B. apply checked_contains in B.
  apply (read_to_end_ok C _ _ _ _ _ S) in B as (B1 & B2 & _ & B3). split; [exact B1|]. split; [exact B2|].
  exists alg, value. auto.
Qed.

Lemma fetch_target_cases E cfg fuel t p :
  (exists d p' hash, listed cfg t p d /\ target_place t p d p' /\ hash_preference (td_hashes d) = Ok hash /\
     fetch_target E cfg fuel t p =
     FetchTarget p' d (fun ans =>
       match checked_target (e_crypto E) (td_length d) hash ans with
       | Err e => Ret (t, Err e)
       | Ok rs => StoreTarget p rs (fun a => Ret (t, a))
       end)) \/
  (forall h, wp DQ (fetch_target E cfg fuel t p) failure h).
Proof.
  unfold fetch_target. destruct (reader_cases E cfg fuel t p) as [(d & p' & hash & L & P & HP & ->)|H].
  - left. exists d, p', hash. auto.
  - right. intros h. eapply wp_seq; [apply H|]. intros h' [t' [rs|e]] F; [discriminate F|reflexivity].
Qed.

Lemma exec_quiet {A} (p : prog (tuf * result A)) tr q :
  (forall h, wp DQ p failure h) -> exec p tr q -> Forall quiet tr /\ wp DQ q failure tr.
Proof.
  intros H X. destruct (wp_sound DQ _ _ _ X _ [] (H _) (along_DQ _ _)) as [G W]. split; [|exact W].
  now apply along_quiet in G.
Qed.

(** The states of a download. *)
Inductive downloading (E : env) (cfg : config) (t : tuf) (p : string)
  : list event -> prog (tuf * result unit) -> Prop :=
| dl_search tr q : Forall quiet tr -> wp DQ q failure tr -> downloading E cfg t p tr q
| dl_ask p' d k : listed cfg t p d -> target_place t p d p' -> downloading E cfg t p [] (FetchTarget p' d k)
| dl_refused p' d ans e : listed cfg t p d -> target_place t p d p' ->
    downloading E cfg t p [EvFetchTarget p' d ans] (Ret (t, Err e))
| dl_store p' d src rs : listed cfg t p d -> target_place t p d p' ->
    (forall b, contains rs b None -> contains src b None /\ target_authentic (e_crypto E) d b) ->
    downloading E cfg t p [EvFetchTarget p' d (Ok src)] (StoreTarget p rs (fun a => Ret (t, a)))
| dl_stored p' d src rs a : listed cfg t p d -> target_place t p d p' ->
    (forall b, contains rs b None -> contains src b None /\ target_authentic (e_crypto E) d b) ->
    downloading E cfg t p [EvFetchTarget p' d (Ok src); EvStoreTarget p rs a] (Ret (t, a)).

Lemma fetch_target_runs E cfg fuel t p tr q : exec (fetch_target E cfg fuel t p) tr q -> downloading E cfg t p tr q.
Proof.
  intros X. destruct (fetch_target_cases E cfg fuel t p) as [(d & p' & hash & L & P & HP & Eq)|H].
  2:{ apply exec_quiet in X as [Q W]; auto. now apply dl_search. }
  rewrite Eq in X. clear Eq. inversion X; subst; [now apply dl_ask|].
  destruct (checked_target _ _ _ ans) as [rs|e] eqn:CT.
  - destruct (checked_target_authentic _ _ _ _ _ HP CT) as (src & -> & A).
    match goal with Y : exec (StoreTarget _ _ _) _ _ |- _ => inversion Y; subst end; [now apply dl_store|].
    match goal with Y : exec (Ret _) _ _ |- _ => inversion Y; subst end. now apply dl_stored.
  - match goal with Y : exec (Ret _) _ _ |- _ => inversion Y; subst end. now apply dl_refused.
Qed.

(** *** The writer *)

Lemma written_app a b : written (a ++ b) = (written a ++ written b)%string.
Proof.
  induction a as [|e a IH]; [reflexivity|]. destruct e; cbn; auto. destruct ans; auto. now rewrite IH, sapp_assoc.
Qed.

Lemma copy_runs rs : forall tr, exec (copy_to_writer rs) tr (Ret (Ok tt)) ->
  contains rs (written tr) None /\ Forall (fun e => exists b, e = EvWrite b None) tr.
Proof.
  induction rs as [|[|k|d] rs IH]; intros tr X; cbn [copy_to_writer] in X.
  - apply exec_ret in X as [-> _]. split; constructor.
  - destruct (IH _ X) as [H F]. split; [now constructor|exact F].
  - apply exec_ret in X as [_ X]. discriminate.
  - destruct (byte_length d =? 0) eqn:B.
    + apply byte_length_zero in B as ->. apply exec_ret in X as [-> _]. split; constructor.
    + apply byte_length_nonzero in B. inversion X; subst. destruct ans as [k|].
      * match goal with Y : exec (Ret _) _ _ |- _ => apply exec_ret in Y as [_ Y]; discriminate end.
      * match goal with Y : exec (copy_to_writer rs) _ _ |- _ => apply IH in Y as [H F] end.
        cbn [written]. split; [now constructor|]. constructor; eauto.
Qed.

Lemma to_writer_runs E cfg fuel t p tr t' : exec (fetch_target_to_writer E cfg fuel t p) tr (Ret (t', Ok tt)) ->
  t' = t /\ exists p' d src tr', listed cfg t p d /\ target_place t p d p' /\
    tr = EvFetchTarget p' d (Ok src) :: tr' /\ Forall (fun e => exists b, e = EvWrite b None) tr' /\
    contains src (written tr') None /\ target_authentic (e_crypto E) d (written tr').
Proof.
  unfold fetch_target_to_writer. destruct (reader_cases E cfg fuel t p) as [(d & p' & hash & L & P & HP & ->)|H]; intros X.
  - cbn [bind] in X. inversion X; subst. destruct (checked_target _ _ _ ans) as [rs|e] eqn:CT.
    + destruct (checked_target_authentic _ _ _ _ _ HP CT) as (src & -> & A).
      match goal with Y : exec _ tr0 _ |- _ => apply exec_bind_ret in Y as (r & tr1 & tr2 & -> & X1 & X2) end.
      apply exec_ret in X2 as [-> X2]. inversion X2; subst. split; [reflexivity|].
      rewrite app_nil_r. destruct (copy_runs _ _ X1) as [H F]. destruct (A _ H) as [A1 A2].
      exists p', d, src, tr1. repeat split; auto; apply A2.
    + match goal with Y : exec (Ret _) _ _ |- _ => apply exec_ret in Y as [_ Y]; discriminate end.
  - exfalso. assert (W : forall h, wp DQ (fetch_target_to_writer E cfg fuel t p) failure h).
    { intros h. unfold fetch_target_to_writer. eapply wp_seq; [apply H|].
      intros h' [t1 [rs|e]] F; [discriminate F|reflexivity]. }
    apply exec_quiet in X as [_ X]; [|exact W]. discriminate X.
Qed.

(** *** The in-memory repository *)

Lemma in_memory_app e a b e' : in_memory e (a ++ b) e' <-> exists e1, in_memory e a e1 /\ in_memory e1 b e'.
Proof.
  revert e. induction a as [|ev a IH]; intros e; cbn.
  - split; [intros H; exists e; split; [constructor|exact H]|]. intros (e1 & H1 & H2). inversion H1; subst; auto.
  - split.
    + intros H. inversion H; subst. match goal with Y : in_memory _ (a ++ b) _ |- _ => apply IH in Y as (e1 & H1 & H2) end.
      exists e1. split; [econstructor; eauto|auto].
    + intros (e1 & H1 & H2). inversion H1; subst. econstructor; eauto. apply IH. eauto.
Qed.

Lemma quiet_keeps_targets tr : forall e e', Forall quiet tr -> in_memory e tr e' -> ep_targets e' = ep_targets e.
Proof.
  induction tr as [|ev tr IH]; intros e e' Q M; inversion M as [|e0 ev0 e1 tr0 e2 ST M']; subst; auto.
  inversion Q as [|ev0 tr0 Q1 Q2]; subst.
  rewrite (IH _ _ Q2 M'). destruct ev; cbn in *; try tauto; try congruence.
  - destruct s; [destruct ST as [_ ->]|subst]; reflexivity.
  - unfold ephemeral_store_metadata in ST. destruct (read_plain _ _); inversion ST; subst; reflexivity.
Qed.

(** *** The file system *)

Lemma apart root c c' : fs_path ("metadata" :: root) c <> fs_path ("targets" :: root) c'.
Proof.
  unfold fs_path. intros H. apply (f_equal (@rev string)) in H. rewrite !rev_app_distr in H. cbn in H.
  rewrite <- !app_assoc in H. apply app_inv_head in H. discriminate.
Qed.

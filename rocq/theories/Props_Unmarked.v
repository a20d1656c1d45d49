(** * C119: looking for targets leaves no mark on updates *)
From Coq Require Import String List NArith ZArith Bool Lia.
From Verif Require Import Base BaseFacts Metadata Verify Paths Tuf Reader Repo Client SpecClient ClientLogic Toy ClientToy Props_Client Props_Restart
     SpecFootprint FootprintProofs SpecUnmarked UnmarkedProofs.
Import ListNotations.
Open Scope string_scope.
Open Scope list_scope.
Open Scope N_scope.

(** Methods of [Tuf] other than [update_delegation] return the same whatever delegated
    metadata are trusted, and give the same top-level metadata. *)
Theorem C119_delegated_metadata_do_not_matter :
  forall (E : env) (t t' : tuf) (o : op), same_top t t' -> about_top o = true ->
  snd (step E t o) = snd (step E t' o) /\ same_top (fst (step E t o)) (fst (step E t' o)).
Proof. intros E t t' o S A. destruct (step_top E t t' o S A). auto. Qed.
Print Assumptions C119_delegated_metadata_do_not_matter.

(** Leaving out all calls of [update_delegation] from any sequence of calls gives the same
    top-level metadata. *)
Theorem C119_delegations_can_be_left_out :
  forall (E : env) (t : tuf) (ops : list op), same_top (run E t ops) (run E t (filter about_top ops)).
Proof. intros E t ops. apply run_top, top_refl. Qed.
Print Assumptions C119_delegations_can_be_left_out.

(** An update asks for and stores the same, and returns the same, whatever delegated
    metadata are trusted. *)
Theorem C119_updates_do_not_depend_on_them :
  forall (E : env) (cfg : config) (fuel : nat) (t t' : tuf) (tr : list event) (t1 : tuf) (r : result bool),
  same_top t t' -> exec (update E cfg fuel t) tr (Ret (t1, r)) ->
  exists tr' t1', exec (update E cfg fuel t') tr' (Ret (t1', r)) /\ Forall2 same_event tr tr' /\ same_top t1 t1'.
Proof.
  intros E cfg fuel t t' tr t1 r S X.
  destruct (s_exec _ _ _ _ X (update E cfg fuel t') t t' (update_similar E cfg fuel t t' S) S) as (tr' & q' & X' & Ev & Sq & _).
  inversion Sq as [a [t1' r'] [G Q]| | | | | |]; subst. cbn in G, Q. subst r'. exists tr', t1'. auto.
Qed.
Print Assumptions C119_updates_do_not_depend_on_them.

Lemma after_app t tr1 tr2 : tuf_after t (tr1 ++ tr2) = tuf_after (tuf_after t tr1) tr2.
Proof. revert t. induction tr1 as [|[] tr1 IH]; intros t0; cbn; auto. Qed.
Lemma searched t tr : Forall (searches t) tr -> forall u, same_top t u -> same_top t (tuf_after u tr).
Proof. induction 1 as [|e tr H F IH]; intros u S; [exact S|]. destruct e; cbn [tuf_after]; auto. Qed.
Lemma search_keeps E cfg fuel t k tr q : k <> CallUpdate -> exec (call_prog E cfg fuel t k) tr q -> same_top t (tuf_after t tr).
Proof.
  intros N X. destruct k as [|p|p|p]; [congruence| | |]; cbn [call_prog] in X.
  - assert (O : only (searches t) (fun _ => True) (forget (fetch_target_description E cfg fuel t p))).
    { unfold forget. eapply only_bind; [apply only_description|]. intros [x r] _. now apply o_ret. }
    apply searched; [exact (proj1 (only_exec _ _ _ _ _ X O))|apply top_refl].
  - apply exec_download in X as (tr1 & tr2 & -> & F & O & _). rewrite after_app. pose proof (searched t tr1 F t (top_refl t)) as S.
    destruct O; exact S.
  - apply exec_to_writer in X as (tr1 & tr2 & -> & F & O & _). rewrite after_app. pose proof (searched t tr1 F t (top_refl t)) as S.
    destruct O as [|path d ans ws W]; [exact S|]. cbn [tuf_after]. revert S. generalize (tuf_after t tr1).
    induction W as [|e ws H W IH]; intros u S; [exact S|]. destruct e; cbn [tuf_after]; try exact (IH u S); contradiction H.
Qed.
Lemma update_keeps E cfg fuel t t' tr q : same_top t t' -> exec (call_prog E cfg fuel t CallUpdate) tr q ->
  exists tr' q', exec (call_prog E cfg fuel t' CallUpdate) tr' q' /\ Forall2 same_event tr tr' /\ same_top (tuf_after t tr) (tuf_after t' tr').
Proof.
  intros S X. cbn [call_prog] in *.
  assert (M : similar same_outcome (forget (update E cfg fuel t)) (forget (update E cfg fuel t'))).
  { unfold forget. eapply s_bind; [apply update_similar, S|]. intros [x r] [x' r'] [G Q]. cbn in G, Q. subst r'. apply s_ret. now split. }
  destruct (s_exec _ _ _ _ X _ t t' M S) as (tr' & q' & X' & Ev & _ & T). eauto.
Qed.

(** However a client is used, and however far each call got: without the calls that look
    for, describe and download targets, the same calls of [update] ask for the same, are
    answered the same, store the same, and leave the same top-level metadata. *)
Theorem C119_downloads_leave_no_mark :
  forall (E : env) (cfg : config) (fuel : nat) (t t1 : tuf) (l : list (call * list event)),
  used_as E cfg fuel t l t1 ->
  exists l' t1', used_as E cfg fuel t l' t1' /\ Forall2 same_call (filter is_update l) l' /\ same_top t1 t1'.
Proof.
  intros E cfg fuel t t1 l U. induction U as [|l t1 k tr q U (l' & t1' & U' & F & S) X].
  - exists [], t. repeat split; constructor.
  - rewrite filter_app. cbn [filter]. destruct k as [|p|p|p]; cbn [is_update fst].
    + destruct (update_keeps E cfg fuel t1 t1' tr q S X) as (tr' & q' & X' & Ev & T).
      exists (l' ++ [(CallUpdate, tr')]), (tuf_after t1' tr'). split; [exact (as_called _ _ _ _ _ _ _ _ _ U' X')|].
      split; [|exact T]. apply Forall2_app; [exact F|]. constructor; [now split|constructor].
    + exists l', t1'. rewrite app_nil_r. split; [exact U'|]. split; [exact F|].
      refine (top_trans _ _ _ (top_sym _ _ (search_keeps E cfg fuel t1 (CallDescription p) tr q _ X)) S). discriminate.
    + exists l', t1'. rewrite app_nil_r. split; [exact U'|]. split; [exact F|].
      refine (top_trans _ _ _ (top_sym _ _ (search_keeps E cfg fuel t1 (CallTarget p) tr q _ X)) S). discriminate.
    + exists l', t1'. rewrite app_nil_r. split; [exact U'|]. split; [exact F|].
      refine (top_trans _ _ _ (top_sym _ _ (search_keeps E cfg fuel t1 (CallTargetToWriter p) tr q _ X)) S). discriminate.
Qed.
Print Assumptions C119_downloads_leave_no_mark.

(** ** A client that looks for a target, and then updates *)

Definition m_look := drive 50 local_updated remote1 c50 (call_prog Ec default_config 9 t_updated (CallDescription "a/x")).
Definition m_found : tuf := tuf_after t_updated (fst (fst m_look)).
Definition m_update := drive 50 (snd (fst m_look)) remote1 c50 (call_prog Ec default_config 9 m_found CallUpdate).

Example C119_case :
  t_delegations t_updated = [] /\ map fst (t_delegations m_found) = ["alice"] /\ same_top t_updated m_found /\
  (exists t1, snd m_update = Ret (t1, Ok tt) /\ map fst (t_delegations t1) = ["alice"]) /\
  length (fst (fst m_look)) = 5%nat /\ (2 <= length (fst (fst m_update)))%nat.
Proof. vm_compute. repeat split; try (eexists; split; reflexivity); lia. Qed.
Lemma two_calls E cfg fuel t k tr q k' tr' q' : exec (call_prog E cfg fuel t k) tr q -> exec (call_prog E cfg fuel (tuf_after t tr) k') tr' q' ->
  used_as E cfg fuel t [(k, tr); (k', tr')] (tuf_after (tuf_after t tr) tr').
Proof.
  intros X X'. exact (as_called E cfg fuel t [(k, tr)] _ k' tr' q' (as_called E cfg fuel t [] t k tr q (as_new E cfg fuel t) X) X').
Qed.
Example C119_nonvacuous :
  used_as Ec default_config 9 t_updated [(CallDescription "a/x", fst (fst m_look)); (CallUpdate, fst (fst m_update))] (tuf_after m_found (fst (fst m_update))).
Proof.
  exact (two_calls Ec default_config 9 t_updated (CallDescription "a/x") _ _ CallUpdate _ _ (proj1 (drive_run _ _ _ _ _ _ eq_refl)) (proj1 (drive_run _ _ _ _ _ _ eq_refl))).
Qed.
(** Updates do leave marks on what is trusted of delegated roles: a new root makes the
    client forget them. *)
Example C119_ops_case :
  let ops := [OpTimestamp c50 "ts1"; OpSnapshot c50 "snap1"; OpTargets c50 "targets1"; OpDelegation c50 "targets" "alice" "alice1";
              OpDelegation c50 "alice" "bob" "bob1"] in
  let later := [OpTimestamp c50 "ts2"; OpSnapshot c50 "snap2"] in
  let t := tuf_of_root root1 in
  length (filter about_top ops) = 3%nat /\ length (t_delegations (run Ec t ops)) = 2%nat /\
  t_delegations (run Ec t (filter about_top ops)) = [] /\
  map fst (t_delegations (run Ec t (ops ++ later))) = ["bob"; "alice"] /\ t_delegations (run Ec t (ops ++ [OpRoot "root2"])) = [] /\
  trusted_targets_version (run Ec t (ops ++ later)) = 1 /\ trusted_snapshot_version (run Ec t (filter about_top (ops ++ later))) = 2.
Proof. repeat split; vm_compute; reflexivity. Qed.

(** * C102: clients that share a local repository *)
From Coq Require Import String List Arith NArith ZArith Bool Lia.
From Verif Require Import Base BaseFacts Metadata Tuf SpecTuf TufHistory Reader Repo RepoProofs Client SpecClient ClientLogic ClientProofs ClientHistory
  SpecAttack AttackProofs SpecShared Toy ClientToy SpecRestart SpecCache Props_Client Props_Restart Props_Sessions.
Import ListNotations.
Open Scope string_scope.
Open Scope list_scope.
Open Scope N_scope.

Lemma of_client_app i a b : of_client i (a ++ b) = of_client i a ++ of_client i b.
Proof. induction a as [|[j e] a IH]; [reflexivity|]. cbn. destruct (Nat.eq_dec j i); cbn; now rewrite IH. Qed.
Lemma of_client_tagged i j (l : list event) : of_client i (map (pair j) l) = if Nat.eq_dec j i then l else [].
Proof. induction l as [|e l IH]; cbn; destruct (Nat.eq_dec j i); auto. now rewrite IH. Qed.
Lemma untag (j : nat) (l : list event) : map snd (map (pair j) l) = l.
Proof. rewrite map_map. cbn. apply map_id. Qed.

(** A document in memory was there at first, or a client has stored it. *)
Lemma memory_origin e tr e' : in_memory e tr e' -> forall path v raw,
  lookup (path, v) (ep_metadata e') = Some raw ->
  lookup (path, v) (ep_metadata e) = Some raw \/ exists ans, In (EvStoreMeta path v raw ans) tr.
Proof.
  intros H. induction H as [e|e ev e' tr e'' S H IH]; intros path v raw L; [auto|].
  destruct (IH _ _ _ L) as [L'|(ans & I)]; [|right; exists ans; now right].
  destruct ev as [s p v' m h a|p v' d a|p d a|p rs a|b a|cl|t]; cbn [in_memory_step] in S.
  - left. destruct s; [now destruct S as [_ ->]|now subst e'].
  - unfold ephemeral_store_metadata in S. cbn [cursor read_plain] in S.
    assert (Q : ep_metadata e' = insert (p, v') d (ep_metadata e) /\ a = Ok tt \/ e' = e).
    { destruct (byte_length d =? 0) eqn:B; cbn [append] in S; inversion S; subst; cbn [ep_metadata]; auto.
      left. assert (d = "") by (apply N.eqb_eq in B; unfold byte_length in B; destruct d; [reflexivity|cbn in B; lia]). now subst d. }
    destruct Q as [[Q ->]| ->]; [|auto]. rewrite Q in L'.
    rewrite lookup_insert in L'. destruct (eqb (path, v) (p, v')) eqn:K; [|now left].
    apply eqb_eq in K. inversion K; subst. inversion L'; subst. right. exists (Ok tt). now left.
  - left. now subst e'.
  - left. unfold ephemeral_store_target in S. destruct (read_plain rs ""); inversion S; subst; exact L'.
  - left. now subst e'.
  - left. now subst e'.
  - left. now subst e'.
Qed.

Lemma in_of_client tr i e : In (i, e) tr -> In e (of_client i tr).
Proof.
  induction tr as [|[j f] tr IH]; [intros []|]. intros [H|H]; cbn.
  - inversion H; subst. destruct (Nat.eq_dec i i); [now left|congruence].
  - destruct (Nat.eq_dec j i); [right|]; auto.
Qed.

(** ** Each client for itself *)

(** Any number of clients, of any configuration and start, with one local repository, in
    any interleaving, whatever the remote repositories answer: what a client trusts comes
    only from its own verified documents; the versions of its root and, under one root, of
    its timestamp never go back; and every document in the shared repository that was not
    there before has been verified by the client that stored it, and is under its name. *)
Theorem C102_sharing_clients_are_safe_partial :
  forall (E : env) (cfg : nat -> config) (fuel : nat -> nat) (c : nat -> ctor) (tr1 tr2 : list (nat * event)) (e e' : ephemeral),
  clients E cfg fuel c (tr1 ++ tr2) -> sharing e (tr1 ++ tr2) e' ->
  (forall i t t', trusted_at (of_client i tr1) = Some t -> trusted_at (of_client i (tr1 ++ tr2)) = Some t' ->
     reachable E t' /\ (exists raw t0 ops, first_trust E (c i) raw t0 /\ t' = run E t0 ops) /\
     rm_version (t_root t) <= rm_version (t_root t') /\
     (rm_version (t_root t') = rm_version (t_root t) -> timestamp_version t <= timestamp_version t')) /\
  (forall path v raw, lookup (path, v) (ep_metadata e') = Some raw ->
     lookup (path, v) (ep_metadata e) = Some raw \/
     exists i h t' stores res place rest,
       of_client i (tr1 ++ tr2) = (h ++ EvPut t' :: stores) ++ rest /\ Forall is_store stores /\
       changes E (cfg i) (c i) h raw t' (Ok res) place /\ place path v).
Proof.
  intros E cfg fuel c tr1 tr2 e e' H S. split.
  - intros i t t' T T'. specialize (H i). destruct (C43_trust_only_through_verification _ _ _ _ _ H) as [_ R].
    destruct (R t' T') as (raw & t0 & ops & F & Q & Re). split; [exact Re|]. split; [eauto|].
    rewrite of_client_app in *. apply history_sound in H as A.
    destruct (sound_between _ _ _ _ _ _ _ A T T') as (ops' & ->).
    split; [apply run_root_version|]. exact (run_timestamp_version E ops' t).
  - intros path v raw L. destruct (memory_origin _ _ _ S _ _ _ L) as [L'|(ans & I)]; [now left|]. right.
    apply in_map_iff in I as ([i ev] & Q & I). cbn in Q. subst ev. apply in_of_client in I.
    apply in_split in I as (pre & post & Q).
    destruct (C44_only_verified_metadata_is_stored _ _ _ _ _ _ _ _ _ _ _ (H i) Q) as (h & t' & stores & res & place & -> & St & Ch & P).
    exists i, h, t', stores, res, place, (EvStoreMeta path v raw ans :: post). auto.
Qed.
Print Assumptions C102_sharing_clients_are_safe_partial.

(** ** A cache can be rolled back by another client *)

(** Two clients start, with nothing in the local repository.  One updates and trusts
    timestamp 2; then the other one, to which an attacker replays timestamp 1, which is what
    it has to accept since it has trusted none before.  Now a third starts from the local
    repository. *)
Definition other := drive 50 ephemeral_new ephemeral_new c50 (construct Eo default_config 9 (FromRoot "root1")).
Definition other_old := drive 50 (snd (fst oupdate)) (oremote "1") c50 (update Eo default_config 9 (tuf_of_root root1)).
Definition t_other : tuf := fst (result_of other_old (tuf_of_root root1, Err NotFound)).
Definition third := drive 50 (snd (fst other_old)) ephemeral_new c50 (construct Eo default_config 9 (FromRoot "root1")).
Definition t_third : tuf := match result_of third (Err NotFound) with Ok t => t | Err _ => tuf_of_root root1 end.
(* without the second one *)
Definition third_alone := drive 50 (snd (fst oupdate)) ephemeral_new c50 (construct Eo default_config 9 (FromRoot "root1")).

Definition shared_before : list (nat * event) :=
  map (pair 1%nat) (fst (fst other)) ++ map (pair 0%nat) (fst (fst ostart)) ++ map (pair 0%nat) (fst (fst oupdate)).
Definition shared_after : list (nat * event) :=
  map (pair 1%nat) (fst (fst other_old)) ++ map (pair 2%nat) (fst (fst third)).

Lemma in_memory_app e a e' b e'' : in_memory e a e' -> in_memory e' b e'' -> in_memory e (a ++ b) e''.
Proof. intros H. induction H; intros K; [exact K|]. cbn. econstructor; eauto. Qed.

Lemma shared_runs :
  clients Eo (fun _ => default_config) (fun _ => 9%nat) (fun _ => FromRoot "root1") (shared_before ++ shared_after) /\
  sharing ephemeral_new (shared_before ++ shared_after) (snd (fst third)).
Proof.
  assert (S0 : snd ostart = Ret (Ok (tuf_of_root root1))) by (vm_compute; reflexivity).
  assert (S1 : snd other = Ret (Ok (tuf_of_root root1))) by (vm_compute; reflexivity).
  assert (U0 : snd oupdate = Ret (t_oupdate, Ok true)) by (vm_compute; reflexivity).
  assert (U1 : snd other_old = Ret (t_other, Ok true)) by (vm_compute; reflexivity).
  assert (S2 : snd third = Ret (Ok t_third)) by (vm_compute; reflexivity).
  assert (M : snd (fst other) = ephemeral_new) by (vm_compute; reflexivity).
  destruct (drive_run _ _ _ _ _ _ S0) as [X0 Y0]. destruct (drive_run _ _ _ _ _ _ S1) as [X1 Y1].
  destruct (drive_run _ _ _ _ _ _ U0) as [X2 Y2]. destruct (drive_run _ _ _ _ _ _ U1) as [X3 Y3].
  destruct (drive_run _ _ _ _ _ _ S2) as [X4 Y4]. split.
  - intros i. unfold shared_before, shared_after. rewrite !of_client_app, !of_client_tagged.
    assert (C : forall tr u t r, exec (update Eo default_config 9 t) u (Ret r) -> life Eo default_config 9 (FromRoot "root1") tr t ->
                history Eo default_config 9 (FromRoot "root1") (tr ++ u)).
    { intros tr u t [t' r] X L. eapply history_call with (k := CallUpdate); [exact L|]. cbn [call_prog]. unfold forget.
      rewrite <- (app_nil_r u). eapply exec_bind; [exact X|]. constructor. }
    destruct i as [|[|[|i]]]; cbn -[ostart oupdate other other_old third]; rewrite ?app_nil_r.
    + eapply C; [exact X2|]. apply life_new. exact X0.
    + eapply C; [exact X3|]. apply life_new. exact X1.
    + eapply history_new. exact X4.
    + eapply history_new. constructor.
  - unfold sharing, shared_before, shared_after. rewrite !map_app, !untag. fold other in Y1. rewrite M in Y1.
    eapply in_memory_app; [eapply in_memory_app; [exact Y1|eapply in_memory_app; [exact Y0|exact Y2]]|].
    eapply in_memory_app; [exact Y3|exact Y4].
Qed.

Lemma drive_clock {A} n : forall l r (p : prog A), Forall (fun ev => forall c, ev = EvNow c -> c = now 50) (fst (fst (drive n l r c50 p))).
Proof.
  induction n as [|n IH]; intros l r p; [constructor|].
  destruct p as [a| | |s path v max hash k|path v data k|path d k|path rs k|data k|k|t p]; cbn [drive]; try (constructor; fail).
  - pose proof (IH l r (k (ephemeral_fetch_metadata (match s with Local => l | Remote => r end) path v))) as K.
    destruct (drive n l r c50 _) as [[tr l'] q]. cbn. constructor; [discriminate|exact K].
  - destruct (ephemeral_store_metadata _ _ _ _) as [l1 ans]. pose proof (IH l1 r (k ans)) as K.
    destruct (drive n l1 r c50 _) as [[tr l'] q]. cbn. constructor; [discriminate|exact K].
  - pose proof (IH l r (k (ephemeral_fetch_target r path))) as K.
    destruct (drive n l r c50 _) as [[tr l'] q]. cbn. constructor; [discriminate|exact K].
  - destruct (ephemeral_store_target _ _ _) as [l1 ans]. pose proof (IH l1 r (k ans)) as K.
    destruct (drive n l1 r c50 _) as [[tr l'] q]. cbn. constructor; [discriminate|exact K].
  - pose proof (IH l r (k None)) as K. destruct (drive n l r c50 _) as [[tr l'] q]. cbn. constructor; [discriminate|exact K].
  - pose proof (IH l r (k c50)) as K. destruct (drive n l r c50 _) as [[tr l'] q]. cbn.
    constructor; [intros c Q; inversion Q; reflexivity|exact K].
  - pose proof (IH l r p) as K. destruct (drive n l r c50 p) as [[tr l'] q]. cbn. constructor; [discriminate|exact K].
Qed.

(** So what C89 says of one client after the other does not hold of clients that share the
    repository: a new client trusts an older timestamp, snapshot and targets than the
    repository had, all under the same root, at a time when nothing has expired. *)
Theorem C102_sharing_rolls_back_refuted :
  exists (E : env) (cfg : nat -> config) (fuel : nat -> nat) (raw : bytes) (tr1 tr2 : list (nat * event))
         (e1 e2 : ephemeral) (t t2 : tuf) (new : list event),
  clients E cfg fuel (fun _ => FromRoot raw) (tr1 ++ tr2) /\ sharing ephemeral_new tr1 e1 /\ sharing e1 tr2 e2 /\
  (* at first, a client that is started resumes with timestamp 2 *)
  trusted_at (of_client 0 tr1) = Some t /\ of_client 2 tr1 = [] /\
  exec (construct E (cfg 2%nat) (fuel 2%nat) (FromRoot raw)) new (Ret (Ok t)) /\ in_memory e1 new e1 /\
  (* and after another one has run, with timestamp 1 *)
  trusted_at (of_client 2 (tr1 ++ tr2)) = Some t2 /\
  t_root t2 = t_root t /\ timestamp_version t = 2 /\ timestamp_version t2 = 1 /\
  snapshot_version t = 2 /\ snapshot_version t2 = 1 /\ targets_version t = 2 /\ targets_version t2 = 1 /\
  (forall i c, In (i, EvNow c) (tr1 ++ tr2) -> c = now 50) /\ in_time t (now 50).
Proof.
  exists Eo, (fun _ => default_config), (fun _ => 9%nat), "root1", shared_before, shared_after, (snd (fst oupdate)), (snd (fst third)),
    t_oupdate, t_third, (fst (fst third_alone)).
  destruct shared_runs as [H S]. split; [exact H|].
  assert (S0 : snd ostart = Ret (Ok (tuf_of_root root1))) by (vm_compute; reflexivity).
  assert (S1 : snd other = Ret (Ok (tuf_of_root root1))) by (vm_compute; reflexivity).
  assert (U0 : snd oupdate = Ret (t_oupdate, Ok true)) by (vm_compute; reflexivity).
  assert (U1 : snd other_old = Ret (t_other, Ok true)) by (vm_compute; reflexivity).
  assert (S2 : snd third = Ret (Ok t_third)) by (vm_compute; reflexivity).
  assert (S3 : snd third_alone = Ret (Ok t_oupdate)) by (vm_compute; reflexivity).
  assert (M : snd (fst other) = ephemeral_new) by (vm_compute; reflexivity).
  assert (M3 : snd (fst third_alone) = snd (fst oupdate)) by (vm_compute; reflexivity).
  destruct (drive_run _ _ _ _ _ _ S0) as [X0 Y0]. destruct (drive_run _ _ _ _ _ _ S1) as [X1 Y1].
  destruct (drive_run _ _ _ _ _ _ U0) as [X2 Y2]. destruct (drive_run _ _ _ _ _ _ U1) as [X3 Y3].
  destruct (drive_run _ _ _ _ _ _ S2) as [X4 Y4]. destruct (drive_run _ _ _ _ _ _ S3) as [X5 Y5].
  split. { unfold sharing, shared_before. rewrite !map_app, !untag. fold other in Y1. rewrite M in Y1.
           eapply in_memory_app; [exact Y1|eapply in_memory_app; [exact Y0|exact Y2]]. }
  split. { unfold sharing, shared_after. rewrite !map_app, !untag. eapply in_memory_app; [exact Y3|exact Y4]. }
  split; [vm_compute; reflexivity|]. split; [vm_compute; reflexivity|]. split; [exact X5|].
  split; [fold third_alone in Y5; rewrite M3 in Y5; exact Y5|].
  split; [vm_compute; reflexivity|]. split; [vm_compute; reflexivity|]. split; [vm_compute; reflexivity|].
  split; [vm_compute; reflexivity|]. split; [vm_compute; reflexivity|]. split; [vm_compute; reflexivity|].
  split; [vm_compute; reflexivity|]. split; [vm_compute; reflexivity|]. split.
  - intros i c I. unfold shared_before, shared_after in I. rewrite !in_app_iff, !in_map_iff in I.
    assert (G : forall A n l r (p : prog A), In (EvNow c) (fst (fst (drive n l r c50 p))) -> c = now 50).
    { intros A n l r p J. pose proof (drive_clock n l r p) as F. rewrite Forall_forall in F. exact (F _ J c eq_refl). }
    destruct I as [[(x & Q & I)|[(x & Q & I)|(x & Q & I)]]|[(x & Q & I)|(x & Q & I)]]; inversion Q; subst; exact (G _ _ _ _ _ I).
  - intros n [<-|[<-|[<-|[<-|[<-|[]]]]]]; vm_compute; (split; [reflexivity|]); intros x Q; inversion Q; reflexivity.
Qed.
Print Assumptions C102_sharing_rolls_back_refuted.

(** What the theorem above says of this run: of each client, and of what is stored. *)
Example C102_shared_case :
  trusted_at (of_client 1 (shared_before ++ shared_after)) = Some t_other /\
  timestamp_version t_other = 1 /\ timestamp_version t_oupdate = 2 /\
  lookup ("timestamp", VNone) (ep_metadata (snd (fst oupdate))) = Some "ts2" /\
  lookup ("timestamp", VNone) (ep_metadata (snd (fst third))) = Some "ts1".
Proof. vm_compute. repeat split; reflexivity. Qed.

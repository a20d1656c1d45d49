(** Proofs about the state machine of [Tuf]. *)
From Coq Require Import String List NArith ZArith Bool Permutation Lia.
From Verif Require Import Base BaseFacts Metadata Verify Paths Tuf SpecVerify SpecTuf VerifyProofs.
Import ListNotations.
Open Scope N_scope.

Lemma listed_select table ids : select_keys table ids = listed_keys table ids.
Proof.
  unfold select_keys. induction table as [|[i k] table IH]; cbn; auto.
  destruct (mem i ids) eqn:M; destruct (in_dec string_dec i ids) as [I|I]; cbn; rewrite ?IH; auto.
  - apply mem_In in M. contradiction.
  - apply mem_not_In in M. contradiction.
Qed.

Lemma verify_trusted E root r raw m :
  verify_signatures E r raw (rd_threshold (role_def_of root r))
     (select_keys (rm_keys root) (rd_key_ids (role_def_of root r))) = Ok m
  <-> trusted_by E root r raw m.
Proof. rewrite listed_select. apply verify_signatures_iff. Qed.

Lemma authentic_fun E r raw t1 t2 k1 k2 m1 m2 :
  authentic E r raw t1 k1 m1 -> authentic E r raw t2 k2 m2 -> m1 = m2.
Proof.
  intros (_ & a & b & c & A1 & A2 & _ & A3) (_ & a' & b' & c' & B1 & B2 & _ & B3). congruence.
Qed.

Lemma expired_false e n : expired e n = false <-> fresh e n.
Proof. unfold expired, fresh. rewrite Z.leb_gt. reflexivity. Qed.
Lemma expired_true e n : expired e n = true <-> ~ fresh e n.
Proof. rewrite <- expired_false. destruct (expired e n); split; intros; congruence. Qed.

(** *** Initial roots *)

Lemma from_keys_iff E raw th keys t :
  from_root_with_trusted_keys E raw th keys = Ok t <->
  exists root, authentic E Root raw th keys root /\ trusted_by E root Root raw root /\
               t = mkTuf root None None None [].
Proof.
  unfold from_root_with_trusted_keys. rewrite rbind_Ok. split.
  - intros (r1 & V1 & H). apply rbind_Ok in H as (r2 & V2 & H).
    apply verify_signatures_iff in V1. apply (verify_trusted E r1 Root) in V2.
    assert (r2 = r1) as -> by (eapply authentic_fun; eauto).
    exists r1. inversion H. auto.
  - intros (root & A & T & ->). exists root. split; [now apply verify_signatures_iff|].
    apply rbind_Ok. exists root. split; [now apply (verify_trusted E root Root)|]. reflexivity.
Qed.

Lemma from_trusted_iff E raw t :
  from_trusted_root E raw = Ok t <->
  exists sigs signed claimed root,
    ic_envelope (e_ic E) raw = Ok (sigs, signed) /\
    ic_deserialize (e_ic E) Root signed = Ok claimed /\
    trusted_by E claimed Root raw root /\
    t = mkTuf root None None None [].
Proof.
  unfold from_trusted_root. rewrite rbind_Ok. split.
  - intros ([sigs signed] & V1 & H). apply rbind_Ok in H as (cl & V2 & H).
    apply rbind_Ok in H as (r & V3 & H).
    apply (verify_trusted E cl Root) in V3. inversion H. eauto 10.
  - intros (sigs & signed & cl & root & H1 & H2 & H3 & ->).
    exists (sigs, signed). split; auto. apply rbind_Ok. exists cl. split; auto.
    apply rbind_Ok. exists root. split; auto. now apply (verify_trusted E cl Root).
Qed.

(** *** update_root *)

Ltac dresult H :=
  match goal with |- context [match ?x with Ok _ => _ | Err _ => _ end] => destruct x eqn:H end.

Lemma update_root_body E t raw v :
  (let? new_root := verify_signatures E Root raw (rd_threshold (rm_root (t_root t)))
                      (root_keys (t_root t)) in
   let? new_root := verify_signatures E Root raw (rd_threshold (rm_root new_root))
                      (root_keys new_root) in
   if (u32_max <=? rm_version (t_root t))%N then Err VerificationFailure
   else if negb (rm_version new_root =? rm_version (t_root t) + 1)%N then Err VerificationFailure
   else Ok new_root) = Ok v <-> root_step E (t_root t) raw v.
Proof.
  unfold root_step. rewrite rbind_Ok. split.
  - intros (r1 & V1 & H). apply rbind_Ok in H as (r2 & V2 & H).
    apply (verify_trusted E (t_root t) Root) in V1. apply (verify_trusted E r1 Root) in V2.
    assert (r2 = r1) as -> by (eapply authentic_fun; eauto).
    destruct (N.leb_spec u32_max (rm_version (t_root t))); [discriminate|].
    destruct (N.eqb_spec (rm_version r1) (rm_version (t_root t) + 1)); cbn in H; [|discriminate].
    inversion H; subst v. auto.
  - intros (T1 & T2 & Ev & Lt). exists v. split; [now apply (verify_trusted E (t_root t) Root)|].
    apply rbind_Ok. exists v. split; [now apply (verify_trusted E v Root)|].
    destruct (N.leb_spec u32_max (rm_version (t_root t))); [lia|].
    destruct (N.eqb_spec (rm_version v) (rm_version (t_root t) + 1)); cbn; [auto|contradiction].
Qed.

Lemma update_root_ok E t raw t' :
  update_root E t raw = (t', Ok tt) <->
  exists new, root_step E (t_root t) raw new /\ t' = mkTuf new None None None [].
Proof.
  unfold update_root. dresult H.
  - apply update_root_body in H. split.
    + intros Eq. inversion Eq. eauto.
    + intros (new & S & ->).
      assert (new = a) as -> by exact (authentic_fun E Root raw _ _ _ _ _ _ (proj1 S) (proj1 H)).
      reflexivity.
  - split; [discriminate|]. intros (new & S & ->). apply update_root_body in S. congruence.
Qed.

Lemma update_root_err E t raw t' e : update_root E t raw = (t', Err e) -> t' = t.
Proof. unfold update_root. dresult H; intros Eq; inversion Eq; auto. Qed.

(** *** update_timestamp *)

Lemma update_timestamp_spec E t c raw :
  (* accepted *)
  (forall new, timestamp_acceptable E t c raw new ->
     exists t', update_timestamp E t c raw = (t', Ok (Some new)) /\
       t_root t' = t_root t /\ t_timestamp t' = Some new /\ t_targets t' = t_targets t /\
       t_delegations t' = t_delegations t /\
       t_snapshot t' = (if snapshot_version t =? md_version (tm_snapshot new) then t_snapshot t else None)) /\
  (* the same version again *)
  (forall new, trusted_by E (t_root t) Timestamp raw new -> tm_version new = timestamp_version t ->
     update_timestamp E t c raw = (t, Ok None)) /\
  (* rollback *)
  (forall new, trusted_by E (t_root t) Timestamp raw new -> tm_version new < timestamp_version t ->
     update_timestamp E t c raw = (t, Err VerificationFailure)) /\
  (* expired *)
  (forall new, trusted_by E (t_root t) Timestamp raw new -> timestamp_version t < tm_version new ->
     ~ fresh (tm_expires new) (at_new c) ->
     exists t', update_timestamp E t c raw = (t', Err (ExpiredMetadata Timestamp)) /\
       t_root t' = t_root t /\ t_timestamp t' = t_timestamp t /\ t_targets t' = t_targets t /\
       t_delegations t' = t_delegations t /\
       t_snapshot t' = (if snapshot_version t =? md_version (tm_snapshot new) then t_snapshot t else None)) /\
  (* not authentic *)
  ((forall new, ~ trusted_by E (t_root t) Timestamp raw new) ->
     exists e, update_timestamp E t c raw = (t, Err e)).
Proof.
  unfold update_timestamp, timestamp_acceptable.
  change (trusted_timestamp_version t) with (timestamp_version t).
  change (trusted_snapshot_version t) with (snapshot_version t).
  assert (V : forall new, trusted_by E (t_root t) Timestamp raw new <->
     verify_signatures E Timestamp raw (rd_threshold (rm_timestamp (t_root t)))
       (timestamp_keys (t_root t)) = Ok new).
  { intros. symmetry. apply (verify_trusted E (t_root t) Timestamp). }
  repeat split.
  - intros new (T & L & F). apply V in T. rewrite T.
    rewrite (proj2 (N.compare_gt_iff _ _)) by lia.
    apply expired_false in F. rewrite F.
    destruct (snapshot_version t =? md_version (tm_snapshot new)); cbn; eexists; repeat split.
  - intros new T L. apply V in T. rewrite T, L, N.compare_refl. reflexivity.
  - intros new T L. apply V in T. rewrite T. rewrite (proj2 (N.compare_lt_iff _ _)) by lia. reflexivity.
  - intros new T L F. apply V in T. rewrite T. rewrite (proj2 (N.compare_gt_iff _ _)) by lia.
    apply expired_true in F. rewrite F.
    destruct (snapshot_version t =? md_version (tm_snapshot new)); cbn; eexists; repeat split.
  - intros N. destruct (verify_signatures _ _ _ _ _) as [new|e] eqn:H; [|eauto].
    exfalso. apply (N new). now apply V.
Qed.

(** Inversion: what each outcome of [update_timestamp] means. *)
Lemma update_timestamp_inv E t c raw t' res :
  update_timestamp E t c raw = (t', res) ->
  t_root t' = t_root t /\ t_targets t' = t_targets t /\ t_delegations t' = t_delegations t /\
  (t_snapshot t' = t_snapshot t \/ t_snapshot t' = None) /\
  match res with
  | Ok (Some new) =>
      timestamp_acceptable E t c raw new /\ t_timestamp t' = Some new /\
      t_snapshot t' = (if snapshot_version t =? md_version (tm_snapshot new) then t_snapshot t else None)
  | Ok None => t' = t /\ exists new, trusted_by E (t_root t) Timestamp raw new /\
                                    tm_version new = timestamp_version t
  | Err e => t_timestamp t' = t_timestamp t /\
             (t' = t \/ (e = ExpiredMetadata Timestamp /\ t_snapshot t' = None /\
                exists new, trusted_by E (t_root t) Timestamp raw new /\
                  timestamp_version t < tm_version new /\ ~ fresh (tm_expires new) (at_new c) /\
                  snapshot_version t <> md_version (tm_snapshot new)))
  end.
Proof.
  unfold update_timestamp, timestamp_acceptable.
  change (trusted_timestamp_version t) with (timestamp_version t).
  change (trusted_snapshot_version t) with (snapshot_version t).
  destruct (verify_signatures _ _ _ _ _) as [new|e] eqn:V.
  2:{ intros H. inversion H; subst. auto 10. }
  apply (verify_trusted E (t_root t) Timestamp) in V.
  destruct (N.compare_spec (tm_version new) (timestamp_version t)) as [Ev|L|G].
  - intros H. inversion H; subst. split; auto. repeat split; auto. eauto.
  - intros H. inversion H; subst. auto 10.
  - destruct (N.eqb_spec (snapshot_version t) (md_version (tm_snapshot new))) as [Es|Es];
      cbn [negb]; destruct (expired (tm_expires new) (at_new c)) eqn:X;
      intros H; inversion H; subst; cbn; (split; [reflexivity|]); (split; [reflexivity|]);
      (split; [reflexivity|]); (split; [auto|]).
    + auto.
    + apply expired_false in X. rewrite (proj2 (N.eqb_eq _ _) Es). auto 10.
    + split; auto. right. split; auto. split; auto. exists new. apply expired_true in X. auto.
    + apply expired_false in X. rewrite (proj2 (N.eqb_neq _ _) Es). auto 10.
Qed.

(** *** update_snapshot *)

Lemma lookup_remove_list (l : list string) (m : list (string * targets_metadata)) r :
  lookup r (fold_left (fun m r => remove r m) l m) = if mem r l then None else lookup r m.
Proof.
  revert m. induction l as [|x l IH]; intros m; cbn; auto.
  rewrite IH, lookup_remove. destruct (eqb r x) eqn:Ex; cbn [orb].
  - change (String.eqb r x) with (eqb r x). rewrite Ex. cbn. now destruct (mem r l).
  - change (String.eqb r x) with (eqb r x). rewrite Ex. reflexivity.
Qed.

(** The effect of [purge_delegations] per role: a delegation is dropped iff some
    entry of the snapshot lists the role with a lower version. *)
Lemma purge_delegations_lookup t s r :
  t_snapshot t = Some s ->
  lookup r (t_delegations (purge_delegations t)) =
  match lookup r (t_delegations t) with
  | None => None
  | Some d => if existsb (fun e => String.eqb r (fst e) && (md_version (snd e) <? tg_version d)) (sm_meta s)
              then None else Some d
  end.
Proof.
  intros Hs. unfold purge_delegations. rewrite Hs. cbn [t_delegations set_delegations].
  rewrite lookup_remove_list.
  destruct (lookup r (t_delegations t)) as [d|] eqn:L.
  - replace (mem r _) with (existsb (fun e => String.eqb r (fst e) && (md_version (snd e) <? tg_version d)) (sm_meta s));
      [now destruct (existsb _ _)|].
    induction (sm_meta s) as [|[x def] m IH]; cbn; auto.
    destruct (String.eqb_spec r x) as [<-|Nx].
    + rewrite L. destruct (md_version def <? tg_version d); cbn; [now rewrite String.eqb_refl|]. apply IH.
    + cbn. rewrite IH. destruct (lookup x (t_delegations t)) as [d'|]; auto.
      destruct (md_version def <? tg_version d'); auto.
      cbn. apply String.eqb_neq in Nx. now rewrite Nx.
  - now destruct (mem r _).
Qed.

Lemma purge_delegations_frame t :
  t_root (purge_delegations t) = t_root t /\ t_snapshot (purge_delegations t) = t_snapshot t /\
  t_targets (purge_delegations t) = t_targets t /\ t_timestamp (purge_delegations t) = t_timestamp t.
Proof. unfold purge_delegations. destruct (t_snapshot t) eqn:H; cbn; auto. Qed.

(** What an accepted snapshot does to the rest of the state. *)
Definition snapshot_installed (t t' : tuf) (new : snapshot_metadata) : Prop :=
  t_root t' = t_root t /\ t_timestamp t' = t_timestamp t /\ t_snapshot t' = Some new /\
  t_targets t' = (if targets_version t =? ver md_version (lookup "targets"%string (sm_meta new))
                  then t_targets t else None) /\
  forall r, lookup r (t_delegations t') =
    match lookup r (t_delegations t) with
    | None => None
    | Some d => if existsb (fun e => String.eqb r (fst e) && (md_version (snd e) <? tg_version d)) (sm_meta new)
                then None else Some d
    end.

Lemma update_snapshot_inv E t c raw t' res :
  update_snapshot E t c raw = (t', res) ->
  match res with
  | Ok true => exists new, snapshot_acceptable E t c raw new /\ snapshot_installed t t' new
  | Ok false => t' = t /\ fresh (rm_expires (t_root t)) (at_root c) /\
                exists ts, t_timestamp t = Some ts /\ fresh (tm_expires ts) (at_timestamp c) /\
                           snapshot_version t = md_version (tm_snapshot ts)
  | Err _ => t' = t /\ forall new, ~ snapshot_acceptable E t c raw new
  end.
Proof.
  unfold update_snapshot.
  change (trusted_snapshot_version t) with (snapshot_version t).
  change (trusted_targets_version t) with (targets_version t).
  dresult H.
  - destruct a as [new|].
    + intros Eq. inversion Eq; subst; clear Eq. exists new.
      apply rbind_Ok in H as (root & R & H). unfold trusted_root_unexpired in R.
      destruct (expired (rm_expires (t_root t)) (at_root c)) eqn:X; [discriminate|]. inversion R; subst root.
      apply rbind_Ok in H as (ts & TS & H). unfold trusted_timestamp_unexpired in TS.
      destruct (t_timestamp t) as [ts'|] eqn:Hts; [|discriminate].
      destruct (expired (tm_expires ts') (at_timestamp c)) eqn:X2; [discriminate|]. inversion TS; subst ts'.
      destruct (N.compare_spec (md_version (tm_snapshot ts)) (snapshot_version t)) as [|L|G]; try discriminate.
      apply rbind_Ok in H as (new' & V & H). apply (verify_trusted E (t_root t) Snapshot) in V.
      destruct (N.eqb_spec (sm_version new') (md_version (tm_snapshot ts))); cbn in H; [|discriminate].
      destruct (N.ltb_spec (sm_version new') (snapshot_version t)); [discriminate|].
      inversion H; subst new'. split.
      * split; [now apply expired_false|]. exists ts. apply expired_false in X2. auto 10.
      * set (t1 := if negb _ then set_targets None t else t).
        assert (F : t_root t1 = t_root t /\ t_timestamp t1 = t_timestamp t /\ t_delegations t1 = t_delegations t /\
                t_targets t1 = (if targets_version t =? ver md_version (lookup "targets"%string (sm_meta new))
                  then t_targets t else None)).
        { unfold t1, ver, from_role, role_name. destruct (targets_version t =? _); cbn; auto. }
        destruct F as (F1 & F2 & F3 & F4).
        destruct (purge_delegations_frame (set_snapshot (Some new) t1)) as (P1 & P2 & P3 & P4).
        split; [exact (eq_trans P1 F1)|]. split; [exact (eq_trans P4 F2)|]. split; [exact P2|].
        split; [exact (eq_trans P3 F4)|].
        intros r. pose proof (purge_delegations_lookup (set_snapshot (Some new) t1) new r eq_refl) as Q.
        cbn [t_delegations set_snapshot] in Q. rewrite F3 in Q. exact Q.
    + intros Eq. inversion Eq; subst. split; auto.
      apply rbind_Ok in H as (root & R & H). unfold trusted_root_unexpired in R.
      destruct (expired (rm_expires (t_root t')) (at_root c)) eqn:X; [discriminate|].
      apply rbind_Ok in H as (ts & TS & H). unfold trusted_timestamp_unexpired in TS.
      destruct (t_timestamp t') as [ts'|] eqn:Hts; [|discriminate].
      destruct (expired (tm_expires ts') (at_timestamp c)) eqn:X2; [discriminate|]. inversion TS; subst ts'.
      split; [now apply expired_false|]. exists ts. split; auto. split; [now apply expired_false|].
      destruct (N.compare_spec (md_version (tm_snapshot ts)) (snapshot_version t')) as [|L|G]; try discriminate; auto.
      apply rbind_Ok in H as (new' & V & H).
      destruct (negb _); [discriminate|]. destruct (_ <? _); discriminate.
  - intros Eq. inversion Eq; subst. split; auto.
    intros new (F & ts & Hts & F2 & L & T & Ev). 
    unfold trusted_root_unexpired, trusted_timestamp_unexpired in H.
    apply expired_false in F, F2. rewrite F, Hts, F2 in H. cbn [rbind] in H.
    rewrite (proj2 (N.compare_gt_iff _ _)) in H by lia.
    apply (verify_trusted E (t_root t') Snapshot) in T. cbn [role_def_of] in T.
    unfold snapshot_keys in H. rewrite T in H. cbn [rbind] in H.
    rewrite Ev, N.eqb_refl in H. cbn in H.
    destruct (N.ltb_spec (md_version (tm_snapshot ts)) (snapshot_version t')); [lia|discriminate].
Qed.

(** *** update_targets *)

Lemma update_targets_inv E t c raw t' res :
  update_targets E t c raw = (t', res) ->
  match res with
  | Ok true => exists new, targets_acceptable E t c raw new /\
      t' = mkTuf (t_root t) (t_snapshot t) (Some new) (t_timestamp t) (t_delegations t)
  | Ok false => t' = t /\ fresh (rm_expires (t_root t)) (at_root c) /\
      exists s desc, t_snapshot t = Some s /\ fresh (sm_expires s) (at_snapshot c) /\
        lookup "targets"%string (sm_meta s) = Some desc /\ targets_version t = md_version desc
  | Err _ => t' = t /\ forall new, ~ targets_acceptable E t c raw new
  end.
Proof.
  unfold update_targets.
  change (trusted_targets_version t) with (targets_version t).
  change (from_role Targets) with "targets"%string.
  dresult H.
  - apply rbind_Ok in H as (root & R & H). unfold trusted_root_unexpired in R.
    destruct (expired (rm_expires (t_root t)) (at_root c)) eqn:X; [discriminate|]. inversion R; subst root.
    apply rbind_Ok in H as (s & S & H). unfold trusted_snapshot_unexpired in S.
    destruct (t_snapshot t) as [s'|] eqn:Hs; [|discriminate].
    destruct (expired (sm_expires s') (at_snapshot c)) eqn:X2; [discriminate|]. inversion S; subst s'.
    destruct (lookup "targets"%string (sm_meta s)) as [desc|] eqn:Ld; [|discriminate].
    apply expired_false in X, X2.
    destruct (N.compare_spec (md_version desc) (targets_version t)) as [Ev|L|G]; try discriminate.
    + inversion H; subst a. intros Eq. inversion Eq; subst. split; auto. split; auto.
      exists s, desc. auto.
    + apply rbind_Ok in H as (new' & V & H). apply (verify_trusted E (t_root t) Targets) in V.
      destruct (N.eqb_spec (tg_version new') (md_version desc)); cbn in H; [|discriminate].
      destruct (expired (tg_expires new') (at_new c)) eqn:X3; [discriminate|].
      apply expired_false in X3.
      inversion H; subst a. intros Eq. inversion Eq; subst. exists new'.
      split; [|unfold set_targets; now rewrite Hs].
      split; auto. exists s, desc. auto 10.
  - intros Eq. inversion Eq; subst. split; auto.
    intros new (F & s & desc & Hs & F2 & Ld & L & T & Ev & F3).
    unfold trusted_root_unexpired, trusted_snapshot_unexpired in H.
    apply expired_false in F, F2, F3. rewrite F, Hs, F2 in H. cbn [rbind] in H.
    rewrite Ld in H. rewrite (proj2 (N.compare_gt_iff _ _)) in H by lia.
    apply (verify_trusted E (t_root t') Targets) in T. cbn [role_def_of] in T.
    unfold targets_keys in H. rewrite T in H. cbn [rbind] in H.
    rewrite Ev, N.eqb_refl, F3 in H. cbn in H. discriminate.
Qed.

(** *** update_delegation *)

Lemma find_role_first ds r d :
  find_role ds r = Some d <-> first_delegation (dgs_roles ds) r d.
Proof.
  unfold find_role, first_delegation. induction (dgs_roles ds) as [|x l IH]; cbn.
  - split; [discriminate|]. intros (l1 & l2 & Eq & _). destruct l1; discriminate.
  - destruct (String.eqb_spec (dg_role x) r) as [Er|Nr].
    + split.
      * intros H. inversion H; subst. exists [], l. split; [reflexivity|]. split; [auto|]. intros ? [].
      * intros (l1 & l2 & Eq & Ed & N). destruct l1 as [|y l1]; inversion Eq; subst; auto.
        exfalso. apply (N y); [now left|auto].
    + rewrite IH. split.
      * intros (l1 & l2 & -> & Ed & N). exists (x :: l1), l2. split; [reflexivity|]. split; [auto|].
        intros d' [<-|I]; auto.
      * intros (l1 & l2 & Eq & Ed & N). destruct l1 as [|y l1]; inversion Eq; subst; [contradiction|].
        exists l1, l2. split; auto. split; [auto|]. intros d' I. apply N. now right.
Qed.

Lemma find_threshold_iff E t parent r raw m :
  (exists threshold keys, find_delegation_threshold_and_keys t parent r = Some (threshold, keys) /\
     verify_signatures E Targets raw threshold keys = Ok m) <->
  exists p, trusted_parent t parent p /\ delegated_by E p r raw m.
Proof.
  unfold find_delegation_threshold_and_keys, trusted_parent, delegated_by.
  change (from_role Targets) with "targets"%string. split.
  - intros (th & ks & H & V).
    destruct (if String.eqb parent "targets" then t_targets t else lookup parent (t_delegations t))
      as [p|] eqn:Hp; [|discriminate].
    destruct (tg_delegations p) as [ds|] eqn:Hd; [|discriminate].
    destruct (find_role ds r) as [d|] eqn:Hf; [|discriminate].
    inversion H; subst. exists p. split.
    + destruct (String.eqb_spec parent "targets"); auto.
    + exists ds, d. split; auto. split; [now apply find_role_first|].
      rewrite <- listed_select. now apply verify_signatures_iff.
  - intros (p & Hp & ds & d & Hd & Hf & A). apply find_role_first in Hf.
    exists (dg_threshold d), (select_keys (dgs_keys ds) (dg_key_ids d)). split.
    + destruct Hp as [[-> Hp]|[Np Hp]].
      * cbn. now rewrite Hp, Hd, Hf.
      * apply String.eqb_neq in Np. now rewrite Np, Hp, Hd, Hf.
    + rewrite listed_select. now apply verify_signatures_iff.
Qed.

Lemma update_delegation_inv E t c parent r raw t' res :
  update_delegation E t c parent r raw = (t', res) ->
  match res with
  | Ok true => exists new, delegation_acceptable E t c parent r raw new /\
      t' = mkTuf (t_root t) (t_snapshot t) (t_targets t) (t_timestamp t)
                 (insert r new (t_delegations t))
  | Ok false => t' = t /\ exists new desc, delegation_context E t c parent r raw new desc /\
                  delegation_version t r = md_version desc
  | Err _ => t' = t /\ forall new, ~ delegation_acceptable E t c parent r raw new
  end.
Proof.
  unfold update_delegation.
  change (trusted_delegation_version t r) with (delegation_version t r).
  dresult H.
  - apply rbind_Ok in H as (root & R & H). unfold trusted_root_unexpired in R.
    destruct (expired (rm_expires (t_root t)) (at_root c)) eqn:X; [discriminate|]. inversion R; subst root.
    apply rbind_Ok in H as (s & S & H). unfold trusted_snapshot_unexpired in S.
    destruct (t_snapshot t) as [s'|] eqn:Hs; [|discriminate].
    destruct (expired (sm_expires s') (at_snapshot c)) eqn:X2; [discriminate|]. inversion S; subst s'.
    apply rbind_Ok in H as (g & G & H). unfold trusted_targets_unexpired in G.
    destruct (t_targets t) as [g'|] eqn:Hg; [|discriminate].
    destruct (expired (tg_expires g') (at_targets c)) eqn:X3; [discriminate|]. inversion G; subst g'.
    destruct (tg_delegations g) as [gds|] eqn:Hgd; [|discriminate].
    destruct (lookup r (sm_meta s)) as [desc|] eqn:Ld; [|discriminate].
    destruct (N.ltb_spec (md_version desc) (delegation_version t r)) as [|Ge]; [discriminate|].
    destruct (find_delegation_threshold_and_keys t parent r) as [[th ks]|] eqn:Hf; [|discriminate].
    apply rbind_Ok in H as (new & V & H).
    assert (exists p, trusted_parent t parent p /\ delegated_by E p r raw new) as (p & Hp & Hdp).
    { apply find_threshold_iff. eauto. }
    apply expired_false in X, X2, X3.
    assert (C : delegation_context E t c parent r raw new desc).
    { split; auto. exists s, g, p. assert (tg_delegations g <> None) by congruence. auto 12. }
    destruct (N.eqb_spec (delegation_version t r) (md_version desc)) as [Ev|Nv].
    + inversion H; subst a. intros Eq. inversion Eq; subst. split; auto. eauto.
    + destruct (N.eqb_spec (tg_version new) (md_version desc)); cbn in H; [|discriminate].
      destruct (expired (tg_expires new) (at_new c)) eqn:X4; [discriminate|].
      apply expired_false in X4.
      inversion H; subst a. intros Eq. inversion Eq; subst. exists new.
      split; [|unfold set_delegations; now rewrite Hs, Hg].
      exists desc. split; auto. split; [lia|]. auto.
  - intros Eq. inversion Eq; subst. split; auto.
    intros new (desc & (F & s & g & p & Hs & F2 & Hg & F3 & Hgd & Ld & Hp & Hdp) & L & Ev & F4).
    unfold trusted_root_unexpired, trusted_snapshot_unexpired, trusted_targets_unexpired in H.
    apply expired_false in F, F2, F3, F4. rewrite F, Hs, F2 in H. cbn [rbind] in H.
    rewrite Hg, F3 in H. cbn [rbind] in H.
    destruct (tg_delegations g); [|congruence]. rewrite Ld in H.
    destruct (N.ltb_spec (md_version desc) (delegation_version t' r)); [lia|].
    assert (exists threshold keys, find_delegation_threshold_and_keys t' parent r = Some (threshold, keys) /\
     verify_signatures E Targets raw threshold keys = Ok new) as (th & ks & Hf & V).
    { apply find_threshold_iff. eauto. }
    rewrite Hf, V in H. cbn [rbind] in H.
    destruct (N.eqb_spec (delegation_version t' r) (md_version desc)); [lia|].
    rewrite Ev, N.eqb_refl, F4 in H. discriminate.
Qed.

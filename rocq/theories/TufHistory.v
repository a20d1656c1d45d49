(** Proofs about histories of calls. *)
From Coq Require Import String List NArith ZArith Bool Lia.
From Verif Require Import Base BaseFacts Metadata Verify Paths Tuf SpecVerify SpecTuf VerifyProofs TufProofs.
Import ListNotations.
Open Scope N_scope.
Local Arguments insert : simpl never.
Local Arguments lookup : simpl never.

Lemma run_cons E t o ops : run E t (o :: ops) = run E (fst (step E t o)) ops.
Proof. reflexivity. Qed.
Lemma run_app E t a b : run E t (a ++ b) = run E (run E t a) b.
Proof. unfold run. apply fold_left_app. Qed.
Lemma run_snoc E t a o : run E t (a ++ [o]) = fst (step E (run E t a) o).
Proof. rewrite run_app. reflexivity. Qed.

(** A property preserved by every call holds along every history. *)
Lemma run_invariant E (P : tuf -> Prop) :
  (forall t o, P t -> P (fst (step E t o))) -> forall ops t, P t -> P (run E t ops).
Proof.
  intros Hs. induction ops as [|o ops IH]; intros t Ht; auto. rewrite run_cons. apply IH. auto.
Qed.

(** Only a successful [update_root] touches the root. *)
Lemma step_root E t o :
  match o with
  | OpRoot raw =>
      (t_root (fst (step E t o)) = t_root t /\ fst (step E t o) = t) \/
      (exists new, root_step E (t_root t) raw new /\ fst (step E t o) = mkTuf new None None None [])
  | _ => t_root (fst (step E t o)) = t_root t
  end.
Proof.
  destruct o as [raw|c raw|c raw|c raw|c p r raw]; cbn.
  - destruct (update_root E t raw) as [t' [[]|e]] eqn:H; cbn.
    + right. now apply update_root_ok in H.
    + left. apply update_root_err in H. now subst.
  - destruct (update_timestamp E t c raw) as [t' res] eqn:H; cbn.
    apply update_timestamp_inv in H. tauto.
  - destruct (update_snapshot E t c raw) as [t' res] eqn:H; cbn.
    apply update_snapshot_inv in H. destruct res as [[]|e].
    + destruct H as (new & _ & S). apply S.
    + destruct H as [-> _]; auto.
    + destruct H as [-> _]; auto.
  - destruct (update_targets E t c raw) as [t' res] eqn:H; cbn.
    apply update_targets_inv in H. destruct res as [[]|e].
    + destruct H as (new & _ & ->). reflexivity.
    + destruct H as [-> _]; auto.
    + destruct H as [-> _]; auto.
  - destruct (update_delegation E t c p r raw) as [t' res] eqn:H; cbn.
    apply update_delegation_inv in H. destruct res as [[]|e].
    + destruct H as (new & _ & ->). reflexivity.
    + destruct H as [-> _]; auto.
    + destruct H as [-> _]; auto.
Qed.

Lemma step_root_version E t o : rm_version (t_root t) <= rm_version (t_root (fst (step E t o))).
Proof.
  pose proof (step_root E t o) as H. destruct o; try (rewrite H; lia).
  destruct H as [[H _]|(new & S & H)]; rewrite H; [lia|]. cbn.
  destruct S as (_ & _ & S & _). lia.
Qed.

Lemma run_root_version E ops : forall t, rm_version (t_root t) <= rm_version (t_root (run E t ops)).
Proof.
  induction ops as [|o ops IH]; intros t; [cbn; lia|]. rewrite run_cons.
  pose proof (step_root_version E t o). specialize (IH (fst (step E t o))). lia.
Qed.

(** The same root version at both ends means no root was accepted in between. *)
Lemma step_root_same E t o :
  rm_version (t_root (fst (step E t o))) = rm_version (t_root t) ->
  t_root (fst (step E t o)) = t_root t /\
  match o with OpRoot _ => fst (step E t o) = t | _ => True end.
Proof.
  intros V. pose proof (step_root E t o) as H. destruct o; auto.
  destruct H as [[H1 H2]|(new & S & H)]; auto.
  exfalso. rewrite H in V. cbn in V. destruct S as (_ & _ & S & _). lia.
Qed.

Lemma run_split_root E t a b :
  rm_version (t_root (run E t (a ++ b))) = rm_version (t_root t) ->
  rm_version (t_root (run E t a)) = rm_version (t_root t) /\
  rm_version (t_root (run E (run E t a) b)) = rm_version (t_root (run E t a)).
Proof.
  rewrite run_app. intros H. pose proof (run_root_version E a t).
  pose proof (run_root_version E b (run E t a)). lia.
Qed.

(** *** C07, C08 *)

Lemma chain_trans_step E n r1 r2 r3 raw :
  root_step E r1 raw r2 -> root_chain E n r2 r3 -> root_chain E (S n) r1 r3.
Proof.
  intros S C. induction C.
  - econstructor; [constructor|eauto].
  - econstructor; eauto.
Qed.

Lemma run_chain E ops : forall t, exists n, root_chain E n (t_root t) (t_root (run E t ops)).
Proof.
  induction ops as [|o ops IH]; intros t; [exists O; constructor|]. rewrite run_cons.
  destruct (IH (fst (step E t o))) as (n & C).
  pose proof (step_root E t o) as H. destruct o; try (rewrite H in C at 1; eauto).
  destruct H as [[_ H]|(new & St & H)]; rewrite H in C |- *; [eauto|].
  cbn [t_root] in C. exists (S n). eapply chain_trans_step; eauto.
Qed.

Lemma chain_version E n r1 r2 : root_chain E n r1 r2 -> rm_version r2 = rm_version r1 + N.of_nat n.
Proof.
  induction 1; [lia|]. destruct H0 as (_ & _ & V & _). lia.
Qed.

Lemma chain_bounded E n r1 r2 : root_chain E n r1 r2 -> rm_version r1 <= u32_max -> rm_version r2 <= u32_max.
Proof. destruct 1; auto. destruct H0 as (_ & _ & V & B). lia. Qed.

(** *** C16, C19 *)

Definition inv (E : env) (t : tuf) : Prop :=
  versions_fit t /\ signed_under_root E t /\
  (forall ts, t_timestamp t = Some ts -> 0 < tm_version ts) /\
  (forall s, t_snapshot t = Some s -> 0 < sm_version s) /\
  (forall g, t_targets t = Some g -> 0 < tg_version g) /\
  (forall r d, lookup r (t_delegations t) = Some d -> 0 < tg_version d).

Lemma inv_root_only E r : inv E (mkTuf r None None None []).
Proof. repeat split; cbn; intros; try discriminate. Qed.

Lemma inv_no_snapshot_frame E t t' :
  inv E t -> t_root t' = t_root t -> t_timestamp t' = t_timestamp t -> t_targets t' = t_targets t ->
  t_delegations t' = t_delegations t -> (t_snapshot t' = t_snapshot t \/ t_snapshot t' = None) -> inv E t'.
Proof.
  destruct t as [a b c d e], t' as [a' b' c' d' e']; cbn. intros I -> -> -> -> [->| ->]; auto.
  destruct I as ((V1 & V2 & V3) & (S1 & S2 & S3) & P1 & P2 & P3 & P4); cbn in *.
  repeat split; cbn; intros; try discriminate; eauto.
Qed.

Lemma step_inv E t o : inv E t -> inv E (fst (step E t o)).
Proof.
  intros I. destruct o as [raw|c raw|c raw|c raw|c p r raw]; cbn.
  - destruct (update_root E t raw) as [t' [[]|e]] eqn:H; cbn.
    + apply update_root_ok in H as (new & S & ->). apply inv_root_only.
    + apply update_root_err in H. now subst.
  - destruct (update_timestamp E t c raw) as [t' res] eqn:H; cbn.
    apply update_timestamp_inv in H as (Hr & Hg & Hd & Hs & H).
    destruct res as [[new|]|e].
    + destruct H as ((T & Lt & F) & Hts & Hs').
      destruct I as ((V1 & V2 & V3) & (S1 & S2 & S3) & P1 & P2 & P3 & P4).
      assert (K : forall s, t_snapshot t' = Some s -> t_snapshot t = Some s).
      { intros s Es. destruct Hs as [Hs|Hs]; congruence. }
      split; [|split; [|repeat split]].
      * split; [|split].
        -- intros s Es. exists new. split; auto.
           pose proof (K s Es) as Es'. unfold snapshot_version in Hs'. rewrite Es' in Hs'. cbn in Hs'.
           destruct (N.eqb_spec (sm_version s) (md_version (tm_snapshot new))); congruence.
        -- intros s g Es Eg. rewrite Hg in Eg. eauto.
        -- intros s r d desc Es Ed El. rewrite Hd in Ed. eauto.
      * split; [|split]; rewrite Hr.
        -- intros ts Ets. rewrite Hts in Ets. inversion Ets; subst. eauto.
        -- intros s Es. eauto.
        -- intros g Eg. rewrite Hg in Eg. eauto.
      * intros ts Ets. rewrite Hts in Ets. inversion Ets; subst. lia.
      * eauto.
      * intros g Eg. rewrite Hg in Eg. eauto.
      * intros r d Ed. rewrite Hd in Ed. eauto.
    + now destruct H as [-> _].
    + destruct H as [Hts _]. eapply inv_no_snapshot_frame; eauto.
  - destruct (update_snapshot E t c raw) as [t' res] eqn:H; cbn.
    apply update_snapshot_inv in H. destruct res as [[]|e].
    2:{ now destruct H as [-> _]. } 2:{ now destruct H as [-> _]. }
    destruct H as (new & (F & ts & Hts & F2 & Lt & T & Ev) & (Hr & Hts' & Hs' & Hg & Hd)).
    destruct I as ((V1 & V2 & V3) & (S1 & S2 & S3) & P1 & P2 & P3 & P4).
    assert (Kg : forall g, t_targets t' = Some g -> t_targets t = Some g).
    { intros g Eg. rewrite Hg in Eg. destruct (_ =? _) in Eg; congruence. }
    assert (Kd : forall r d, lookup r (t_delegations t') = Some d -> lookup r (t_delegations t) = Some d).
    { intros r d Ed. rewrite Hd in Ed. destruct (lookup r (t_delegations t)); [|discriminate].
      destruct (existsb _ _) in Ed; congruence. }
    split; [|split; [|repeat split]].
    + split; [|split].
      * intros s Es. rewrite Hs' in Es. inversion Es; subst s. exists ts. split; congruence.
      * intros s g Es Eg. rewrite Hs' in Es. inversion Es; subst s.
        pose proof (Kg g Eg) as Eg'. rewrite Hg in Eg. unfold targets_version in Eg. rewrite Eg' in Eg.
        cbn [ver] in Eg. destruct (N.eqb_spec (tg_version g) (ver md_version (lookup "targets"%string (sm_meta new)))) as [Q|];
          [|discriminate].
        specialize (P3 g Eg'). destruct (lookup "targets"%string (sm_meta new)) as [desc|]; cbn in Q; [eauto|lia].
      * intros s r d desc Es Ed El. rewrite Hs' in Es. inversion Es; subst s.
        pose proof (Kd r d Ed) as Ed'. rewrite Hd, Ed' in Ed.
        destruct (existsb _ _) eqn:X in Ed; [discriminate|].
        apply lookup_In in El.
        destruct (N.ltb_spec (md_version desc) (tg_version d)) as [L|]; [|lia].
        exfalso. apply Bool.not_true_iff_false in X. apply X. apply existsb_exists.
        exists (r, desc). split; auto. cbn. rewrite String.eqb_refl. cbn. now apply N.ltb_lt.
    + split; [|split]; rewrite Hr.
      * intros ts' Ets. rewrite Hts' in Ets. eauto.
      * intros s Es. rewrite Hs' in Es. inversion Es; subst s. eauto.
      * eauto.
    + intros ts' Ets. rewrite Hts' in Ets. eauto.
    + intros s Es. rewrite Hs' in Es. inversion Es; subst s. lia.
    + eauto.
    + eauto.
  - destruct (update_targets E t c raw) as [t' res] eqn:H; cbn.
    apply update_targets_inv in H. destruct res as [[]|e].
    2:{ now destruct H as [-> _]. } 2:{ now destruct H as [-> _]. }
    destruct H as (new & (F & s & desc & Hs & F2 & Ld & Lt & T & Ev & F3) & ->).
    destruct I as ((V1 & V2 & V3) & (S1 & S2 & S3) & P1 & P2 & P3 & P4).
    split; [|split; [|repeat split]]; cbn; auto.
    + split; [|split]; cbn; auto.
      intros s' g Es Eg. inversion Eg; subst g. rewrite Hs in Es. inversion Es; subst s'. eauto.
    + split; [|split]; cbn; auto. intros g Eg. inversion Eg; subst g. eauto.
    + intros g Eg. inversion Eg; subst g. lia.
  - destruct (update_delegation E t c p r raw) as [t' res] eqn:H; cbn.
    apply update_delegation_inv in H. destruct res as [[]|e].
    2:{ now destruct H as [-> _]. } 2:{ now destruct H as [-> _]. }
    destruct H as (new & (desc & C & Lt & Ev & F) & ->).
    destruct C as (F0 & s & g & pm & Hs & F2 & Hg & F3 & Hgd & Ld & Hp & Hdp).
    destruct I as ((V1 & V2 & V3) & (S1 & S2 & S3) & P1 & P2 & P3 & P4).
    split; [|split; [|repeat split]]; cbn; auto.
    + split; [|split]; cbn; auto.
      intros s' r' d' desc' Es Ed El. rewrite Hs in Es. inversion Es; subst s'.
      destruct (string_dec r' r) as [->|Nr].
      * rewrite lookup_insert_eq in Ed. inversion Ed; subst d'. rewrite Ld in El. inversion El; subst. lia.
      * rewrite lookup_insert_neq in Ed by auto. eauto.
    + split; [|split]; cbn; auto.
    + intros r' d' Ed. destruct (string_dec r' r) as [->|Nr].
      * rewrite lookup_insert_eq in Ed. inversion Ed; subst d'. lia.
      * rewrite lookup_insert_neq in Ed by auto. eauto.
Qed.

Lemma initial_shape E t : initial E t -> exists r, t = mkTuf r None None None [].
Proof.
  intros [(raw & th & ks & H)|(raw & H)].
  - apply from_keys_iff in H as (r & _ & _ & ->). eauto.
  - apply from_trusted_iff in H as (a & b & c & r & _ & _ & _ & ->). eauto.
Qed.

Lemma reachable_inv E t : reachable E t -> inv E t.
Proof.
  intros (t0 & ops & I & ->). apply run_invariant; [intros; now apply step_inv|].
  apply initial_shape in I as (r & ->). apply inv_root_only.
Qed.

Lemma reachable_run E t ops : reachable E t -> reachable E (run E t ops).
Proof. intros (t0 & ops0 & I & ->). exists t0, (ops0 ++ ops)%list. split; auto. symmetry. apply run_app. Qed.

(** *** C12 *)

Lemma step_timestamp_version E t o :
  rm_version (t_root (fst (step E t o))) = rm_version (t_root t) ->
  timestamp_version t <= timestamp_version (fst (step E t o)) /\
  (forall ts, t_timestamp t = Some ts ->
     (t_timestamp (fst (step E t o)) = Some ts \/ timestamp_version t < timestamp_version (fst (step E t o)))).
Proof.
  intros V. destruct (step_root_same E t o V) as [_ SR].
  assert (K : t_timestamp (fst (step E t o)) = t_timestamp t \/
              timestamp_version t < timestamp_version (fst (step E t o))).
  { destruct o as [raw|c raw|c raw|c raw|c p r raw].
    - rewrite SR. auto.
    - cbn. destruct (update_timestamp E t c raw) as [t' res] eqn:H; cbn.
      apply update_timestamp_inv in H as (Hr & Hg & Hd & Hs & H).
      destruct res as [[new|]|e].
      + destruct H as ((_ & Lt & _) & Hts & _). right. unfold timestamp_version at 2. rewrite Hts. exact Lt.
      + destruct H as [-> _]; auto.
      + destruct H; auto.
    - cbn. destruct (update_snapshot E t c raw) as [t' res] eqn:H; cbn.
      apply update_snapshot_inv in H. destruct res as [[]|e].
      + destruct H as (new & _ & S). left. apply S.
      + now destruct H as [-> _]; auto.
      + now destruct H as [-> _]; auto.
    - cbn. destruct (update_targets E t c raw) as [t' res] eqn:H; cbn.
      apply update_targets_inv in H. destruct res as [[]|e].
      + destruct H as (new & _ & ->). auto.
      + now destruct H as [-> _]; auto.
      + now destruct H as [-> _]; auto.
    - cbn. destruct (update_delegation E t c p r raw) as [t' res] eqn:H; cbn.
      apply update_delegation_inv in H. destruct res as [[]|e].
      + destruct H as (new & _ & ->). auto.
      + now destruct H as [-> _]; auto.
      + now destruct H as [-> _]; auto. }
  destruct K as [K|K].
  - unfold timestamp_version. rewrite K. split; [lia|auto].
  - split; [lia|auto].
Qed.

Lemma run_timestamp_version E ops : forall t,
  rm_version (t_root (run E t ops)) = rm_version (t_root t) ->
  timestamp_version t <= timestamp_version (run E t ops).
Proof.
  induction ops as [|o ops IH]; intros t V; [cbn; lia|].
  change (o :: ops)%list with ([o] ++ ops)%list in *.
  destruct (run_split_root E t [o] ops V) as [V1 V2]. rewrite run_app.
  destruct (step_timestamp_version E t o V1) as [L _]. specialize (IH _ V2). cbn in *. lia.
Qed.

(** *** C20: where a trusted delegation comes from *)

Lemma step_delegation_origin E t o r d :
  lookup r (t_delegations (fst (step E t o))) = Some d ->
  lookup r (t_delegations t) = Some d \/
  exists c parent raw, o = OpDelegation c parent r raw /\ delegation_acceptable E t c parent r raw d.
Proof.
  destruct o as [raw|c raw|c raw|c raw|c p r' raw]; cbn.
  - destruct (update_root E t raw) as [t' [[]|e]] eqn:H; cbn.
    + apply update_root_ok in H as (new & S & ->). cbn. discriminate.
    + apply update_root_err in H. subst. auto.
  - destruct (update_timestamp E t c raw) as [t' res] eqn:H; cbn.
    apply update_timestamp_inv in H as (_ & _ & Hd & _). rewrite Hd. auto.
  - destruct (update_snapshot E t c raw) as [t' res] eqn:H; cbn.
    apply update_snapshot_inv in H. destruct res as [[]|e].
    + destruct H as (new & _ & (_ & _ & _ & _ & Hd)). rewrite Hd.
      destruct (lookup r (t_delegations t)); [|discriminate].
      destruct (existsb _ _); [discriminate|]. auto.
    + destruct H as [-> _]; auto.
    + destruct H as [-> _]; auto.
  - destruct (update_targets E t c raw) as [t' res] eqn:H; cbn.
    apply update_targets_inv in H. destruct res as [[]|e].
    + destruct H as (new & _ & ->). auto.
    + destruct H as [-> _]; auto.
    + destruct H as [-> _]; auto.
  - destruct (update_delegation E t c p r' raw) as [t' res] eqn:H; cbn.
    apply update_delegation_inv in H. destruct res as [[]|e].
    + destruct H as (new & A & ->). cbn. destruct (string_dec r r') as [->|N].
      * rewrite lookup_insert_eq. intros Q. inversion Q; subst. right. eauto 6.
      * rewrite lookup_insert_neq by auto. auto.
    + destruct H as [-> _]; auto.
    + destruct H as [-> _]; auto.
Qed.

(** Root unchanged while a delegation survives. *)
Lemma step_keeps_root_if_delegation E t o r d :
  lookup r (t_delegations (fst (step E t o))) = Some d -> t_root (fst (step E t o)) = t_root t.
Proof.
  intros L. pose proof (step_root E t o) as H. destruct o; auto.
  destruct H as [[H _]|(new & S & H)]; auto. rewrite H in L. discriminate.
Qed.

Lemma delegation_origin E t0 ops r d :
  t_delegations t0 = [] -> lookup r (t_delegations (run E t0 ops)) = Some d ->
  exists before c parent raw after,
    ops = (before ++ OpDelegation c parent r raw :: after)%list /\
    delegation_acceptable E (run E t0 before) c parent r raw d /\
    t_root (run E t0 before) = t_root (run E t0 ops).
Proof.
  intros H0. induction ops as [|o ops IH] using rev_ind.
  - cbn [run fold_left]. rewrite H0. discriminate.
  - rewrite run_snoc. intros L.
    pose proof (step_keeps_root_if_delegation _ _ _ _ _ L) as Hr.
    destruct (step_delegation_origin _ _ _ _ _ L) as [L'|(c & p & raw & -> & A)].
    + destruct (IH L') as (b & c & p & raw & a & -> & A & R).
      exists b, c, p, raw, (a ++ [o])%list. rewrite <- app_assoc. split; [reflexivity|]. split; auto. congruence.
    + exists ops, c, p, raw, []. split; auto.
Qed.

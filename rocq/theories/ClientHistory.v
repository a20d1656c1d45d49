(** * Proofs about the history of a client: C43, C44, C47, C50, C55, C56, C57 *)
From Coq Require Import String List NArith ZArith Bool Lia.
From Verif Require Import Base BaseFacts Metadata Verify Paths Tuf SpecVerify SpecTuf TufProofs TufHistory
     Reader SpecReader ReaderProofs Repo Client SpecClient ClientLogic ClientProofs ClientUpdates ClientWalk.
Import ListNotations.
Open Scope string_scope.
Open Scope list_scope.
Open Scope N_scope.

Lemma along_D0 E cfg c h tr : along (rely (D0 E cfg c)) h tr.
Proof. intros pre e post _. exact I. Qed.

Lemma history_sound E cfg fuel c tr : history E cfg fuel c tr -> along (sound_event E cfg c) [] tr.
Proof.
  intros [tr' q X|tr' t k tr2 q L X].
  - now destruct (wp_sound (D0 E cfg c) _ _ _ X _ _ (wp_construct E cfg c fuel) (along_D0 _ _ _ _ _)).
  - apply life_sound in L as [G T].
    destruct (wp_sound (D0 E cfg c) _ _ _ X _ _ (wp_call E cfg c fuel t k tr' T) (along_D0 _ _ _ _ _)) as [G' _].
    now apply along_app.
Qed.

Lemma life_history E cfg fuel c tr t : life E cfg fuel c tr t -> history E cfg fuel c tr.
Proof. intros [tr' t' X|tr' t' k tr2 q L X]; [now apply history_new in X|econstructor 2; eauto]. Qed.

(** The trusted metadata at any time come from the first ones by updates. *)
Definition follows (E : env) (c : ctor) (t : tuf) : Prop :=
  exists raw t0 ops, first_trust E c raw t0 /\ t = run E t0 ops.

Lemma sound_follows E cfg c tr : along (sound_event E cfg c) [] tr -> forall t, trusted_at tr = Some t -> follows E c t.
Proof.
  induction tr as [|e tr IH] using rev_ind; intros A t T; [discriminate|].
  apply along_app in A as [A1 A2]. rewrite trusted_at_snoc in T.
  destruct e; try (now apply IH). inversion T; subst. clear T.
  specialize (A2 [] (EvPut t) [] eq_refl). rewrite app_nil_r in A2. destruct A2 as (raw & res & place & Ch).
  destruct Ch as [raw t' N F _|t1 o t' res path v T1 S _ _ _].
  - exists raw, t', []. auto.
  - destruct (IH A1 t1 T1) as (raw0 & t0 & ops & F & ->). exists raw0, t0, (ops ++ [o]). split; [exact F|].
    rewrite run_snoc, S. reflexivity.
Qed.

Lemma first_initial E c raw t : first_trust E c raw t -> initial E t.
Proof.
  destruct c; cbn; intros F; [right; eauto|right; destruct F as [<- F]; eauto|left; eauto].
Qed.

Lemma follows_reachable E c t : follows E c t -> reachable E t.
Proof. intros (raw & t0 & ops & F & ->). exists t0, ops. split; [eapply first_initial; eauto|reflexivity]. Qed.

(** *** C50: what each change means *)

Lemma step_root_change E t o t' res : step E t o = (t', res) -> t_root t' <> t_root t ->
  exists raw, o = OpRoot raw /\ root_step E (t_root t) raw (t_root t').
Proof.
  intros S N. destruct o as [raw|c raw|c raw|c raw|c p r raw]; cbn in S.
  - exists raw. split; [reflexivity|]. destruct (update_root E t raw) as [t1 [[]|e]] eqn:U; inversion S; subst.
    + apply update_root_ok in U as (new & St & ->). exact St.
    + apply update_root_err in U as ->. now destruct N.
  - destruct (update_timestamp E t c raw) as [t1 r] eqn:U. inversion S; subst. apply update_timestamp_inv in U as (R & _). congruence.
  - destruct (update_snapshot E t c raw) as [t1 r] eqn:U. inversion S; subst. apply update_snapshot_inv in U.
    destruct res as [[]|]; [destruct U as (new & _ & (R & _)); congruence|destruct U; congruence..].
  - destruct (update_targets E t c raw) as [t1 r] eqn:U. inversion S; subst. apply update_targets_inv in U.
    destruct res as [[]|]; [destruct U as (new & _ & ->); now destruct N|destruct U; congruence..].
  - destruct (update_delegation E t c p r raw) as [t1 r'] eqn:U. inversion S; subst. apply update_delegation_inv in U.
    destruct res as [[]|]; [destruct U as (new & _ & ->); now destruct N|destruct U; congruence..].
Qed.

Lemma step_timestamp_change E t o t' res ts : step E t o = (t', res) -> t_timestamp t' = Some ts ->
  t_timestamp t' <> t_timestamp t ->
  exists c raw, o = OpTimestamp c raw /\ timestamp_acceptable E t c raw ts.
Proof.
  intros S T N. destruct o as [raw|c raw|c raw|c raw|c p r raw]; cbn in S.
  - destruct (update_root E t raw) as [t1 [[]|e]] eqn:U; inversion S; subst.
    + apply update_root_ok in U as (new & St & ->). discriminate.
    + apply update_root_err in U as ->. now destruct N.
  - exists c, raw. split; [reflexivity|]. destruct (update_timestamp E t c raw) as [t1 r] eqn:U.
    inversion S; subst. apply update_timestamp_inv in U as (_ & _ & _ & _ & U). destruct r as [[new|]|e].
    + destruct U as (A & T' & _). rewrite T in T'. inversion T'; subst. exact A.
    + destruct U as [-> _]. now destruct N.
    + destruct U as [U _]. now destruct N.
  - destruct (update_snapshot E t c raw) as [t1 r] eqn:U. inversion S; subst. apply update_snapshot_inv in U.
    destruct res as [[]|]; [destruct U as (new & _ & (_ & R & _)); congruence|destruct U; congruence..].
  - destruct (update_targets E t c raw) as [t1 r] eqn:U. inversion S; subst. apply update_targets_inv in U.
    destruct res as [[]|]; [destruct U as (new & _ & ->); now destruct N|destruct U; congruence..].
  - destruct (update_delegation E t c p r raw) as [t1 r'] eqn:U. inversion S; subst. apply update_delegation_inv in U.
    destruct res as [[]|]; [destruct U as (new & _ & ->); now destruct N|destruct U; congruence..].
Qed.

Lemma step_snapshot_change E t o t' res s : step E t o = (t', res) -> t_snapshot t' = Some s ->
  t_snapshot t' <> t_snapshot t ->
  exists c raw, o = OpSnapshot c raw /\ snapshot_acceptable E t c raw s.
Proof.
  intros S T N. destruct o as [raw|c raw|c raw|c raw|c p r raw]; cbn in S.
  - destruct (update_root E t raw) as [t1 [[]|e]] eqn:U; inversion S; subst.
    + apply update_root_ok in U as (new & St & ->). discriminate.
    + apply update_root_err in U as ->. now destruct N.
  - destruct (update_timestamp E t c raw) as [t1 r] eqn:U. inversion S; subst.
    apply update_timestamp_inv in U as (_ & _ & _ & [U|U] & _); congruence.
  - exists c, raw. split; [reflexivity|]. destruct (update_snapshot E t c raw) as [t1 r] eqn:U. inversion S; subst.
    apply update_snapshot_inv in U.
    destruct res as [[]|]; [destruct U as (new & A & I)|destruct U; congruence..].
    assert (s = new) as ->; [|exact A]. unfold snapshot_installed in I. intuition congruence.
  - destruct (update_targets E t c raw) as [t1 r] eqn:U. inversion S; subst. apply update_targets_inv in U.
    destruct res as [[]|]; [destruct U as (new & _ & ->); now destruct N|destruct U; congruence..].
  - destruct (update_delegation E t c p r raw) as [t1 r'] eqn:U. inversion S; subst. apply update_delegation_inv in U.
    destruct res as [[]|]; [destruct U as (new & _ & ->); now destruct N|destruct U; congruence..].
Qed.

Lemma step_targets_change E t o t' res g : step E t o = (t', res) -> t_targets t' = Some g ->
  t_targets t' <> t_targets t ->
  exists c raw, o = OpTargets c raw /\ targets_acceptable E t c raw g.
Proof.
  intros S T N. destruct o as [raw|c raw|c raw|c raw|c p r raw]; cbn in S.
  - destruct (update_root E t raw) as [t1 [[]|e]] eqn:U; inversion S; subst.
    + apply update_root_ok in U as (new & St & ->). discriminate.
    + apply update_root_err in U as ->. now destruct N.
  - destruct (update_timestamp E t c raw) as [t1 r] eqn:U. inversion S; subst.
    apply update_timestamp_inv in U as (_ & U & _); congruence.
  - destruct (update_snapshot E t c raw) as [t1 r] eqn:U. inversion S; subst. apply update_snapshot_inv in U.
    destruct res as [[]|]; [|destruct U; congruence..]. destruct U as (new & A & I).
    destruct I as (_ & _ & _ & I & _). destruct (_ =? _); congruence.
  - exists c, raw. split; [reflexivity|]. destruct (update_targets E t c raw) as [t1 r] eqn:U. inversion S; subst.
    apply update_targets_inv in U. destruct res as [[]|]; [|destruct U; congruence..].
    destruct U as (new & A & ->). cbn in T. inversion T; subst. exact A.
  - destruct (update_delegation E t c p r raw) as [t1 r'] eqn:U. inversion S; subst. apply update_delegation_inv in U.
    destruct res as [[]|]; [destruct U as (new & _ & ->); now destruct N|destruct U; congruence..].
Qed.

Lemma step_delegation_change E t o t' res r g : step E t o = (t', res) -> lookup r (t_delegations t') = Some g ->
  lookup r (t_delegations t') <> lookup r (t_delegations t) ->
  exists c parent raw, o = OpDelegation c parent r raw /\ delegation_acceptable E t c parent r raw g.
Proof.
  intros S T N. destruct o as [raw|c raw|c raw|c raw|c p r' raw]; cbn in S.
  - destruct (update_root E t raw) as [t1 [[]|e]] eqn:U; inversion S; subst.
    + apply update_root_ok in U as (new & St & ->). discriminate.
    + apply update_root_err in U as ->. now destruct N.
  - destruct (update_timestamp E t c raw) as [t1 r1] eqn:U. inversion S; subst.
    apply update_timestamp_inv in U as (_ & _ & U & _). congruence.
  - destruct (update_snapshot E t c raw) as [t1 r1] eqn:U. inversion S; subst. apply update_snapshot_inv in U.
    destruct res as [[]|]; [|destruct U; congruence..]. destruct U as (new & A & (_ & _ & _ & _ & I)).
    specialize (I r). destruct (lookup r (t_delegations t)); [|congruence].
    destruct (existsb _ _); congruence.
  - destruct (update_targets E t c raw) as [t1 r1] eqn:U. inversion S; subst. apply update_targets_inv in U.
    destruct res as [[]|]; [destruct U as (new & _ & ->); now destruct N|destruct U; congruence..].
  - destruct (update_delegation E t c p r' raw) as [t1 r1] eqn:U. inversion S; subst. apply update_delegation_inv in U.
    destruct res as [[]|]; [|destruct U; congruence..]. destruct U as (new & A & ->). cbn [t_delegations] in T, N.
    destruct (string_dec r r') as [->|D].
    + rewrite lookup_insert_eq in T. inversion T; subst. exists c, p, raw. auto.
    + rewrite lookup_insert_neq in N by auto. now destruct N.
Qed.

(** *** Later states follow from earlier ones *)

Lemma sound_run E cfg c h t tr : trusted_at h = Some t -> along (sound_event E cfg c) h tr ->
  exists ops, tuf_after t tr = run E t ops.
Proof.
  intros T. induction tr as [|e tr IH] using rev_ind; intros A; [now exists []|].
  apply along_app in A as [A B]. destruct (IH A) as [ops Eq]. apply along_cons in B as [B _].
  rewrite tuf_after_app. destruct e as [| | | | | |t']; cbn [tuf_after]; try (now exists ops).
  destruct B as (raw & res & place & Ch). inversion Ch as [? ? T0|t1 o t2 res' path v T1 St]; subst.
  - rewrite (tuf_after_trusted _ _ _ T) in T0. discriminate.
  - rewrite (tuf_after_trusted _ _ _ T) in T1. inversion T1; subst t1. rewrite Eq in St.
    exists (ops ++ [o]). now rewrite run_snoc, St.
Qed.

(** *** C55: trusted targets metadata were fresh when they were accepted *)

Lemma targets_origin E t0 ops g : t_targets t0 = None -> t_targets (run E t0 ops) = Some g ->
  exists before c raw after, ops = before ++ OpTargets c raw :: after /\
    targets_acceptable E (run E t0 before) c raw g.
Proof.
  intros H0. induction ops as [|o ops IH] using rev_ind; intros T.
  - cbn in T. congruence.
  - rewrite run_snoc in T. destruct (step E (run E t0 ops) o) as [t' res] eqn:S. cbn in T.
    assert (D : t_targets t' = t_targets (run E t0 ops) \/ t_targets t' <> t_targets (run E t0 ops)).
    { destruct o as [raw|c raw|c raw|c raw|c p r raw]; cbn in S.
      - destruct (update_root E (run E t0 ops) raw) as [t1 [[]|e]] eqn:U; inversion S; subst.
        + apply update_root_ok in U as (new & St & ->). discriminate.
        + apply update_root_err in U as ->. auto.
      - destruct (update_timestamp _ _ _ _) as [t1 r] eqn:U. inversion S; subst.
        apply update_timestamp_inv in U as (_ & U & _); auto.
      - destruct (update_snapshot _ _ _ _) as [t1 r] eqn:U. inversion S; subst. apply update_snapshot_inv in U.
        destruct res as [[]|]; [|destruct U as [-> _]; auto..]. destruct U as (new & A & (_ & _ & _ & I & _)).
        destruct (_ =? _); [auto|congruence].
      - destruct (update_targets _ _ _ _) as [t1 r] eqn:U. inversion S; subst.
        apply update_targets_inv in U. destruct res as [[]|]; [|destruct U as [-> _]; auto..].
        destruct U as (new & (_ & s & d & _ & _ & _ & V & _ & V' & _) & ->). right. cbn in *.
        unfold targets_version, ver in V. destruct (t_targets (run E t0 ops)); [|discriminate].
        intros Q. inversion Q; subst. lia.
      - destruct (update_delegation _ _ _ _ _ _) as [t1 r'] eqn:U. inversion S; subst. apply update_delegation_inv in U.
        destruct res as [[]|]; [destruct U as (new & _ & ->); auto|destruct U as [-> _]; auto..]. }
    destruct D as [D|D].
    + rewrite D in T. destruct (IH T) as (before & c & raw & after & -> & A).
      exists before, c, raw, (after ++ [o]). rewrite <- app_assoc. auto.
    + destruct (step_targets_change _ _ _ _ _ _ S T D) as (c & raw & -> & A). exists ops, c, raw, []. auto.
Qed.

(** *** C47: panics of construction and [update] *)

Section Panics.
  Variable E : env.
  Variable cfg : config.

  Definition DP : demands :=
    mkDemands (fun _ _ => True) (fun _ _ => True)
      (fun h => exists t, trusted_at h = Some t /\ u32_max <= rm_version (t_root t)) True.

  Lemma DP_calm h e : (forall s v max hash ans, e <> EvFetchMeta s "root" v max hash ans) -> guar DP h e.
  Proof. intros _. exact I. Qed.
  Lemma along_DP h tr : along (rely DP) h tr.
  Proof. intros pre e post _. exact I. Qed.

  Lemma DP_fetch s r path v max hash t h : trusted_at h = Some t ->
    wp DP (fetch_metadata E s r path v max hash) (fun h' _ => trusted_at h' = Some t) h.
  Proof. intros T. apply wp_fetch_any; [auto|]. intros ans e _. split; [exact I|]. now rewrite trusted_at_snoc. Qed.
  Lemma DP_store r path v raw t h : trusted_at h = Some t ->
    wp DP (store_metadata r path v raw) (fun h' _ => trusted_at h' = Some t) h.
  Proof. intros T. apply wp_store_any; [auto|]. intros ans e _. split; [exact I|]. now rewrite trusted_at_snoc. Qed.

  Lemma root_loop_panics fuel s persist : forall t updated h, trusted_at h = Some t ->
    wp DP (root_loop E cfg fuel s persist t updated) (fun _ _ => True) h.
  Proof.
    induction fuel as [|fuel IH]; intros t updated h T; [exact I|]. cbn [root_loop].
    destruct (N.leb_spec u32_max (rm_version (t_root t))) as [L|L]; [exists t; auto|].
    eapply (wp_seq DP _ _ (fun h' _ => trusted_at h' = Some t)); [now apply DP_fetch|]. intros h1 [raw|e] T1; [|destruct e; exact I].
    destruct (update_root E t raw) as [t' r] eqn:U. cbn [wp]. intros _. split; [exact I|].
    assert (T2 : trusted_at (h1 ++ [EvPut t']) = Some t') by exact (trusted_at_snoc _ (EvPut t')).
    destruct r as [[]|e]; [|exact I]. destruct persist; [|now apply IH].
    eapply (wp_seq DP _ _ (fun h' _ => trusted_at h' = Some t')); [now apply DP_store|]. intros h2 [u|e] T3; [|exact I].
    eapply (wp_seq DP _ _ (fun h' _ => trusted_at h' = Some t')); [now apply DP_store|]. intros h3 [u'|e] T4; [|exact I]. now apply IH.
  Qed.

  Lemma update_panics fuel t h : trusted_at h = Some t -> wp DP (update E cfg fuel t) (fun _ _ => True) h.
  Proof. intros T. apply calm_update; [exact DP_calm|]. now apply root_loop_panics. Qed.
  Lemma new_panics fuel t h : trusted_at h = Some t ->
    wp DP (client_new E cfg fuel t) (fun _ r => exists t', r = Ok t') h.
  Proof. intros T. apply calm_new; [exact DP_calm|]. now apply root_loop_panics. Qed.

  Lemma construct_panics fuel c : wp DP (construct E cfg fuel c) (fun _ _ => True) [].
  Proof.
    assert (N : forall t h, trusted_at h = Some t -> wp DP (client_new E cfg fuel t) (fun _ _ => True) h).
    { intros t h T. eapply wp_mono; [|now apply new_panics]. auto. }
    assert (P : forall t h, trusted_at (h ++ [EvPut t]) = Some t).
    { intros t h. exact (trusted_at_snoc _ (EvPut t)). }
    destruct c as [|raw|v th keys]; cbn [construct].
    - unfold with_trusted_local. eapply (wp_seq DP _ _ (fun _ _ => True)).
      { apply wp_fetch_any; [auto|]. intros ans e _. now split. }
      intros h [raw|e] _; [|exact I]. destruct (from_trusted_root E raw) as [t|e]; [|exact I].
      cbn [wp]. intros _. split; [exact I|]. apply N, P.
    - unfold with_trusted_root. destruct (from_trusted_root E raw) as [t|e]; [|exact I].
      cbn [wp]. intros _. split; [exact I|]. apply N. exact (P t []).
    - unfold with_trusted_root_keys. eapply (wp_seq DP _ _ (fun _ _ => True)).
      { unfold fetch_metadata_from_local_or_else_remote. eapply (wp_seq DP _ _ (fun _ _ => True)).
        { apply wp_fetch_any; [auto|]. intros ans e _. now split. }
        intros h [raw|e] _; [exact I|]. destruct e; try exact I. eapply (wp_seq DP _ _ (fun _ _ => True)).
        { apply wp_fetch_any; [auto|]. intros ans e _. now split. }
        intros h2 [raw|e] _; exact I. }
      intros h [[fetched raw]|e] _; [|exact I].
      destruct (from_root_with_trusted_keys E raw th keys) as [t|e]; [|exact I].
      cbn [wp]. intros _. split; [exact I|]. destruct fetched; [|apply N, P].
      eapply (wp_seq DP _ _ (fun h' _ => trusted_at h' = Some t)); [apply DP_store, P|]. intros h2 [u|e] T; [|exact I]. now apply N.
  Qed.
End Panics.

(** *** C55: a successful update saw an unexpired root *)

Definition root_was_fresh : list event -> tuf * result bool -> Prop := fun h x =>
  forall b, snd x = Ok b -> exists c, In (EvNow c) h /\ fresh (rm_expires (t_root (fst x))) (at_root c).

Lemma update_root_fresh E cfg fuel s persist t h : wp DT (update_root_with_repos E cfg fuel s persist t) root_was_fresh h.
Proof.
  unfold update_root_with_repos. eapply (wp_seq DT _ _ (fun _ _ => True)); [now apply wp_DT|].
  intros h1 [t1 [u|e]] _; [|intros b Q; discriminate]. cbn [wp]. intros cl _. split; [exact I|].
  destruct (expired _ _) eqn:X; [intros b Q; discriminate|]. intros b _. exists cl.
  split; [apply in_app_iff; right; now left|]. now apply expired_false.
Qed.

(** The later parts of an update keep the root. *)
Lemma fetch_more E s r path v max hash (P : list event -> Prop) h : P h -> (forall h e, P h -> P (h ++ [e])) ->
  wp DT (fetch_metadata E s r path v max hash) (fun h' _ => P h') h.
Proof. intros H1 H2. apply wp_fetch_any; [auto|]. intros ans e _. split; [exact I|auto]. Qed.
Lemma store_more r path v raw (P : list event -> Prop) h : P h -> (forall h e, P h -> P (h ++ [e])) ->
  wp DT (store_metadata r path v raw) (fun h' _ => P h') h.
Proof. intros H1 H2. apply wp_store_any; [auto|]. intros ans e _. split; [exact I|auto]. Qed.

Section KeepRoot.
  Variable E : env.
  Variable cfg : config.
  Variable root : root_metadata.
  Variable P : list event -> Prop.
  Hypothesis more : forall h e, P h -> P (h ++ [e]).

  Definition keeps : list event -> tuf * result bool -> Prop := fun h x => P h /\ t_root (fst x) = root.

  Lemma keeps_persist r path raw (persist : bool) t' h : P h -> t_root t' = root ->
    wp DT (if persist then do r1 <- store_metadata r path VNone raw in
             match r1 with Err e => Ret (t', Err e) | Ok _ => Ret (t', Ok true) end
           else Ret (t', Ok true)) keeps h.
  Proof.
    intros H R. destruct persist; [|now split]. eapply (wp_seq DT _ _ (fun h' _ => P h')); [now apply store_more|]. intros h2 [u|e] H2; now split.
  Qed.

  Lemma step_keeps t o t' res : step E t o = (t', res) -> (forall raw, o <> OpRoot raw) -> t_root t = root -> t_root t' = root.
  Proof.
    intros S N R. pose proof (step_root E t o) as Q. rewrite S in Q. destruct o as [raw| | | |]; cbn [fst] in Q; congruence.
  Qed.

  Lemma keeps_timestamp s persist t h : P h -> t_root t = root ->
    wp DT (update_timestamp_with_repos E cfg s persist t) keeps h.
  Proof.
    intros H R. unfold update_timestamp_with_repos. eapply (wp_seq DT _ _ (fun h' _ => P h')); [now apply fetch_more|].
    intros h1 [raw|e] H1; [|now split]. cbn [wp]. intros cl _. split; [exact I|].
    destruct (update_timestamp E t cl raw) as [t' r] eqn:U. cbn [wp]. intros _. split; [exact I|].
    apply update_timestamp_inv in U as (R' & _). rewrite R in R'.
    destruct r as [[x|]|e]; [apply keeps_persist; auto|split; auto|split; auto].
  Qed.
  Lemma keeps_snapshot s persist consistent t h : P h -> t_root t = root ->
    wp DT (update_snapshot_with_repos E s persist consistent t) keeps h.
  Proof.
    intros H R. unfold update_snapshot_with_repos. destruct (t_timestamp t); [|now split].
    destruct (_ <=? _); [now split|]. destruct (hash_preference _); [|now split].
    eapply (wp_seq DT _ _ (fun h' _ => P h')); [now apply fetch_more|].
    intros h1 [raw|e] H1; [|now split]. cbn [wp]. intros cl _. split; [exact I|].
    destruct (update_snapshot E t cl raw) as [t' r] eqn:U. cbn [wp]. intros _. split; [exact I|].
    assert (R' : t_root t' = root).
    { apply (step_keeps t (OpSnapshot cl raw) t' r); auto; discriminate. }
    destruct r as [[|]|e]; [apply keeps_persist; auto|split; auto|split; auto].
  Qed.
  Lemma keeps_targets s persist consistent t h : P h -> t_root t = root ->
    wp DT (update_targets_with_repos E s persist consistent t) keeps h.
  Proof.
    intros H R. unfold update_targets_with_repos. destruct (t_snapshot t); [|now split].
    destruct (lookup _ _); [|now split].
    destruct (_ <=? _); [now split|]. destruct (hash_preference _); [|now split].
    eapply (wp_seq DT _ _ (fun h' _ => P h')); [now apply fetch_more|].
    intros h1 [raw|e] H1; [|now split]. cbn [wp]. intros cl _. split; [exact I|].
    destruct (update_targets E t cl raw) as [t' r] eqn:U. cbn [wp]. intros _. split; [exact I|].
    assert (R' : t_root t' = root).
    { apply (step_keeps t (OpTargets cl raw) t' r); auto; discriminate. }
    destruct r as [[|]|e]; [apply keeps_persist; auto|split; auto|split; auto].
  Qed.
End KeepRoot.

Lemma update_fresh E cfg fuel t h : wp DT (update E cfg fuel t) root_was_fresh h.
Proof.
  unfold update. eapply wp_seq; [apply update_root_fresh|]. intros h1 [t1 [r|e]] F; [|intros b Q; discriminate].
  specialize (F r eq_refl). cbn [fst] in F. destruct F as (cl & I1 & F).
  set (P := fun h : list event => In (EvNow cl) h).
  assert (M : forall h e, P h -> P (h ++ [e])) by (intros h2 e H; apply in_app_iff; now left).
  eapply wp_seq; [apply (keeps_timestamp E cfg (t_root t1) P M); auto|].
  intros h2 [t2 [ts|e]] [P2 R2]; [|intros b Q; discriminate]. cbn [fst] in R2.
  eapply wp_seq; [apply (keeps_snapshot E (t_root t1) P M); auto|].
  intros h3 [t3 [sn|e]] [P3 R3]; [|intros b Q; discriminate]. cbn [fst] in R3.
  eapply wp_seq; [apply (keeps_targets E (t_root t1) P M); auto|].
  intros h4 [t4 [ta|e]] [P4 R4]; [|intros b Q; discriminate]. cbn [fst] in R4.
  intros b _. exists cl. split; [exact P4|]. cbn [fst]. now rewrite R4.
Qed.

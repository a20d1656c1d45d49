(** * What depends on the time: the proofs for C110 *)
From Coq Require Import String List NArith ZArith Bool Lia.
From Verif Require Import Base BaseFacts Metadata Verify Paths Tuf SpecTuf Reader Repo Client ClientLogic SpecTime.
Import ListNotations.
Open Scope string_scope.
Open Scope list_scope.

Lemma expired_mono e a b : (a <= b)%Z -> expired e b = false -> expired e a = false.
Proof. unfold expired. rewrite !Z.leb_gt. lia. Qed.

Section Methods.
  Context (E : env).

  Lemma root_mono c c' t r : no_later c c' -> trusted_root_unexpired c' t = Ok r -> trusted_root_unexpired c t = Ok r.
  Proof.
    intros (L & _). unfold trusted_root_unexpired. destruct (expired _ (at_root c')) eqn:X; [discriminate|].
    now rewrite (expired_mono _ _ _ L X).
  Qed.
  Lemma snapshot_mono c c' t r : no_later c c' -> trusted_snapshot_unexpired c' t = Ok r -> trusted_snapshot_unexpired c t = Ok r.
  Proof.
    intros (_ & L & _). unfold trusted_snapshot_unexpired. destruct (t_snapshot t); [|discriminate]. destruct (expired _ (at_snapshot c')) eqn:X; [discriminate|].
    now rewrite (expired_mono _ _ _ L X).
  Qed.
  Lemma targets_mono c c' t r : no_later c c' -> trusted_targets_unexpired c' t = Ok r -> trusted_targets_unexpired c t = Ok r.
  Proof.
    intros (_ & _ & L & _). unfold trusted_targets_unexpired. destruct (t_targets t); [|discriminate]. destruct (expired _ (at_targets c')) eqn:X; [discriminate|].
    now rewrite (expired_mono _ _ _ L X).
  Qed.
  Lemma timestamp_mono c c' t r : no_later c c' -> trusted_timestamp_unexpired c' t = Ok r -> trusted_timestamp_unexpired c t = Ok r.
  Proof.
    intros (_ & _ & _ & L & _). unfold trusted_timestamp_unexpired. destruct (t_timestamp t); [|discriminate]. destruct (expired _ (at_timestamp c')) eqn:X; [discriminate|].
    now rewrite (expired_mono _ _ _ L X).
  Qed.
  Lemma new_mono c c' e : no_later c c' -> expired e (at_new c') = false -> expired e (at_new c) = false.
  Proof. intros (_ & _ & _ & _ & L & _). now apply expired_mono. Qed.

  Lemma update_timestamp_mono c c' t raw t' x : no_later c c' ->
    update_timestamp E t c' raw = (t', Ok x) -> update_timestamp E t c raw = (t', Ok x).
  Proof.
    intros L. unfold update_timestamp. destruct (verify_signatures _ _ _ _ _) as [new|e]; [|discriminate].
    destruct (_ ?= _)%N; auto. destruct (expired _ (at_new c')) eqn:X; [discriminate|]. now rewrite (new_mono _ _ _ L X).
  Qed.
  Lemma update_snapshot_mono c c' t raw t' x : no_later c c' ->
    update_snapshot E t c' raw = (t', Ok x) -> update_snapshot E t c raw = (t', Ok x).
  Proof.
    intros L. unfold update_snapshot, rbind. destruct (trusted_root_unexpired c' t) as [root|e] eqn:R; [|discriminate].
    rewrite (root_mono _ _ _ _ L R). destruct (trusted_timestamp_unexpired c' t) as [ts|e] eqn:T; [|discriminate].
    rewrite (timestamp_mono _ _ _ _ L T). auto.
  Qed.
  Lemma update_targets_mono c c' t raw t' x : no_later c c' ->
    update_targets E t c' raw = (t', Ok x) -> update_targets E t c raw = (t', Ok x).
  Proof.
    intros L. unfold update_targets, rbind. destruct (trusted_root_unexpired c' t) as [root|e] eqn:R; [|discriminate].
    rewrite (root_mono _ _ _ _ L R). destruct (trusted_snapshot_unexpired c' t) as [s|e] eqn:T; [|discriminate].
    rewrite (snapshot_mono _ _ _ _ L T). destruct (lookup _ _) as [d|]; [|discriminate]. destruct (_ ?= _)%N; auto.
    destruct (verify_signatures _ _ _ _ _) as [new|e]; [|discriminate]. destruct (negb _); [discriminate|].
    destruct (expired _ (at_new c')) eqn:X; [discriminate|]. now rewrite (new_mono _ _ _ L X).
  Qed.
  Lemma update_delegation_mono c c' t p r raw t' x : no_later c c' ->
    update_delegation E t c' p r raw = (t', Ok x) -> update_delegation E t c p r raw = (t', Ok x).
  Proof.
    intros L. unfold update_delegation, rbind. destruct (trusted_root_unexpired c' t) as [root|e] eqn:R; [|discriminate].
    rewrite (root_mono _ _ _ _ L R). destruct (trusted_snapshot_unexpired c' t) as [s|e] eqn:T; [|discriminate].
    rewrite (snapshot_mono _ _ _ _ L T). destruct (trusted_targets_unexpired c' t) as [g|e] eqn:G; [|discriminate].
    rewrite (targets_mono _ _ _ _ L G). destruct (tg_delegations g) as [ds|]; [|discriminate]. destruct (lookup _ _) as [d|]; [|discriminate].
    destruct (_ <? _)%N; [discriminate|]. destruct (find_delegation_threshold_and_keys t p r) as [[th ks]|]; [|discriminate].
    destruct (verify_signatures _ _ _ _ _) as [new|e]; [|discriminate]. destruct (_ =? _)%N; auto. destruct (negb _); [discriminate|].
    destruct (expired _ (at_new c')) eqn:X; [discriminate|]. now rewrite (new_mono _ _ _ L X).
  Qed.

  Lemma step_mono o o' t t' b : earlier_call o o' -> step E t o' = (t', Ok b) -> step E t o = (t', Ok b).
  Proof.
    intros L. destruct L as [raw|c c' raw L|c c' raw L|c c' raw L|c c' p r raw L]; cbn [step]; auto.
    - destruct (update_timestamp E t c' raw) as [t1 [x|e]] eqn:U; [|discriminate]. now rewrite (update_timestamp_mono _ _ _ _ _ _ L U).
    - now apply update_snapshot_mono.
    - now apply update_targets_mono.
    - now apply update_delegation_mono.
  Qed.
  Lemma succeed_mono ops ops' : Forall2 earlier_call ops ops' -> forall t t', succeed E t ops' t' -> succeed E t ops t'.
  Proof.
    induction 1 as [|o o' ops ops' L _ IH]; intros t t' S; [exact S|]. inversion S; subst.
    econstructor; [eapply step_mono; eassumption|now apply IH].
  Qed.
End Methods.

(** ** Programs *)
Section Programs.
  Definition keeps {A} (good : A -> Prop) (p p0 : prog A) : Prop :=
    forall tr a, exec p tr (Ret a) -> good a -> forall tr0, earlier tr0 tr -> exec p0 tr0 (Ret a).
  Definition never {A} (good : A -> Prop) (p : prog A) : Prop := forall tr a, exec p tr (Ret a) -> ~ good a.

  Lemma keeps_ret {A} (good : A -> Prop) a : keeps good (Ret a) (Ret a).
  Proof. intros tr b X G tr0 L. inversion X; subst. inversion L; subst. constructor. Qed.
  Lemma keeps_never {A} (good : A -> Prop) p p0 : never good p -> keeps good p p0.
  Proof. intros N tr a X G. now apply N in X. Qed.
  Lemma keeps_panic {A} (good : A -> Prop) p0 : keeps good Panic p0.
  Proof. intros tr a X. inversion X. Qed.
  Lemma keeps_fuel {A} (good : A -> Prop) p0 : keeps good OutOfFuel p0.
  Proof. intros tr a X. inversion X. Qed.
  Lemma keeps_fetch {A} (good : A -> Prop) s p v max hash k k0 : (forall ans, keeps good (k ans) (k0 ans)) ->
    keeps good (FetchMeta s p v max hash k) (FetchMeta s p v max hash k0).
  Proof.
    intros K tr a X G tr0 L. inversion X; subst. inversion L as [|e ? e' ? Q L']; subst. destruct e; try discriminate; try easy.
    rewrite Q. constructor. eapply K; eassumption.
  Qed.
  Lemma keeps_store {A} (good : A -> Prop) p v b k k0 : (forall ans, keeps good (k ans) (k0 ans)) ->
    keeps good (StoreMeta p v b k) (StoreMeta p v b k0).
  Proof.
    intros K tr a X G tr0 L. inversion X; subst. inversion L as [|e ? e' ? Q L']; subst. destruct e; try discriminate; try easy.
    rewrite Q. constructor. eapply K; eassumption.
  Qed.
  Lemma keeps_put {A} (good : A -> Prop) t p p0 : keeps good p p0 -> keeps good (Put t p) (Put t p0).
  Proof.
    intros K tr a X G tr0 L. inversion X; subst. inversion L as [|e ? e' ? Q L']; subst. destruct e; try discriminate; try easy.
    rewrite Q. constructor. eapply K; eassumption.
  Qed.
  Lemma keeps_now {A} (good : A -> Prop) k k0 : (forall c0 c, no_later c0 c -> keeps good (k c) (k0 c0)) ->
    keeps good (Now k) (Now k0).
  Proof.
    intros K tr a X G tr0 L. inversion X; subst. inversion L as [|e ? e' ? Q L']; subst. destruct e; try discriminate.
    constructor. eapply K; eassumption.
  Qed.
  Lemma earlier_app tr0 a b : earlier tr0 (a ++ b) -> exists a0 b0, tr0 = a0 ++ b0 /\ earlier a0 a /\ earlier b0 b.
  Proof. intros L. apply Forall2_app_inv_r in L as (a0 & b0 & A & B & ->). exists a0, b0. now repeat split. Qed.
  Lemma keeps_bind {A B} (good1 : A -> Prop) (good : B -> Prop) p p0 (f f0 : A -> prog B) :
    keeps good1 p p0 -> (forall a, good1 a -> keeps good (f a) (f0 a)) -> (forall a, good1 a \/ never good (f a)) ->
    keeps good (bind p f) (bind p0 f0).
  Proof.
    intros Kp Kf N tr b X G tr0 L. apply exec_bind_ret in X as (a & tr1 & tr2 & -> & X1 & X2).
    apply earlier_app in L as (a0 & b0 & -> & L1 & L2). destruct (N a) as [Ga|Na]; [|now apply Na in X2].
    eapply exec_bind; [eapply Kp; eassumption|]. eapply Kf; eassumption.
  Qed.

  Context (E : env) (cfg : config).
  Definition fine {A} (x : tuf * result A) : Prop := is_ok (snd x) = true.
  Definition any {A} (_ : A) : Prop := True.

  Lemma keeps_fetch_metadata s r p v max hash : keeps any (fetch_metadata E s r p v max hash) (fetch_metadata E s r p v max hash).
  Proof. unfold fetch_metadata. destruct (repo_check r p); [|apply keeps_ret]. apply keeps_fetch. intros ans. apply keeps_ret. Qed.
  Lemma keeps_store_metadata r p v b : keeps any (store_metadata r p v b) (store_metadata r p v b).
  Proof. unfold store_metadata. destruct (repo_check r p); [|apply keeps_ret]. apply keeps_store. intros ans. apply keeps_ret. Qed.
  Lemma never_err {A} (t : tuf) e : never fine (Ret (t, Err e) : prog (tuf * result A)).
  Proof. intros tr a X G. inversion X; subst. discriminate. Qed.
  Lemma never_put {A} (t : tuf) (p : prog (tuf * result A)) : never fine p -> never fine (Put t p).
  Proof. intros N tr a X G. inversion X; subst. eapply N; eassumption. Qed.

  Lemma keeps_root_loop fuel s persist : forall t updated, keeps fine (root_loop E cfg fuel s persist t updated) (root_loop E cfg fuel s persist t updated).
  Proof.
    induction fuel as [|f IH]; intros t updated; [apply keeps_fuel|]. cbn [root_loop].
    destruct (_ <=? _)%N; [apply keeps_panic|].
    apply (keeps_bind any); [apply keeps_fetch_metadata| |intros a; now left].
    intros res _. destruct res as [raw|e]; [|destruct e; apply keeps_ret].
    destruct (update_root E t raw) as [t' [[]|e]]; [|apply keeps_put, keeps_ret]. apply keeps_put.
    destruct persist; [|apply IH].
    apply (keeps_bind any); [apply keeps_store_metadata| |intros a; now left]. intros [[]|e] _; [|apply keeps_ret].
    apply (keeps_bind any); [apply keeps_store_metadata| |intros a; now left]. intros [[]|e] _; [|apply keeps_ret]. apply IH.
  Qed.
  Lemma keeps_root fuel s persist t : keeps fine (update_root_with_repos E cfg fuel s persist t) (update_root_with_repos E cfg fuel s persist t).
  Proof.
    unfold update_root_with_repos. apply (keeps_bind fine); [apply keeps_root_loop| |].
    - intros [t' [u|e]] G; [|discriminate]. apply keeps_now. intros c0 c L. destruct (expired _ (at_root c)) eqn:X.
      + apply keeps_never, never_err.
      + rewrite (expired_mono _ _ _ (proj1 L) X). apply keeps_ret.
    - intros [t' [u|e]]; [now left|right; apply never_err].
  Qed.
  Lemma keeps_timestamp s persist t : keeps fine (update_timestamp_with_repos E cfg s persist t) (update_timestamp_with_repos E cfg s persist t).
  Proof.
    unfold update_timestamp_with_repos. apply (keeps_bind any); [apply keeps_fetch_metadata| |intros a; now left].
    intros [raw|e1] _; [|apply keeps_ret]. apply keeps_now. intros c0 c L.
    destruct (update_timestamp E t c raw) as [t' [x|e2]] eqn:U; [|apply keeps_never, never_put, never_err].
    rewrite (update_timestamp_mono _ _ _ _ _ _ _ L U). apply keeps_put. destruct x; [|apply keeps_ret]. destruct persist; [|apply keeps_ret].
    apply (keeps_bind any); [apply keeps_store_metadata| |intros a; now left]. intros [[]|e3] _; apply keeps_ret.
  Qed.
  Lemma keeps_snapshot s persist con t : keeps fine (update_snapshot_with_repos E s persist con t) (update_snapshot_with_repos E s persist con t).
  Proof.
    unfold update_snapshot_with_repos. destruct (t_timestamp t); [|apply keeps_ret]. destruct (_ <=? _)%N; [apply keeps_ret|].
    destruct (hash_preference _) as [hash|e]; [|apply keeps_ret].
    apply (keeps_bind any); [apply keeps_fetch_metadata| |intros a; now left].
    intros [raw|e1] _; [|apply keeps_ret]. apply keeps_now. intros c0 c L.
    destruct (update_snapshot E t c raw) as [t' [x|e2]] eqn:U; [|apply keeps_never, never_put, never_err].
    rewrite (update_snapshot_mono _ _ _ _ _ _ _ L U). apply keeps_put. destruct x; [|apply keeps_ret]. destruct persist; [|apply keeps_ret].
    apply (keeps_bind any); [apply keeps_store_metadata| |intros a; now left]. intros [[]|e3] _; apply keeps_ret.
  Qed.
  Lemma keeps_targets s persist con t : keeps fine (update_targets_with_repos E s persist con t) (update_targets_with_repos E s persist con t).
  Proof.
    unfold update_targets_with_repos. destruct (t_snapshot t); [|apply keeps_ret]. destruct (lookup _ _); [|apply keeps_ret].
    destruct (_ <=? _)%N; [apply keeps_ret|]. destruct (hash_preference _) as [hash|e]; [|apply keeps_ret].
    apply (keeps_bind any); [apply keeps_fetch_metadata| |intros a; now left].
    intros [raw|e1] _; [|apply keeps_ret]. apply keeps_now. intros c0 c L.
    destruct (update_targets E t c raw) as [t' [x|e2]] eqn:U; [|apply keeps_never, never_put, never_err].
    rewrite (update_targets_mono _ _ _ _ _ _ _ L U). apply keeps_put. destruct x; [|apply keeps_ret]. destruct persist; [|apply keeps_ret].
    apply (keeps_bind any); [apply keeps_store_metadata| |intros a; now left]. intros [[]|e3] _; apply keeps_ret.
  Qed.
  Lemma keeps_update fuel t : keeps fine (update E cfg fuel t) (update E cfg fuel t).
  Proof.
    unfold update.
    apply (keeps_bind fine); [apply keeps_root| |intros [t' [u|e]]; [now left|right; apply never_err]]. intros [t1 [r|e]] G; [|discriminate].
    apply (keeps_bind fine); [apply keeps_timestamp| |intros [t' [u|e]]; [now left|right; apply never_err]]. intros [t2 [ts|e]] G2; [|discriminate].
    apply (keeps_bind fine); [apply keeps_snapshot| |intros [t' [u|e]]; [now left|right; apply never_err]]. intros [t3 [sn|e]] G3; [|discriminate].
    apply (keeps_bind fine); [apply keeps_targets| |intros [t' [u|e]]; [now left|right; apply never_err]]. intros [t4 [ta|e]] G4; [|discriminate].
    apply keeps_ret.
  Qed.
End Programs.

(** ** Looking for targets *)
Section Lookup.
  Context (t : tuf) (c c' : clock).
  Hypothesis L : no_later c c'.
  Hypothesis N : none_expires t c c'.

  Lemma same_loop recur recur' dt depth target : (forall a b d e f, recur a b d e f = recur' a b d e f) ->
    forall parents roles visited, lookup_loop recur t c dt depth target parents roles visited = lookup_loop recur' t c' dt depth target parents roles visited.
  Proof.
    intros R parents. induction roles as [|d rest IH]; intros visited; [reflexivity|]. cbn [lookup_loop].
    destruct (mem _ _); [reflexivity|]. destruct (_ && _); [reflexivity|]. destruct (lookup (dg_role d) _) as [td|] eqn:Lk; [|reflexivity].
    assert (X : expired (tg_expires td) (at_deleg c (dg_role d)) = expired (tg_expires td) (at_deleg c' (dg_role d))).
    { pose proof (proj2 (proj2 (proj2 (proj2 (proj2 L)))) (dg_role d)) as Ld. apply N in Lk. unfold fresh in Lk. unfold expired.
      destruct (Z.leb_spec (tg_expires td) (at_deleg c (dg_role d))), (Z.leb_spec (tg_expires td) (at_deleg c' (dg_role d))); try reflexivity; lia. }
    rewrite <- X. clear X. destruct (expired _ (at_deleg c _)); [reflexivity|]. destruct (lookup target _); [reflexivity|]. destruct (tg_delegations td); [|apply IH].
    rewrite R. destruct (recur' _ _ _ _ _) as [[[[] [x|]] v]|]; auto.
  Qed.
  Lemma same_rec fuel target : forall dt depth ds parents visited,
    lookup_rec fuel t c target dt depth ds parents visited = lookup_rec fuel t c' target dt depth ds parents visited.
  Proof. induction fuel as [|f IH]; intros; [reflexivity|]. cbn [lookup_rec]. apply same_loop. intros. apply IH. Qed.

  Lemma same_description target d : target_description t c' target = Some (Ok d) -> target_description t c target = Some (Ok d).
  Proof.
    unfold target_description, rbind. destruct (trusted_root_unexpired c' t) as [root|e] eqn:R; [|discriminate].
    rewrite (root_mono _ _ _ _ L R). destruct (trusted_snapshot_unexpired c' t) as [s|e] eqn:S; [|discriminate].
    rewrite (snapshot_mono _ _ _ _ L S). destruct (trusted_targets_unexpired c' t) as [g|e] eqn:G; [|discriminate].
    rewrite (targets_mono _ _ _ _ L G). destruct (lookup target _); [auto|]. destruct (tg_delegations g); [|discriminate].
    now rewrite same_rec.
  Qed.
End Lookup.

Lemma listed_description t c c' g target d : no_later c c' -> t_targets t = Some g -> lookup target (tg_targets g) = Some d ->
  forall x, target_description t c' target = Some (Ok x) -> x = d /\ target_description t c target = Some (Ok d).
Proof.
  intros L T Lk x. unfold target_description, rbind. destruct (trusted_root_unexpired c' t) as [root|e] eqn:R; [|discriminate].
  rewrite (root_mono _ _ _ _ L R). destruct (trusted_snapshot_unexpired c' t) as [s|e] eqn:S; [|discriminate].
  rewrite (snapshot_mono _ _ _ _ L S). destruct (trusted_targets_unexpired c' t) as [g'|e] eqn:G; [|discriminate].
  rewrite (targets_mono _ _ _ _ L G). assert (g' = g) as ->.
  { unfold trusted_targets_unexpired in G. rewrite T in G. destruct (expired _ _); [discriminate|]. now injection G. }
  rewrite Lk. intros H. injection H as <-. now split.
Qed.

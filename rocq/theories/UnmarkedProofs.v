(** * Proofs: the top-level metadata do not depend on delegated metadata *)
From Coq Require Import String List NArith ZArith Bool Lia.
From Verif Require Import Base BaseFacts Metadata Verify Paths Tuf SpecVerify SpecTuf VerifyProofs TufProofs
     Reader SpecReader Repo Client SpecClient ClientProofs SpecFootprint FootprintProofs SpecUnmarked.
Import ListNotations.
Open Scope string_scope.
Open Scope list_scope.
Open Scope N_scope.

Definition eqs (t t' : tuf) : Prop := exists d, t' = set_delegations d t.
Lemma top_eqs t t' : same_top t t' <-> eqs t t'.
Proof.
  split.
  - intros (A & B & C & D). exists (t_delegations t'). destruct t, t'; cbn in *; now subst.
  - intros [d ->]. now repeat split.
Qed.
Lemma top_refl t : same_top t t.
Proof. now repeat split. Qed.
Lemma top_sym t t' : same_top t t' -> same_top t' t.
Proof. intros (A & B & C & D). now repeat split. Qed.
Lemma top_trans t t' t'' : same_top t t' -> same_top t' t'' -> same_top t t''.
Proof. intros (A & B & C & D) (A' & B' & C' & D'). repeat split; congruence. Qed.

Section World.
  Variable E : env.

  Definition same_outcome {A} (z z' : tuf * result A) : Prop := same_top (fst z) (fst z') /\ snd z = snd z'.
  Ltac done := split; [now repeat split|reflexivity].
  Lemma root_top t t' raw : same_top t t' -> same_outcome (update_root E t raw) (update_root E t' raw).
  Proof.
    rewrite top_eqs. intros [d ->]. unfold update_root, rbind. cbn [t_root set_delegations].
    destruct (verify_signatures E Root raw _ (root_keys (t_root t))) as [m|e]; [|done].
    destruct (verify_signatures E Root raw _ (root_keys m)) as [m'|e]; [|done]. destruct (_ <=? _); [done|]. destruct (negb _); done.
  Qed.
  Lemma timestamp_top t t' c raw : same_top t t' -> same_outcome (update_timestamp E t c raw) (update_timestamp E t' c raw).
  Proof.
    rewrite top_eqs. intros [d ->]. unfold update_timestamp. cbn [t_root set_delegations].
    destruct (verify_signatures _ _ _ _ _); [|done]. unfold trusted_timestamp_version, trusted_snapshot_version. cbn [t_timestamp t_snapshot set_delegations].
    destruct (_ ?= _); [done|done|]. destruct (negb _), (expired _ _); done.
  Qed.
  Lemma snapshot_top t t' c raw : same_top t t' -> same_outcome (update_snapshot E t c raw) (update_snapshot E t' c raw).
  Proof.
    rewrite top_eqs. intros [d ->]. unfold update_snapshot.
    assert (Q : forall x, trusted_snapshot_version (set_delegations d x) = trusted_snapshot_version x) by reflexivity.
    assert (Q1 : trusted_root_unexpired c (set_delegations d t) = trusted_root_unexpired c t) by reflexivity.
    assert (Q2 : trusted_timestamp_unexpired c (set_delegations d t) = trusted_timestamp_unexpired c t) by reflexivity.
    rewrite Q1, Q2, Q. destruct (rbind _ _) as [[s|]|e]; [|done|done].
    assert (Q3 : trusted_targets_version (set_delegations d t) = trusted_targets_version t) by reflexivity.
    rewrite ?Q3. split; [|reflexivity]. cbn [fst]. unfold purge_delegations. destruct (negb _); now repeat split.
  Qed.
  Lemma targets_top t t' c raw : same_top t t' -> same_outcome (update_targets E t c raw) (update_targets E t' c raw).
  Proof.
    rewrite top_eqs. intros [d ->]. unfold update_targets.
    assert (Q1 : trusted_root_unexpired c (set_delegations d t) = trusted_root_unexpired c t) by reflexivity.
    assert (Q2 : trusted_snapshot_unexpired c (set_delegations d t) = trusted_snapshot_unexpired c t) by reflexivity.
    assert (Q3 : trusted_targets_version (set_delegations d t) = trusted_targets_version t) by reflexivity.
    rewrite Q1, Q2, Q3. destruct (rbind _ _) as [[s|]|e]; done.
  Qed.
  Lemma delegation_top t c p r raw : same_top t (fst (update_delegation E t c p r raw)).
  Proof. unfold update_delegation. destruct (rbind _ _) as [[s|]|e]; now repeat split. Qed.
  Lemma step_top t t' o : same_top t t' -> about_top o = true -> same_outcome (step E t o) (step E t' o).
  Proof.
    intros S. destruct o as [raw|c raw|c raw|c raw|c p r raw]; cbn [about_top step]; intros B; try discriminate.
    - destruct (root_top t t' raw S) as [A1 A2]. destruct (update_root E t raw), (update_root E t' raw). cbn in *. subst. now split.
    - destruct (timestamp_top t t' c raw S) as [A1 A2]. destruct (update_timestamp E t c raw), (update_timestamp E t' c raw). cbn in *. subst. now split.
    - now apply snapshot_top.
    - now apply targets_top.
  Qed.
  Lemma run_top ops : forall t t', same_top t t' -> same_top (run E t ops) (run E t' (filter about_top ops)).
  Proof.
    unfold run. induction ops as [|o ops IH]; cbn [filter fold_left]; intros t t' S; [exact S|].
    destruct (about_top o) eqn:B; cbn [fold_left].
    - apply IH. now apply step_top.
    - apply IH. destruct o as [raw|c raw|c raw|c raw|c p r raw]; try discriminate. cbn [step].
      refine (top_trans _ _ _ (top_sym _ _ (delegation_top t c p r raw)) S).
  Qed.

  (** ** Programs *)
  Inductive similar {A} (P : A -> A -> Prop) : prog A -> prog A -> Prop :=
  | s_ret a a' : P a a' -> similar P (Ret a) (Ret a')
  | s_panic : similar P Panic Panic
  | s_fuel : similar P OutOfFuel OutOfFuel
  | s_fetch s path v max h k k' : (forall ans, similar P (k ans) (k' ans)) ->
      similar P (FetchMeta s path v max h k) (FetchMeta s path v max h k')
  | s_store path v b k k' : (forall ans, similar P (k ans) (k' ans)) -> similar P (StoreMeta path v b k) (StoreMeta path v b k')
  | s_now k k' : (forall c, similar P (k c) (k' c)) -> similar P (Now k) (Now k')
  | s_put t t' p p' : same_top t t' -> similar P p p' -> similar P (Put t p) (Put t' p').
  Lemma s_bind {A B} (P : A -> A -> Prop) (Q : B -> B -> Prop) p p' f f' : similar P p p' -> (forall a a', P a a' -> similar Q (f a) (f' a')) ->
    similar Q (bind p f) (bind p' f').
  Proof. intros M F. induction M; cbn [bind]; try (constructor; auto; fail). now apply F. Qed.
  Lemma s_exec {A} (P : A -> A -> Prop) p tr q : exec p tr q -> forall p' t t', similar P p p' -> same_top t t' ->
    exists tr' q', exec p' tr' q' /\ Forall2 same_event tr tr' /\ similar P q q' /\ same_top (tuf_after t tr) (tuf_after t' tr').
  Proof.
    induction 1; intros p' u u' M F; [exists [], p'; repeat split; try constructor; (exact M || apply F)|..]; inversion M; subst; cbn [tuf_after].
    - edestruct (IHexec (k' ans) u u') as (tr' & q' & X & Ev & S & T); [auto..|]. exists (EvFetchMeta s path v max hash ans :: tr'), q'. repeat split; try (constructor; auto; constructor); (exact S || apply T).
    - edestruct (IHexec (k' ans) u u') as (tr' & q' & X & Ev & S & T); [auto..|]. exists (EvStoreMeta path v b ans :: tr'), q'. repeat split; try (constructor; auto; constructor); (exact S || apply T).
    - edestruct (IHexec (k' c) u u') as (tr' & q' & X & Ev & S & T); [auto..|]. exists (EvNow c :: tr'), q'. repeat split; try (constructor; auto; constructor); (exact S || apply T).
    - match goal with H : same_top t ?x, G : similar P p ?y |- _ => destruct (IHexec y t x G H) as (tr' & q' & X & Ev & S & T); exists (EvPut x :: tr'), q';
        split; [now constructor|]; split; [constructor; [now constructor|exact Ev]|]; split; [exact S|exact T] end.
  Qed.

  Variable cfg : config.
  Lemma fetch_similar s r path v max h : similar eq (fetch_metadata E s r path v max h) (fetch_metadata E s r path v max h).
  Proof. unfold fetch_metadata. destruct (repo_check _ _); constructor; [|reflexivity]. intros ans. now constructor. Qed.
  Lemma store_similar r path v b : similar eq (store_metadata r path v b) (store_metadata r path v b).
  Proof. unfold store_metadata. destruct (repo_check _ _); constructor; [|reflexivity]. intros ans. now constructor. Qed.

  Ltac read := eapply s_bind; [apply fetch_similar|]; intros [raw|e] ? <-.
  Ltac fin := constructor; split; first [assumption | reflexivity].
  Ltac stored := eapply s_bind; [apply store_similar|]; let r1 := fresh "r1" in intros r1 ? <-; destruct r1.
  Lemma root_loop_similar s persist : forall fuel t t' u, same_top t t' -> similar same_outcome (root_loop E cfg fuel s persist t u) (root_loop E cfg fuel s persist t' u).
  Proof.
    induction fuel as [|f IH]; intros t t' u F; cbn [root_loop]; [constructor|].
    assert (R : t_root t' = t_root t) by apply F. rewrite R. destruct (_ <=? _)%N; [constructor|]. read.
    - destruct (root_top t t' raw F) as [G Q]. destruct (update_root E t raw) as [x [?|e]], (update_root E t' raw) as [x' [?|e']]; cbn [fst snd] in G, Q; try discriminate; constructor; try exact G.
      + destruct persist; [|now apply IH]. stored; [|fin]. stored; [now apply IH|fin].
      + injection Q as <-. fin.
    - destruct e; fin.
  Qed.
  Lemma root_similar s persist fuel t t' : same_top t t' -> similar same_outcome (update_root_with_repos E cfg fuel s persist t) (update_root_with_repos E cfg fuel s persist t').
  Proof.
    intros F. unfold update_root_with_repos. eapply s_bind; [now apply root_loop_similar|]. intros [x r] [x' r'] [G Q]. cbn in G, Q. subst r'. destruct r; [|fin].
    assert (R : t_root x' = t_root x) by apply G. constructor. intros c. rewrite R. destruct (expired _ _); fin.
  Qed.
  Lemma timestamp_similar s persist t t' : same_top t t' -> similar same_outcome (update_timestamp_with_repos E cfg s persist t) (update_timestamp_with_repos E cfg s persist t').
  Proof.
    intros F. unfold update_timestamp_with_repos. read; [|fin]. constructor. intros c. destruct (timestamp_top t t' c raw F) as [G Q].
    destruct (update_timestamp E t c raw) as [x [[?|]|e]], (update_timestamp E t' c raw) as [x' [[?|]|e']]; cbn [fst snd] in G, Q; try discriminate; constructor; try exact G.
    - injection Q as <-. destruct persist; [|fin]. stored; fin.
    - fin.
    - injection Q as <-. fin.
  Qed.
  Lemma snapshot_similar s persist cons t t' : same_top t t' -> similar same_outcome (update_snapshot_with_repos E s persist cons t) (update_snapshot_with_repos E s persist cons t').
  Proof.
    intros F. unfold update_snapshot_with_repos.
    assert (V2 : t_timestamp t' = t_timestamp t) by apply F. assert (V3 : t_snapshot t' = t_snapshot t) by apply F. rewrite V2, V3.
    destruct (t_timestamp t); [|fin]. destruct (_ <=? _)%N; [fin|]. destruct (hash_preference _); [|fin].
    read; [|fin]. constructor. intros c. destruct (snapshot_top t t' c raw F) as [G Q].
    destruct (update_snapshot E t c raw) as [x [[|]|e]], (update_snapshot E t' c raw) as [x' [[|]|e']]; cbn [fst snd] in G, Q; try discriminate; constructor; try exact G.
    - destruct persist; [|fin]. stored; fin.
    - fin.
    - injection Q as <-. fin.
  Qed.
  Lemma targets_similar s persist cons t t' : same_top t t' -> similar same_outcome (update_targets_with_repos E s persist cons t) (update_targets_with_repos E s persist cons t').
  Proof.
    intros F. unfold update_targets_with_repos.
    assert (V2 : t_snapshot t' = t_snapshot t) by apply F. assert (V3 : t_targets t' = t_targets t) by apply F. rewrite V2, V3.
    destruct (t_snapshot t); [|fin]. destruct (lookup _ _); [|fin]. destruct (_ <=? _)%N; [fin|]. destruct (hash_preference _); [|fin].
    read; [|fin]. constructor. intros c. destruct (targets_top t t' c raw F) as [G Q].
    destruct (update_targets E t c raw) as [x [[|]|e]], (update_targets E t' c raw) as [x' [[|]|e']]; cbn [fst snd] in G, Q; try discriminate; constructor; try exact G.
    - destruct persist; [|fin]. stored; fin.
    - fin.
    - injection Q as <-. fin.
  Qed.
  Ltac next := let x := fresh "x" in let r := fresh "r" in let x' := fresh "x'" in let r' := fresh "r'" in let G := fresh "G" in let Q := fresh "Q" in
    intros [x r] [x' r'] [G Q]; cbn [fst snd] in G, Q; subst r'; destruct r; [|fin].
  Lemma update_similar fuel t t' : same_top t t' -> similar same_outcome (update E cfg fuel t) (update E cfg fuel t').
  Proof.
    intros F. unfold update. eapply s_bind; [now apply root_similar|]. next.
    eapply s_bind; [now apply timestamp_similar|]. next.
    assert (R : t_root x'0 = t_root x0) by apply G0. rewrite ?R. eapply s_bind; [now apply snapshot_similar|]. next.
    assert (R1 : t_root x'1 = t_root x1) by apply G1. rewrite ?R1. eapply s_bind; [now apply targets_similar|]. next. fin.
  Qed.
End World.

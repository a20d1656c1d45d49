(** * Orders of hash maps: searches and clients, the proofs for C112 *)
From Coq Require Import String List NArith ZArith Bool Lia.
From Verif Require Import Base BaseFacts JsonValue Metadata Verify Paths Tuf Reader Repo Client SpecOrder OrderProofs.
Import ListNotations.
Open Scope string_scope.
Open Scope list_scope.

Lemma existsb_same {A} (f : A -> bool) l l' : same_set l l' -> existsb f l = existsb f l'.
Proof.
  intros S. destruct (existsb f l) eqn:Q; symmetry.
  - apply existsb_exists in Q as (x & I & F). apply existsb_exists. exists x. split; [now apply S|exact F].
  - destruct (existsb f l') eqn:Q'; [|reflexivity]. apply existsb_exists in Q' as (x & I & F).
    assert (X : existsb f l = true) by (apply existsb_exists; exists x; split; [now apply S|exact F]). congruence.
Qed.
Lemma filter_same {A} (f g : A -> bool) l l' : same_set l l' -> (forall x, f x = g x) -> same_set (filter f l) (filter g l').
Proof. intros S F x. rewrite !filter_In, (S x), F. reflexivity. Qed.
Lemma chain_same n : forall path ps ps', Forall2 same_set ps ps' -> matches_chain_aux n path ps = matches_chain_aux n path ps'.
Proof.
  induction n as [|n IH]; intros path ps ps' F.
  - destruct F as [|g g' l1 l1' S F']; [reflexivity|]. destruct F' as [|h h' l2 l2' S' F']; cbn [matches_chain_aux]; [|reflexivity]. now apply existsb_same.
  - destruct F as [|g g' l1 l1' S F']; [reflexivity|]. destruct F' as [|h h' l2 l2' S' F']; [cbn [matches_chain_aux]; now apply existsb_same|].
    change (matches_chain_aux n path (map (filter (fun parent => existsb (fun p => is_child parent p || String.eqb parent p) g)) (h :: l2)) =
            matches_chain_aux n path (map (filter (fun parent => existsb (fun p => is_child parent p || String.eqb parent p) g')) (h' :: l2'))).
    apply IH. assert (F2 : Forall2 same_set (h :: l2) (h' :: l2')) by now constructor. clear - S F2.
    induction F2 as [|a b l l' Q _ IH]; cbn [map]; constructor; [|exact IH]. apply filter_same; [exact Q|]. intros x. now apply existsb_same.
Qed.
Lemma matches_same path ps ps' : Forall2 same_set ps ps' -> matches_chain path ps = matches_chain path ps'.
Proof. intros F. unfold matches_chain. assert (L : length ps = length ps') by (induction F; cbn; congruence). rewrite <- L. now apply chain_same. Qed.

Definition same_lookup_result (r r' : lookup_result) : Prop :=
  opt_rel (fun x x' => fst (fst x) = fst (fst x') /\ opt_rel same_target (snd (fst x)) (snd (fst x')) /\ snd x = snd x') r r'.

Ltac same_result := split; [reflexivity|split; [first [exact I|assumption]|reflexivity]].
Lemma loop_same rec rec' t t' c target : same_tuf t t' ->
  (forall dt dep ds ds' ps ps' vis, same_delegations ds ds' -> Forall2 same_set ps ps' -> same_lookup_result (rec dt dep ds ps vis) (rec' dt dep ds' ps' vis)) ->
  forall roles roles', Forall2 same_delegation roles roles' -> forall dt dep ps ps' vis, Forall2 same_set ps ps' ->
  same_lookup_result (lookup_loop rec t c dt dep target ps roles vis) (lookup_loop rec' t' c dt dep target ps' roles' vis).
Proof.
  intros T Rec roles roles' F. induction F as [|d d' roles roles' S F IH]; intros dt dep ps ps' vis P; cbn [lookup_loop]; [same_result|].
  destruct S as (Qr & Qt & _ & _ & Qp). rewrite <- Qr, <- Qt, <- (matches_same _ _ _ P).
  destruct (mem _ _); [same_result|]. destruct (_ && _); [same_result|].
  pose proof T as (_ & _ & _ & _ & D).
  destruct (map_lookup _ _ _ (dg_role d) D) as [[-> ->]|(g & g' & -> & -> & (_ & Qe & M & Sd))]; [same_result|].
  rewrite <- Qe. destruct (expired _ _); [same_result|].
  destruct (map_lookup _ _ _ target M) as [[-> ->]|(x & x' & -> & -> & Sx)]; [|same_result].
  apply opt_cases in Sd as [[-> ->]|(ds & ds' & -> & -> & Sd)]; [now apply IH|].
  specialize (Rec (dg_terminating d) (dep + 1)%N ds ds' (ps ++ [dg_paths d]) (ps' ++ [dg_paths d']) (dg_role d :: vis) Sd).
  assert (P2 : Forall2 same_set (ps ++ [dg_paths d]) (ps' ++ [dg_paths d'])) by (apply Forall2_app; [exact P|constructor; [exact Qp|constructor]]).
  specialize (Rec P2). apply opt_cases in Rec as [[-> ->]|([[b o] v] & [[b' o'] v'] & -> & -> & Q1 & Q2 & Q3)]; [exact I|].
  cbn in Q1, Q2, Q3. subst b' v'. destruct b; [same_result|].
  apply opt_cases in Q2 as [[-> ->]|(x & x' & -> & -> & Sx)]; [now apply IH|same_result].
Qed.
Lemma rec_same t t' c target : same_tuf t t' -> forall fuel dt dep ds ds' ps ps' vis, same_delegations ds ds' -> Forall2 same_set ps ps' ->
  same_lookup_result (lookup_rec fuel t c target dt dep ds ps vis) (lookup_rec fuel t' c target dt dep ds' ps' vis).
Proof.
  intros T. induction fuel as [|f IH]; intros dt dep ds ds' ps ps' vis S P; cbn [lookup_rec]; [exact I|].
  apply loop_same; [exact T| |apply S|exact P]. intros. now apply IH.
Qed.
Lemma description_same t t' c target : same_tuf t t' ->
  opt_rel (res_rel same_target) (target_description t c target) (target_description t' c target).
Proof.
  intros T. unfold target_description, rbind.
  destruct (res_cases _ _ _ (root_unexpired_same c _ _ T)) as [(e & -> & ->)|(root & root' & -> & -> & S)]; [reflexivity|].
  destruct (res_cases _ _ _ (snapshot_unexpired_same c _ _ T)) as [(e & -> & ->)|(sn & sn' & -> & -> & _)]; [reflexivity|].
  destruct (res_cases _ _ _ (targets_unexpired_same c _ _ T)) as [(e & -> & ->)|(g & g' & -> & -> & (_ & _ & M & Sd))]; [reflexivity|].
  destruct (map_lookup _ _ _ target M) as [[-> ->]|(x & x' & -> & -> & Sx)]; [|exact Sx].
  apply opt_cases in Sd as [[-> ->]|(ds & ds' & -> & -> & Sd)]; [reflexivity|].
  assert (L : lookup_fuel t = lookup_fuel t') by (unfold lookup_fuel; f_equal; apply (map_length same_targets), T). rewrite <- L.
  destruct (opt_cases _ _ _ (rec_same t t' c target T (lookup_fuel t) false 0%N ds ds' [] [] [] Sd (Forall2_nil _)))
    as [[-> ->]|([[b o] v] & [[b' o'] v'] & -> & -> & Q1 & Q2 & Q3)]; [exact I|].
  cbn in Q2. apply opt_cases in Q2 as [[-> ->]|(x & x' & -> & -> & Sx)]; [reflexivity|exact Sx].
Qed.

(** ** Programs *)
Inductive mirrors {A} (R : A -> A -> Prop) : prog A -> prog A -> Prop :=
| m_ret a a' : R a a' -> mirrors R (Ret a) (Ret a')
| m_panic : mirrors R Panic Panic
| m_fuel : mirrors R OutOfFuel OutOfFuel
| m_fetch s path v max h k k' : (forall ans, mirrors R (k ans) (k' ans)) -> mirrors R (FetchMeta s path v max h k) (FetchMeta s path v max h k')
| m_store path v b k k' : (forall ans, mirrors R (k ans) (k' ans)) -> mirrors R (StoreMeta path v b k) (StoreMeta path v b k')
| m_target path d d' k k' : same_target d d' -> (forall ans, mirrors R (k ans) (k' ans)) -> mirrors R (FetchTarget path d k) (FetchTarget path d' k')
| m_store_target path rs k k' : (forall ans, mirrors R (k ans) (k' ans)) -> mirrors R (StoreTarget path rs k) (StoreTarget path rs k')
| m_write b k k' : (forall ans, mirrors R (k ans) (k' ans)) -> mirrors R (Write b k) (Write b k')
| m_now k k' : (forall c, mirrors R (k c) (k' c)) -> mirrors R (Now k) (Now k')
| m_put t t' p p' : same_tuf t t' -> mirrors R p p' -> mirrors R (Put t p) (Put t' p').

Lemma m_bind {A B} (R : A -> A -> Prop) (S : B -> B -> Prop) p p' f f' : mirrors R p p' -> (forall a a', R a a' -> mirrors S (f a) (f' a')) ->
  mirrors S (bind p f) (bind p' f').
Proof. intros M F. induction M; cbn [bind]; try (constructor; auto; fail). now apply F. Qed.
Lemma m_here {A} (R : A -> A -> Prop) p p' : mirrors R p p' -> same_end R p p'.
Proof. intros M. destruct M; cbn; auto. Qed.
Lemma m_behaves {A} (R : A -> A -> Prop) p p' : mirrors R p p' -> same_behaviour R p p'.
Proof.
  intros M. split.
  - intros tr q X. revert p' M. induction X; intros p' M;
      [exists [], p'; split; [constructor|]; split; [constructor|now apply m_here]|..];
      inversion M; subst;
      (edestruct IHX as (tr' & q' & X' & F & S); [solve [eauto]|]);
      (eexists (_ :: tr'), q'; split; [econstructor; exact X'|]; split; [|exact S]; constructor; [|exact F]); cbn; auto.
  - intros tr q X. revert p M. induction X; intros p' M;
      [exists [], p'; split; [constructor|]; split; [constructor|now apply m_here]|..];
      inversion M; subst;
      (edestruct IHX as (tr' & q' & X' & F & S); [solve [eauto]|]);
      (eexists (_ :: tr'), q'; split; [econstructor; exact X'|]; split; [|exact S]; constructor; [|exact F]); cbn; auto.
Qed.
Lemma after_same tr tr' : Forall2 same_event tr tr' -> forall t t', same_tuf t t' -> same_tuf (tuf_after t tr) (tuf_after t' tr').
Proof.
  induction 1 as [|e e' tr tr' S _ IH]; intros t t' T; cbn [tuf_after]; [exact T|].
  destruct e, e'; cbn in S; try discriminate; try contradiction; now apply IH.
Qed.
Lemma m_refl_fetch E s r path v max h : mirrors eq (fetch_metadata E s r path v max h) (fetch_metadata E s r path v max h).
Proof. unfold fetch_metadata. destruct (repo_check _ _); [constructor; intros ans|]; now constructor. Qed.
Lemma m_refl_store r path v b : mirrors eq (store_metadata r path v b) (store_metadata r path v b).
Proof. unfold store_metadata. destruct (repo_check _ _); [constructor; intros ans|]; now constructor. Qed.
Lemma preference_same m m' : same_map eq m m' -> hash_preference m = hash_preference m'.
Proof.
  intros M. unfold hash_preference. induction hash_alg_prefs as [|a l IH]; cbn [hash_preference_loop]; [reflexivity|].
  rewrite <- (same_lookup _ _ a M), IH. reflexivity.
Qed.

Section Env.
  Variables (E E' : env) (cfg : config).
  Hypothesis SE : same_env E E'.

  Lemma fetch_same s r path v max h : mirrors eq (fetch_metadata E s r path v max h) (fetch_metadata E' s r path v max h).
  Proof. replace (fetch_metadata E' s r path v max h) with (fetch_metadata E s r path v max h); [apply m_refl_fetch|]. unfold fetch_metadata. now rewrite (proj1 SE). Qed.

  Lemma root_loop_same s persist : forall fuel t t' u, same_tuf t t' ->
    mirrors (same_outcome eq) (root_loop E cfg fuel s persist t u) (root_loop E' cfg fuel s persist t' u).
  Proof.
    induction fuel as [|f IH]; intros t t' u T; cbn [root_loop]; [constructor|].
    assert (Qv : rm_version (t_root t) = rm_version (t_root t')) by apply T. rewrite <- Qv. destruct (_ <=? _)%N; [constructor|].
    eapply m_bind; [apply fetch_same|]. intros res ? <-. destruct res as [raw|e].
    - destruct (update_root_same E E' SE t t' raw T) as [A B]. destruct (update_root E t raw) as [x r], (update_root E' t' raw) as [x' r']. cbn [fst snd] in A, B.
      apply res_eq in B as <-. constructor; [exact A|]. destruct r as [?|e]; [|constructor; now split]. destruct persist; [|now apply IH].
      eapply m_bind; [apply m_refl_store|]. intros r1 ? <-. destruct r1; [|constructor; now split].
      eapply m_bind; [apply m_refl_store|]. intros r2 ? <-. destruct r2; [|constructor; now split]. now apply IH.
    - destruct e; constructor; now split.
  Qed.
  Lemma root_same s persist fuel t t' : same_tuf t t' ->
    mirrors (same_outcome eq) (update_root_with_repos E cfg fuel s persist t) (update_root_with_repos E' cfg fuel s persist t').
  Proof.
    intros T. unfold update_root_with_repos. eapply m_bind; [now apply root_loop_same|]. intros [x r] [x' r'] [A B]. cbn [fst snd] in *.
    apply res_eq in B as <-. destruct r; [|constructor; now split]. constructor. intros c.
    assert (Q : rm_expires (t_root x) = rm_expires (t_root x')) by apply A. rewrite <- Q. destruct (expired _ _); constructor; now split.
  Qed.
  Lemma timestamp_same s persist t t' : same_tuf t t' ->
    mirrors (same_outcome eq) (update_timestamp_with_repos E cfg s persist t) (update_timestamp_with_repos E' cfg s persist t').
  Proof.
    intros T. unfold update_timestamp_with_repos. eapply m_bind; [apply fetch_same|]. intros res ? <-. destruct res as [raw|e]; [|constructor; now split].
    constructor. intros c. destruct (update_timestamp_same E E' SE c t t' raw T) as [A B].
    destruct (update_timestamp E t c raw) as [x r], (update_timestamp E' t' c raw) as [x' r']. cbn [fst snd] in A, B. constructor; [exact A|].
    apply res_cases in B as [(e & -> & ->)|(o & o' & -> & -> & B)]; [constructor; now split|].
    apply opt_cases in B as [[-> ->]|(? & ? & -> & -> & _)]; [constructor; now split|]. destruct persist; [|constructor; now split].
    eapply m_bind; [apply m_refl_store|]. intros r1 ? <-. destruct r1; constructor; now split.
  Qed.
  Lemma snapshot_same s persist cons t t' : same_tuf t t' ->
    mirrors (same_outcome eq) (update_snapshot_with_repos E s persist cons t) (update_snapshot_with_repos E' s persist cons t').
  Proof.
    intros T. unfold update_snapshot_with_repos. pose proof T as (_ & Ss & _ & St & _).
    apply opt_cases in St as [[-> ->]|(ts & ts' & -> & -> & (_ & _ & (Qv & Ql & Qh)))]; [constructor; now split|].
    rewrite <- Qv, <- Ql, <- (preference_same _ _ Qh).
    assert (V : match t_snapshot t with Some m => sm_version m | None => 0%N end = match t_snapshot t' with Some m => sm_version m | None => 0%N end).
    { apply opt_cases in Ss as [[-> ->]|(a & b & -> & -> & Q)]; [reflexivity|apply Q]. }
    rewrite <- V. destruct (_ <=? _)%N; [constructor; now split|]. destruct (hash_preference _); [|constructor; now split].
    eapply m_bind; [apply fetch_same|]. intros res ? <-. destruct res as [raw|e]; [|constructor; now split].
    constructor. intros c. destruct (update_snapshot_same E E' SE c t t' raw T) as [A B].
    destruct (update_snapshot E t c raw) as [x r], (update_snapshot E' t' c raw) as [x' r']. cbn [fst snd] in A, B. apply res_eq in B as <-. constructor; [exact A|].
    destruct r as [[|]|e]; [|constructor; now split|constructor; now split]. destruct persist; [|constructor; now split].
    eapply m_bind; [apply m_refl_store|]. intros r1 ? <-. destruct r1; constructor; now split.
  Qed.
  Lemma targets_same s persist cons t t' : same_tuf t t' ->
    mirrors (same_outcome eq) (update_targets_with_repos E s persist cons t) (update_targets_with_repos E' s persist cons t').
  Proof.
    intros T. unfold update_targets_with_repos. pose proof T as (_ & Ss & St & _ & _).
    apply opt_cases in Ss as [[-> ->]|(sn & sn' & -> & -> & (_ & _ & M))]; [constructor; now split|].
    destruct (map_lookup _ _ _ (from_role Targets) M) as [[-> ->]|(d & d' & -> & -> & (Qv & Ql & Qh))]; [constructor; now split|].
    rewrite <- Qv, <- Ql, <- (preference_same _ _ Qh).
    assert (V : match t_targets t with Some m => tg_version m | None => 0%N end = match t_targets t' with Some m => tg_version m | None => 0%N end).
    { apply opt_cases in St as [[-> ->]|(a & b & -> & -> & Q)]; [reflexivity|apply Q]. }
    rewrite <- V. destruct (_ <=? _)%N; [constructor; now split|]. destruct (hash_preference _); [|constructor; now split].
    eapply m_bind; [apply fetch_same|]. intros res ? <-. destruct res as [raw|e]; [|constructor; now split].
    constructor. intros c. destruct (update_targets_same E E' SE c t t' raw T) as [A B].
    destruct (update_targets E t c raw) as [x r], (update_targets E' t' c raw) as [x' r']. cbn [fst snd] in A, B. apply res_eq in B as <-. constructor; [exact A|].
    destruct r as [[|]|e]; [|constructor; now split|constructor; now split]. destruct persist; [|constructor; now split].
    eapply m_bind; [apply m_refl_store|]. intros r1 ? <-. destruct r1; constructor; now split.
  Qed.
  Lemma consistent_same t t' : same_tuf t t' -> rm_consistent (t_root t) = rm_consistent (t_root t').
  Proof. intros T. apply T. Qed.
  Lemma update_same fuel t t' : same_tuf t t' -> mirrors (same_outcome eq) (update E cfg fuel t) (update E' cfg fuel t').
  Proof.
    intros T. unfold update.
    eapply m_bind; [now apply root_same|]. intros [t1 r1] [t1' r1'] [A1 B1]. cbn [fst snd] in *. apply res_eq in B1 as <-. destruct r1; [|constructor; now split].
    eapply m_bind; [now apply timestamp_same|]. intros [t2 r2] [t2' r2'] [A2 B2]. cbn [fst snd] in *. apply res_eq in B2 as <-. destruct r2; [|constructor; now split].
    rewrite <- (consistent_same _ _ A2).
    eapply m_bind; [now apply snapshot_same|]. intros [t3 r3] [t3' r3'] [A3 B3]. cbn [fst snd] in *. apply res_eq in B3 as <-. destruct r3; [|constructor; now split].
    rewrite <- (consistent_same _ _ A3).
    eapply m_bind; [now apply targets_same|]. intros [t4 r4] [t4' r4'] [A4 B4]. cbn [fst snd] in *. apply res_eq in B4 as <-. destruct r4; constructor; now split.
  Qed.
  Lemma new_same fuel t t' : same_tuf t t' -> mirrors (res_rel same_tuf) (client_new E cfg fuel t) (client_new E' cfg fuel t').
  Proof.
    intros T. unfold client_new.
    eapply m_bind; [now apply root_same|]. intros [t1 r1] [t1' r1'] [A1 B1]. cbn [fst snd] in *. apply res_eq in B1 as <-. destruct r1; [|constructor; exact A1].
    eapply m_bind; [now apply timestamp_same|]. intros [t2 r2] [t2' r2'] [A2 B2]. cbn [fst snd] in *. apply res_eq in B2 as <-. destruct r2; [|constructor; exact A2].
    eapply m_bind; [now apply snapshot_same|]. intros [t3 r3] [t3' r3'] [A3 B3]. cbn [fst snd] in *. apply res_eq in B3 as <-. destruct r3; [|constructor; exact A3].
    eapply m_bind; [now apply targets_same|]. intros [t4 r4] [t4' r4'] [A4 B4]. constructor; exact A4.
  Qed.
  Lemma construct_same fuel c : mirrors (res_rel same_tuf) (construct E cfg fuel c) (construct E' cfg fuel c).
  Proof.
    destruct c as [|raw|v th keys]; cbn [construct].
    - unfold with_trusted_local. eapply m_bind; [apply fetch_same|]. intros res ? <-. destruct res as [raw|e]; [|now constructor].
      destruct (res_cases _ _ _ (from_root_same E E' SE raw)) as [(e & -> & ->)|(t & t' & -> & -> & T)]; [now constructor|].
      constructor; [exact T|now apply new_same].
    - unfold with_trusted_root.
      destruct (res_cases _ _ _ (from_root_same E E' SE raw)) as [(e & -> & ->)|(t & t' & -> & -> & T)]; [now constructor|].
      constructor; [exact T|now apply new_same].
    - unfold with_trusted_root_keys. eapply (m_bind eq).
      + unfold fetch_metadata_from_local_or_else_remote. eapply m_bind; [apply fetch_same|]. intros res ? <-. destruct res as [raw|e]; [now constructor|].
        destruct e; try (now constructor). eapply m_bind; [apply fetch_same|]. intros res ? <-. destruct res; now constructor.
      + intros res ? <-. destruct res as [[fetched raw]|e]; [|now constructor].
        destruct (res_cases _ _ _ (from_keys_same E E' SE raw th keys)) as [(e & -> & ->)|(t & t' & -> & -> & T)]; [now constructor|].
        constructor; [exact T|]. destruct fetched; [|now apply new_same].
        assert (Qv : rm_version (t_root t) = rm_version (t_root t')) by apply T. rewrite <- Qv.
        eapply m_bind; [apply m_refl_store|]. intros r1 ? <-. destruct r1; [now apply new_same|now constructor].
  Qed.

  (** ** Targets *)
  Definition same_found (x x' : tuf * (bool * result target_desc)) : Prop :=
    same_tuf (fst x) (fst x') /\ fst (snd x) = fst (snd x') /\ res_rel same_target (snd (snd x)) (snd (snd x')).
  Definition same_given (x x' : option (targets_metadata * string)) : Prop :=
    opt_rel (fun p p' => same_targets (fst p) (fst p') /\ snd p = snd p') x x'.
  Ltac same_result' := split; [assumption|split; [reflexivity|first [exact eq_refl|assumption]]].
  Lemma found_err t t' b e : same_tuf t t' -> mirrors same_found (Ret (t, (b, Err e))) (Ret (t', (b, Err e))).
  Proof. intros T. constructor. same_result'. Qed.

  Lemma walk_same rec rec' target sn sn' role dt dep : same_snapshot sn sn' ->
    (forall t t' dt dep g g', same_tuf t t' -> same_given g g' -> mirrors same_found (rec t dt dep g) (rec' t' dt dep g')) ->
    forall roles roles', Forall2 same_delegation roles roles' -> forall t t', same_tuf t t' ->
    mirrors same_found (walk_loop E rec dt dep target sn role roles t) (walk_loop E' rec' dt dep target sn' role roles' t').
  Proof.
    intros Sn Rec roles roles' F. induction F as [|d d' roles roles' S F IH]; intros t t' T; cbn [walk_loop]; [now apply found_err|].
    destruct S as (Qr & Qt & _ & _ & Qp). rewrite <- Qr, <- Qt, <- (existsb_same _ _ _ Qp), <- (consistent_same _ _ T).
    destruct (negb _); [destruct (dg_terminating d); [now apply found_err|now apply IH]|].
    destruct Sn as (_ & _ & M).
    destruct (map_lookup _ _ _ (dg_role d) M) as [[-> ->]|(x & x' & -> & -> & (Qv & Ql & Qh))];
      [destruct (dg_terminating d); [now apply found_err|now apply IH]|].
    rewrite <- Qv, <- Ql, <- (preference_same _ _ Qh). destruct (hash_preference _); [|now apply found_err].
    eapply m_bind; [apply fetch_same|]. intros res ? <-. eapply (m_bind eq).
    { destruct res; [now constructor|apply fetch_same]. }
    intros res2 ? <-. destruct res2 as [raw|e]; [|destruct (dg_terminating d); [now apply found_err|now apply IH]].
    constructor. intros c. destruct (update_delegation_same E E' SE c t t' role (dg_role d) raw T) as [A B].
    destruct (update_delegation E t c role (dg_role d) raw) as [y r], (update_delegation E' t' c role (dg_role d) raw) as [y' r']. cbn [fst snd] in A, B.
    apply res_eq in B as <-. constructor; [exact A|]. destruct r as [?|e]; [|destruct (dg_terminating d); [now apply found_err|now apply IH]].
    eapply m_bind; [apply m_refl_store|]. intros _ _ _.
    pose proof A as (_ & _ & _ & _ & D).
    destruct (map_lookup _ _ _ (dg_role d) D) as [[-> ->]|(g & g' & -> & -> & Sg)]; [constructor|]. destruct (_ <=? _)%N; [constructor|].
    eapply m_bind; [apply Rec; [exact A|now split]|]. intros [z [b o]] [z' [b' o']] (Z1 & Z2 & Z3). cbn [fst snd] in *. subst b'.
    assert (Q : is_ok o = is_ok o') by (destruct o, o'; cbn in *; (contradiction || reflexivity)). rewrite <- Q.
    destruct (_ && _); [constructor; same_result'|now apply IH].
  Qed.
  Lemma search_same target sn sn' : same_snapshot sn sn' -> forall fuel t t' dt dep g g', same_tuf t t' -> same_given g g' ->
    mirrors same_found (lookup_target_description E cfg fuel t dt dep target sn g) (lookup_target_description E' cfg fuel t' dt dep target sn' g').
  Proof.
    intros Sn. induction fuel as [|f IH]; intros t t' dt dep g g' T G; cbn [lookup_target_description]; [constructor|].
    destruct (_ <? _)%N; [now apply found_err|].
    assert (G2 : same_given match g with Some x => Some x | None => match t_targets t with Some tg => Some (tg, from_role Targets) | None => None end end
                            match g' with Some x => Some x | None => match t_targets t' with Some tg => Some (tg, from_role Targets) | None => None end end).
    { apply opt_cases in G as [[-> ->]|(a & b & -> & -> & Q)]; [|exact Q]. pose proof T as (_ & _ & St & _ & _).
      apply opt_cases in St as [[-> ->]|(a & b & -> & -> & Q)]; [exact I|now split]. }
    apply opt_cases in G2 as [[-> ->]|([tg role] & [tg' role'] & -> & -> & (_ & _ & M & Sd) & Qr)]; [now apply found_err|]. cbn [fst snd] in *. subst role'.
    destruct (map_lookup _ _ _ target M) as [[-> ->]|(x & x' & -> & -> & Sx)]; [|constructor; same_result'].
    apply opt_cases in Sd as [[-> ->]|(ds & ds' & -> & -> & Sd)]; [now apply found_err|].
    apply walk_same; [exact Sn| |apply Sd|exact T]. intros. now apply IH.
  Qed.
  Lemma describe_same fuel t t' target : same_tuf t t' ->
    mirrors (same_outcome same_target) (fetch_target_description E cfg fuel t target) (fetch_target_description E' cfg fuel t' target).
  Proof.
    intros T. unfold fetch_target_description. destruct (cf_translate cfg target); [|constructor; now split]. pose proof T as (_ & Ss & _).
    apply opt_cases in Ss as [[-> ->]|(sn & sn' & -> & -> & Sn)]; [constructor; now split|].
    eapply m_bind; [apply search_same; [exact Sn|exact T|exact I]|]. intros [x [b o]] [x' [b' o']] (A & _ & B). constructor. now split.
  Qed.
  Lemma stream_same path d d' : same_target d d' -> mirrors eq (fetch_target_stream E path d) (fetch_target_stream E' path d').
  Proof.
    intros S. unfold fetch_target_stream. pose proof S as (Ql & Qh & _). rewrite <- (preference_same _ _ Qh), <- Ql, <- (proj1 SE).
    destruct (hash_preference _); [|now constructor]. constructor; [exact S|]. intros ans. now constructor.
  Qed.
  Lemma reader_same fuel t t' target : same_tuf t t' ->
    mirrors (same_outcome eq) (fetch_target_reader E cfg fuel t target) (fetch_target_reader E' cfg fuel t' target).
  Proof.
    intros T. unfold fetch_target_reader. eapply m_bind; [now apply describe_same|]. intros [x r] [x' r'] [A B]. cbn [fst snd] in *.
    apply res_cases in B as [(e & -> & ->)|(d & d' & -> & -> & B)]; [constructor; now split|]. rewrite <- (consistent_same _ _ A).
    assert (G : forall path, mirrors (same_outcome eq) (do res <- fetch_target_stream E path d in Ret (x, res)) (do res <- fetch_target_stream E' path d' in Ret (x', res))).
    { intros path. eapply m_bind; [now apply stream_same|]. intros res ? <-. constructor. split; [exact A|]. now apply res_eq. }
    destruct (rm_consistent _); [|apply G]. pose proof B as (_ & Qh & _). rewrite <- (preference_same _ _ Qh).
    destruct (rbind _ _) as [p|e]; [apply G|constructor; now split].
  Qed.
  Lemma target_same fuel t t' target : same_tuf t t' ->
    mirrors (same_outcome eq) (fetch_target E cfg fuel t target) (fetch_target E' cfg fuel t' target).
  Proof.
    intros T. unfold fetch_target. eapply m_bind; [now apply reader_same|]. intros [x r] [x' r'] [A B]. cbn [fst snd] in *. apply res_eq in B as <-.
    destruct r; [|constructor; now split]. constructor. intros ans. constructor. split; [exact A|now apply res_eq].
  Qed.
  Lemma copy_same rs : mirrors eq (copy_to_writer rs) (copy_to_writer rs).
  Proof.
    induction rs as [|[|k|b] rs IH]; cbn [copy_to_writer]; [now constructor|exact IH|now constructor|].
    destruct (_ =? _)%N; [now constructor|]. constructor. intros [k|]; [now constructor|exact IH].
  Qed.
  Lemma writer_same fuel t t' target : same_tuf t t' ->
    mirrors (same_outcome eq) (fetch_target_to_writer E cfg fuel t target) (fetch_target_to_writer E' cfg fuel t' target).
  Proof.
    intros T. unfold fetch_target_to_writer. eapply m_bind; [now apply reader_same|]. intros [x r] [x' r'] [A B]. cbn [fst snd] in *. apply res_eq in B as <-.
    destruct r; [|constructor; now split]. eapply m_bind; [apply copy_same|]. intros res ? <-. constructor. split; [exact A|now apply res_eq].
  Qed.
  Lemma forget_same {A} (R : A -> A -> Prop) p p' : mirrors (same_outcome R) p p' -> mirrors (same_outcome eq) (forget p) (forget p').
  Proof.
    intros M. unfold forget. eapply m_bind; [exact M|]. intros [x r] [x' r'] [X Y]. cbn [fst snd] in *. constructor. split; [exact X|].
    destruct r, r'; cbn in *; congruence || contradiction.
  Qed.
  Lemma call_same fuel t t' k : same_tuf t t' -> mirrors (same_outcome eq) (call_prog E cfg fuel t k) (call_prog E' cfg fuel t' k).
  Proof.
    intros T. destruct k; cbn [call_prog].
    - eapply forget_same, update_same, T.
    - eapply forget_same, describe_same, T.
    - now apply target_same.
    - now apply writer_same.
  Qed.

  Lemma life_same fuel c : 
    (forall tr t, life E cfg fuel c tr t -> exists tr' t', life E' cfg fuel c tr' t' /\ Forall2 same_event tr tr' /\ same_tuf t t') /\
    (forall tr' t', life E' cfg fuel c tr' t' -> exists tr t, life E cfg fuel c tr t /\ Forall2 same_event tr tr' /\ same_tuf t t').
  Proof.
    split.
    - induction 1 as [tr t X|tr t k tr2 q L (tr' & t' & L' & F & T) X].
      + apply (proj1 (m_behaves _ _ _ (construct_same fuel c))) in X as (tr' & q & X & F & S).
        destruct q as [[t'|e]| | | | | | | | |]; cbn in S; try contradiction. exists tr', t'. split; [now apply life_new|now split].
      + apply (proj1 (m_behaves _ _ _ (call_same fuel t t' k T))) in X as (tr2' & q' & X & F2 & _).
        exists (tr' ++ tr2'), (tuf_after t' tr2'). split; [eapply life_call; eassumption|]. split; [now apply Forall2_app|now apply after_same].
    - induction 1 as [tr t X|tr t k tr2 q L (tr' & t' & L' & F & T) X].
      + apply (proj2 (m_behaves _ _ _ (construct_same fuel c))) in X as (tr' & q & X & F & S).
        destruct q as [[t'|e]| | | | | | | | |]; cbn in S; try contradiction. exists tr', t'. split; [now apply life_new|now split].
      + apply (proj2 (m_behaves _ _ _ (call_same fuel t' t k T))) in X as (tr2' & q' & X & F2 & _).
        exists (tr' ++ tr2'), (tuf_after t' tr2'). split; [eapply life_call; eassumption|]. split; [now apply Forall2_app|now apply after_same].
  Qed.
End Env.

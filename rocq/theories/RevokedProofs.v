(** * Proofs: keys that are listed nowhere do not matter *)
From Coq Require Import String List NArith ZArith Bool Lia.
From Verif Require Import Base BaseFacts Metadata Verify Paths Tuf SpecVerify SpecTuf VerifyProofs TufProofs
     Reader SpecReader Repo Client SpecClient ClientProofs SpecCustody SpecRevoked.
Import ListNotations.
Open Scope string_scope.
Open Scope list_scope.
Open Scope N_scope.

Section Worlds.
  Variables (K : public_key -> Prop) (E : env) (C' : crypto).
  Notation E' := (mkEnv C' (e_order E) (e_ic E)).
  Notation C := (e_crypto E).
  Hypothesis Sig : forall k msg sg, ~ K k ->
    ring_verify C (pk_scheme k) (pk_value k) msg sg = ring_verify C' (pk_scheme k) (pk_value k) msg sg.
  Hypothesis Dig : forall alg b, ring_digest C alg b = ring_digest C' alg b.
  Notation free := (trusted_without K).
  Notation harmless := (file_without E K).

  (** ** Signatures *)
  Lemma pk_same k msg s : ~ K k -> pk_verify C k msg s = pk_verify C' k msg s.
  Proof.
    intros N. unfold pk_verify. pose proof (Sig k msg (sig_value s) N) as S. destruct (pk_scheme k); try reflexivity; now rewrite S.
  Qed.
  Lemma loop_same auth msg : (forall i k, lookup i auth = Some k -> ~ K k) -> forall sigs n,
    signature_loop E auth msg n sigs = signature_loop E' auth msg n sigs.
  Proof.
    intros N. induction sigs as [|[i s] sigs IH]; intros n; cbn [signature_loop]; [reflexivity|]. cbn [e_crypto].
    destruct (lookup i auth) as [k|] eqn:L; [|destruct (n =? 0); auto].
    rewrite (pk_same k msg s) by exact (N i k L). destruct (pk_verify C' k msg s); destruct (_ =? 0); auto.
  Qed.
  Lemma verify_same r raw th ks : (forall k, In k ks -> ~ K k) -> verify_signatures E r raw th ks = verify_signatures E' r raw th ks.
  Proof.
    intros N. unfold verify_signatures, rbind. cbn [e_ic e_order]. destruct (th <? 1); [reflexivity|].
    destruct (ic_envelope (e_ic E) raw) as [[sigs signed]|]; [|reflexivity]. destruct sigs as [|s sigs]; [reflexivity|].
    destruct (ic_canonicalize (e_ic E) signed) as [msg|]; [|reflexivity].
    rewrite loop_same; [reflexivity|]. intros i k L. apply lookup_collect_last in L as (l1 & l2 & -> & _). apply N. apply in_or_app. right. now left.
  Qed.
  Lemma selected keys ids : not_in K keys -> forall k, In k (select_keys keys ids) -> ~ K k.
  Proof.
    intros N k I. apply in_map_iff in I as ([i k0] & <- & I). apply filter_In in I as [I _]. exact (N i k0 I).
  Qed.
  Lemma verify_content r raw th ks m : verify_signatures E r raw th ks = Ok m -> content E r raw m.
  Proof.
    unfold verify_signatures, rbind. destruct (th <? 1); [discriminate|].
    destruct (ic_envelope (e_ic E) raw) as [[sigs signed]|] eqn:Q; [|discriminate]. destruct sigs as [|s sigs]; [discriminate|].
    destruct (ic_canonicalize (e_ic E) signed) as [msg|] eqn:Q2; [|discriminate]. destruct (0 <? _); [discriminate|].
    intros H. exists (s :: sigs), signed, msg. auto.
  Qed.

  (** ** The methods of [Tuf] *)
  Lemma root_same t raw : free t -> harmless raw -> update_root E t raw = update_root E' t raw.
  Proof.
    intros F H. unfold update_root, rbind. rewrite <- (verify_same Root raw _ (root_keys (t_root t))) by (apply selected, F).
    destruct (verify_signatures E Root raw _ (root_keys (t_root t))) as [m|e] eqn:Q; [|reflexivity].
    rewrite <- (verify_same Root raw _ (root_keys m)); [reflexivity|]. apply selected. apply (proj1 H). exact (verify_content _ _ _ _ _ Q).
  Qed.
  Lemma timestamp_same t c raw : free t -> update_timestamp E t c raw = update_timestamp E' t c raw.
  Proof. intros F. unfold update_timestamp. now rewrite <- (verify_same Timestamp raw _ (timestamp_keys (t_root t))) by (apply selected, F). Qed.
  Lemma root_trusted c t root : trusted_root_unexpired c t = Ok root -> root = t_root t.
  Proof. unfold trusted_root_unexpired. destruct (expired _ _); congruence. Qed.
  Lemma snapshot_same t c raw : free t -> update_snapshot E t c raw = update_snapshot E' t c raw.
  Proof.
    intros F. unfold update_snapshot, rbind. destruct (trusted_root_unexpired c t) as [root|] eqn:R; [|reflexivity]. apply root_trusted in R as ->.
    destruct (trusted_timestamp_unexpired c t); [|reflexivity].
    now rewrite <- (verify_same Snapshot raw _ (snapshot_keys (t_root t))) by (apply selected, F).
  Qed.
  Lemma targets_same t c raw : free t -> update_targets E t c raw = update_targets E' t c raw.
  Proof.
    intros F. unfold update_targets, rbind. destruct (trusted_root_unexpired c t) as [root|] eqn:R; [|reflexivity]. apply root_trusted in R as ->.
    destruct (trusted_snapshot_unexpired c t); [|reflexivity]. destruct (lookup _ _); [|reflexivity].
    now rewrite <- (verify_same Targets raw _ (targets_keys (t_root t))) by (apply selected, F).
  Qed.
  Lemma found_free t p r th ks : free t -> find_delegation_threshold_and_keys t p r = Some (th, ks) -> forall k, In k ks -> ~ K k.
  Proof.
    intros (_ & Ft & Fd) H. unfold find_delegation_threshold_and_keys in H.
    assert (G : forall g, (if String.eqb p (from_role Targets) then t_targets t else lookup p (t_delegations t)) = Some g -> targets_without K g).
    { intros g. destruct (String.eqb _ _); [apply Ft|apply Fd]. }
    destruct (if String.eqb p (from_role Targets) then _ else _) as [g|]; [|discriminate]. specialize (G g eq_refl).
    destruct (tg_delegations g) as [ds|] eqn:D; [|discriminate]. destruct (find_role ds r); [|discriminate]. inversion H; subst.
    apply selected. exact (G ds D).
  Qed.
  Lemma delegation_same t c p r raw : free t -> update_delegation E t c p r raw = update_delegation E' t c p r raw.
  Proof.
    intros F. unfold update_delegation, rbind. destruct (trusted_root_unexpired c t); [|reflexivity]. destruct (trusted_snapshot_unexpired c t); [|reflexivity].
    destruct (trusted_targets_unexpired c t); [|reflexivity]. destruct (tg_delegations _); [|reflexivity]. destruct (lookup _ _); [|reflexivity].
    destruct (find_delegation_threshold_and_keys t p r) as [[th ks]|] eqn:Q; [|reflexivity].
    now rewrite <- (verify_same Targets raw th ks (found_free t p r th ks F Q)).
  Qed.

  (** *** What is trusted remains without the keys *)
  Lemma root_free t raw : free t -> harmless raw -> free (fst (update_root E t raw)).
  Proof.
    intros F H. unfold update_root, rbind. destruct (verify_signatures E Root raw _ (root_keys (t_root t))) as [m|e]; [|exact F].
    destruct (verify_signatures E Root raw _ (root_keys m)) as [m'|e] eqn:Q; [|exact F].
    destruct (_ <=? _); [exact F|]. destruct (negb _); [exact F|]. cbn.
    split; [|split]; cbn; [|discriminate|discriminate]. apply (proj1 H). exact (verify_content _ _ _ _ _ Q).
  Qed.
  Lemma timestamp_free t c raw : free t -> free (fst (update_timestamp E t c raw)).
  Proof.
    intros F. unfold update_timestamp. destruct (verify_signatures _ _ _ _ _); [|exact F].
    destruct (_ ?= _); try exact F. destruct (negb _), (expired _ _); exact F.
  Qed.
  Lemma removed_lookup (l : list string) : forall m r (g : targets_metadata), lookup r (fold_left (fun m r => remove r m) l m) = Some g -> lookup r m = Some g.
  Proof.
    induction l as [|x l IH]; cbn; intros m r g H; [exact H|]. apply IH in H.
    destruct (string_dec r x) as [->|N]; [now rewrite lookup_remove_eq in H|now rewrite lookup_remove_neq in H].
  Qed.
  Lemma snapshot_free t c raw : free t -> free (fst (update_snapshot E t c raw)).
  Proof.
    intros F. unfold update_snapshot. destruct (rbind _ _) as [[s|]|]; [|exact F|exact F]. destruct F as (Fr & Ft & Fd).
    unfold purge_delegations. destruct (negb _); cbn; (split; [exact Fr|split; cbn; [|intros r g L; apply removed_lookup in L; exact (Fd r g L)]]).
    - discriminate.
    - exact Ft.
  Qed.
  Lemma targets_free t c raw : free t -> harmless raw -> free (fst (update_targets E t c raw)).
  Proof.
    intros F H. unfold update_targets, rbind. destruct (trusted_root_unexpired c t); [|exact F]. destruct (trusted_snapshot_unexpired c t); [|exact F].
    destruct (lookup _ _); [|exact F]. destruct (_ ?= _); [exact F|exact F|].
    destruct (verify_signatures _ _ _ _ _) as [g|] eqn:Q; [|exact F]. destruct (negb _); [exact F|]. destruct (expired _ _); [exact F|].
    destruct F as (Fr & Ft & Fd). cbn. split; [exact Fr|split; [|exact Fd]]. cbn. intros g' [= <-]. apply (proj2 H). exact (verify_content _ _ _ _ _ Q).
  Qed.
  Lemma delegation_free t c p r raw : free t -> harmless raw -> free (fst (update_delegation E t c p r raw)).
  Proof.
    intros F H. unfold update_delegation, rbind. destruct (trusted_root_unexpired c t); [|exact F]. destruct (trusted_snapshot_unexpired c t); [|exact F].
    destruct (trusted_targets_unexpired c t); [|exact F]. destruct (tg_delegations _); [|exact F]. destruct (lookup _ _); [|exact F].
    destruct (_ <? _); [exact F|].
    destruct (find_delegation_threshold_and_keys t p r) as [[th ks]|]; [|exact F].
    destruct (verify_signatures _ _ _ _ _) as [g|] eqn:Q; [|exact F]. destruct (_ =? _); [exact F|]. destruct (negb _); [exact F|]. destruct (expired _ _); [exact F|].
    destruct F as (Fr & Ft & Fd). split; [exact Fr|split; [exact Ft|]]. intros r' g' L. change (lookup r' (insert r g (t_delegations t)) = Some g') in L.
    destruct (string_dec r' r) as [->|N].
    - rewrite lookup_insert_eq in L. inversion L; subst. apply (proj2 H). exact (verify_content _ _ _ _ _ Q).
    - rewrite lookup_insert_neq in L by congruence. exact (Fd r' g' L).
  Qed.
  Lemma step_same t o : free t -> harmless (file_of o) -> step E t o = step E' t o /\ free (fst (step E t o)).
  Proof.
    intros F H. destruct o as [raw|c raw|c raw|c raw|c p r raw]; cbn [step file_of] in *.
    - rewrite <- root_same by assumption. pose proof (root_free t raw F H) as G. destruct (update_root E t raw). auto.
    - rewrite <- timestamp_same by assumption. pose proof (timestamp_free t c raw F) as G. destruct (update_timestamp E t c raw). auto.
    - rewrite <- snapshot_same by assumption. split; [reflexivity|now apply snapshot_free].
    - rewrite <- targets_same by assumption. split; [reflexivity|now apply targets_free].
    - rewrite <- delegation_same by assumption. split; [reflexivity|now apply delegation_free].
  Qed.
  Lemma run_same : forall ops t, free t -> (forall o, In o ops -> harmless (file_of o)) -> run E t ops = run E' t ops /\ free (run E t ops).
  Proof.
    unfold run. induction ops as [|o ops IH]; cbn [fold_left]; intros t F H; [auto|].
    destruct (step_same t o F) as [<- G]; [apply H; now left|]. apply IH; [exact G|]. intros o' I. apply H. now right.
  Qed.

  (** ** Readers *)
  Lemma poll_same s r : safe_poll C s r = safe_poll C' s r.
  Proof.
    unfold safe_poll. destruct r as [|k|d]; try reflexivity. destruct (_ =? 0); [|reflexivity]. destruct (sr_hasher s) as [[[alg fed] x]|]; [|reflexivity]. now rewrite Dig.
  Qed.
  Lemma read_same : forall rs s buf, read_to_end C s rs buf = read_to_end C' s rs buf.
  Proof.
    induction rs as [|r rs IH]; intros s buf; cbn [read_to_end]; rewrite <- poll_same; [reflexivity|].
    destruct (safe_poll C s r) as [[|k|d] s']; auto. destruct (_ =? 0); auto.
  Qed.
  Lemma reading_same max hash ans : read_metadata C max hash ans = read_metadata C' max hash ans.
  Proof. unfold read_metadata, rbind. destruct ans; [|reflexivity]. destruct (safe_new _ _); [apply read_same|reflexivity]. Qed.
  Lemma stream_same : forall rs s, checked_stream C s rs = checked_stream C' s rs.
  Proof.
    induction rs as [|r rs IH]; intros s; cbn [checked_stream]; rewrite <- poll_same; [reflexivity|]. destruct (safe_poll C s r). now rewrite IH.
  Qed.

  (** ** Programs *)
  Inductive similar {A} (P : A -> Prop) : prog A -> prog A -> Prop :=
  | s_ret a : P a -> similar P (Ret a) (Ret a)
  | s_panic : similar P Panic Panic
  | s_fuel : similar P OutOfFuel OutOfFuel
  | s_fetch s path v max h k k' : (forall ans, (forall raw, answered ans raw -> harmless raw) -> similar P (k ans) (k' ans)) ->
      similar P (FetchMeta s path v max h k) (FetchMeta s path v max h k')
  | s_store path v b k k' : (forall ans, similar P (k ans) (k' ans)) -> similar P (StoreMeta path v b k) (StoreMeta path v b k')
  | s_target path d k k' : (forall ans, similar P (k ans) (k' ans)) -> similar P (FetchTarget path d k) (FetchTarget path d k')
  | s_store_target path rs k k' : (forall ans, similar P (k ans) (k' ans)) -> similar P (StoreTarget path rs k) (StoreTarget path rs k')
  | s_write b k k' : (forall ans, similar P (k ans) (k' ans)) -> similar P (Write b k) (Write b k')
  | s_now k k' : (forall c, similar P (k c) (k' c)) -> similar P (Now k) (Now k')
  | s_put t p p' : free t -> similar P p p' -> similar P (Put t p) (Put t p').

  Lemma s_bind {A B} (P : A -> Prop) (Q : B -> Prop) p p' f f' : similar P p p' -> (forall a, P a -> similar Q (f a) (f' a)) ->
    similar Q (bind p f) (bind p' f').
  Proof. intros M F. induction M; cbn [bind]; try (constructor; auto; fail). now apply F. Qed.
  Lemma s_exec {A} (P : A -> Prop) p tr q : exec p tr q -> forall p' t, similar P p p' -> free t -> (forall raw, fetched tr raw -> harmless raw) ->
    free (tuf_after t tr) /\ exists q', exec p' tr q' /\ similar P q q'.
  Proof.
    assert (Later : forall e tr raw, fetched tr raw -> fetched (e :: tr) raw).
    { intros e l raw (s & pa & v & m & h & ans & I & X). exists s, pa, v, m, h, ans. split; [now right|exact X]. }
    induction 1; intros p' u M F D; [split; [exact F|]; exists p'; split; [constructor|exact M]|..]; inversion M; subst; cbn [tuf_after].
    1: { destruct (IHexec (k' ans) u) as (G & q' & X & S); auto; [|split; [exact G|]; exists q'; split; [now constructor|exact S]].
         match goal with H : forall ans, _ -> similar P _ _ |- _ => apply H end. intros raw An. apply D. exists s, path, v, max, hash, ans. split; [now left|exact An]. }
    all: try (edestruct (IHexec (k' ans) u) as (G & q' & X & S); [auto..|split; [exact G|]; exists q'; split; [now constructor|exact S]]).
    - destruct (IHexec (k' c) u) as (G & q' & X & S); auto. split; [exact G|]; exists q'; split; [now constructor|exact S].
    - match goal with H : similar P p ?x |- _ => destruct (IHexec x t) as (G & q' & X & S) end; auto. split; [exact G|]; exists q'; split; [now constructor|exact S].
  Qed.

  Variable cfg : config.
  Definition any {A} (a : A) : Prop := True.
  Definition good_read (r : result bytes) : Prop := match r with Ok b => harmless b | Err _ => True end.
  Definition fst_free {A} (z : tuf * A) : Prop := free (fst z).
  Lemma fetch_similar s r path v max h : similar good_read (fetch_metadata E s r path v max h) (fetch_metadata E' s r path v max h).
  Proof.
    unfold fetch_metadata. destruct (repo_check _ _); constructor; [|exact I]. intros ans S. cbn [e_crypto]. rewrite <- reading_same. constructor.
    destruct (read_metadata C max h ans) as [raw|] eqn:R; [|exact I]. cbn. apply read_metadata_ok in R. apply S. apply R.
  Qed.
  Lemma store_similar r path v b : similar any (store_metadata r path v b) (store_metadata r path v b).
  Proof. unfold store_metadata. destruct (repo_check _ _); constructor; [|exact I]. intros ans. now constructor. Qed.

  Ltac read := eapply s_bind; [apply fetch_similar|]; intros [raw|e] Hr; cbn [good_read] in Hr.
  Ltac fin := first [assumption | constructor; assumption | constructor; first [exact I | assumption]].
  Ltac stored := eapply s_bind; [apply store_similar|]; let r1 := fresh "r1" in intros r1 _; destruct r1.
  Lemma root_loop_similar s persist : forall fuel t u, free t -> similar fst_free (root_loop E cfg fuel s persist t u) (root_loop E' cfg fuel s persist t u).
  Proof.
    induction fuel as [|f IH]; intros t u F; cbn [root_loop]; [constructor|]. destruct (_ <=? _)%N; [constructor|]. read.
    - rewrite <- (root_same t raw F Hr). pose proof (root_free t raw F Hr) as G. destruct (update_root E t raw) as [x [?|e]]; cbn [fst] in G; constructor; try exact G; [|fin].
      destruct persist; [|now apply IH]. stored; [|fin]. stored; [now apply IH|fin].
    - destruct e; fin.
  Qed.
  Lemma root_similar s persist fuel t : free t -> similar fst_free (update_root_with_repos E cfg fuel s persist t) (update_root_with_repos E' cfg fuel s persist t).
  Proof.
    intros F. unfold update_root_with_repos. eapply s_bind; [now apply root_loop_similar|]. intros [x r] G. destruct r; [|fin]. constructor. intros c. destruct (expired _ _); fin.
  Qed.
  Lemma timestamp_similar s persist t : free t -> similar fst_free (update_timestamp_with_repos E cfg s persist t) (update_timestamp_with_repos E' cfg s persist t).
  Proof.
    intros F. unfold update_timestamp_with_repos. read; [|fin]. constructor. intros c. rewrite <- (timestamp_same t c raw F). pose proof (timestamp_free t c raw F) as G.
    destruct (update_timestamp E t c raw) as [x [[?|]|e]]; cbn [fst] in G; constructor; try exact G; [|fin|fin]. destruct persist; [|fin]. stored; fin.
  Qed.
  Lemma snapshot_similar s persist cons t : free t -> similar fst_free (update_snapshot_with_repos E s persist cons t) (update_snapshot_with_repos E' s persist cons t).
  Proof.
    intros F. unfold update_snapshot_with_repos. destruct (t_timestamp t); [|fin]. destruct (_ <=? _)%N; [fin|]. destruct (hash_preference _); [|fin].
    read; [|fin]. constructor. intros c. rewrite <- (snapshot_same t c raw F). pose proof (snapshot_free t c raw F) as G.
    destruct (update_snapshot E t c raw) as [x [[|]|e]]; cbn [fst] in G; constructor; try exact G; [|fin|fin]. destruct persist; [|fin]. stored; fin.
  Qed.
  Lemma targets_similar s persist cons t : free t -> similar fst_free (update_targets_with_repos E s persist cons t) (update_targets_with_repos E' s persist cons t).
  Proof.
    intros F. unfold update_targets_with_repos. destruct (t_snapshot t); [|fin]. destruct (lookup _ _); [|fin]. destruct (_ <=? _)%N; [fin|]. destruct (hash_preference _); [|fin].
    read; [|fin]. constructor. intros c. rewrite <- (targets_same t c raw F). pose proof (targets_free t c raw F Hr) as G.
    destruct (update_targets E t c raw) as [x [[|]|e]]; cbn [fst] in G; constructor; try exact G; [|fin|fin]. destruct persist; [|fin]. stored; fin.
  Qed.
  Lemma update_similar fuel t : free t -> similar fst_free (update E cfg fuel t) (update E' cfg fuel t).
  Proof.
    intros F. unfold update. eapply s_bind; [now apply root_similar|]. intros [t1 r1] G1. destruct r1; [|fin].
    eapply s_bind; [now apply timestamp_similar|]. intros [t2 r2] G2. destruct r2; [|fin].
    eapply s_bind; [now apply snapshot_similar|]. intros [t3 r3] G3. destruct r3; [|fin].
    eapply s_bind; [now apply targets_similar|]. intros [t4 r4] G4. destruct r4; fin.
  Qed.
  Lemma walk_similar rec rec' target sn role dt dep : (forall t dt dep g, free t -> similar fst_free (rec t dt dep g) (rec' t dt dep g)) ->
    forall roles t, free t -> similar fst_free (walk_loop E rec dt dep target sn role roles t) (walk_loop E' rec' dt dep target sn role roles t).
  Proof.
    intros Rec roles. induction roles as [|d roles IH]; intros t F; cbn [walk_loop]; [fin|].
    destruct (negb _); [destruct (dg_terminating d); [fin|now apply IH]|].
    destruct (lookup _ _); [|destruct (dg_terminating d); [fin|now apply IH]]. destruct (hash_preference _); [|fin].
    eapply s_bind; [apply fetch_similar|]. intros r S1. eapply (s_bind good_read).
    { destruct r; [constructor; exact S1|apply fetch_similar]. }
    intros [raw|e] Hr; cbn [good_read] in Hr; [|destruct (dg_terminating d); [fin|now apply IH]].
    constructor. intros c. rewrite <- (delegation_same t c role (dg_role d) raw F). pose proof (delegation_free t c role (dg_role d) raw F Hr) as G.
    destruct (update_delegation E t c role (dg_role d) raw) as [x [?|e]]; cbn [fst] in G; constructor; try exact G; [|destruct (dg_terminating d); [fin|now apply IH]].
    eapply s_bind; [apply store_similar|]. intros _ _. destruct (lookup _ _); [|constructor]. destruct (_ <=? _)%N; [constructor|].
    eapply s_bind; [now apply Rec|]. intros [z [b r2]] G2. destruct (_ && _); [fin|now apply IH].
  Qed.
  Lemma search_similar target sn : forall fuel t dt dep g, free t ->
    similar fst_free (lookup_target_description E cfg fuel t dt dep target sn g) (lookup_target_description E' cfg fuel t dt dep target sn g).
  Proof.
    induction fuel as [|f IH]; intros t dt dep g F; cbn [lookup_target_description]; [constructor|]. destruct (_ <? _)%N; [fin|].
    destruct (match g with Some x => Some x | None => _ end) as [[tg role]|]; [|fin]. destruct (lookup _ _); [fin|]. destruct (tg_delegations tg); [|fin].
    apply walk_similar; [|exact F]. intros. now apply IH.
  Qed.
  Lemma describe_similar fuel t target : free t -> similar fst_free (fetch_target_description E cfg fuel t target) (fetch_target_description E' cfg fuel t target).
  Proof.
    intros F. unfold fetch_target_description. destruct (cf_translate cfg target); [|fin]. destruct (t_snapshot t); [|fin].
    eapply s_bind; [now apply search_similar|]. intros [x [b r]] G. fin.
  Qed.
  Lemma reader_similar fuel t target : free t -> similar fst_free (fetch_target_reader E cfg fuel t target) (fetch_target_reader E' cfg fuel t target).
  Proof.
    intros F. unfold fetch_target_reader. eapply s_bind; [now apply describe_similar|]. intros [x [d|e]] G; [|fin].
    assert (G2 : forall path, similar fst_free (do res <- fetch_target_stream E path d in Ret (x, res)) (do res <- fetch_target_stream E' path d in Ret (x, res))).
    { intros path. eapply (s_bind any); [|intros res _; fin]. unfold fetch_target_stream. destruct (hash_preference _); [|fin]. constructor. intros ans.
      cbn [e_crypto]. unfold checked_target, rbind. destruct ans; [|fin]. destruct (safe_new _ _); [rewrite <- stream_same; fin|fin]. }
    destruct (rm_consistent _); [|apply G2]. destruct (rbind _ _); [apply G2|fin].
  Qed.
  Lemma copy_similar rs : similar any (copy_to_writer rs) (copy_to_writer rs).
  Proof.
    induction rs as [|[|k|b] rs IH]; cbn [copy_to_writer]; [fin|exact IH|fin|]. destruct (_ =? _)%N; [fin|]. constructor. intros [k|]; [fin|exact IH].
  Qed.
  Lemma call_similar fuel t k : free t -> similar fst_free (call_prog E cfg fuel t k) (call_prog E' cfg fuel t k).
  Proof.
    intros F. destruct k; cbn [call_prog]; unfold forget.
    - eapply s_bind; [now apply update_similar|]. intros [x r] G. fin.
    - eapply s_bind; [now apply describe_similar|]. intros [x r] G. fin.
    - unfold fetch_target. eapply s_bind; [now apply reader_similar|]. intros [x [rs|e]] G; [|fin]. constructor. intros. fin.
    - unfold fetch_target_to_writer. eapply s_bind; [now apply reader_similar|]. intros [x [rs|e]] G; [|fin].
      eapply s_bind; [apply copy_similar|]. intros r _. fin.
  Qed.
End Worlds.

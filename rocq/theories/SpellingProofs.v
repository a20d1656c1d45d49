(** * Spelling of documents: the proofs for C113 *)
From Coq Require Import String List NArith ZArith Bool Lia Permutation.
From Verif Require Import Base BaseFacts JsonValue JsonText SpecJson JsonComplete JsonSound JsonProofs Metadata Verify Paths Tuf Reader Repo Client Codec Serde Keys Shims
     SpecOrder OrderProofs SpecSpelling ErrorsProofs.
Import ListNotations.
Open Scope string_scope.
Open Scope list_scope.

Definition sv (j j' : json) : Prop := unique_names j /\ same_value j j'.

Lemma members_same m m' : sv (JObj m) (JObj m') -> same_map sv m m'.
Proof.
  intros [U S]. inversion U as [| | | | | |? Um N]; subst. inversion S as [| | | | | |? m1 ? P F]; subst.
  assert (Q : map fst m1 = map fst m') by (clear -F; induction F as [|a b l l' [E _] _ IH]; cbn; congruence).
  assert (N1 : NoDup (map fst m1)) by (eapply Permutation_NoDup; [apply Permutation_map, P|exact N]).
  split; [exact N|]. split; [now rewrite <- Q|]. intros k.
  assert (L : lookup k m = lookup k m1).
  { destruct (lookup k m) as [v|] eqn:X.
    - symmetry. apply In_lookup; [exact N1|]. eapply Permutation_in; [exact P|]. now apply lookup_In.
    - symmetry. apply lookup_None. apply lookup_None in X. intros I. apply X. unfold keys_of in *. eapply Permutation_in; [symmetry; apply Permutation_map, P|exact I]. }
  rewrite L. assert (Um1 : Forall (fun kv => unique_names (snd kv)) m1) by (eapply Permutation_Forall; eassumption).
  clear -F Um1. induction F as [|[a x] [b y] l l' [E H] _ IH]; [exact I|]. inversion Um1; subst. cbn in E. subst b. cbn [lookup]. cbn [snd] in *.
  destruct (eqb k a); [now split|now apply IH].
Qed.
Lemma members_perm m m' : sv (JObj m) (JObj m') -> Permutation (map fst m) (map fst m').
Proof.
  intros [_ S]. inversion S as [| | | | | |? m1 ? P F]; subst.
  assert (Q : map fst m1 = map fst m') by (clear -F; induction F as [|a b l l' [E _] _ IH]; cbn; congruence).
  rewrite <- Q. now apply Permutation_map.
Qed.
Lemma forallb_perm {A} (f : A -> bool) l l' : Permutation l l' -> forallb f l = forallb f l'.
Proof. induction 1; cbn; try congruence. now rewrite !andb_assoc, (andb_comm (f y)). Qed.
Lemma filter_length_perm {A} (f : A -> bool) l l' : Permutation l l' -> length (filter f l) = length (filter f l').
Proof. induction 1; cbn; repeat match goal with |- context [f ?x] => destruct (f x) eqn:?; cbn end; congruence. Qed.

Lemma fields_same names deny opt j j' : sv j j' ->
  opt_rel (Forall2 (opt_rel sv)) (d_fields names deny opt j) (d_fields names deny opt j').
Proof.
  intros V. pose proof V as [U S]. destruct S; try exact I.
  - cbn [d_fields]. inversion U as [| | | | |? Ul|]; subst.
    assert (F : Forall2 sv l l') by (clear -H Ul; induction H; inversion Ul; subst; constructor; [now split|auto]).
    assert (L : length l = length l') by (clear -F; induction F; cbn; congruence). rewrite <- L. destruct (_ && _); [|exact I].
    cbn. apply Forall2_app.
    + clear -F. induction F; cbn; constructor; auto.
    + induction (length names - length l)%nat; cbn; constructor; [exact Logic.I|assumption].
  - cbn [d_fields]. pose proof (members_perm _ _ V) as P. pose proof (members_same _ _ V) as M.
    rewrite (forallb_perm _ _ _ P).
    assert (Q : forallb (fun n => Nat.leb (length (filter (String.eqb n) (map fst m))) 1) names =
                forallb (fun n => Nat.leb (length (filter (String.eqb n) (map fst m'))) 1) names).
    { clear -P. induction names as [|n names IH]; cbn; [reflexivity|]. now rewrite IH, (filter_length_perm _ _ _ P). }
    rewrite Q. destruct (_ && _); [|exact I]. cbn. clear -M. induction names as [|n names IH]; cbn; constructor; [|exact IH]. apply M.
Qed.
Lemma str_same j j' : sv j j' -> d_str j = d_str j'.
Proof. intros [_ S]. destruct S; reflexivity. Qed.
Lemma signature_same j j' : sv j j' -> d_signature j = d_signature j'.
Proof.
  intros V. unfold d_signature. pose proof (fields_same ["keyid"; "sig"] false 0 j j' V) as F.
  apply opt_cases in F as [[-> ->]|(l & l' & -> & -> & F)]; [reflexivity|].
  destruct F as [|x x' l1 l1' Fx F]; [reflexivity|]. destruct F as [|y y' l2 l2' Fy F]; [reflexivity|].
  destruct F; [|reflexivity]. unfold d_required.
  apply opt_cases in Fx as [[-> ->]|(a & a' & -> & -> & Fx)]; [reflexivity|].
  apply opt_cases in Fy as [[-> ->]|(b & b' & -> & -> & Fy)]; [cbn [obind]; unfold d_key_id; now rewrite (str_same _ _ Fx)|]. cbn [obind]. unfold d_key_id, d_hex. now rewrite (str_same _ _ Fx), (str_same _ _ Fy).
Qed.
Lemma signatures_same j j' : sv j j' -> d_vec d_signature j = d_vec d_signature j'.
Proof.
  intros [U S]. destruct S; try reflexivity. cbn [d_vec]. inversion U as [| | | | |? Ul|]; subst.
  induction H as [|x y l l' Hx _ IH]; [reflexivity|]. inversion Ul; subst. cbn [all_some]. rewrite (signature_same x y) by now split.
  rewrite IH by (first [assumption|now constructor]). reflexivity.
Qed.
Lemma signed_same j j' : sv j j' -> d_signed j = d_signed j'.
Proof.
  intros V. unfold d_signed. pose proof (fields_same ["signatures"; "signed"] false 0 j j' V) as F.
  apply opt_cases in F as [[-> ->]|(l & l' & -> & -> & F)]; [reflexivity|].
  destruct F as [|x x' l1 l1' Fx F]; [reflexivity|]. destruct F as [|y y' l2 l2' Fy F]; [reflexivity|].
  destruct F; [|reflexivity]. unfold d_required.
  apply opt_cases in Fx as [[-> ->]|(a & a' & -> & -> & Fx)]; [reflexivity|]. cbn [obind]. rewrite (signatures_same _ _ Fx).
  apply opt_cases in Fy as [[-> ->]|(b & b' & -> & -> & [Uy Fy])]; [reflexivity|]. cbn [obind]. now rewrite (same_value_to_value b b' Uy Fy).
Qed.
Lemma parse_of t j : document t j -> (parse t = Ok j /\ depth j <= 127)%nat \/ (parse t = Err Encoding /\ (127 < depth j)%nat).
Proof.
  intros D. destruct (PeanoNat.Nat.le_gt_cases (depth j) 127) as [L|L]; [left; split; [now apply parse_iff|exact L]|]. right. split; [|exact L].
  destruct (parse t) as [j'|e] eqn:P; [|f_equal; now apply parse_err in P]. apply parse_iff in P as [D' L']. rewrite (document_unique t j j' D D') in L. unfold max_depth in L'. lia.
Qed.
Lemma envelope_same b b' : respelled b b' -> json_from_slice d_signed b = json_from_slice d_signed b'.
Proof.
  intros [->|(j & j' & D & D' & U & S)]; [reflexivity|]. unfold json_from_slice, rbind.
  pose proof (same_value_depth j j' S) as L. pose proof (same_value_depth j' j (same_value_sym _ _ S)) as L'.
  destruct (parse_of _ _ D) as [[-> X]|[-> X]], (parse_of _ _ D') as [[-> X']|[-> X']]; try lia; [|reflexivity]. now rewrite (signed_same j j' (conj U S)).
Qed.

Section Client.
  Variables (C : crypto) (o : hash_order) (cfg : config).
  Notation E := (mkEnv C o (json_interchange C)).

  Lemma verify_respelled r b b' t ks : respelled b b' -> verify_signatures E r b t ks = verify_signatures E r b' t ks.
  Proof. intros S. unfold verify_signatures. cbn [e_ic json_interchange ic_envelope]. now rewrite (envelope_same b b' S). Qed.
  Lemma from_root_respelled b b' : respelled b b' -> from_trusted_root E b = from_trusted_root E b'.
  Proof.
    intros S. unfold from_trusted_root. cbn [e_ic json_interchange ic_envelope]. rewrite (envelope_same b b' S).
    unfold rbind. destruct (json_from_slice d_signed b') as [[sigs x]|]; [|reflexivity]. destruct (ic_deserialize _ _ _); [|reflexivity]. now rewrite (verify_respelled _ b b' _ _ S).
  Qed.
  Lemma from_keys_respelled b b' th ks : respelled b b' -> from_root_with_trusted_keys E b th ks = from_root_with_trusted_keys E b' th ks.
  Proof.
    intros S. unfold from_root_with_trusted_keys. rewrite (verify_respelled _ b b' _ _ S). unfold rbind. destruct (verify_signatures E Root b' th ks); [|reflexivity].
    now rewrite (verify_respelled _ b b' _ _ S).
  Qed.
  Lemma root_respelled t b b' : respelled b b' -> update_root E t b = update_root E t b'.
  Proof.
    intros S. unfold update_root. rewrite (verify_respelled _ b b' _ _ S). unfold rbind. destruct (verify_signatures E Root b' _ _); [|reflexivity].
    now rewrite (verify_respelled _ b b' _ _ S).
  Qed.
  Lemma timestamp_respelled t c b b' : respelled b b' -> update_timestamp E t c b = update_timestamp E t c b'.
  Proof. intros S. unfold update_timestamp. now rewrite (verify_respelled _ b b' _ _ S). Qed.
  Lemma snapshot_respelled t c b b' : respelled b b' -> update_snapshot E t c b = update_snapshot E t c b'.
  Proof.
    intros S. unfold update_snapshot, rbind. destruct (trusted_root_unexpired c t); [|reflexivity]. destruct (trusted_timestamp_unexpired c t); [|reflexivity].
    now rewrite (verify_respelled _ b b' _ _ S).
  Qed.
  Lemma targets_respelled t c b b' : respelled b b' -> update_targets E t c b = update_targets E t c b'.
  Proof.
    intros S. unfold update_targets, rbind. destruct (trusted_root_unexpired c t); [|reflexivity]. destruct (trusted_snapshot_unexpired c t); [|reflexivity].
    destruct (lookup _ _); [|reflexivity]. now rewrite (verify_respelled _ b b' _ _ S).
  Qed.
  Lemma delegation_respelled t c p r b b' : respelled b b' -> update_delegation E t c p r b = update_delegation E t c p r b'.
  Proof.
    intros S. unfold update_delegation, rbind. destruct (trusted_root_unexpired c t); [|reflexivity]. destruct (trusted_snapshot_unexpired c t); [|reflexivity].
    destruct (trusted_targets_unexpired c t); [|reflexivity]. destruct (tg_delegations _); [|reflexivity]. destruct (lookup _ _); [|reflexivity].
    destruct (find_delegation_threshold_and_keys t p r) as [[th ks]|]; [|reflexivity]. now rewrite (verify_respelled _ b b' _ _ S).
  Qed.
  Lemma step_respelled t p p' : respelled_call p p' -> step E t p = step E t p'.
  Proof.
    destruct 1; cbn [step];
      [rewrite (root_respelled t b b')|rewrite (timestamp_respelled t c b b')|apply snapshot_respelled|apply targets_respelled|apply delegation_respelled]; auto.
  Qed.

  (** ** Programs *)
  Inductive similar {A} (R : A -> A -> Prop) : prog A -> prog A -> Prop :=
  | s_ret a a' : R a a' -> similar R (Ret a) (Ret a')
  | s_panic : similar R Panic Panic
  | s_fuel : similar R OutOfFuel OutOfFuel
  | s_fetch s path v max h k k' :
      (forall ans ans', same_reading (read_metadata C max h ans) (read_metadata C max h ans') -> similar R (k ans) (k' ans')) ->
      similar R (FetchMeta s path v max h k) (FetchMeta s path v max h k')
  | s_store path v b b' k k' : respelled b b' -> (forall ans, similar R (k ans) (k' ans)) -> similar R (StoreMeta path v b k) (StoreMeta path v b' k')
  | s_target path d k k' : (forall ans, similar R (k ans) (k' ans)) -> similar R (FetchTarget path d k) (FetchTarget path d k')
  | s_store_target path rs k k' : (forall ans, similar R (k ans) (k' ans)) -> similar R (StoreTarget path rs k) (StoreTarget path rs k')
  | s_write b k k' : (forall ans, similar R (k ans) (k' ans)) -> similar R (Write b k) (Write b k')
  | s_now k k' : (forall c, similar R (k c) (k' c)) -> similar R (Now k) (Now k')
  | s_put t p p' : similar R p p' -> similar R (Put t p) (Put t p').

  Lemma s_bind {A B} (R : A -> A -> Prop) (S : B -> B -> Prop) p p' f f' : similar R p p' -> (forall a a', R a a' -> similar S (f a) (f' a')) ->
    similar S (bind p f) (bind p' f').
  Proof. intros M F. induction M; cbn [bind]; try (constructor; auto; fail). now apply F. Qed.
  Lemma s_alike {A} (p p' : prog A) : similar eq p p' -> act_alike C p p'.
  Proof.
    intros M tr tr' a a' X. remember (Ret a) as q eqn:Q. revert p' M tr'. induction X; intros p' M tr' X' L; subst;
      inversion M; subst; inversion X'; subst; cbn [learned] in L; try (now split; [constructor|]);
      try (inversion L; subst);
      match goal with
      | H : same_news _ _ |- _ => cbn [same_news] in H; try (injection H as ->)
      | _ => idtac
      end;
      (edestruct IHX as [F Ea]; [reflexivity|solve [eauto]|eassumption|eassumption|]); (split; [|exact Ea]); constructor; try exact F; cbn; auto.
  Qed.

  Lemma fetch_similar s r path v max h : similar same_reading (fetch_metadata E s r path v max h) (fetch_metadata E s r path v max h).
  Proof. unfold fetch_metadata. destruct (repo_check _ _); constructor; [|reflexivity]. intros ans ans' S. now constructor. Qed.
  Lemma store_similar r path v b b' : respelled b b' -> similar eq (store_metadata r path v b) (store_metadata r path v b').
  Proof. intros S. unfold store_metadata. destruct (repo_check _ _); constructor; auto. intros ans. now constructor. Qed.

  Ltac read := eapply s_bind; [apply fetch_similar|]; intros [raw|e] [raw'|e'] S; cbn [same_reading] in S; try contradiction; [|subst].
  Ltac fin := constructor; reflexivity.
  Lemma root_loop_similar s persist : forall fuel t u, similar eq (root_loop E cfg fuel s persist t u) (root_loop E cfg fuel s persist t u).
  Proof.
    induction fuel as [|f IH]; intros t u; cbn [root_loop]; [constructor|]. destruct (_ <=? _)%N; [constructor|]. read.
    - rewrite <- (root_respelled t raw raw' S). destruct (update_root E t raw) as [x [?|e]]; constructor; [|fin]. destruct persist; [|apply IH].
      eapply s_bind; [now apply store_similar|]. intros r1 ? <-. destruct r1; [|fin].
      eapply s_bind; [now apply store_similar|]. intros r2 ? <-. destruct r2; [apply IH|fin].
    - destruct e'; fin.
  Qed.
  Lemma root_similar s persist fuel t : similar eq (update_root_with_repos E cfg fuel s persist t) (update_root_with_repos E cfg fuel s persist t).
  Proof.
    unfold update_root_with_repos. eapply s_bind; [apply root_loop_similar|]. intros [x r] ? <-. destruct r; [|fin]. constructor. intros c. destruct (expired _ _); fin.
  Qed.
  Lemma timestamp_similar s persist t : similar eq (update_timestamp_with_repos E cfg s persist t) (update_timestamp_with_repos E cfg s persist t).
  Proof.
    unfold update_timestamp_with_repos. read; [|fin]. constructor. intros c. rewrite <- (timestamp_respelled t c raw raw' S).
    destruct (update_timestamp E t c raw) as [x [[?|]|e]]; constructor; [|fin|fin]. destruct persist; [|fin].
    eapply s_bind; [now apply store_similar|]. intros r1 ? <-. destruct r1; fin.
  Qed.
  Lemma snapshot_similar s persist cons t : similar eq (update_snapshot_with_repos E s persist cons t) (update_snapshot_with_repos E s persist cons t).
  Proof.
    unfold update_snapshot_with_repos. destruct (t_timestamp t); [|fin]. destruct (_ <=? _)%N; [fin|]. destruct (hash_preference _); [|fin].
    read; [|fin]. constructor. intros c. rewrite <- (snapshot_respelled t c raw raw' S).
    destruct (update_snapshot E t c raw) as [x [[|]|e]]; constructor; [|fin|fin]. destruct persist; [|fin].
    eapply s_bind; [now apply store_similar|]. intros r1 ? <-. destruct r1; fin.
  Qed.
  Lemma targets_similar s persist cons t : similar eq (update_targets_with_repos E s persist cons t) (update_targets_with_repos E s persist cons t).
  Proof.
    unfold update_targets_with_repos. destruct (t_snapshot t); [|fin]. destruct (lookup _ _); [|fin]. destruct (_ <=? _)%N; [fin|]. destruct (hash_preference _); [|fin].
    read; [|fin]. constructor. intros c. rewrite <- (targets_respelled t c raw raw' S).
    destruct (update_targets E t c raw) as [x [[|]|e]]; constructor; [|fin|fin]. destruct persist; [|fin].
    eapply s_bind; [now apply store_similar|]. intros r1 ? <-. destruct r1; fin.
  Qed.
  Lemma update_similar fuel t : similar eq (update E cfg fuel t) (update E cfg fuel t).
  Proof.
    unfold update. eapply s_bind; [apply root_similar|]. intros [t1 r1] ? <-. destruct r1; [|fin].
    eapply s_bind; [apply timestamp_similar|]. intros [t2 r2] ? <-. destruct r2; [|fin].
    eapply s_bind; [apply snapshot_similar|]. intros [t3 r3] ? <-. destruct r3; [|fin].
    eapply s_bind; [apply targets_similar|]. intros [t4 r4] ? <-. destruct r4; fin.
  Qed.
  Lemma new_similar fuel t : similar eq (client_new E cfg fuel t) (client_new E cfg fuel t).
  Proof.
    unfold client_new. eapply s_bind; [apply root_similar|]. intros [t1 r1] ? <-. destruct r1; [|fin].
    eapply s_bind; [apply timestamp_similar|]. intros [t2 r2] ? <-. destruct r2; [|fin].
    eapply s_bind; [apply snapshot_similar|]. intros [t3 r3] ? <-. destruct r3; [|fin].
    eapply s_bind; [apply targets_similar|]. intros [t4 r4] ? <-. fin.
  Qed.
  Lemma construct_similar fuel c c' : respelled_start c c' -> similar eq (construct E cfg fuel c) (construct E cfg fuel c').
  Proof.
    assert (G : forall raw raw', respelled raw raw' -> similar eq (with_trusted_root E cfg fuel raw) (with_trusted_root E cfg fuel raw')).
    { intros raw raw' S. unfold with_trusted_root. rewrite <- (from_root_respelled raw raw' S). destruct (from_trusted_root E raw); [|fin]. constructor. apply new_similar. }
    destruct 1 as [[|raw|v th keys]|b b' S]; cbn [construct]; [|apply G; now left| |now apply G].
    - unfold with_trusted_local. read; [|fin]. rewrite <- (from_root_respelled raw raw' S). destruct (from_trusted_root E raw); [|fin]. constructor. apply new_similar.
    - unfold with_trusted_root_keys. eapply (s_bind (fun x x' => match x, x' with Ok (b, r), Ok (b', r') => b = b' /\ respelled r r' | Err e, Err e' => e = e' | _, _ => False end)).
      + unfold fetch_metadata_from_local_or_else_remote. read; [constructor; now split|].
        destruct e'; try (constructor; reflexivity). read; [constructor; now split|constructor; reflexivity].
      + intros [[fetched raw]|e] [[fetched' raw']|e'] S; try contradiction; [|subst; fin]. destruct S as [<- S].
        rewrite <- (from_keys_respelled raw raw' th keys S). destruct (from_root_with_trusted_keys E raw th keys); [|fin]. constructor. destruct fetched; [|apply new_similar].
        eapply s_bind; [now apply store_similar|]. intros r1 ? <-. destruct r1; [apply new_similar|fin].
  Qed.
  Lemma walk_similar rec target sn role dt dep : (forall t dt dep g, similar eq (rec t dt dep g) (rec t dt dep g)) ->
    forall roles t, similar eq (walk_loop E rec dt dep target sn role roles t) (walk_loop E rec dt dep target sn role roles t).
  Proof.
    intros Rec roles. induction roles as [|d roles IH]; intros t; cbn [walk_loop]; [fin|].
    destruct (negb _); [destruct (dg_terminating d); [fin|apply IH]|].
    destruct (lookup _ _); [|destruct (dg_terminating d); [fin|apply IH]]. destruct (hash_preference _); [|fin].
    eapply s_bind; [apply fetch_similar|]. intros r r' S1. eapply (s_bind same_reading).
    { destruct r, r'; cbn [same_reading] in S1; try contradiction; [constructor; exact S1|apply fetch_similar]. }
    intros [raw|e] [raw'|e'] S; cbn [same_reading] in S; try contradiction; [|subst; destruct (dg_terminating d); [fin|apply IH]].
    constructor. intros c. rewrite <- (delegation_respelled t c role (dg_role d) raw raw' S).
    destruct (update_delegation E t c role (dg_role d) raw) as [x [?|e]]; constructor; [|destruct (dg_terminating d); [fin|apply IH]].
    eapply s_bind; [now apply store_similar|]. intros _ _ _. destruct (lookup _ _); [|constructor]. destruct (_ <=? _)%N; [constructor|].
    eapply s_bind; [apply Rec|]. intros [z [b r2]] ? <-. destruct (_ && _); [fin|apply IH].
  Qed.
  Lemma search_similar target sn : forall fuel t dt dep g,
    similar eq (lookup_target_description E cfg fuel t dt dep target sn g) (lookup_target_description E cfg fuel t dt dep target sn g).
  Proof.
    induction fuel as [|f IH]; intros t dt dep g; cbn [lookup_target_description]; [constructor|]. destruct (_ <? _)%N; [fin|].
    destruct (match g with Some x => Some x | None => _ end) as [[tg role]|]; [|fin]. destruct (lookup _ _); [fin|]. destruct (tg_delegations tg); [|fin].
    apply walk_similar. intros. apply IH.
  Qed.
  Lemma describe_similar fuel t target : similar eq (fetch_target_description E cfg fuel t target) (fetch_target_description E cfg fuel t target).
  Proof.
    unfold fetch_target_description. destruct (cf_translate cfg target); [|fin]. destruct (t_snapshot t); [|fin].
    eapply s_bind; [apply search_similar|]. intros [x [b r]] ? <-. fin.
  Qed.
  Lemma reader_similar fuel t target : similar eq (fetch_target_reader E cfg fuel t target) (fetch_target_reader E cfg fuel t target).
  Proof.
    unfold fetch_target_reader. eapply s_bind; [apply describe_similar|]. intros [x [d|e]] ? <-; [|fin].
    assert (G : forall path, similar eq (do res <- fetch_target_stream E path d in Ret (x, res)) (do res <- fetch_target_stream E path d in Ret (x, res))).
    { intros path. eapply (s_bind eq); [|intros res ? <-; fin]. unfold fetch_target_stream. destruct (hash_preference _); [|fin]. constructor. intros. fin. }
    destruct (rm_consistent _); [|apply G]. destruct (rbind _ _); [apply G|fin].
  Qed.
  Lemma copy_similar rs : similar eq (copy_to_writer rs) (copy_to_writer rs).
  Proof.
    induction rs as [|[|k|b] rs IH]; cbn [copy_to_writer]; [fin|exact IH|fin|]. destruct (_ =? _)%N; [fin|]. constructor. intros [k|]; [fin|exact IH].
  Qed.
  Lemma call_similar fuel t k : similar eq (call_prog E cfg fuel t k) (call_prog E cfg fuel t k).
  Proof.
    destruct k; cbn [call_prog]; unfold forget.
    - eapply s_bind; [apply update_similar|]. intros [x r] ? <-. fin.
    - eapply s_bind; [apply describe_similar|]. intros [x r] ? <-. fin.
    - unfold fetch_target. eapply s_bind; [apply reader_similar|]. intros [x [rs|e]] ? <-; [|fin]. constructor. intros. fin.
    - unfold fetch_target_to_writer. eapply s_bind; [apply reader_similar|]. intros [x [rs|e]] ? <-; [|fin].
      eapply s_bind; [apply copy_similar|]. intros r ? <-. fin.
  Qed.
End Client.

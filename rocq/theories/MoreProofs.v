(** * More signatures, more keys and lower thresholds: the proofs for C111 *)
From Coq Require Import String List NArith ZArith Bool Lia.
From Verif Require Import Base BaseFacts Metadata Verify SpecVerify VerifyProofs Paths Tuf SpecTuf SpecTime SpecMore.
Import ListNotations.
Open Scope list_scope.

Lemma firstn_nodup {A} (l : list A) : NoDup l -> forall n, NoDup (firstn n l).
Proof.
  induction 1 as [|x l X N IH]; intros [|n]; cbn; try constructor; [|apply IH]. intros H. apply X.
  rewrite <- (firstn_skipn n l). apply in_or_app. now left.
Qed.
Lemma fewer_ids {A} (l : list A) (n : nat) : (n <= length l)%nat -> NoDup l -> exists l', NoDup l' /\ length l' = n /\ incl l' l.
Proof.
  intros L N. exists (firstn n l). split; [|split; [apply firstn_length_le, L|]].
  - now apply firstn_nodup.
  - intros x H. rewrite <- (firstn_skipn n l). apply in_or_app. now left.
Qed.

Lemma threshold_more C keys keys' sigs sigs' msg t t' : at_least pk_id keys keys' -> at_least sig_keyid sigs sigs' -> (t' <= t)%N ->
  threshold_met C keys sigs msg t -> threshold_met C keys' sigs' msg t'.
Proof.
  intros K S L (ids & N & Len & G). destruct (fewer_ids ids (N.to_nat t')) as (l & Nl & Ll & I); [lia|exact N|].
  exists l. split; [exact Nl|]. split; [lia|]. intros i Hi. destruct (G i (I i Hi)) as (k & s & Lk & Ls & V).
  exists k, s. auto.
Qed.

Lemma at_least_refl {A} (id : A -> string) l : at_least id l l.
Proof. intros i x H. exact H. Qed.
Lemma at_least_snoc {A} (id : A -> string) l l' : (forall x, In x l' -> ~ In (id x) (map id l)) -> at_least id l (l ++ l').
Proof.
  intros N i x (l1 & l2 & -> & E & U). exists l1, (l2 ++ l'). rewrite <- app_assoc. split; [reflexivity|]. split; [exact E|].
  intros y H F. apply in_app_or in H as [H|H]; [now apply (U y)|]. apply (N y H). rewrite F, <- E.
  apply in_map, in_or_app. right. now left.
Qed.
Lemma at_least_nodup {A} (id : A -> string) l l' : NoDup (map id l') -> incl l l' -> at_least id l l'.
Proof.
  intros N I i x (l1 & l2 & -> & E & U).
  assert (H : In x l') by (apply I, in_or_app; right; now left).
  apply in_split in H as (a & b & ->). exists a, b. split; [reflexivity|]. split; [exact E|]. intros y H F.
  rewrite map_app in N. cbn [map] in N. apply NoDup_remove_2 in N. apply N. apply in_or_app. right. rewrite E, <- F. now apply in_map.
Qed.

Section Env.
  Context (E : env).

  Lemma authentic_more r raw raw' t t' keys keys' m : more_signed E raw raw' -> at_least pk_id keys keys' -> (1 <= t' <= t)%N ->
    authentic E r raw t keys m -> authentic E r raw' t' keys' m.
  Proof.
    intros (sigs & sigs' & signed & E1 & E2 & S) K L (T & s1 & sd & msg & F1 & F2 & F3 & F4). split; [lia|].
    rewrite E1 in F1. injection F1 as <- <-. exists sigs', signed, msg. repeat split; auto.
    eapply threshold_more; [exact K|exact S|apply L|exact F3].
  Qed.
  Lemma verify_more r raw raw' t t' keys keys' m : more_signed E raw raw' -> at_least pk_id keys keys' -> (1 <= t' <= t)%N ->
    verify_signatures E r raw t keys = Ok m -> verify_signatures E r raw' t' keys' = Ok m.
  Proof. intros S K L V. apply verify_signatures_iff in V. apply verify_signatures_iff. eapply authentic_more; eassumption. Qed.
  Lemma verify_again r raw raw' t keys m : more_signed E raw raw' -> verify_signatures E r raw t keys = Ok m ->
    verify_signatures E r raw' t keys = Ok m.
  Proof.
    intros S V. assert (T : (1 <= t)%N) by (apply verify_signatures_iff in V as [T _]; exact T).
    apply (verify_more r raw raw' t t keys keys m S (at_least_refl _ _)); [lia|exact V].
  Qed.

  Lemma update_root_more raw raw' t t' : more_signed E raw raw' -> update_root E t raw = (t', Ok tt) -> update_root E t raw' = (t', Ok tt).
  Proof.
    intros S. unfold update_root, rbind. destruct (verify_signatures E Root raw _ _) as [n|e] eqn:V; [|discriminate].
    rewrite (verify_again _ _ _ _ _ _ S V). destruct (verify_signatures E Root raw _ (root_keys n)) as [n2|e] eqn:V2; [|discriminate].
    now rewrite (verify_again _ _ _ _ _ _ S V2).
  Qed.
  Lemma update_timestamp_more c raw raw' t t' x : more_signed E raw raw' -> update_timestamp E t c raw = (t', Ok x) -> update_timestamp E t c raw' = (t', Ok x).
  Proof.
    intros S. unfold update_timestamp. destruct (verify_signatures _ _ _ _ _) as [n|e] eqn:V; [|discriminate].
    now rewrite (verify_again _ _ _ _ _ _ S V).
  Qed.
  Lemma update_snapshot_more c raw raw' t t' x : more_signed E raw raw' -> update_snapshot E t c raw = (t', Ok x) -> update_snapshot E t c raw' = (t', Ok x).
  Proof.
    intros S. unfold update_snapshot, rbind. destruct (trusted_root_unexpired c t); [|auto]. destruct (trusted_timestamp_unexpired c t); [|auto].
    destruct (_ ?= _)%N; auto. destruct (verify_signatures _ _ _ _ _) as [n|e] eqn:V; [|discriminate].
    now rewrite (verify_again _ _ _ _ _ _ S V).
  Qed.
  Lemma update_targets_more c raw raw' t t' x : more_signed E raw raw' -> update_targets E t c raw = (t', Ok x) -> update_targets E t c raw' = (t', Ok x).
  Proof.
    intros S. unfold update_targets, rbind. destruct (trusted_root_unexpired c t); [|auto]. destruct (trusted_snapshot_unexpired c t); [|auto].
    destruct (lookup _ _); [|auto]. destruct (_ ?= _)%N; auto. destruct (verify_signatures _ _ _ _ _) as [n|e] eqn:V; [|discriminate].
    now rewrite (verify_again _ _ _ _ _ _ S V).
  Qed.
  Lemma update_delegation_more c p r raw raw' t t' x : more_signed E raw raw' -> update_delegation E t c p r raw = (t', Ok x) ->
    update_delegation E t c p r raw' = (t', Ok x).
  Proof.
    intros S. unfold update_delegation, rbind. destruct (trusted_root_unexpired c t); [|auto]. destruct (trusted_snapshot_unexpired c t); [|auto].
    destruct (trusted_targets_unexpired c t); [|auto]. destruct (tg_delegations _); [|auto]. destruct (lookup _ _); [|auto]. destruct (_ <? _)%N; auto.
    destruct (find_delegation_threshold_and_keys t p r) as [[th ks]|]; [|auto].
    destruct (verify_signatures _ _ _ _ _) as [n|e] eqn:V; [|discriminate]. now rewrite (verify_again _ _ _ _ _ _ S V).
  Qed.
  Lemma step_more o o' t t' b : more_signed_call E o o' -> step E t o = (t', Ok b) -> step E t o' = (t', Ok b).
  Proof.
    intros S. destruct S as [raw raw' S|c raw raw' S|c raw raw' S|c raw raw' S|c p r raw raw' S]; cbn [step].
    - destruct (update_root E t raw) as [t1 [[]|e]] eqn:U; [|discriminate]. now rewrite (update_root_more _ _ _ _ S U).
    - destruct (update_timestamp E t c raw) as [t1 [x|e]] eqn:U; [|discriminate]. now rewrite (update_timestamp_more _ _ _ _ _ _ S U).
    - now apply update_snapshot_more.
    - now apply update_targets_more.
    - now apply update_delegation_more.
  Qed.
  Lemma succeed_more ops ops' : Forall2 (more_signed_call E) ops ops' -> forall t t', succeed E t ops t' -> succeed E t ops' t'.
  Proof.
    induction 1 as [|o o' ops ops' L _ IH]; intros t t' S; [exact S|]. inversion S; subst.
    econstructor; [eapply step_more; eassumption|now apply IH].
  Qed.
  Lemma started_more raw raw' t : more_signed E raw raw' ->
    (from_trusted_root E raw = Ok t -> from_trusted_root E raw' = Ok t) /\
    (forall th keys, from_root_with_trusted_keys E raw th keys = Ok t -> from_root_with_trusted_keys E raw' th keys = Ok t).
  Proof.
    intros S. split.
    - unfold from_trusted_root, rbind. destruct (ic_envelope (e_ic E) raw) as [[sg sd]|e] eqn:V; [|discriminate].
      pose proof S as (s1 & s2 & sd' & E1 & E2 & A). rewrite V in E1. injection E1 as <- <-. rewrite E2.
      destruct (ic_deserialize _ _ _) as [u|e]; [|discriminate].
      destruct (verify_signatures E Root raw _ _) as [n|e] eqn:V2; [|discriminate].
      now rewrite (verify_again _ _ _ _ _ _ S V2).
    - intros th keys. unfold from_root_with_trusted_keys, rbind. destruct (verify_signatures E Root raw _ _) as [n|e] eqn:V; [|discriminate].
      rewrite (verify_again _ _ _ _ _ _ S V). destruct (verify_signatures E Root raw _ (select_keys _ _)) as [n2|e] eqn:V2; [|discriminate].
      now rewrite (verify_again _ _ _ _ _ _ S V2).
  Qed.
End Env.

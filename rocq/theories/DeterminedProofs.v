(** * Lemmas for C105 *)
From Coq Require Import String List NArith ZArith Bool Lia.
From Verif Require Import Base BaseFacts Metadata Verify VerifyProofs Paths Tuf Reader Repo Client SpecDetermined.
Import ListNotations.
Open Scope nat_scope.
Open Scope list_scope.

(** One program does what the other does, as long as it does not run out of fuel. *)
Inductive within {A} : prog A -> prog A -> Prop :=
| w_out p : within OutOfFuel p
| w_ret a : within (Ret a) (Ret a)
| w_panic : within Panic Panic
| w_fetch_meta s path v max hash k k' : (forall x, within (k x) (k' x)) -> within (FetchMeta s path v max hash k) (FetchMeta s path v max hash k')
| w_store_meta path v b k k' : (forall x, within (k x) (k' x)) -> within (StoreMeta path v b k) (StoreMeta path v b k')
| w_fetch_target path d k k' : (forall x, within (k x) (k' x)) -> within (FetchTarget path d k) (FetchTarget path d k')
| w_store_target path rs k k' : (forall x, within (k x) (k' x)) -> within (StoreTarget path rs k) (StoreTarget path rs k')
| w_write b k k' : (forall x, within (k x) (k' x)) -> within (Write b k) (Write b k')
| w_now k k' : (forall x, within (k x) (k' x)) -> within (Now k) (Now k')
| w_put t p p' : within p p' -> within (Put t p) (Put t p').

Lemma within_refl {A} (p : prog A) : within p p.
Proof. induction p; constructor; auto. Qed.

Lemma within_bind {A B} (p p' : prog A) (f f' : A -> prog B) : within p p' -> (forall a, within (f a) (f' a)) ->
  within (bind p f) (bind p' f').
Proof. intros W F. induction W; cbn [bind]; try (constructor; auto; fail). apply F. Qed.

Lemma within_exec {A} (p p' : prog A) tr q : within p p' -> exec p tr q -> exists q', exec p' tr q' /\ within q q'.
Proof.
  intros W X. revert p' W. induction X; intros p' W.
  1: exists p'; split; [constructor|exact W].
  all: inversion W; subst.
  1-6: match goal with IH : forall p', within (_ ?a) p' -> _, H : forall x, within _ _ |- _ =>
         destruct (IH _ (H a)) as (q' & X' & W') end; exists q'; split; [now constructor|exact W'].
  destruct (IHX _ H2) as (q' & X' & W'). exists q'; split; [now constructor|exact W'].
Qed.

Lemma within_run {A} (p p' : prog A) tr a : within p p' -> exec p tr (Ret a) -> exec p' tr (Ret a).
Proof. intros W X. destruct (within_exec _ _ _ _ W X) as (q' & X' & W'). inversion W'; subst. exact X'. Qed.

(** ** Verification and updates of trusted metadata *)

Lemma alike_verify E E' r raw th keys : alike E E' -> verify_signatures E r raw th keys = verify_signatures E' r raw th keys.
Proof.
  destruct E as [C o I], E' as [C' o' I']. intros [Q1 Q2]. cbn in Q1, Q2. subst. apply verify_signatures_order.
Qed.

Section alike.
  Context (E E' : env) (A : alike E E').
  Let V r raw th keys : verify_signatures E r raw th keys = verify_signatures E' r raw th keys := alike_verify E E' r raw th keys A.

  Lemma alike_from_root raw : from_trusted_root E raw = from_trusted_root E' raw.
  Proof.
    unfold from_trusted_root. rewrite (proj2 A). destruct (ic_envelope (e_ic E') raw) as [[x signed]|e]; [|reflexivity]. cbn [rbind].
    destruct (ic_deserialize (e_ic E') Root signed) as [m|e]; [|reflexivity]. cbn [rbind]. now rewrite V.
  Qed.
  Lemma alike_from_keys raw th keys : from_root_with_trusted_keys E raw th keys = from_root_with_trusted_keys E' raw th keys.
  Proof.
    unfold from_root_with_trusted_keys. rewrite V. destruct (verify_signatures E' Root raw th keys) as [m|e]; [|reflexivity]. cbn [rbind]. now rewrite V.
  Qed.
  Lemma alike_root t raw : update_root E t raw = update_root E' t raw.
  Proof.
    unfold update_root. rewrite V. destruct (verify_signatures E' Root raw _ _) as [m|e]; [|reflexivity]. cbn [rbind]. now rewrite V.
  Qed.
  Lemma alike_timestamp t c raw : update_timestamp E t c raw = update_timestamp E' t c raw.
  Proof. unfold update_timestamp. now rewrite V. Qed.
  Lemma alike_snapshot t c raw : update_snapshot E t c raw = update_snapshot E' t c raw.
  Proof.
    unfold update_snapshot. destruct (trusted_root_unexpired c t) as [m|e]; [|reflexivity]. cbn [rbind].
    destruct (trusted_timestamp_unexpired c t) as [ts|e]; [|reflexivity]. cbn [rbind]. now rewrite V.
  Qed.
  Lemma alike_targets t c raw : update_targets E t c raw = update_targets E' t c raw.
  Proof.
    unfold update_targets. destruct (trusted_root_unexpired c t) as [m|e]; [|reflexivity]. cbn [rbind].
    destruct (trusted_snapshot_unexpired c t) as [s|e]; [|reflexivity]. cbn [rbind].
    destruct (lookup _ _) as [d|]; [|reflexivity]. now rewrite V.
  Qed.
  Lemma alike_delegation t c parent r raw : update_delegation E t c parent r raw = update_delegation E' t c parent r raw.
  Proof.
    unfold update_delegation. destruct (trusted_root_unexpired c t) as [m|e]; [|reflexivity]. cbn [rbind].
    destruct (trusted_snapshot_unexpired c t) as [s|e]; [|reflexivity]. cbn [rbind].
    destruct (trusted_targets_unexpired c t) as [g|e]; [|reflexivity]. cbn [rbind].
    destruct (tg_delegations g) as [ds|]; [|reflexivity]. destruct (lookup _ _) as [desc|]; [|reflexivity].
    destruct (_ <? _)%N; [reflexivity|]. destruct (find_delegation_threshold_and_keys t parent r) as [[th keys]|]; [|reflexivity]. now rewrite V.
  Qed.

  Lemma alike_step t o : step E t o = step E' t o.
  Proof.
    destruct o; cbn [step]; now rewrite ?alike_root, ?alike_timestamp, ?alike_snapshot, ?alike_targets, ?alike_delegation.
  Qed.
  Lemma alike_run ops : forall t, run E t ops = run E' t ops.
  Proof. unfold run. induction ops as [|o ops IH]; intros t; cbn [fold_left]; [reflexivity|]. now rewrite alike_step. Qed.

  (** ** Programs *)

  Context (cfg : config).

  Ltac go :=
    repeat first
      [ apply within_refl
      | apply within_bind; [|intros]
      | progress intros
      | match goal with
        | |- within (Now _) _ => apply w_now; intros
        | |- within (Put _ _) _ => apply w_put
        | |- within (StoreTarget _ _ _) _ => apply w_store_target; intros
        | |- within (Write _ _) _ => apply w_write; intros
        | |- within Panic _ => apply w_panic
        | |- within (match ?x with _ => _ end) _ => destruct x
        end ].

  Lemma w_meta s r path v max hash : within (fetch_metadata E s r path v max hash) (fetch_metadata E' s r path v max hash).
  Proof. unfold fetch_metadata. rewrite (proj1 A). apply within_refl. Qed.

  Lemma w_root_loop s persist fuel fuel' : fuel <= fuel' -> forall t u,
    within (root_loop E cfg fuel s persist t u) (root_loop E' cfg fuel' s persist t u).
  Proof.
    revert fuel'. induction fuel as [|fuel IH]; intros fuel' L t u; [apply w_out|].
    destruct fuel' as [|fuel']; [lia|]. cbn [root_loop]. destruct (_ <=? _)%N; [apply w_panic|].
    apply within_bind; [apply w_meta|]. intros [raw|e]; [|apply within_refl]. rewrite alike_root.
    destruct (update_root E' t raw) as [t' [x|e]]; apply w_put; [|apply within_refl].
    assert (K : within (root_loop E cfg fuel s persist t' true) (root_loop E' cfg fuel' s persist t' true)) by (apply IH; lia).
    destruct persist; [|exact K]. apply within_bind; [apply within_refl|]. intros [?|e]; [|apply within_refl].
    apply within_bind; [apply within_refl|]. intros [?|e]; [exact K|apply within_refl].
  Qed.
  Lemma w_update_root s persist fuel fuel' t : fuel <= fuel' ->
    within (update_root_with_repos E cfg fuel s persist t) (update_root_with_repos E' cfg fuel' s persist t).
  Proof. intros L. unfold update_root_with_repos. apply within_bind; [now apply w_root_loop|]. intros [t' r]. apply within_refl. Qed.
  Lemma w_update_timestamp s persist t : within (update_timestamp_with_repos E cfg s persist t) (update_timestamp_with_repos E' cfg s persist t).
  Proof.
    unfold update_timestamp_with_repos. apply within_bind; [apply w_meta|]. intros [raw|e]; [|apply within_refl].
    apply w_now. intros c. rewrite alike_timestamp. apply within_refl.
  Qed.
  Lemma w_update_snapshot s persist con t : within (update_snapshot_with_repos E s persist con t) (update_snapshot_with_repos E' s persist con t).
  Proof.
    unfold update_snapshot_with_repos. destruct (t_timestamp t); [|apply within_refl]. destruct (_ <=? _)%N; [apply within_refl|].
    destruct (hash_preference _); [|apply within_refl]. apply within_bind; [apply w_meta|]. intros [raw|e]; [|apply within_refl].
    apply w_now. intros c. rewrite alike_snapshot. apply within_refl.
  Qed.
  Lemma w_update_targets s persist con t : within (update_targets_with_repos E s persist con t) (update_targets_with_repos E' s persist con t).
  Proof.
    unfold update_targets_with_repos. destruct (t_snapshot t); [|apply within_refl]. destruct (lookup _ _); [|apply within_refl].
    destruct (_ <=? _)%N; [apply within_refl|].
    destruct (hash_preference _); [|apply within_refl]. apply within_bind; [apply w_meta|]. intros [raw|e]; [|apply within_refl].
    apply w_now. intros c. rewrite alike_targets. apply within_refl.
  Qed.
  Lemma w_update fuel fuel' t : fuel <= fuel' -> within (update E cfg fuel t) (update E' cfg fuel' t).
  Proof.
    intros L. unfold update. apply within_bind; [now apply w_update_root|]. intros [t1 [r1|e]]; [|apply within_refl].
    apply within_bind; [apply w_update_timestamp|]. intros [t2 [r2|e]]; [|apply within_refl].
    apply within_bind; [apply w_update_snapshot|]. intros [t3 [r3|e]]; [|apply within_refl].
    apply within_bind; [apply w_update_targets|]. intros [t4 [r4|e]]; apply within_refl.
  Qed.
  Lemma w_new fuel fuel' t : fuel <= fuel' -> within (client_new E cfg fuel t) (client_new E' cfg fuel' t).
  Proof.
    intros L. unfold client_new. apply within_bind; [now apply w_update_root|]. intros [t1 [r1|e]]; [|apply within_refl].
    apply within_bind; [apply w_update_timestamp|]. intros [t2 [r2|e]]; [|apply within_refl].
    apply within_bind; [apply w_update_snapshot|]. intros [t3 [r3|e]]; [|apply within_refl].
    apply within_bind; [apply w_update_targets|]. intros [t4 r4]; apply within_refl.
  Qed.
  Lemma w_construct fuel fuel' c : fuel <= fuel' -> within (construct E cfg fuel c) (construct E' cfg fuel' c).
  Proof.
    intros L. destruct c as [|raw|v th keys]; cbn [construct].
    - unfold with_trusted_local. apply within_bind; [apply w_meta|]. intros [raw|e]; [|apply within_refl]. rewrite alike_from_root.
      destruct (from_trusted_root E' raw); [|apply within_refl]. apply w_put. now apply w_new.
    - unfold with_trusted_root. rewrite alike_from_root. destruct (from_trusted_root E' raw); [|apply within_refl]. apply w_put. now apply w_new.
    - unfold with_trusted_root_keys, fetch_metadata_from_local_or_else_remote. apply within_bind.
      + apply within_bind; [apply w_meta|]. intros [raw|[]]; try apply within_refl. apply within_bind; [apply w_meta|]. intros; apply within_refl.
      + intros [[fe raw]|e]; [|apply within_refl]. rewrite alike_from_keys. destruct (from_root_with_trusted_keys E' raw th keys) as [t|e]; [|apply within_refl].
        apply w_put. destruct fe; [|now apply w_new]. apply within_bind; [apply within_refl|]. intros [?|e]; [now apply w_new|apply within_refl].
  Qed.

  Lemma w_walk recur recur' dt depth target sn role ds :
    (forall t b n g, within (recur t b n g) (recur' t b n g)) -> forall t,
    within (walk_loop E recur dt depth target sn role ds t) (walk_loop E' recur' dt depth target sn role ds t).
  Proof.
    intros R. induction ds as [|d ds IH]; intros t; [apply within_refl|]. cbn [walk_loop].
    destruct (negb _). { destruct (dg_terminating d); [apply within_refl|apply IH]. }
    destruct (lookup _ _) as [desc|]. 2: { destruct (dg_terminating d); [apply within_refl|apply IH]. }
    destruct (hash_preference _) as [hash|e]; [|apply within_refl].
    apply within_bind; [apply w_meta|]. intros res. apply within_bind. { destruct res; [apply within_refl|apply w_meta]. }
    clear res. intros [raw|e]. 2: { destruct (dg_terminating d); [apply within_refl|apply IH]. }
    apply w_now. intros c. rewrite alike_delegation. destruct (update_delegation E' t c role (dg_role d) raw) as [t' [r|e]]; apply w_put.
    2: { destruct (dg_terminating d); [apply within_refl|apply IH]. }
    apply within_bind; [apply within_refl|]. intros _. destruct (lookup _ _) as [meta|]; [|apply w_panic].
    destruct (_ <=? _)%N; [apply w_panic|]. apply within_bind; [apply R|]. intros [t'' [term res]].
    destruct (term && negb (is_ok res)); [apply within_refl|apply IH].
  Qed.
  Lemma w_lookup target sn fuel fuel' : fuel <= fuel' -> forall t dt depth g,
    within (lookup_target_description E cfg fuel t dt depth target sn g) (lookup_target_description E' cfg fuel' t dt depth target sn g).
  Proof.
    revert fuel'. induction fuel as [|fuel IH]; intros fuel' L t dt depth g; [apply w_out|].
    destruct fuel' as [|fuel']; [lia|]. cbn [lookup_target_description]. destruct (_ <? _)%N; [apply within_refl|].
    destruct (match g with Some x => Some x | None => _ end) as [[tg role]|]; [|apply within_refl].
    destruct (lookup _ _); [apply within_refl|]. destruct (tg_delegations tg) as [ds|]; [|apply within_refl].
    apply w_walk. intros. apply IH. lia.
  Qed.
  Lemma w_description fuel fuel' t target : fuel <= fuel' ->
    within (fetch_target_description E cfg fuel t target) (fetch_target_description E' cfg fuel' t target).
  Proof.
    intros L. unfold fetch_target_description. destruct (cf_translate cfg target); [|apply within_refl]. destruct (t_snapshot t); [|apply within_refl].
    apply within_bind; [now apply w_lookup|]. intros [t' [b res]]. apply within_refl.
  Qed.
  Lemma w_reader fuel fuel' t target : fuel <= fuel' ->
    within (fetch_target_reader E cfg fuel t target) (fetch_target_reader E' cfg fuel' t target).
  Proof.
    intros L. unfold fetch_target_reader, fetch_target_stream. rewrite (proj1 A).
    apply within_bind; [now apply w_description|]. intros [t' res]. apply within_refl.
  Qed.
  Lemma w_target fuel fuel' t target : fuel <= fuel' -> within (fetch_target E cfg fuel t target) (fetch_target E' cfg fuel' t target).
  Proof. intros L. unfold fetch_target. apply within_bind; [now apply w_reader|]. intros [t' res]. apply within_refl. Qed.
  Lemma w_writer fuel fuel' t target : fuel <= fuel' ->
    within (fetch_target_to_writer E cfg fuel t target) (fetch_target_to_writer E' cfg fuel' t target).
  Proof. intros L. unfold fetch_target_to_writer. apply within_bind; [now apply w_reader|]. intros [t' res]. apply within_refl. Qed.
  Lemma w_call fuel fuel' t k : fuel <= fuel' -> within (call_prog E cfg fuel t k) (call_prog E' cfg fuel' t k).
  Proof.
    intros L. destruct k; cbn [call_prog]; [| |now apply w_target|now apply w_writer]; (apply within_bind; [|intros; apply within_refl]).
    - now apply w_update.
    - now apply w_description.
  Qed.

  Lemma w_life fuel fuel' c tr t : fuel <= fuel' -> life E cfg fuel c tr t -> life E' cfg fuel' c tr t.
  Proof.
    intros L H. induction H as [tr t X|tr t k tr' q _ IH X].
    - apply life_new. exact (within_run _ _ _ _ (w_construct _ _ _ L) X).
    - destruct (within_exec _ _ _ _ (w_call _ _ _ _ L) X) as (q' & X' & _). exact (life_call _ _ _ _ _ _ _ _ _ IH X').
  Qed.
End alike.

(** ** Answers determine a run *)

Lemma determined {A} (p : prog A) : agree p p.
Proof.
  intros tr tr' a a' X. remember (Ret a) as q eqn:Q. revert tr' Q. induction X; intros tr' Q X' I; subst.
  - inversion X'; subst. auto.
  - inversion X'; subst. cbn in I. inversion I; subst. edestruct IHX as [-> ->]; eauto.
  - inversion X'; subst. cbn in I. inversion I; subst. edestruct IHX as [-> ->]; eauto.
  - inversion X'; subst. cbn in I. inversion I; subst. edestruct IHX as [-> ->]; eauto.
  - inversion X'; subst. cbn in I. inversion I; subst. edestruct IHX as [-> ->]; eauto.
  - inversion X'; subst. cbn in I. inversion I; subst. edestruct IHX as [-> ->]; eauto.
  - inversion X'; subst. cbn in I. inversion I; subst. edestruct IHX as [-> ->]; eauto.
  - inversion X'; subst. cbn in I. edestruct IHX as [-> ->]; eauto.
Qed.

(** If both are within a third, they agree. *)
Lemma within_agree {A} (p p' p'' : prog A) : within p p'' -> within p' p'' -> agree p p'.
Proof.
  intros W W' tr tr' a a' X X'. exact (determined p'' tr tr' a a' (within_run _ _ _ _ W X) (within_run _ _ _ _ W' X')).
Qed.

(** * Lemmas for C106 *)
From Coq Require Import String List NArith ZArith Bool Lia.
From Verif Require Import Base BaseFacts Metadata Verify VerifyProofs Paths Tuf SpecTuf TufProofs Reader Repo Client ClientLogic ClientProofs EndToEndProofs SpecFootprint.
Import ListNotations.
Open Scope string_scope.
Open Scope list_scope.

(** All events of a program are in [P]; what it returns is in [Q]. *)
Inductive only {A} (P : event -> Prop) (Q : A -> Prop) : prog A -> Prop :=
| o_ret a : Q a -> only P Q (Ret a)
| o_panic : only P Q Panic
| o_out : only P Q OutOfFuel
| o_fetch_meta s path v max hash k : (forall x, P (EvFetchMeta s path v max hash x)) -> (forall x, only P Q (k x)) -> only P Q (FetchMeta s path v max hash k)
| o_store_meta path v b k : (forall x, P (EvStoreMeta path v b x)) -> (forall x, only P Q (k x)) -> only P Q (StoreMeta path v b k)
| o_fetch_target path d k : (forall x, P (EvFetchTarget path d x)) -> (forall x, only P Q (k x)) -> only P Q (FetchTarget path d k)
| o_store_target path rs k : (forall x, P (EvStoreTarget path rs x)) -> (forall x, only P Q (k x)) -> only P Q (StoreTarget path rs k)
| o_write b k : (forall x, P (EvWrite b x)) -> (forall x, only P Q (k x)) -> only P Q (Write b k)
| o_now k : (forall x, P (EvNow x)) -> (forall x, only P Q (k x)) -> only P Q (Now k)
| o_put t p : P (EvPut t) -> only P Q p -> only P Q (Put t p).

Lemma only_exec {A} (P : event -> Prop) (Q : A -> Prop) (p : prog A) tr q : exec p tr q -> only P Q p -> Forall P tr /\ only P Q q.
Proof.
  intros X. induction X; intros O.
  1: split; [constructor|exact O].
  all: inversion O; subst.
  all: match goal with K : only _ _ ?p, IH : only _ _ ?p -> _ |- _ => destruct (IH K) as [F O'] | K : forall x, only _ _ (?p x), IH : only _ _ (?p _) -> _ |- _ => destruct (IH (K _)) as [F O'] end.
  all: split; [constructor; auto|exact O'].
Qed.

Lemma only_bind {A B} P (Q : A -> Prop) (R : B -> Prop) (p : prog A) (f : A -> prog B) :
  only P Q p -> (forall a, Q a -> only P R (f a)) -> only P R (bind p f).
Proof. intros O F. induction O; cbn [bind]; try (constructor; auto; fail). now apply F. Qed.

Lemma only_any {A} P (p : prog A) (Q : A -> Prop) : only P Q p -> only P (fun _ => True) p.
Proof. intros O. induction O; constructor; auto. Qed.

Section only.
  Context (E : env) (cfg : config) (P : event -> Prop).

  Ltac go :=
    repeat first
      [ progress intros
      | match goal with
        | |- only _ _ (Ret _) => apply o_ret; exact I
        | |- only _ _ Panic => apply o_panic
        | |- only _ _ OutOfFuel => apply o_out
        | |- only _ _ (match ?x with _ => _ end) => destruct x
        end ].

  Lemma only_fetch s r path v max hash : (fuzzy_matches_path r path = true -> forall ans, P (EvFetchMeta s path v max hash ans)) ->
    only P (fun _ => True) (fetch_metadata E s r path v max hash).
  Proof.
    intros H. unfold fetch_metadata, repo_check. destruct (fuzzy_matches_path r path); cbn [negb]; [|go].
    apply o_fetch_meta; [now apply H|go].
  Qed.
  Lemma only_store r path v b : (fuzzy_matches_path r path = true -> forall ans, P (EvStoreMeta path v b ans)) ->
    only P (fun _ => True) (store_metadata r path v b).
  Proof.
    intros H. unfold store_metadata, repo_check. destruct (fuzzy_matches_path r path); cbn [negb]; [|go].
    apply o_store_meta; [now apply H|go].
  Qed.

  (** ** Updates and constructors *)

  Section updates.
    Context (s : side) (persist : bool).
    Context (HF : forall path v max hash ans, In path top_level -> P (EvFetchMeta s path v max hash ans)).
    Context (HS : persist = true -> forall path v b ans, In path top_level -> (path <> "root" -> v = VNone) -> P (EvStoreMeta path v b ans)).
    Context (HN : forall c, P (EvNow c)) (HP : forall t, P (EvPut t)).

    Lemma top_role r : In (from_role r) top_level.
    Proof. destruct r; cbn; auto. Qed.

    Ltac run :=
      repeat first
        [ progress go
        | match goal with
          | |- only _ _ (Now _) => apply o_now; [exact HN|]
          | |- only _ _ (Put _ _) => apply o_put; [apply HP|]
          | |- only _ _ (bind (fetch_metadata _ _ _ _ _ _ _) _) => eapply only_bind; [apply only_fetch; intros _ ?; apply HF, top_role|]
          | |- only _ _ (bind (store_metadata _ _ _ _) _) => eapply only_bind; [apply only_store; intros _ ?; apply HS; [reflexivity|apply top_role|]|]
          end ].

    Lemma only_root_loop fuel : forall t u, only P (fun _ => True) (root_loop E cfg fuel s persist t u).
    Proof.
      induction fuel as [|fuel IH]; intros t u; cbn [root_loop]; [go|]. destruct (_ <=? _)%N; [go|].
      eapply only_bind; [apply only_fetch; intros _ ?; apply HF, top_role|]. intros [raw|[]] _; try (go; fail).
      destruct (update_root E t raw) as [t' [x|e]]; (apply o_put; [apply HP|]); [|go]. destruct persist; [|apply IH].
      eapply only_bind; [apply only_store; intros _ ?; apply HS; [reflexivity|apply top_role|reflexivity]|]. intros [?|?] _; [|go].
      eapply only_bind; [apply only_store; intros _ ?; apply HS; [reflexivity|apply top_role|intros N; now elim N]|]. intros [?|?] _; [apply IH|go].
    Qed.
    Lemma only_update_root fuel t : only P (fun _ => True) (update_root_with_repos E cfg fuel s persist t).
    Proof. unfold update_root_with_repos. eapply only_bind; [apply only_root_loop|]. intros [t' [u|e]] _; run. Qed.
    Lemma only_update_timestamp t : only P (fun _ => True) (update_timestamp_with_repos E cfg s persist t).
    Proof. unfold update_timestamp_with_repos. run; reflexivity. Qed.
    Lemma only_update_snapshot con t : only P (fun _ => True) (update_snapshot_with_repos E s persist con t).
    Proof. unfold update_snapshot_with_repos. run; reflexivity. Qed.
    Lemma only_update_targets con t : only P (fun _ => True) (update_targets_with_repos E s persist con t).
    Proof. unfold update_targets_with_repos. run; reflexivity. Qed.
  End updates.

  (** ** Looking for targets *)

  Lemma fuzzy_targets path : fuzzy_matches_path Targets path = true -> path <> "root" /\ path <> "snapshot".
  Proof. intros H. split; intros ->; discriminate H. Qed.

  Lemma same_top_refl t : same_top t t.
  Proof. repeat split. Qed.

  Lemma only_walk_loop t0 (recur : tuf -> bool -> N -> option (targets_metadata * string) -> prog (tuf * (bool * result target_desc)))
        dt depth target snapshot trole :
    (forall t dt dep tgs, same_top t0 t -> only (searches t0) (fun x => same_top t0 (fst x)) (recur t dt dep tgs)) ->
    forall roles t, same_top t0 t ->
      only (searches t0) (fun x => same_top t0 (fst x)) (walk_loop E recur dt depth target snapshot trole roles t).
  Proof.
    intros HR roles. induction roles as [|d rest IH]; intros t T; cbn [walk_loop]; [now apply o_ret|].
    assert (HC : forall t, same_top t0 t -> forall r, only (searches t0) (fun x => same_top t0 (fst x))
              (if dg_terminating d then Ret (t, (true, Err r)) else walk_loop E recur dt depth target snapshot trole rest t)).
    { clear t T. intros t T r. destruct (dg_terminating d); [now apply o_ret|now apply IH]. }
    destruct (negb _); [now apply HC|]. destruct (lookup (dg_role d) (sm_meta snapshot)) as [desc|]; [|now apply HC].
    destruct (hash_preference _) as [hash|e]; [|now apply o_ret].
    assert (HF : forall s v, only (searches t0) (fun _ => True)
              (fetch_metadata E s Targets (dg_role d) v (Some (md_length desc)) (Some hash))).
    { intros s v. unfold fetch_metadata, repo_check. destruct (fuzzy_matches_path Targets (dg_role d)) eqn:Fu; cbn [negb]; [|now apply o_ret].
      apply fuzzy_targets in Fu as [F1 F2]. apply o_fetch_meta; [|intros x; now apply o_ret]. intros x. cbn. repeat split; auto; discriminate. }
    eapply only_bind; [apply HF|]. intros r1 _.
    eapply (only_bind _ (fun _ => True)); [destruct r1; [now apply o_ret|apply HF]|]. clear r1. intros [raw|e] _; [|now apply HC].
    apply o_now; [intros x; exact I|]. intros c. destruct (update_delegation E t c trole (dg_role d) raw) as [t' r] eqn:U.
    apply update_delegation_frame in U as (U1 & U2 & U3 & U4).
    assert (T' : same_top t0 t') by (destruct T as (T1 & T2 & T3 & T4); repeat split; congruence).
    apply o_put; [exact T'|]. destruct r as [b|e]; [|now apply HC].
    eapply (only_bind _ (fun _ => True)).
    { unfold store_metadata, repo_check. destruct (fuzzy_matches_path Targets (dg_role d)) eqn:Fu; cbn [negb]; [|now apply o_ret].
      apply fuzzy_targets in Fu as [F1 F2]. apply o_store_meta; [|intros x; now apply o_ret]. intros x. cbn. auto. }
    intros _ _. destruct (lookup (dg_role d) (t_delegations t')) as [meta|]; [|apply o_panic].
    destruct (u32_max <=? depth)%N; [apply o_panic|]. eapply only_bind; [apply HR; exact T'|].
    intros [t2 [term res]] T2. cbn [fst] in T2. destruct (term && negb (is_ok res)); [now apply o_ret|now apply IH].
  Qed.

  Lemma only_lookup t0 fuel target snapshot : forall t dt depth tgs, same_top t0 t ->
    only (searches t0) (fun x => same_top t0 (fst x)) (lookup_target_description E cfg fuel t dt depth target snapshot tgs).
  Proof.
    induction fuel as [|fuel IH]; intros t dt depth tgs T; cbn [lookup_target_description]; [apply o_out|].
    destruct (_ <? _)%N; [now apply o_ret|].
    destruct (match tgs with Some x => Some x | None => _ end) as [[tg trole]|]; [|now apply o_ret].
    destruct (lookup target (tg_targets tg)); [now apply o_ret|].
    destruct (tg_delegations tg) as [ds|]; [|now apply o_ret].
    apply only_walk_loop; auto.
  Qed.

  Lemma only_description t fuel target :
    only (searches t) (fun x => same_top t (fst x)) (fetch_target_description E cfg fuel t target).
  Proof.
    unfold fetch_target_description. destruct (cf_translate cfg target); [|apply o_ret, same_top_refl].
    destruct (t_snapshot t) as [sn|]; [|apply o_ret, same_top_refl].
    eapply only_bind; [apply only_lookup, same_top_refl|]. intros [t' [b r]] T. now apply o_ret.
  Qed.
End only.

(** ** Downloads *)

Lemma exec_ret_inv {A} (a : A) tr q : exec (Ret a) tr q -> tr = [] /\ q = Ret a.
Proof. intros X. now inversion X. Qed.

Definition asked_one : list event -> Prop := fun tr => tr = [] \/ exists path d ans, tr = [EvFetchTarget path d ans].

Lemma exec_stream E path d tr q : exec (fetch_target_stream E path d) tr q ->
  asked_one tr /\ forall r, q = Ret r -> tr = [] -> exists e, r = Err e.
Proof.
  unfold fetch_target_stream. destruct (hash_preference _) as [h|e]; intros X.
  - inversion X as [|? | | ? ? ? ans ? ? X'| | | |]; subst; [split; [now left|discriminate]|].
    apply exec_ret_inv in X' as [-> _]. split; [right; eauto|discriminate].
  - apply exec_ret_inv in X as [-> ->]. split; [now left|]. intros r Q _. inversion Q. eauto.
Qed.

Lemma exec_reader E cfg fuel t target tr q : exec (fetch_target_reader E cfg fuel t target) tr q ->
  exists tr1 tr2, tr = tr1 ++ tr2 /\ Forall (searches t) tr1 /\ asked_one tr2 /\
    forall x, q = Ret x -> same_top t (fst x) /\ (tr2 = [] -> exists e, snd x = Err e).
Proof.
  unfold fetch_target_reader. intros X. apply exec_bind_cases in X as [(p' & X & _ & _ & N)|([t1 res] & tr1 & tr2 & -> & X1 & X2)].
  - destruct (only_exec _ _ _ _ _ X (only_description E cfg t fuel target)) as [F O]. exists tr, []. rewrite app_nil_r.
    split; [reflexivity|]. split; [exact F|]. split; [now left|]. intros x Q. now elim (N x).
  - destruct (only_exec _ _ _ _ _ X1 (only_description E cfg t fuel target)) as [F O]. inversion O as [? T| | | | | | | | |]; subst. cbn [fst] in T.
    exists tr1, tr2. split; [reflexivity|]. split; [exact F|].
    assert (K : forall path d, exec (bind (fetch_target_stream E path d) (fun res => Ret (t1, res))) tr2 q -> asked_one tr2 /\
       (forall x, q = Ret x -> same_top t (fst x) /\ (tr2 = [] -> exists e, snd x = Err e))).
    { clear X2. intros path d X2. apply exec_bind_cases in X2 as [(p' & X2 & _ & _ & N)|(r & tr3 & tr4 & -> & X3 & X4)].
      - apply exec_stream in X2 as [A _]. split; [exact A|]. intros x Q. now elim (N x).
      - apply exec_ret_inv in X4 as [-> ->]. rewrite app_nil_r. apply exec_stream in X3 as [A Er]. split; [exact A|].
        intros x Q. inversion Q; subst. cbn [fst snd]. split; [exact T|]. exact (Er _ eq_refl). }
    assert (K' : forall e, exec (Ret (t1, Err e)) tr2 q -> asked_one tr2 /\
       (forall x, q = Ret x -> same_top t (fst x) /\ (tr2 = [] -> exists e, snd x = Err e))).
    { clear X2. intros e X2. apply exec_ret_inv in X2 as [-> ->]. split; [now left|]. intros x Q. inversion Q; subst. cbn [fst snd]. eauto. }
    destruct res as [d|e]; [|now apply (K' e)]. destruct (rm_consistent (t_root t1)); [|now apply (K target d)].
    destruct (rbind _ _) as [p|e]; [now apply (K p d)|now apply (K' e)].
Qed.

Lemma exec_download E cfg fuel t target tr q : exec (fetch_target E cfg fuel t target) tr q ->
  exists tr1 tr2, tr = tr1 ++ tr2 /\ Forall (searches t) tr1 /\ one_target target tr2 /\ forall x, q = Ret x -> same_top t (fst x).
Proof.
  unfold fetch_target. intros X. apply exec_bind_cases in X as [(p' & X & _ & _ & N)|([t1 res] & tr1 & tr2 & -> & X1 & X2)].
  - apply exec_reader in X as (tr1 & tr2 & -> & F & A & _). exists tr1, tr2. split; [reflexivity|]. split; [exact F|].
    split; [|intros x Q; now elim (N x)]. destruct A as [-> | (p & d & ans & ->)]; constructor.
  - apply exec_reader in X1 as (tr3 & tr4 & -> & F & A & R). destruct (R _ eq_refl) as [T Er]. cbn [fst snd] in T, Er.
    exists tr3, (tr4 ++ tr2). split; [now rewrite app_assoc|]. split; [exact F|].
    destruct res as [rs|e].
    + destruct A as [-> | (p & d & ans & ->)]; [destruct (Er eq_refl); discriminate|].
      inversion X2 as [|? | | | ? ? ? ans' ? ? X'| | |]; subst; [split; [constructor|discriminate]|].
      apply exec_ret_inv in X' as [-> ->]. split; [constructor|]. intros x Q. now inversion Q; subst.
    + apply exec_ret_inv in X2 as [-> ->]. rewrite app_nil_r.
      split; [destruct A as [-> | (p & d & ans & ->)]; constructor|]. intros x Q. now inversion Q; subst.
Qed.

Lemma copy_writes rs tr q : exec (copy_to_writer rs) tr q -> Forall is_write tr.
Proof.
  revert tr. induction rs as [|[| |data] rs IH]; cbn [copy_to_writer]; intros tr X;
    [apply exec_ret_inv in X as [-> _]; constructor|now apply IH|apply exec_ret_inv in X as [-> _]; constructor|].
  destruct (_ =? _)%N; [apply exec_ret_inv in X as [-> _]; constructor|].
  inversion X as [|? | | | |? ? ans ? ? X' | |]; subst; constructor; [exact I|].
  destruct ans; [apply exec_ret_inv in X' as [-> _]; constructor|now apply IH].
Qed.

Lemma exec_to_writer E cfg fuel t target tr q : exec (fetch_target_to_writer E cfg fuel t target) tr q ->
  exists tr1 tr2, tr = tr1 ++ tr2 /\ Forall (searches t) tr1 /\ one_written tr2 /\ forall x, q = Ret x -> same_top t (fst x).
Proof.
  unfold fetch_target_to_writer. intros X. apply exec_bind_cases in X as [(p' & X & _ & _ & N)|([t1 res] & tr1 & tr2 & -> & X1 & X2)].
  - apply exec_reader in X as (tr1 & tr2 & -> & F & A & _). exists tr1, tr2. split; [reflexivity|]. split; [exact F|].
    split; [|intros x Q; now elim (N x)]. destruct A as [-> | (p & d & ans & ->)]; constructor. constructor.
  - apply exec_reader in X1 as (tr3 & tr4 & -> & F & A & R). destruct (R _ eq_refl) as [T Er]. cbn [fst snd] in T, Er.
    exists tr3, (tr4 ++ tr2). split; [now rewrite app_assoc|]. split; [exact F|].
    destruct res as [rs|e].
    + destruct A as [-> | (p & d & ans & ->)]; [destruct (Er eq_refl); discriminate|].
      apply exec_bind_cases in X2 as [(p' & X & _ & _ & N)|(r & tr5 & tr6 & -> & X3 & X4)].
      * split; [constructor; now apply copy_writes in X|]. intros x Q. now elim (N x).
      * apply exec_ret_inv in X4 as [-> ->]. rewrite app_nil_r. split; [constructor; now apply copy_writes in X3|].
        intros x Q. now inversion Q; subst.
    + apply exec_ret_inv in X2 as [-> ->]. rewrite app_nil_r.
      split; [destruct A as [-> | (p & d & ans & ->)]; constructor; constructor|]. intros x Q. now inversion Q; subst.
Qed.

(** ** Updates and constructors *)

Lemma only_update E cfg fuel t : only updates (fun _ => True) (update E cfg fuel t).
Proof.
  assert (HF : forall path v max hash ans, In path top_level -> updates (EvFetchMeta Remote path v max hash ans)) by (intros; assumption).
  assert (HS : true = true -> forall path v b ans, In path top_level -> (path <> "root" -> v = VNone) -> updates (EvStoreMeta path v b ans))
    by (intros; split; assumption).
  assert (HN : forall c, updates (EvNow c)) by (intros; exact I). assert (HP : forall t, updates (EvPut t)) by (intros; exact I).
  unfold update. eapply only_bind; [now apply only_update_root|]. intros [t1 [r1|e]] _; [|now apply o_ret].
  eapply only_bind; [now apply only_update_timestamp|]. intros [t2 [r2|e]] _; [|now apply o_ret].
  eapply only_bind; [now apply only_update_snapshot|]. intros [t3 [r3|e]] _; [|now apply o_ret].
  eapply only_bind; [now apply only_update_targets|]. intros [t4 [r4|e]] _; now apply o_ret.
Qed.

Lemma only_new E cfg fuel t : only reads_local (fun _ => True) (client_new E cfg fuel t).
Proof.
  assert (HF : forall path v max hash ans, In path top_level -> reads_local (EvFetchMeta Local path v max hash ans)) by (intros; assumption).
  assert (HS : false = true -> forall path v b ans, In path top_level -> (path <> "root" -> v = VNone) -> reads_local (EvStoreMeta path v b ans))
    by discriminate.
  assert (HN : forall c, reads_local (EvNow c)) by (intros; exact I). assert (HP : forall t, reads_local (EvPut t)) by (intros; exact I).
  unfold client_new. eapply only_bind; [now apply only_update_root|]. intros [t1 [r1|e]] _; [|now apply o_ret].
  eapply only_bind; [now apply only_update_timestamp|]. intros [t2 [r2|e]] _; [|now apply o_ret].
  eapply only_bind; [now apply only_update_snapshot|]. intros [t3 [r3|e]] _; [|now apply o_ret].
  eapply only_bind; [now apply only_update_targets|]. intros [t4 r4] _; now apply o_ret.
Qed.

Lemma only_from_local E cfg fuel : only reads_local (fun _ => True) (with_trusted_local E cfg fuel).
Proof.
  unfold with_trusted_local. eapply only_bind; [apply only_fetch; intros _ ans; cbn; auto|]. intros [raw|e] _; [|now apply o_ret].
  destruct (from_trusted_root E raw); [|now apply o_ret]. apply o_put; [exact I|]. apply only_new.
Qed.
Lemma only_from_root E cfg fuel raw : only reads_local (fun _ => True) (with_trusted_root E cfg fuel raw).
Proof.
  unfold with_trusted_root. destruct (from_trusted_root E raw); [|now apply o_ret]. apply o_put; [exact I|]. apply only_new.
Qed.

Lemma exec_from_keys E cfg fuel v th keys tr q : exec (with_trusted_root_keys E cfg fuel v th keys) tr q ->
  exists tr1 tr2, tr = tr1 ++ tr2 /\ Forall (first_root v) tr1 /\ Forall reads_local tr2.
Proof.
  assert (H : only (first_root v) (fun _ => True) (fetch_metadata_from_local_or_else_remote E Root (from_role Root) v (cf_max_root cfg) None)).
  { unfold fetch_metadata_from_local_or_else_remote. eapply only_bind; [apply only_fetch; intros _ ans; now split|].
    intros [raw|[]] _; try now apply o_ret. eapply only_bind; [apply only_fetch; intros _ ans; now split|].
    intros [raw|e] _; now apply o_ret. }
  unfold with_trusted_root_keys. intros X. apply exec_bind_cases in X as [(p' & X & NP & NF & NR)|(r & tr1 & tr2 & -> & X1 & X2)].
  - destruct (only_exec _ _ _ _ _ X H) as [F HO]. exists tr, []. rewrite app_nil_r. auto.
  - destruct (only_exec _ _ _ _ _ X1 H) as [F HO]. destruct r as [[fetched raw]|e].
    + destruct (from_root_with_trusted_keys E raw th keys) as [t|e].
      * inversion X2 as [|? | | | | | |? ? tr' ? X']; subst. { exists tr1, []. auto. }
        change (tr1 ++ EvPut t :: tr') with (tr1 ++ [EvPut t] ++ tr'). rewrite app_assoc.
        assert (F' : Forall (first_root v) (tr1 ++ [EvPut t])) by (apply Forall_app; split; [exact F|constructor; [exact I|constructor]]).
        destruct fetched.
        -- inversion X' as [| |? ? ? ? ans tr3 ? X3 | | | | |]; subst. { exists (tr1 ++ [EvPut t]), []. auto. }
           change ((tr1 ++ [EvPut t]) ++ ?e :: tr3) with ((tr1 ++ [EvPut t]) ++ [e] ++ tr3). rewrite (app_assoc _ _ tr3).
           eexists _, tr3. split; [reflexivity|]. split; [apply Forall_app; split; [exact F'|constructor; [reflexivity|constructor]]|].
           destruct ans; [exact (proj1 (only_exec _ _ _ _ _ X3 (only_new E cfg fuel t)))|apply exec_ret_inv in X3 as [-> _]; constructor].
        -- exists (tr1 ++ [EvPut t]), tr'. split; [reflexivity|]. split; [exact F'|]. exact (proj1 (only_exec _ _ _ _ _ X' (only_new E cfg fuel t))).
      * apply exec_ret_inv in X2 as [-> _]. exists tr1, []. auto.
    + apply exec_ret_inv in X2 as [-> _]. exists tr1, []. auto.
Qed.

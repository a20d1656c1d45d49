(** * Proofs for C96 *)
From Coq Require Import String List Arith NArith ZArith Bool Lia.
From Verif Require Import Base BaseFacts Metadata Verify Paths Tuf SpecVerify SpecTuf TufProofs TufHistory
     Reader SpecReader ReaderProofs Repo Client SpecClient SpecHonest SpecLive ClientLogic ClientProofs ClientUpdates ClientHonest EndToEndProofs.
Import ListNotations.
Open Scope string_scope.
Open Scope list_scope.
Open Scope nat_scope.

Lemma timed_le ok i tr k : timed ok i tr k -> i <= k.
Proof. induction 1; lia. Qed.
Lemma timed_app ok a : forall i b k, timed ok i (a ++ b) k -> exists j, timed ok i a j /\ timed ok j b k.
Proof.
  intros i b k H. remember (a ++ b) as tr eqn:Q. revert a Q. induction H as [i|i tr k H IH|i e tr k H0 H IH]; intros a Q.
  - destruct a; [|discriminate]. destruct b; [|discriminate]. exists i. split; constructor.
  - destruct (IH a Q) as (j & A & B). exists j. split; [now constructor|exact B].
  - destruct a as [|x a].
    + cbn in Q. subst b. exists i. split; constructor; assumption.
    + inversion Q; subst. destruct (IH a eq_refl) as (j & A & B). exists j. split; [now constructor|exact B].
Qed.
Lemma timed_join ok i a j : timed ok i a j -> forall b k, timed ok j b k -> timed ok i (a ++ b) k.
Proof. induction 1; intros b k' H'; cbn; [exact H'|apply timed_wait; auto|apply timed_event; auto]. Qed.
Lemma timed_later ok i k tr m : i <= k -> timed ok k tr m -> timed ok i tr m.
Proof.
  intros L D. remember (k - i) as n eqn:Q. revert i L Q. induction n as [|n IH]; intros i L Q.
  - now assert (i = k) as -> by lia.
  - apply timed_wait, IH; lia.
Qed.
Lemma timed_at ok i tr m : Forall (ok i) tr -> forall k, i <= k -> timed ok k [] m -> timed ok i tr m.
Proof. intros F k L D. induction F; [eapply timed_later; eassumption|]. apply timed_event; assumption. Qed.
Lemma timed_still ok i tr : Forall (ok i) tr -> timed ok i tr i.
Proof. induction 1; constructor; assumption. Qed.
Lemma timed_in ok i tr k : timed ok i tr k -> forall e, In e tr -> exists j, i <= j /\ j <= k /\ ok j e.
Proof.
  induction 1 as [i|i tr k H IH|i e tr k H0 H IH]; intros x J; [destruct J|..].
  - destruct (IH x J) as (j & A & B). exists j. split; [lia|exact B].
  - destruct J as [<-|J]; [|now apply IH]. exists i. apply timed_le in H. auto.
Qed.
Lemma timed_mono (ok ok' : nat -> event -> Prop) tr : forall i k, (forall j e, i <= j -> j <= k -> In e tr -> ok j e -> ok' j e) ->
  timed ok i tr k -> timed ok' i tr k.
Proof.
  intros i k M D. induction D as [i|i tr k H IH|i e tr k H0 H IH].
  - constructor.
  - apply timed_wait, IH. intros j e A. apply M. lia.
  - pose proof (timed_le _ _ _ _ H). apply timed_event; [apply M; auto; now left|]. apply IH. intros j x A B J. apply M; auto. now right.
Qed.

(** ** The order of the requests of an update *)

(** While roots are updated: only roots are requested, and after the answer that there is
    no more root nothing is requested any more. *)
Definition vain (e : event) : Prop := match e with EvFetchMeta _ _ _ _ _ (Err NotFound) => True | _ => False end.
Definition asks (e : event) : Prop := match e with EvFetchMeta _ _ _ _ _ _ | EvFetchTarget _ _ _ => True | _ => False end.
Definition DRoots : demands :=
  mkDemands (fun _ _ => True)
    (fun h e => (asks e -> Forall (fun x => ~ vain x) h) /\
                match e with EvFetchMeta s p v _ _ _ => s = Remote /\ p = "root" /\ exists n, v = VNumber n | EvFetchTarget _ _ _ => False | _ => True end)
    (fun _ => True) True.

Lemma wp_store_roots r path v raw h (Q : list event -> result unit -> Prop) :
  (forall h' x, (h' = h \/ exists e, ~ asks e /\ ~ vain e /\ h' = h ++ [e]) -> Q h' x) ->
  wp DRoots (store_metadata r path v raw) Q h.
Proof.
  intros H. apply wp_store_any; [intros e; apply H; now left|]. intros ans e _. split; [split; [intros []|exact I]|].
  apply H. right. exists e. cbn. auto.
Qed.

Lemma roots_order E cfg fuel : forall t u h, Forall (fun x => ~ vain x) h ->
  wp DRoots (root_loop E cfg fuel Remote true t u) (fun _ _ => True) h.
Proof.
  induction fuel as [|fuel IH]; intros t u h N; cbn [root_loop]; [exact I|]. destruct (_ <=? _)%N; [exact I|].
  unfold fetch_metadata. change (repo_check Root (from_role Root)) with (@Ok unit tt). cbn [bind wp].
  intros ans _. split; [split; [auto|]; cbn; eauto|].
  destruct (read_metadata _ _ _ ans) as [raw|e] eqn:R; cbn [bind wp]; [|destruct e; exact I].
  assert (N1 : Forall (fun x => ~ vain x) (h ++ [EvFetchMeta Remote (from_role Root) (VNumber (rm_version (t_root t) + 1)) (cf_max_root cfg) None ans])).
  { apply Forall_app. split; [exact N|]. constructor; [|constructor]. intros V. destruct ans as [s|[]]; try destruct V. discriminate R. }
  destruct (update_root E t raw) as [t' r]. cbn [wp]. intros _. split; [split; [intros []|exact I]|].
  assert (N2 : forall h e, Forall (fun x => ~ vain x) h -> ~ vain e -> Forall (fun x => ~ vain x) (h ++ [e])).
  { intros l e A B. apply Forall_app. split; [exact A|]. constructor; [exact B|constructor]. }
  destruct r as [[]|e]; [|exact I].
  eapply wp_seq; [apply wp_store_roots with (Q := fun h' _ => Forall (fun x => ~ vain x) h')|].
  { intros h' x [->|(e & _ & B & ->)]; [|apply N2; [|exact B]]; (apply N2; [exact N1|intros []]). }
  intros h2 [u2|e] N3; [|exact I].
  eapply wp_seq; [apply wp_store_roots with (Q := fun h' _ => Forall (fun x => ~ vain x) h')|].
  { intros h' x [->|(e & _ & B & ->)]; [exact N3|apply N2; assumption]. }
  intros h3 [u3|e] N4; [|exact I]. apply IH, N4.
Qed.
Lemma root_order E cfg fuel t h : Forall (fun x => ~ vain x) h ->
  wp DRoots (update_root_with_repos E cfg fuel Remote true t) (fun _ _ => True) h.
Proof.
  intros N. unfold update_root_with_repos. eapply (wp_seq DRoots _ _ (fun _ _ => True)); [now apply roots_order|].
  intros h1 [t1 [u|e]] _; [|exact I]. cbn [wp]. intros c _. split; [split; [intros []|exact I]|]. destruct (expired _ _); exact I.
Qed.

(** Afterwards: first the timestamp, then only snapshots and targets metadata. *)
Definition after_roots (E : env) (cfg : config) (t : tuf) (r : bool) : prog (tuf * result bool) :=
  do (t, ts) <- update_timestamp_with_repos E cfg Remote true t in
  match ts with Err e => Ret (t, Err e) | Ok ts =>
  do (t, sn) <- update_snapshot_with_repos E Remote true (rm_consistent (t_root t)) t in
  match sn with Err e => Ret (t, Err e) | Ok sn =>
  do (t, ta) <- update_targets_with_repos E Remote true (rm_consistent (t_root t)) t in
  match ta with Err e => Ret (t, Err e) | Ok ta =>
  Ret (t, Ok (r || ts || sn || ta))
  end end end.
Definition DLater : demands :=
  mkDemands (fun _ _ => True)
    (fun h e => match e with
                | EvFetchMeta s p v _ _ _ => s = Remote /\ (h = [] /\ p = "timestamp" /\ v = VNone \/ h <> [] /\ (p = "snapshot" \/ p = "targets"))
                | EvFetchTarget _ _ _ => False
                | _ => h <> [] end)
    (fun _ => True) True.
Lemma snoc_nonempty {A} (l : list A) x : l ++ [x] <> [].
Proof. destruct l; discriminate. Qed.
Lemma store_later r path v raw h : h <> [] -> wp DLater (store_metadata r path v raw) (fun h' _ => h' <> []) h.
Proof.
  intros N. apply wp_store_any; [auto|]. intros ans e _. split; [exact N|]. apply snoc_nonempty.
Qed.
Lemma timestamp_later E cfg t : wp DLater (update_timestamp_with_repos E cfg Remote true t) (fun h x => is_ok (snd x) = true -> h <> []) [].
Proof.
  unfold update_timestamp_with_repos, fetch_metadata. change (repo_check Timestamp (from_role Timestamp)) with (@Ok unit tt).
  cbn [bind wp]. intros ans _. split; [split; [reflexivity|left; auto]|].
  destruct (read_metadata _ _ _ ans) as [raw|e]; cbn [bind wp]; [|discriminate]. intros c _. split; [discriminate|].
  destruct (update_timestamp E t c raw) as [t' r]. cbn [wp]. intros _. split; [discriminate|].
  destruct r as [[m|]|e]; [|cbn; discriminate|cbn; discriminate].
  eapply wp_seq; [apply store_later; discriminate|]. intros h [u|e] N; cbn; auto.
Qed.
Lemma snapshot_later E t c h : h <> [] -> wp DLater (update_snapshot_with_repos E Remote true c t) (fun h _ => h <> []) h.
Proof.
  intros N. unfold update_snapshot_with_repos. destruct (t_timestamp t) as [ts|]; [|exact N]. destruct (_ <=? _)%N; [exact N|].
  destruct (hash_preference _) as [hash|e]; [|exact N]. unfold fetch_metadata.
  change (repo_check Snapshot (from_role Snapshot)) with (@Ok unit tt). cbn [bind wp]. intros ans _.
  split; [split; [reflexivity|right; auto]|].
  destruct (read_metadata _ _ _ ans) as [raw|e]; cbn [bind wp]; [|apply snoc_nonempty]. intros cl _. split; [apply snoc_nonempty|].
  destruct (update_snapshot E t cl raw) as [t' r]. cbn [wp]. intros _. split; [apply snoc_nonempty|].
  destruct r as [[]|e]; [|apply snoc_nonempty..].
  eapply wp_seq; [apply store_later; apply snoc_nonempty|]. intros h1 [u|e] N1; exact N1.
Qed.
Lemma targets_later E t c h : h <> [] -> wp DLater (update_targets_with_repos E Remote true c t) (fun h _ => h <> []) h.
Proof.
  intros N. unfold update_targets_with_repos. destruct (t_snapshot t) as [sn|]; [|exact N]. destruct (lookup _ _) as [d|]; [|exact N].
  destruct (_ <=? _)%N; [exact N|].
  destruct (hash_preference _) as [hash|e]; [|exact N]. unfold fetch_metadata.
  change (repo_check Targets (from_role Targets)) with (@Ok unit tt). cbn [bind wp]. intros ans _.
  split; [split; [reflexivity|right; auto]|].
  destruct (read_metadata _ _ _ ans) as [raw|e]; cbn [bind wp]; [|apply snoc_nonempty]. intros cl _. split; [apply snoc_nonempty|].
  destruct (update_targets E t cl raw) as [t' r]. cbn [wp]. intros _. split; [apply snoc_nonempty|].
  destruct r as [[]|e]; [|apply snoc_nonempty..].
  eapply wp_seq; [apply store_later; apply snoc_nonempty|]. intros h1 [u|e] N1; exact N1.
Qed.
Lemma later_order E cfg t r : wp DLater (after_roots E cfg t r) (fun _ _ => True) [].
Proof.
  unfold after_roots. eapply wp_seq; [apply timestamp_later|]. intros h1 [t1 [u1|e]] N1; [|exact I]. cbn [snd is_ok] in N1. specialize (N1 eq_refl).
  eapply wp_seq; [apply snapshot_later, N1|]. intros h2 [t2 [u2|e]] N2; [|exact I].
  eapply wp_seq; [apply targets_later, N2|]. intros h3 [t3 [u3|e]] N3; exact I.
Qed.
Lemma update_split E cfg fuel t : update E cfg fuel t =
  (do (t, r) <- update_root_with_repos E cfg fuel Remote true t in match r with Err e => Ret (t, Err e) | Ok r => after_roots E cfg t r end).
Proof. reflexivity. Qed.

Lemma along_free h tr : along (fun _ _ => True) h tr.
Proof. revert h. induction tr as [|e tr IH]; intros h; [apply along_nil|]. apply along_cons. auto. Qed.
Lemma along_at R h pre e post : along R h (pre ++ e :: post) -> R (h ++ pre) e.
Proof. intros A. apply along_app in A as [_ A]. apply along_cons in A as [A _]. exact A. Qed.

(** ** Each run is one with a repository that does not change *)

Section Series.
  Variable E : env.
  Variable cfg : config.
  Variable P : nat -> publication.
  Variable from upto : nat.
  Hypothesis Se : series E cfg P from upto.

  Definition root_good (i : nat) (e : event) : Prop :=
    match e with
    | EvFetchMeta Remote path v _ _ ans => path = "root" /\ exists n, v = VNumber n /\
        ((exists raw r, In (raw, r) (pb_roots (P i)) /\ rm_version r = n /\ answered ans raw) \/
         ((forall raw r, In (raw, r) (pb_roots (P i)) -> rm_version r <> n) /\ ans = Err NotFound))
    | EvStoreMeta _ _ _ ans => ans = Ok tt
    | EvFetchMeta Local _ _ _ _ _ => True
    | _ => True
    end.

  Lemma roots_during i tr k : during P from i tr k -> from <= i -> k <= upto ->
    (forall e, In e tr -> match e with EvFetchMeta s p v _ _ _ => s = Remote /\ p = "root" /\ exists n, v = VNumber n | _ => True end) ->
    (forall pre e post, tr = pre ++ e :: post -> vain e -> Forall (fun x => ~ asks x) post) ->
    exists m, i <= m /\ m <= k /\ Forall (root_good m) tr.
  Proof.
    induction 1 as [i|i tr k H IH|i e tr k H0 H IH]; intros F K Ro Va.
    - exists i. split; [lia|]. split; [lia|constructor].
    - pose proof (timed_le _ _ _ _ H). destruct (IH (Nat.le_le_succ_r _ _ F) K Ro Va) as (m & A & B & C). exists m. split; [lia|]. auto.
    - pose proof (timed_le _ _ _ _ H) as Le.
      destruct IH as (m & A & B & C); auto.
      { intros x I. apply Ro. now right. }
      { intros pre x post Q. apply (Va (e :: pre) x post). now rewrite Q. }
      specialize (Ro e (or_introl eq_refl)).
      destruct e as [s p v mx hs ans|p v da ans| | | | |].
      2-7: exists m; split; [exact A|]; split; [exact B|]; constructor; [exact H0|exact C].
      destruct Ro as (-> & -> & n & ->). cbn in H0. destruct H0 as [H0 _]. destruct (H0 n eq_refl eq_refl) as [(raw & r & I1 & I2 & I3)|(I1 & I2)].
      + exists m. split; [exact A|]. split; [exact B|]. constructor; [|exact C]. split; [reflexivity|]. exists n. split; [reflexivity|].
        left. exists raw, r. split; [|auto]. destruct (se_roots _ _ _ _ _ Se i m) as (more & ->); [lia..|]. apply in_or_app. now left.
      + subst ans. exists i. split; [lia|]. split; [exact Le|]. constructor.
        * split; [reflexivity|]. exists n. split; [reflexivity|]. right. auto.
        * pose proof (Va [] _ tr eq_refl I) as Q. rewrite Forall_forall in Q, C. apply Forall_forall. intros x J.
          specialize (Q x J). specialize (C x J). destruct x; try exact C. destruct (Q I).
  Qed.

  (** The events after the timestamp was served at time [j]. *)
  Lemma later_during i j j' tr k : during P from j' tr k -> from <= i -> i <= upto -> from <= j -> j <= j' ->
    (forall e, In e tr -> match e with EvFetchMeta s p _ _ _ _ => s = Remote /\ (p = "snapshot" \/ p = "targets") | _ => True end) ->
    (forall c, In (EvNow c) tr -> current (mixed (P i) (P j)) c) ->
    Forall (good_event (mixed (P i) (P j))) tr.
  Proof.
    intros D I1 I2 J. induction D as [j'|j' tr k H IH|j' e tr k H0 H IH]; intros Le Ro Cu.
    - constructor.
    - apply IH; [lia|exact Ro|exact Cu].
    - constructor; [|apply IH; [lia| |]; intros; [apply Ro|apply Cu]; now right].
      specialize (Ro e (or_introl eq_refl)). destruct e as [s p v mx hs ans|p v da ans| | | |c|]; try exact I.
      + destruct Ro as (-> & Ro). cbn in H0 |- *. destruct H0 as (_ & _ & A & B). unfold offers, published_as. cbn.
        rewrite (se_consistent _ _ _ _ _ Se i I1 I2). split; [|split; [|split]].
        * intros n ->. destruct Ro; discriminate.
        * intros ->. destruct Ro; discriminate.
        * intros. eapply A; eauto.
        * intros. eapply B; eauto.
      + exact H0.
      + cbn. apply Cu. now left.
  Qed.
  Lemma root_good_event i j tr : Forall (root_good i) tr -> (forall c, In (EvNow c) tr -> current (mixed (P i) (P j)) c) ->
    (forall e, In e tr -> match e with EvFetchMeta s p v _ _ _ => s = Remote /\ p = "root" /\ exists n, v = VNumber n | _ => True end) ->
    Forall (good_event (mixed (P i) (P j))) tr.
  Proof.
    intros G Cu Ro. apply Forall_forall. intros e J. rewrite Forall_forall in G. specialize (G e J). specialize (Ro e J).
    destruct e as [s p v mx hs ans|p v da ans| | | |c|]; try exact I.
    - destruct Ro as (-> & -> & n & ->). cbn in G |- *. destruct G as (_ & n' & Q & G). inversion Q; subst n'.
      unfold offers. cbn. split; [|split; [discriminate|split; discriminate]]. intros n' _ Q'. inversion Q'; subst n'. exact G.
    - exact G.
    - cbn. apply Cu, J.
  Qed.

  Lemma roots_trace fuel t tr q : exec (update_root_with_repos E cfg fuel Remote true t) tr q ->
    (forall e, In e tr -> match e with EvFetchMeta s p v _ _ _ => s = Remote /\ p = "root" /\ exists n, v = VNumber n | _ => True end) /\
    (forall pre e post, tr = pre ++ e :: post -> vain e -> Forall (fun x => ~ asks x) post).
  Proof.
    intros X. destruct (wp_sound DRoots _ _ _ X _ [] (root_order E cfg fuel t [] (Forall_nil _)) (along_free _ _)) as [A _].
    split.
    - intros e J. apply in_split in J as (pre & post & ->). pose proof (along_at _ _ _ _ _ A) as [_ B]. destruct e; auto; contradiction.
    - intros pre e post -> V. apply Forall_forall. intros x J. apply in_split in J as (a & b & ->).
      change (e :: a ++ x :: b) with ((e :: a) ++ x :: b) in A. rewrite app_assoc in A.
      pose proof (along_at _ _ _ _ _ A) as [B _]. intros Q. specialize (B Q). cbn in B. rewrite Forall_forall in B.
      apply (B e); [|exact V]. apply in_or_app. right. now left.
  Qed.

  Lemma later_trace t r tr q : exec (after_roots E cfg t r) tr q ->
    tr = [] \/ exists mx hs ans tr', tr = EvFetchMeta Remote "timestamp" VNone mx hs ans :: tr' /\
      (forall e, In e tr' -> match e with EvFetchMeta s p _ _ _ _ => s = Remote /\ (p = "snapshot" \/ p = "targets") | _ => True end).
  Proof.
    intros X. destruct (wp_sound DLater _ _ _ X _ [] (later_order E cfg t r) (along_free _ _)) as [A _].
    destruct tr as [|e tr]; [now left|]. right. apply along_cons in A as [A1 A2].
    destruct e as [s p v mx hs ans| | | | | |]; cbn in A1; try (destruct A1; reflexivity); try contradiction.
    destruct A1 as (-> & [(_ & -> & ->)|(N & _)]); [|destruct (N eq_refl)].
    exists mx, hs, ans, tr. split; [reflexivity|]. intros e J. apply in_split in J as (a & b & ->).
    pose proof (along_at _ _ _ _ _ A2) as B. cbn in B. destruct e; try exact I. destruct B as (-> & [(B & _)|(_ & B)]); [discriminate B|]. auto.
  Qed.

  Lemma timestamp_first j0 mx hs ans tr k : during P from j0 (EvFetchMeta Remote "timestamp" VNone mx hs ans :: tr) k ->
    exists j, j0 <= j /\ j <= k /\ answered ans (pb_timestamp (P j)) /\ during P from j tr k.
  Proof.
    intros D. remember (_ :: tr) as l eqn:Q. induction D as [i|i l k D IH|i e l k H D IH]; [discriminate|..].
    - destruct (IH Q) as (j & A & B). exists j. split; [lia|exact B].
    - inversion Q; subst. exists i. split; [lia|]. split; [eapply timed_le; eassumption|]. split; [|exact D]. cbn in H. now apply H.
  Qed.

  (** Whatever was published during the run: it is a run with a repository that has some
      roots of the series, and the other documents of the same time or of a later one. *)
  Lemma as_if_still fuel t tr q : exec (update E cfg fuel t) tr q -> during P from from tr upto ->
    (forall c i, In (EvNow c) tr -> from <= i -> i <= upto -> current (P i) c) ->
    exists i j, from <= i /\ i <= j /\ j <= upto /\ Forall (good_event (mixed (P i) (P j))) tr.
  Proof.
    intros X D Cu.
    assert (CM : forall i j, from <= i -> i <= j -> j <= upto -> forall c, In (EvNow c) tr -> current (mixed (P i) (P j)) c).
    { intros i j A B C c J now K. destruct (Cu c i J A (Nat.le_trans _ _ _ B C) now K) as (Q & _).
      destruct (Cu c j J (Nat.le_trans _ _ _ A B) C now K) as (_ & Q'). cbn. auto. }
    rewrite update_split in X. apply exec_bind_cases in X as [(p' & X & _)|([t1 r1] & tr1 & tr2 & -> & X1 & X2)].
    - destruct (roots_trace _ _ _ _ X) as (A & B). destruct (roots_during _ _ _ D (le_n _) (le_n _) A B) as (m & M1 & M2 & M3).
      exists m, m. repeat split; auto. apply root_good_event; auto.
    - destruct (roots_trace _ _ _ _ X1) as (A & B). apply timed_app in D as (k1 & D1 & D2).
      pose proof (timed_le _ _ _ _ D2) as L2.
      destruct (roots_during _ _ _ D1 (le_n _) L2 A B) as (m & M1 & M2 & M3).
      assert (exists j, k1 <= j /\ j <= upto /\ (forall i, from <= i -> i <= j -> Forall (good_event (mixed (P i) (P j))) tr2)) as (j & J1 & J2 & J3).
      { destruct r1 as [r1|e].
        2: { inversion X2; subst. exists k1. split; [lia|]. split; [lia|]. intros. constructor. }
        destruct (later_trace _ _ _ _ X2) as [->|(mx & hs & ans & tr' & -> & L)].
        { exists k1. split; [lia|]. split; [lia|]. intros. constructor. }
        destruct (timestamp_first _ _ _ _ _ _ D2) as (j & J1 & J2 & J3 & J4). exists j. split; [exact J1|]. split; [exact J2|].
        intros i I1 I2. constructor.
        - cbn. unfold offers. cbn. split; [discriminate|]. split; [auto|]. split; discriminate.
        - eapply later_during; [exact J4|lia..|exact L|]. intros c J. apply CM; try lia. apply in_or_app. right. now right. }
      exists m, j. split; [exact M1|]. split; [lia|]. split; [exact J2|]. apply Forall_app. split; [|apply J3; lia].
      apply root_good_event; auto. intros c J. apply CM; try lia. apply in_or_app. now left.
  Qed.
End Series.

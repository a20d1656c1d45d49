(** * Proofs about the number of requests: credits that are spent by the events *)
From Coq Require Import String List NArith ZArith Bool Lia.
From Verif Require Import Base BaseFacts Metadata Paths Tuf SpecTuf TufProofs Reader Repo Client ClientLogic SpecWork.
Import ListNotations.
Open Scope list_scope.
Open Scope N_scope.

Definition ver (t : tuf) : N := rm_version (t_root t).

(** ** The root is kept by all but [update_root] *)
Lemma update_timestamp_root E t c raw : t_root (fst (update_timestamp E t c raw)) = t_root t.
Proof.
  unfold update_timestamp. repeat (match goal with |- context[match ?x with _ => _ end] => destruct x end; cbn; try reflexivity).
Qed.
Lemma purge_root t : t_root (purge_delegations t) = t_root t.
Proof. unfold purge_delegations. destruct (t_snapshot t); reflexivity. Qed.
Lemma update_snapshot_root E t c raw : t_root (fst (update_snapshot E t c raw)) = t_root t.
Proof.
  unfold update_snapshot. repeat (match goal with |- context[match ?x with _ => _ end] => destruct x end; cbn; rewrite ?purge_root; try reflexivity).
Qed.
Lemma update_targets_root E t c raw : t_root (fst (update_targets E t c raw)) = t_root t.
Proof.
  unfold update_targets. repeat (match goal with |- context[match ?x with _ => _ end] => destruct x end; cbn; try reflexivity).
Qed.
Lemma update_delegation_root E t c p r raw : t_root (fst (update_delegation E t c p r raw)) = t_root t.
Proof.
  unfold update_delegation. repeat (match goal with |- context[match ?x with _ => _ end] => destruct x end; cbn; try reflexivity).
Qed.

Section Credits.
  (** A request costs [cf], a store [cs]; the first root gives [g0], a new root [g]; [ok] is
      assumed of all that becomes trusted. *)
  Variables (cf cs g0 g : N) (ok : tuf -> Prop).

  Definition gain (st : option tuf) (t' : tuf) : N :=
    match st with Some t => g * (ver t' - ver t) | None => g0 end.
  Definition ordered (st : option tuf) (t' : tuf) : Prop :=
    match st with Some t => ver t <= ver t' | None => True end.

  (** [p], started while [st] is trusted with [n] credits, never has to spend what it has not
      got, and returns with [K]. *)
  Fixpoint pays {A} (p : prog A) (st : option tuf) (n : N) (K : option tuf -> N -> A -> Prop) : Prop :=
    match p with
    | Ret a => K st n a
    | Panic | OutOfFuel => True
    | FetchMeta _ _ _ _ _ k => cf <= n /\ forall ans, pays (k ans) st (n - cf) K
    | FetchTarget _ _ k => cf <= n /\ forall ans, pays (k ans) st (n - cf) K
    | StoreMeta _ _ _ k => cs <= n /\ forall ans, pays (k ans) st (n - cs) K
    | StoreTarget _ _ k => cs <= n /\ forall ans, pays (k ans) st (n - cs) K
    | Write _ k => forall ans, pays (k ans) st n K
    | Now k => forall c, pays (k c) st n K
    | Put t' p => ok t' -> ordered st t' /\ pays p (Some t') (n + gain st t') K
    end.

  Definition cost (tr : list event) : N := cf * requests tr + cs * stores tr.

  Fixpoint last_trusted (st : option tuf) (tr : list event) : option tuf :=
    match tr with
    | [] => st
    | EvPut t :: rest => last_trusted (Some t) rest
    | _ :: rest => last_trusted st rest
    end.
  Definition base (st : option tuf) (tr : list event) : N :=
    match st with
    | Some t => ver t
    | None => match first_trusted tr with Some t => ver t | None => 0 end
    end.
  Definition top (st : option tuf) (tr : list event) : N :=
    match last_trusted st tr with Some t => ver t | None => 0 end.

  Definition start (st : option tuf) (tr : list event) : N :=
    match st, first_trusted tr with None, Some _ => g0 | _, _ => 0 end.

  Lemma pays_sound {A} (p : prog A) tr q : exec p tr q -> forall st n K, pays p st n K ->
    (forall t', In (EvPut t') tr -> ok t') ->
    cost tr + g * base st tr <= n + start st tr + g * top st tr /\
    forall a, q = Ret a -> exists m, K (last_trusted st tr) m a /\ m + cost tr + g * base st tr = n + start st tr + g * top st tr.
  Proof.
    assert (Skip : forall e tr st, (match e with EvPut _ => False | _ => True end) ->
      base st (e :: tr) = base st tr /\ top st (e :: tr) = top st tr /\ start st (e :: tr) = start st tr /\ last_trusted st (e :: tr) = last_trusted st tr).
    { intros e tr' st H. destruct e; try contradiction; repeat split; reflexivity. }
    induction 1; intros st n K P Ok.
    - unfold cost, base, top, start. cbn. split; [destruct st; lia|]. intros a ->. cbn in P. exists n. split; [exact P|]. destruct st; lia.
    - destruct P as [L P]. destruct (IHexec _ _ _ (P ans)) as [IH1 IH2]; [intros; apply Ok; now right|].
      destruct (Skip (EvFetchMeta s path v max hash ans) tr st I) as (-> & -> & -> & ->).
      replace (cost (EvFetchMeta s path v max hash ans :: tr)) with (cf + cost tr) by (unfold cost; cbn [requests stores]; lia).
      split; [lia|]. intros a E. destruct (IH2 a E) as (m & Km & Em). exists m. split; [exact Km|lia].
    - destruct P as [L P]. destruct (IHexec _ _ _ (P ans)) as [IH1 IH2]; [intros; apply Ok; now right|].
      destruct (Skip (EvStoreMeta path v b ans) tr st I) as (-> & -> & -> & ->).
      replace (cost (EvStoreMeta path v b ans :: tr)) with (cs + cost tr) by (unfold cost; cbn [requests stores]; lia).
      split; [lia|]. intros a E. destruct (IH2 a E) as (m & Km & Em). exists m. split; [exact Km|lia].
    - destruct P as [L P]. destruct (IHexec _ _ _ (P ans)) as [IH1 IH2]; [intros; apply Ok; now right|].
      destruct (Skip (EvFetchTarget path d ans) tr st I) as (-> & -> & -> & ->).
      replace (cost (EvFetchTarget path d ans :: tr)) with (cf + cost tr) by (unfold cost; cbn [requests stores]; lia).
      split; [lia|]. intros a E. destruct (IH2 a E) as (m & Km & Em). exists m. split; [exact Km|lia].
    - destruct P as [L P]. destruct (IHexec _ _ _ (P ans)) as [IH1 IH2]; [intros; apply Ok; now right|].
      destruct (Skip (EvStoreTarget path rs ans) tr st I) as (-> & -> & -> & ->).
      replace (cost (EvStoreTarget path rs ans :: tr)) with (cs + cost tr) by (unfold cost; cbn [requests stores]; lia).
      split; [lia|]. intros a E. destruct (IH2 a E) as (m & Km & Em). exists m. split; [exact Km|lia].
    - destruct (IHexec _ _ _ (P ans)) as [IH1 IH2]; [intros; apply Ok; now right|].
      destruct (Skip (EvWrite b ans) tr st I) as (-> & -> & -> & ->).
      replace (cost (EvWrite b ans :: tr)) with (cost tr) by reflexivity. auto.
    - destruct (IHexec _ _ _ (P c)) as [IH1 IH2]; [intros; apply Ok; now right|].
      destruct (Skip (EvNow c) tr st I) as (-> & -> & -> & ->).
      replace (cost (EvNow c :: tr)) with (cost tr) by reflexivity. auto.
    - destruct (P (Ok t (or_introl eq_refl))) as [L P']. destruct (IHexec _ _ _ P') as [IH1 IH2]; [intros; apply Ok; now right|].
      replace (cost (EvPut t :: tr)) with (cost tr) by reflexivity.
      change (top st (EvPut t :: tr)) with (top (Some t) tr). change (last_trusted st (EvPut t :: tr)) with (last_trusted (Some t) tr).
      change (base (Some t) tr) with (ver t) in IH1, IH2. change (start (Some t) tr) with 0 in IH1, IH2.
      assert (G : gain st t + g * base st (EvPut t :: tr) = start st (EvPut t :: tr) + g * ver t).
      { destruct st as [t1|]; cbn [base start first_trusted gain ordered] in *; [|lia]. rewrite <- N.mul_add_distr_l, N.add_0_l. f_equal. lia. }
      split; [lia|]. intros a E. destruct (IH2 a E) as (m & Km & Em). exists m. split; [exact Km|lia].
  Qed.

  Lemma pays_mono {A} (p : prog A) (K K' : option tuf -> N -> A -> Prop) :
    (forall st m m' a, K st m a -> m <= m' -> K' st m' a) ->
    forall st n n', n <= n' -> pays p st n K -> pays p st n' K'.
  Proof.
    intros HK. induction p; cbn; intros st n n' L P; eauto.
    - destruct P as [C P]. split; [lia|]. intros ans. eapply H; [|apply P]. lia.
    - destruct P as [C P]. split; [lia|]. intros ans. eapply H; [|apply P]. lia.
    - destruct P as [C P]. split; [lia|]. intros ans. eapply H; [|apply P]. lia.
    - destruct P as [C P]. split; [lia|]. intros ans. eapply H; [|apply P]. lia.
    - intros O. destruct (P O) as [C P']. split; [exact C|]. eapply IHp; [|exact P']. lia.
  Qed.

  Lemma pays_bind {A B} (p : prog A) (f : A -> prog B) K : forall st n,
    pays p st n (fun st' m a => pays (f a) st' m K) -> pays (bind p f) st n K.
  Proof.
    induction p; cbn; intros st n P; auto.
    - destruct P as [C P]. split; [exact C|]. auto.
    - destruct P as [C P]. split; [exact C|]. auto.
    - destruct P as [C P]. split; [exact C|]. auto.
    - destruct P as [C P]. split; [exact C|]. auto.
    - intros O. destruct (P O). auto.
  Qed.

  Lemma pays_seq {A B} (p : prog A) (f : A -> prog B) (M : option tuf -> N -> A -> Prop) K st n :
    pays p st n M -> (forall st' m m' a, M st' m a -> m <= m' -> pays (f a) st' m' K) -> pays (bind p f) st n K.
  Proof.
    intros P H. apply pays_bind. eapply pays_mono; [|apply N.le_refl|exact P]. cbn. intros. eauto.
  Qed.

  (** What the functions that return the trusted metadata return. *)
  Definition back {A} (r : N) (st : option tuf) (m : N) (a : tuf * A) : Prop := st = Some (fst a) /\ ok (fst a) /\ r <= m.

  Variables (E : env) (cfg : config).

  Lemma pays_fetch s ro path v max hash st n r : r + cf <= n ->
    pays (fetch_metadata E s ro path v max hash) st n (fun st' m _ => st' = st /\ r <= m).
  Proof.
    intros L. unfold fetch_metadata. destruct (repo_check ro path); cbn; [|split; [reflexivity|lia]].
    split; [lia|]. intros _. split; [reflexivity|lia].
  Qed.

  Lemma pays_store ro path v raw st n r : r + cs <= n ->
    pays (store_metadata ro path v raw) st n (fun st' m _ => st' = st /\ r <= m).
  Proof.
    intros L. unfold store_metadata. destruct (repo_check ro path); cbn; [|split; [reflexivity|lia]].
    split; [lia|]. intros _. split; [reflexivity|lia].
  Qed.

  Definition kept (persist : bool) : N := if persist then cs else 0.

  Lemma pays_roots fuel s persist r : cf + 2 * kept persist <= g -> forall t u n, ok t -> r + cf <= n ->
    pays (root_loop E cfg fuel s persist t u) (Some t) n (back r).
  Proof.
    intros G. induction fuel as [|f IH]; intros t u n O L; [exact I|]. cbn [root_loop].
    destruct (u32_max <=? rm_version (t_root t)); [exact I|].
    eapply pays_seq; [apply (pays_fetch _ _ _ _ _ _ _ n r L)|]. intros st' m m' res [-> Lm] Lm'.
    destruct res as [raw|e].
    2: { assert (B : forall x : result bool, back r (Some t) m' (t, x)) by (intros x; split; [reflexivity|split; [exact O|cbn; lia]]).
         destruct e; apply B. }
    destruct (update_root E t raw) as [t' [[]|e]] eqn:U.
    - cbn [pays]. intros O'. apply update_root_ok in U as (new & R & ->). destruct R as (_ & _ & V & _).
      split; [cbn; unfold ver; cbn; lia|]. cbn [gain].
      assert (Gn : g * (ver (mkTuf new None None None []) - ver t) = g) by (unfold ver; cbn [t_root]; rewrite V; replace (_ + 1 - _) with 1 by lia; lia).
      rewrite Gn. destruct persist; cbn [kept] in G.
      + eapply pays_seq; [apply (pays_store _ _ _ _ _ _ (r + cf + cs)); lia|]. intros st1 m1 m1' [[]|e] [-> L1] L1'.
        2: { split; [reflexivity|split; [exact O'|lia]]. }
        eapply pays_seq; [apply (pays_store _ _ _ _ _ _ (r + cf)); lia|]. intros st2 m2 m2' [[]|e] [-> L2] L2'.
        2: { split; [reflexivity|split; [exact O'|lia]]. }
        apply IH; [exact O'|lia].
      + apply IH; [exact O'|lia].
    - apply update_root_err in U as ->. cbn [pays]. intros _. split; [cbn; lia|]. split; [reflexivity|split; [exact O|lia]].
  Qed.

  Lemma pays_root fuel s persist r t n : cf + 2 * kept persist <= g -> ok t -> r + cf <= n ->
    pays (update_root_with_repos E cfg fuel s persist t) (Some t) n (back r).
  Proof.
    intros G O L. unfold update_root_with_repos. eapply pays_seq; [apply (pays_roots fuel s persist r G t false n O L)|].
    intros st m m' [t1 [u|e]] (-> & O1 & L1) L2; cbn [fst] in *.
    - cbn [pays]. intros c. destruct (expired _ _); (split; [reflexivity|split; [exact O1|lia]]).
    - split; [reflexivity|split; [exact O1|lia]].
  Qed.

  (** The four functions that follow one pattern. *)
  Lemma pays_put (persist : bool) ro path raw t t' n r (res : result bool) : t_root t' = t_root t -> r + kept persist <= n ->
    pays (Put t' match res with
                 | Err e => Ret (t', Err e)
                 | Ok false => Ret (t', Ok false)
                 | Ok true =>
                     if persist then
                       do r1 <- store_metadata ro path VNone raw in
                       match r1 with Err e => Ret (t', Err e) | Ok _ => Ret (t', Ok true) end
                     else Ret (t', Ok true)
                 end) (Some t) n (back r).
  Proof.
    intros R L. cbn [pays]. intros O. unfold ordered, gain, ver. rewrite R. split; [lia|]. rewrite N.sub_diag, N.mul_0_r, N.add_0_r.
    assert (B : forall m (x : result bool), r <= m -> back r (Some t') m (t', x)) by (intros; split; [reflexivity|split; [exact O|assumption]]).
    destruct res as [[]|e]; [|apply B; lia|apply B; lia]. destruct persist; cbn [kept] in L; [|apply B; lia].
    eapply pays_seq; [apply (pays_store _ _ _ _ _ _ r L)|]. intros st m m' [[]|e] [-> L1] L2; apply B; lia.
  Qed.

  Lemma pays_timestamp s persist r t n : ok t -> r + cf + kept persist <= n ->
    pays (update_timestamp_with_repos E cfg s persist t) (Some t) n (back r).
  Proof.
    intros O L. unfold update_timestamp_with_repos.
    eapply pays_seq; [apply (pays_fetch _ _ _ _ _ _ _ n (r + kept persist)); lia|]. intros st m m' [raw|e] [-> L1] L2.
    2: { split; [reflexivity|split; [exact O|lia]]. }
    cbn [pays]. intros c. pose proof (update_timestamp_root E t c raw) as R.
    destruct (update_timestamp E t c raw) as [t' res]. cbn [fst] in R.
    pose proof (pays_put persist Timestamp (from_role Timestamp) raw t t' m' r
      (match res with Ok None => Ok false | Ok (Some _) => Ok true | Err e => Err e end) R) as P.
    destruct res as [[x|]|e]; apply P; lia.
  Qed.

  Lemma pays_snapshot s persist consistent r t n : ok t -> r + cf + kept persist <= n ->
    pays (update_snapshot_with_repos E s persist consistent t) (Some t) n (back r).
  Proof.
    intros O L. unfold update_snapshot_with_repos.
    assert (B : forall x : result bool, back r (Some t) n (t, x)) by (intros; split; [reflexivity|split; [exact O|lia]]).
    destruct (t_timestamp t) as [ts|]; [|apply B]. destruct (_ <=? _); [apply B|].
    destruct (hash_preference _) as [hash|e]; [|apply B].
    eapply pays_seq; [apply (pays_fetch _ _ _ _ _ _ _ n (r + kept persist)); lia|]. intros st m m' [raw|e] [-> L1] L2.
    2: { split; [reflexivity|split; [exact O|lia]]. }
    cbn [pays]. intros c. pose proof (update_snapshot_root E t c raw) as R.
    destruct (update_snapshot E t c raw) as [t' res]. cbn [fst] in R. apply pays_put; [exact R|lia].
  Qed.

  Lemma pays_targets s persist consistent r t n : ok t -> r + cf + kept persist <= n ->
    pays (update_targets_with_repos E s persist consistent t) (Some t) n (back r).
  Proof.
    intros O L. unfold update_targets_with_repos.
    assert (B : forall x : result bool, back r (Some t) n (t, x)) by (intros; split; [reflexivity|split; [exact O|lia]]).
    destruct (t_snapshot t) as [sn|]; [|apply B]. destruct (lookup _ _) as [desc|]; [|apply B]. destruct (_ <=? _); [apply B|].
    destruct (hash_preference _) as [hash|e]; [|apply B].
    eapply pays_seq; [apply (pays_fetch _ _ _ _ _ _ _ n (r + kept persist)); lia|]. intros st m m' [raw|e] [-> L1] L2.
    2: { split; [reflexivity|split; [exact O|lia]]. }
    cbn [pays]. intros c. pose proof (update_targets_root E t c raw) as R.
    destruct (update_targets E t c raw) as [t' res]. cbn [fst] in R. apply pays_put; [exact R|lia].
  Qed.

  Lemma pays_update fuel t : cf + 2 * cs <= g -> ok t ->
    pays (update E cfg fuel t) (Some t) (4 * cf + 3 * cs) (back 0).
  Proof.
    intros G O. unfold update.
    eapply pays_seq; [apply (pays_root fuel Remote true (3 * cf + 3 * cs)); [exact G|exact O|lia]|].
    intros st m m' [t1 [r1|e]] (-> & O1 & L1) L1'; cbn [fst] in *; [|split; [reflexivity|split; [exact O1|lia]]].
    eapply pays_seq; [apply (pays_timestamp Remote true (2 * cf + 2 * cs)); [exact O1|cbn [kept]; lia]|].
    intros st m2 m2' [t2 [r2|e]] (-> & O2 & L2) L2'; cbn [fst] in *; [|split; [reflexivity|split; [exact O2|lia]]].
    eapply pays_seq; [apply (pays_snapshot Remote true _ (cf + cs)); [exact O2|cbn [kept]; lia]|].
    intros st m3 m3' [t3 [r3|e]] (-> & O3 & L3) L3'; cbn [fst] in *; [|split; [reflexivity|split; [exact O3|lia]]].
    eapply pays_seq; [apply (pays_targets Remote true _ 0); [exact O3|cbn [kept]; lia]|].
    intros st m4 m4' [t4 [r4|e]] (-> & O4 & L4) L4'; cbn [fst] in *; (split; [reflexivity|split; [exact O4|lia]]).
  Qed.

  (** Nothing is said about what a constructor returns. *)
  Lemma pays_new fuel t n : cf <= g -> ok t -> 4 * cf <= n ->
    pays (client_new E cfg fuel t) (Some t) n (fun _ _ _ => True).
  Proof.
    intros G O L. unfold client_new.
    eapply pays_seq; [apply (pays_root fuel Local false (3 * cf)); [cbn [kept]; lia|exact O|lia]|].
    intros st m m' [t1 [r1|e]] (-> & O1 & L1) L1'; cbn [fst] in *; [|exact I].
    eapply pays_seq; [apply (pays_timestamp Local false (2 * cf)); [exact O1|cbn [kept]; lia]|].
    intros st m2 m2' [t2 [r2|e]] (-> & O2 & L2) L2'; cbn [fst] in *; [|exact I].
    eapply pays_seq; [apply (pays_snapshot Local false _ cf); [exact O2|cbn [kept]; lia]|].
    intros st m3 m3' [t3 [r3|e]] (-> & O3 & L3) L3'; cbn [fst] in *; [|exact I].
    eapply pays_seq; [apply (pays_targets Local false _ 0); [exact O3|cbn [kept]; lia]|].
    intros st m4 m4' [t4 r4] _ _. exact I.
  Qed.

  Lemma pays_construct fuel c : cf <= g ->
    4 * cf <= g0 -> pays (construct E cfg fuel c) None (looked_up c * cf + kept_root c * cs) (fun _ _ _ => True).
  Proof.
    intros G G0. destruct c as [|raw|v th keys]; cbn [construct looked_up kept_root].
    - unfold with_trusted_local. eapply pays_seq; [apply (pays_fetch _ _ _ _ _ _ _ _ 0); lia|].
      intros st m m' [raw|e] [-> L] L'; [|exact I]. destruct (from_trusted_root E raw) as [t|e]; [|exact I].
      cbn [pays ordered gain]. intros O. split; [exact I|]. apply pays_new; [exact G|exact O|lia].
    - unfold with_trusted_root. destruct (from_trusted_root E raw) as [t|e]; [|exact I].
      cbn [pays ordered gain]. intros O. split; [exact I|]. apply pays_new; [exact G|exact O|lia].
    - unfold with_trusted_root_keys. eapply (pays_seq _ _ (fun st m _ => st = None /\ cs <= m)).
      + unfold fetch_metadata_from_local_or_else_remote.
        eapply pays_seq; [apply (pays_fetch _ _ _ _ _ _ _ _ (cf + cs)); lia|].
        intros st m m' res [-> L] L'.
        assert (R : forall x : result (bool * bytes), pays (Ret x) None m' (fun st n _ => st = None /\ cs <= n))
          by (intros x; split; [reflexivity|lia]).
        destruct res as [raw|[]]; try apply R.
        eapply pays_seq; [apply (pays_fetch _ _ _ _ _ _ _ _ cs); lia|].
        intros st m2 m2' [raw|e] [-> L2] L2'; (split; [reflexivity|lia]).
      + intros st m m' [[fetched raw]|e] [-> L] L'; [|exact I].
        destruct (from_root_with_trusted_keys E raw th keys) as [t|e]; [|exact I].
        cbn [pays ordered gain]. intros O. split; [exact I|]. destruct fetched.
        * eapply pays_seq; [apply (pays_store _ _ _ _ _ _ (4 * cf)); lia|]. intros st m2 m2' [[]|e] [-> L2] L2'; [|exact I].
          apply pays_new; [exact G|exact O|lia].
        * apply pays_new; [exact G|exact O|lia].
  Qed.

  (** ** Looking for a target *)
  Variable w : nat.
  Hypothesis ok_narrow : forall t, ok t -> narrow w t.
  Let W := N.of_nat w.
  Let a := 2 * cf + cs.

  Lemma pays_walk recur dt depth target snapshot trole b :
    (forall t n r d x, ok t -> at_most w (fst x) -> r + b <= n -> pays (recur t d (depth + 1) (Some x)) (Some t) n (back r)) ->
    forall roles t n r, ok t -> r + N.of_nat (length roles) * (a + b) <= n ->
    pays (walk_loop E recur dt depth target snapshot trole roles t) (Some t) n (back r).
  Proof.
    intros Rec. induction roles as [|d rest IH]; intros t n r O L.
    { cbn. split; [reflexivity|]. split; [exact O|cbn in L; lia]. }
    cbn [walk_loop]. cbn [length] in L. rewrite Nat2N.inj_succ, N.mul_succ_l in L. set (rem := N.of_nat (length rest) * (a + b)) in *.
    assert (B : forall t' m x, ok t' -> r <= m -> back r (Some t') m ((t', x) : tuf * (bool * result target_desc)))
      by (intros; split; [reflexivity|split; assumption]).
    assert (IH' : forall t' m, ok t' -> r + rem <= m ->
      pays (walk_loop E recur dt depth target snapshot trole rest t') (Some t') m (back r)).
    { intros t' m O' L'. apply IH; [exact O'|]. fold rem. exact L'. }
    clear IH. clearbody rem.
    destruct (negb _). { destruct (dg_terminating d); [apply B; [exact O|lia]|apply IH'; [exact O|lia]]. }
    destruct (lookup (dg_role d) (sm_meta snapshot)) as [desc|].
    2: { destruct (dg_terminating d); [apply B; [exact O|lia]|apply IH'; [exact O|lia]]. }
    destruct (hash_preference (md_hashes desc)) as [hash|e]; [|apply B; [exact O|lia]].
    unfold a in *.
    eapply pays_seq; [apply (pays_fetch _ _ _ _ _ _ _ _ (r + rem + b + cf + cs)); lia|].
    intros st m m' res1 [-> L1] L1'.
    eapply (pays_seq _ _ (fun st m _ => st = Some t /\ r + rem + b + cs <= m)).
    { destruct res1 as [raw|e]; [cbn; split; [reflexivity|lia]|]. apply pays_fetch. lia. }
    intros st m2 m2' res2 [-> L2] L2'. destruct res2 as [raw|e].
    2: { destruct (dg_terminating d); [apply B; [exact O|lia]|apply IH'; [exact O|lia]]. }
    cbn [pays]. intros c. pose proof (update_delegation_root E t c trole (dg_role d) raw) as R.
    destruct (update_delegation E t c trole (dg_role d) raw) as [t' res]. cbn [fst] in R.
    cbn [pays]. intros O'. unfold ordered, gain, ver. rewrite R. split; [lia|]. rewrite N.sub_diag, N.mul_0_r, N.add_0_r.
    destruct res as [new|e].
    2: { destruct (dg_terminating d); [apply B; [exact O'|lia]|apply IH'; [exact O'|lia]]. }
    eapply pays_seq; [apply (pays_store _ _ _ _ _ _ (r + rem + b)); lia|]. intros st m3 m3' _ [-> L3] L3'.
    destruct (lookup (dg_role d) (t_delegations t')) as [meta|] eqn:Lk; [|exact I].
    destruct (u32_max <=? depth); [exact I|].
    eapply pays_seq; [apply (Rec t' m3' (r + rem) (dg_terminating d) (meta, dg_role d) O')|].
    - apply (proj2 (ok_narrow t' O') _ _ Lk).
    - lia.
    - intros st m4 m4' [t'' [term res]] (-> & O'' & L4) L4'. cbn [fst] in *.
      destruct (term && negb (is_ok res)); [apply B; [exact O''|lia]|apply IH'; [exact O''|lia]].
  Qed.

  Lemma pays_lookup fuel target snapshot : forall t dt depth tgs n r, ok t ->
    match tgs with Some x => at_most w (fst x) | None => True end ->
    r + spread a W (N.to_nat (cf_max_depth cfg + 1 - depth)) <= n ->
    pays (lookup_target_description E cfg fuel t dt depth target snapshot tgs) (Some t) n (back r).
  Proof.
    induction fuel as [|f IH]; intros t dt depth tgs n r O T L; [exact I|]. cbn [lookup_target_description].
    assert (B : forall x, back r (Some t) n ((t, x) : tuf * (bool * result target_desc)))
      by (intros; split; [reflexivity|split; [assumption|lia]]).
    destruct (N.ltb_spec (cf_max_depth cfg) depth) as [D|D]; [apply B|].
    set (found := match tgs with Some x => Some x | None => _ end).
    assert (F : forall x, found = Some x -> at_most w (fst x)).
    { intros x. unfold found. destruct tgs as [y|]; [intros H; inversion H; subst; exact T|].
      destruct (t_targets t) as [tg|] eqn:Tt; [|discriminate]. intros H; inversion H; subst. exact (proj1 (ok_narrow t O) _ Tt). }
    clearbody found. destruct found as [[tg trole]|]; [|apply B]. specialize (F _ eq_refl). cbn [fst] in F.
    destruct (lookup target (tg_targets tg)); [apply B|]. unfold at_most in F.
    destruct (tg_delegations tg) as [ds|]; [|apply B].
    replace (N.to_nat (cf_max_depth cfg + 1 - depth)) with (S (N.to_nat (cf_max_depth cfg + 1 - (depth + 1)))) in L by lia.
    cbn [spread] in L. set (b := spread a W _) in L.
    apply (pays_walk _ dt depth target snapshot trole b).
    - intros t' n' r' d x O' M L'. apply IH; [exact O'|exact M|exact L'].
    - exact O.
    - enough (N.of_nat (length (dgs_roles ds)) * (a + b) <= W * (a + b)) by lia. apply N.mul_le_mono_r. unfold W. lia.
  Qed.

  Lemma pays_description fuel t target n r : ok t -> r + spread a W (S (N.to_nat (cf_max_depth cfg))) <= n ->
    pays (fetch_target_description E cfg fuel t target) (Some t) n (back r).
  Proof.
    intros O L. unfold fetch_target_description.
    assert (B : forall x, back r (Some t) n ((t, x) : tuf * result target_desc))
      by (intros; split; [reflexivity|split; [assumption|lia]]).
    destruct (cf_translate cfg target) as [virt|e]; [|apply B]. destruct (t_snapshot t) as [snapshot|]; [|apply B].
    eapply pays_seq; [apply (pays_lookup fuel virt snapshot t false 0 None n r O I)|].
    - rewrite N.sub_0_r. replace (N.to_nat (cf_max_depth cfg + 1)) with (S (N.to_nat (cf_max_depth cfg))) by lia. exact L.
    - intros st m m' [t' [u res]] (-> & O' & L1) L1'. cbn [fst] in *. split; [reflexivity|]. split; [exact O'|lia].
  Qed.

  Lemma pays_stream path d st n r : r + cf <= n ->
    pays (fetch_target_stream E path d) st n (fun st' m _ => st' = st /\ r <= m).
  Proof.
    intros L. unfold fetch_target_stream. destruct (hash_preference (td_hashes d)) as [hash|e]; cbn; [|split; [reflexivity|lia]].
    split; [lia|]. intros _. split; [reflexivity|lia].
  Qed.

  Lemma pays_reader fuel t target n r : ok t -> r + spread a W (S (N.to_nat (cf_max_depth cfg))) + cf <= n ->
    pays (fetch_target_reader E cfg fuel t target) (Some t) n (back r).
  Proof.
    intros O L. unfold fetch_target_reader.
    eapply pays_seq; [apply (pays_description fuel t target n (r + cf)); [exact O|lia]|].
    intros st m m' [t' [d|e]] (-> & O' & L1) L1'; cbn [fst] in *; [|split; [reflexivity|split; [exact O'|lia]]].
    assert (S : forall path, pays (do res <- fetch_target_stream E path d in Ret (t', res)) (Some t') m' (back r)).
    { intros path. eapply pays_seq; [apply (pays_stream path d _ m' r); lia|]. intros st m2 m2' x [-> L2] L2'.
      split; [reflexivity|split; [exact O'|lia]]. }
    destruct (rm_consistent (t_root t')); [|apply S]. destruct (rbind _ _) as [p|e]; [apply S|]. split; [reflexivity|split; [exact O'|lia]].
  Qed.

  Lemma pays_copy st n r : r <= n -> forall rs, pays (copy_to_writer rs) st n (fun st' m _ => st' = st /\ r <= m).
  Proof.
    intros L. induction rs as [|[|k|data] rs IH]; cbn; auto.
    destruct (byte_length data =? 0); [cbn; auto|]. cbn. intros [k|]; [cbn; auto|exact IH].
  Qed.

  Lemma pays_call fuel t k : k <> CallUpdate -> ok t ->
    pays (call_prog E cfg fuel t k) (Some t) (spread a W (S (N.to_nat (cf_max_depth cfg))) + downloads k * cf + saves k * cs) (back 0).
  Proof.
    intros NU O. destruct k as [|p|p|p]; [now elim NU| | |]; cbn [call_prog downloads saves].
    - unfold forget. eapply pays_seq; [apply (pays_description fuel t p _ 0 O); lia|].
      intros st m m' [t' res] (-> & O' & L1) L1'. cbn [fst] in *. split; [reflexivity|split; [exact O'|lia]].
    - unfold fetch_target. eapply pays_seq; [apply (pays_reader fuel t p _ cs O); lia|].
      intros st m m' [t' [rs|e]] (-> & O' & L1) L1'; cbn [fst] in *; [|split; [reflexivity|split; [exact O'|lia]]].
      cbn [pays]. split; [lia|]. intros ans. split; [reflexivity|split; [exact O'|lia]].
    - unfold fetch_target_to_writer. eapply pays_seq; [apply (pays_reader fuel t p _ 0 O); lia|].
      intros st m m' [t' [rs|e]] (-> & O' & L1) L1'; cbn [fst] in *; [|split; [reflexivity|split; [exact O'|lia]]].
      eapply pays_seq; [apply (pays_copy _ _ 0 ltac:(lia))|]. intros st m2 m2' x [-> L2] L2'. split; [reflexivity|split; [exact O'|lia]].
  Qed.
End Credits.

(** ** The theorems in terms of traces *)
Lemma last_after tr : forall t, last_trusted (Some t) tr = Some (tuf_after t tr).
Proof. induction tr as [|e tr IH]; intros t; [reflexivity|]. destruct e; cbn; apply IH. Qed.
Lemma last_first tr : last_trusted None tr = match first_trusted tr with Some t => Some (tuf_after t tr) | None => None end.
Proof.
  induction tr as [|e tr IH]; [reflexivity|]. destruct e; cbn [last_trusted first_trusted tuf_after]; try exact IH; try (rewrite IH; reflexivity).
  apply last_after.
Qed.

Lemma update_work E cfg fuel t tr q : exec (update E cfg fuel t) tr q ->
  requests tr + rm_version (t_root t) <= rm_version (t_root (tuf_after t tr)) + 4 /\
  stores tr + 2 * rm_version (t_root t) <= 2 * rm_version (t_root (tuf_after t tr)) + 3.
Proof.
  intros X. split.
  - pose proof (proj1 (pays_sound 1 0 4 1 (fun _ => True) _ _ _ X _ _ _ (pays_update 1 0 4 1 (fun _ => True) E cfg fuel t ltac:(lia) I) (fun _ _ => I))) as P.
    unfold cost, base, top, start in P. rewrite last_after in P. unfold ver in P. lia.
  - pose proof (proj1 (pays_sound 0 1 0 2 (fun _ => True) _ _ _ X _ _ _ (pays_update 0 1 0 2 (fun _ => True) E cfg fuel t ltac:(lia) I) (fun _ _ => I))) as P.
    unfold cost, base, top, start in P. rewrite last_after in P. unfold ver in P. lia.
Qed.

Lemma construct_work E cfg fuel c tr q : exec (construct E cfg fuel c) tr q ->
  match first_trusted tr with
  | Some t => requests tr + rm_version (t_root t) <= rm_version (t_root (tuf_after t tr)) + 4 + looked_up c
  | None => requests tr <= looked_up c
  end /\
  stores tr <= kept_root c.
Proof.
  intros X. split.
  - pose proof (proj1 (pays_sound 1 0 4 1 (fun _ => True) _ _ _ X _ _ _ (pays_construct 1 0 4 1 (fun _ => True) E cfg fuel c ltac:(lia) ltac:(lia)) (fun _ _ => I))) as P.
    unfold cost, base, top, start in P. rewrite last_first in P. destruct (first_trusted tr); unfold ver in P; lia.
  - pose proof (proj1 (pays_sound 0 1 0 0 (fun _ => True) _ _ _ X _ _ _ (pays_construct 0 1 0 0 (fun _ => True) E cfg fuel c ltac:(lia) ltac:(lia)) (fun _ _ => I))) as P.
    unfold cost, start in P. destruct (first_trusted tr); lia.
Qed.

Lemma call_work E cfg fuel t k w tr q : k <> CallUpdate -> exec (call_prog E cfg fuel t k) tr q ->
  narrow w t -> (forall t', In (EvPut t') tr -> narrow w t') ->
  requests tr <= spread 2 (N.of_nat w) (S (N.to_nat (cf_max_depth cfg))) + downloads k /\
  stores tr <= spread 1 (N.of_nat w) (S (N.to_nat (cf_max_depth cfg))) + saves k.
Proof.
  intros NU X N H. split.
  - pose proof (proj1 (pays_sound 1 0 0 0 (narrow w) _ _ _ X _ _ _ (pays_call 1 0 0 0 (narrow w) E cfg w (fun _ h => h) fuel t k NU N) H)) as P.
    unfold cost, start in P. change (2 * 1 + 0) with 2 in P. lia.
  - pose proof (proj1 (pays_sound 0 1 0 0 (narrow w) _ _ _ X _ _ _ (pays_call 0 1 0 0 (narrow w) E cfg w (fun _ h => h) fuel t k NU N) H)) as P.
    unfold cost, start in P. change (2 * 0 + 1) with 1 in P. lia.
Qed.
